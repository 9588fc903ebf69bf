(** Model of composite/context.go (waiting for workers) and of the goroutines of
    composite/layer.go:createCanvas, as state machines. Sends and receives on an
    unbuffered channel happen together, in one step. Panics of workers are not
    modelled. *)
From Verif Require Import Base.

(** * context.go:17-32: parallelContext.Wait *)

(** A worker: [Run n] is between two checks of [Aborted], with [n] more pieces of work
    to do; [Full]: has called Done after all its work; [Early]: has called Done
    because it saw the abort flag. *)
Inductive wst := Run (n : nat) | Full | Early.
Definition isDone (w : wst) : bool := match w with Run _ => false | _ => true end.
(** The goroutine started by Wait: in Wg.Wait, at [complete <- struct{}{}], ended. *)
Inductive hst := HWait | HSend | HEnd.
(** The caller: at the select statement, at [<-complete], returned. *)
Inductive cst := CSelect | CRecv | CRet (aborted : bool).
Record wait := Wait { ww : list wst; wh : hst; wc : cst; wcancel : bool; wabort : bool }.

Inductive wstep : wait -> wait -> Prop :=
| W_work l1 n l2 h c x a : wstep (Wait (l1 ++ Run (S n) :: l2) h c x a) (Wait (l1 ++ Run n :: l2) h c x a)
| W_full l1 l2 h c x a : wstep (Wait (l1 ++ Run O :: l2) h c x a) (Wait (l1 ++ Full :: l2) h c x a)
| W_early l1 n l2 h c x : wstep (Wait (l1 ++ Run n :: l2) h c x true) (Wait (l1 ++ Early :: l2) h c x true)
| W_group l c x a : forallb isDone l = true -> wstep (Wait l HWait c x a) (Wait l HSend c x a)
| W_complete l x a : wstep (Wait l HSend CSelect x a) (Wait l HEnd (CRet false) x a)
| W_ctx l h a : wstep (Wait l h CSelect true a) (Wait l h CRecv true true)
| W_recv l x a : wstep (Wait l HSend CRecv x a) (Wait l HEnd (CRet true) x a)
| W_cancel l h c a : wstep (Wait l h c false a) (Wait l h c true a).
Definition wstart (l : list wst) (cancelled : bool) : wait := Wait l HWait CSelect cancelled false.

(** Steps of the program; cancelling is the caller's affair. *)
Definition wcancels (s t : wait) : Prop := wcancel s = false /\ wcancel t = true.

(** * layer.go:247-319: createCanvas *)

(** A worker of createCanvasInner: waiting for a layer in [range ch], building the
    images of a layer, ended. *)
Inductive bst := BIdle | BBusy | BEnd.
Definition bDone (b : bst) : bool := match b with BEnd => true | _ => false end.
(** The caller: decoding with [k] more layers to send and the result of Decode
    ([false]: error); after close(ch) the states of Wait; returned. The decoder
    itself is not modelled here: it delivers some number of layers and ends. *)
Inductive mst := MDecode (k : nat) (ok : bool) | MWait (h : hst) (c : cst) | MFail.
Record canv := Canv { bw : list bst; bm : mst; bcancel : bool }.
Definition bclosed (m : mst) : bool := match m with MDecode _ _ => false | _ => true end.

Inductive bstep : canv -> canv -> Prop :=
(** the callback LayerImageLoaded: [ch <- l] meets [range ch] *)
| B_send l1 l2 k ok x : bstep (Canv (l1 ++ BIdle :: l2) (MDecode (S k) ok) x) (Canv (l1 ++ BBusy :: l2) (MDecode k ok) x)
(** a worker stores the images; or returns because newScaledTiledImage reports the
    cancelled context *)
| B_store l1 l2 m x : bstep (Canv (l1 ++ BBusy :: l2) m x) (Canv (l1 ++ BIdle :: l2) m x)
| B_error l1 l2 m : bstep (Canv (l1 ++ BBusy :: l2) m true) (Canv (l1 ++ BEnd :: l2) m true)
(** Decode ends; close(ch) *)
| B_close l x : bstep (Canv l (MDecode O true) x) (Canv l (MWait HWait CSelect) x)
| B_fail l x : bstep (Canv l (MDecode O false) x) (Canv l MFail x)
| B_drain l1 l2 m x : bclosed m = true -> bstep (Canv (l1 ++ BIdle :: l2) m x) (Canv (l1 ++ BEnd :: l2) m x)
(** Wait *)
| B_group l c x : forallb bDone l = true -> bstep (Canv l (MWait HWait c) x) (Canv l (MWait HSend c) x)
| B_complete l x : bstep (Canv l (MWait HSend CSelect) x) (Canv l (MWait HEnd (CRet false)) x)
| B_ctx l h : bstep (Canv l (MWait h CSelect) true) (Canv l (MWait h CRecv) true)
| B_recv l x : bstep (Canv l (MWait HSend CRecv) x) (Canv l (MWait HEnd (CRet true)) x)
| B_cancel l m : bstep (Canv l m false) (Canv l m true).
Definition bstart (workers layers : nat) (ok cancelled : bool) : canv :=
  Canv (repeat BIdle workers) (MDecode layers ok) cancelled.
Definition bcancels (s t : canv) : Prop := bcancel s = false /\ bcancel t = true.

(** Reflexive and transitive closure. *)
Inductive steps {S} (R : S -> S -> Prop) : S -> S -> Prop :=
| steps_refl s : steps R s s
| steps_next s t u : steps R s t -> R t u -> steps R s u.
