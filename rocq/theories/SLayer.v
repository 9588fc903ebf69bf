(** Specification vocabulary for the layer section. *)
From Verif Require Import Base MReader MLayer.

(** The callbacks of a layer section, from index [i] on. *)
Fixpoint events_from (total i : Z) (ls : list lrec) : list event :=
  match ls with
  | [] => []
  | l :: ls => Loaded l i total :: events_from total (i + 1) ls
  end.

(** One callback per layer, in order, with index and total. *)
Definition section_events (skip : bool) (sec : list lrec) : list event :=
  if skip then [] else events_from (zlen sec) 0 sec.

Definition image_state (skip : bool) (l : lrec) : Prop :=
  if skip then l_picker l = None /\ l_channels l = [] else exists pk, l_picker l = Some pk.

(** A section as the decoder returns it. *)
Definition section_ok (skip : bool) (sec : list lrec) : Prop :=
  map l_seq sec = zseq (length sec) /\ Forall (image_state skip) sec.

(** The seek offsets that a program asks a seekable reader for, in order; the
    run is the one of [run_seek]. *)
Section seeks.
  Variable inflate : bytes -> Z -> option (bytes * Z).
  Fixpoint seeks {Ev A} (p : prog Ev A) (data : bytes) (pos : Z) : list Z :=
    match p with
    | RFull n k =>
        let s := zdrop pos data in
        if zlen s <? n then []
        else seeks (k (firstn (Z.to_nat n) s)) data (pos + zlen (firstn (Z.to_nat n) s))
    | RSome n k =>
        let s := zdrop pos data in
        match s with
        | [] => []
        | _ => seeks (k (ztake n s)) data (pos + zlen (ztake n s))
        end
    | RDiscard n k =>
        n :: (if i64 (pos + n) <? 0 then [] else seeks (k n) data (pos + n))
    | RZlib want limit k =>
        let s := zdrop pos data in
        match inflate_ok inflate (ztake limit s) want with
        | None => []
        | Some (out, c) => seeks (k out c) data (pos + c)
        end
    | Emit _ k => seeks k data pos
    | _ => []
    end.
End seeks.
