(** Model of composite/renderer.go: all tiles, the workers and the history of a renderer. *)
From Verif Require Import Base MRect MSched MDraw MTile MRender SRender.

Section all.
  (** As in MRender; the tiles of the canvases and masks for every point. *)
  Context {img msk : Type}.
  Variable zero : img.
  Variable copyT : img -> img.
  Variable blendOf : bytes -> option (Z -> img -> img -> img).
  Variable destInM destOutM : msk -> img -> img.
  Variable destInT destOverT : img -> img -> img.
  Variable clearT removeAlpha : img -> img.
  Variable canvas : point -> Z -> option img.
  Variable hasCanvas : Z -> bool.
  Variable mask : point -> Z -> option msk.

  (** What belongs to a point: the entries of all caches, and the pixels of the tile in
      the destination image; [None]: a worker has panicked there. *)
  Definition local : Type := option (tstate img * img).
  Definition world : Type := point -> local.

  (** One step of a worker at a point. All the data of the renderer for different points
      is disjoint (maps with the point as key, locked by mutexes; tiles of
      the destination; buffers from the pool belong to one worker). *)
  Definition act (a : point * (local -> local)) (w : world) : world :=
    fun q => if pt_eqb q (fst a) then snd a (w q) else w q.

  (** renderer.go:281-293: renderInner for one tile *)
  Definition tileAct (diffOnly : bool) (root : layer) (pt : point) (x : local) : local :=
    match x with
    | Some (st, d) => renderTile zero copyT blendOf destInM destOutM destInT destOverT clearT removeAlpha (canvas pt) (mask pt) diffOnly root st d
    | None => None
    end.

  (** renderer.go:238-254, 277-282: the rows of tiles of the workers, each a list of points *)
  Definition workerRows (cpus : nat) (ts : Z) (r : rect) : list (list (list point)) :=
    let x0 := gridStart ts (rx0 r) in
    map (fun '(a, b) => map (fun ty => map (fun tx => Pt tx ty) (forUp x0 (rx1 r) ts)) (forUp a b ts))
      (tileWorkers cpus ts (gridStart ts (ry0 r)) (ry1 r)).

  (** [f] is done in the small steps [m] *)
  Definition in_steps (f : point -> local -> local) (m : point -> list (local -> local)) : Prop :=
    forall pt x, fold_left (fun x g => g x) (m pt) x = f pt x.
  Definition workerActs (m : point -> list (local -> local)) (rows : list (list point)) : list (point * (local -> local)) :=
    flat_map (fun pt => map (pair pt) (m pt)) (concat rows).
  (** The workers have drawn the rows [rows], in any schedule *)
  Inductive ran (diffOnly : bool) (root : layer) (rows : list (list (list point))) (w : world) : world -> Prop :=
  | Ran m sched : in_steps (tileAct diffOnly root) m -> interleave (map (workerActs m) rows) sched ->
      ran diffOnly root rows w (exec act sched w).

  (** renderer.go:234-236: the change list is empty at the beginning *)
  Definition start (w : world) : world := fun q => option_map (fun '(st, d) => (Tst (tent st) [], d)) (w q).
  (** renderer.go:255-267 *)
  Definition undo (w : world) : world := fun q => option_map (fun '(st, d) => (revert st, d)) (w q).
  Definition prefix {A} (l l' : list A) : Prop := exists t, l' = l ++ t.

  (** renderer.go:214-272: a render that returns nil, and one that returns ErrAborted: Wait
      returns after all workers have ended (C52); a worker looks at the abort
      flag before each row (renderer.go:278). *)
  Inductive rendered (cpus : nat) (ts : Z) (r : rect) (diffOnly : bool) (root : layer) (w : world) : world -> Prop :=
  | Rendered w' : ran diffOnly root (workerRows cpus ts r) (start w) w' -> rendered cpus ts r diffOnly root w w'.
  Inductive aborted (cpus : nat) (ts : Z) (r : rect) (diffOnly : bool) (root : layer) (w : world) : world -> Prop :=
  | Aborted rows w' : Forall2 prefix rows (workerRows cpus ts r) -> ran diffOnly root rows (start w) w' ->
      aborted cpus ts r diffOnly root w (undo w').

  (** renderer.go:172-180: SetDirtyByLayer for the layer at [p]. (Called during a
      render, it is postponed to its end, renderer.go:221-231.) *)
  Definition dirtied (top : bool) (root : layer) (p : list step) (w : world) : world :=
    fun q => option_map (fun '(st, d) => (setDirty (canvas q) hasCanvas top root p st, d)) (w q).

  (** Several layers, one after the other *)
  Definition dirtiedAll (top : bool) (root : layer) (ps : list (list step)) (w : world) : world :=
    fold_left (fun w p => dirtied top root p w) ps w.

  (** A renderer without caches *)
  Definition new (w : world) : Prop := forall q, exists d, w q = Some (Tst [] [], d).

  (** The histories of a renderer: changes of any number of layers that are announced
      together afterwards, in any order (it is no harm to announce more), renders and aborted
      renders. [okChg]: the changes, [okTree]: the trees, [okDraw]: the
      trees at renders that are considered; [newDest]: before every render
      another destination may be chosen; [kind]: the values of diffOnly. *)
  Section history.
    Variables (ts : Z) (r : rect) (top newDest : bool) (kind : bool -> Prop).
    Variables (okChg : layer -> layer -> Prop) (okTree okDraw : layer -> Prop).
    Inductive history : layer -> world -> Prop :=
    | H_new root w : new w -> okTree root -> history root w
    | H_dest root w w' : history root w -> newDest = true ->
        (forall q st d, w q = Some (st, d) -> exists d', w' q = Some (st, d')) -> (forall q, w q = None -> w' q = None) ->
        history root w'
    | H_change root w root' ps : history root w -> changed ps root root' -> okChg root root' -> okTree root' ->
        history root' (dirtiedAll top root' ps w)
    | H_render root w cpus r' diffOnly w' : history root w -> (1 <= cpus)%nat -> kind diffOnly -> okDraw root ->
        (r' = r \/ newDest = true) -> rendered cpus ts r' diffOnly root w w' -> history root w'
    | H_abort root w cpus r' diffOnly w' : history root w -> (1 <= cpus)%nat -> kind diffOnly -> okDraw root ->
        (r' = r \/ newDest = true) -> aborted cpus ts r' diffOnly root w w' -> history root w'.
  End history.
End all.
Arguments local : clear implicits.
Arguments world : clear implicits.
