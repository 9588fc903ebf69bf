(** Model of composite/renderer.go: layers are changed at any time, also during renders, and
    announced later. *)
From Verif Require Import Base MRect MRender SRender MRenderAll.

Section session.
  Context {img msk : Type}.
  Variable zero : img.
  Variable copyT : img -> img.
  Variable blendOf : bytes -> option (Z -> img -> img -> img).
  Variable destInM destOutM : msk -> img -> img.
  Variable destInT destOverT : img -> img -> img.
  Variable clearT removeAlpha : img -> img.
  Variable canvas : point -> Z -> option img.
  Variable hasCanvas : Z -> bool.
  Variable mask : point -> Z -> option msk.
  Notation world := (world img).
  Notation tileAct := (tileAct zero copyT blendOf destInM destOutM destInT destOverT clearT removeAlpha canvas mask).
  Notation rendered := (rendered zero copyT blendOf destInM destOutM destInT destOverT clearT removeAlpha canvas mask).
  Notation aborted := (aborted zero copyT blendOf destInM destOutM destInT destOverT clearT removeAlpha canvas mask).

  Definition posDec (p p' : list step) : {p = p'} + {p <> p'}.
  Proof. repeat decide equality. Defined.
  (** The positions that are still to be announced, after an announcement of [p] *)
  Definition without (p : list step) (pend : list (list step)) : list (list step) :=
    filter (fun p' => if posDec p p' then false else true) pend.

  (** The sessions of a renderer: [root] is the tree now, [pend] are the positions of the
      layers whose changes are not announced yet. Renders with the tree as it is
      (composite/renderer.go:214-272), whole ones and aborted ones; or renders during which
      layers are changed: they begin (S_start, 234-236), draw tile after tile (S_tile,
      281-293) and end without further effect or with S_undo (255-267). A tile is drawn with the
      attributes of one moment (simplification: a change hits the
      drawing of no tile in the middle). Announcements during a render take effect after
      it (221-231); here they may come at any time. *)
  Variables (ts : Z) (okChg : layer -> layer -> Prop) (okTree okDraw : layer -> Prop).
  Inductive session : layer -> list (list step) -> world -> Prop :=
  | S_new root w : new w -> okTree root -> session root [] w
  | S_dest root pend w w' : session root pend w ->
      (forall q st d, w q = Some (st, d) -> exists d', w' q = Some (st, d')) -> (forall q, w q = None -> w' q = None) ->
      session root pend w'
  | S_change root pend w root' ps : session root pend w -> changed ps root root' -> okChg root root' -> okTree root' ->
      session root' (ps ++ pend) w
  | S_announce root pend w p : session root pend w -> session root (without p pend) (dirtied canvas hasCanvas false root p w)
  | S_render root pend w cpus r diffOnly w' : session root pend w -> (1 <= cpus)%nat -> okDraw root ->
      rendered cpus ts r diffOnly root w w' -> session root pend w'
  | S_abort root pend w cpus r diffOnly w' : session root pend w -> (1 <= cpus)%nat -> okDraw root ->
      aborted cpus ts r diffOnly root w w' -> session root pend w'
  | S_start root pend w : session root pend w -> session root pend (start w)
  | S_tile root pend w q diffOnly : session root pend w -> okDraw root ->
      session root pend (act (q, tileAct diffOnly root q) w)
  | S_undo root pend w : session root pend w -> session root pend (undo w).
End session.
