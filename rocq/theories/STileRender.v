(** What drawing and transforming tiles should do, without the model's loops. *)
From Verif Require Import Base MRect MBlend SBlend MRender MTile STile MLoad.
Open Scope Z_scope.

(** The tiles of a map lie on the grid of side [ts] and are full squares. *)
Definition aligned {V} (ts : Z) (m : tilemap V) : Prop :=
  forall k c, m_get pt_eqb m k = Some c -> (ts | MRect.px k) /\ (ts | py k) /\ zlen c = ts * ts.
(** Every cell of every tile satisfies [P]. *)
Definition cellsOK {V} (P : V -> Prop) (m : tilemap V) : Prop :=
  forall k c v, m_get pt_eqb m k = Some c -> In v c -> P v.

Definition byteZ (v : Z) : Prop := 0 <= v < 256.

(** [w] is [v] up to one level of colour; exactly [v] when alpha is at least 128. What has
    alpha 0 is empty. *)
Definition nearly (v w : px) : Prop :=
  pa w = pa v /\ (pa v = 0 -> w = Px 0 0 0 0) /\
  (0 < pa v -> pr v - 1 <= pr w <= pr v /\ pg v - 1 <= pg w <= pg v /\ pb v - 1 <= pb w <= pb v) /\
  (128 <= pa v -> w = v).

(** The pixel of an image with bounds [rc], stored row by row *)
Definition image_at {V} (rc : rect) (img : list V) (p : point) (v : V) : Prop :=
  idx img ((py p - ry0 rc) * (rx1 rc - rx0 rc) + (MRect.px p - rx0 rc)) = Some v.

(** Images as they come from the tile builder: on the grid, made of bytes. *)
Definition goodImage (ts : Z) (m : tilemap px) : Prop := aligned ts m /\ cellsOK pixel_ok m.
Definition goodMask (ts : Z) (m : tilemap Z) : Prop := aligned ts m /\ cellsOK byteZ m.
Definition goodLayer (ts : Z) (li : limage) : Prop :=
  match liCanvas li with Some m => goodImage ts m | None => True end /\
  match liMask li with Some m => goodMask ts m | None => True end.
(** Every point shows nearly the same pixel, and exactly the same mask value. *)
Definition nearlyImage (ts : Z) (m m' : tilemap px) : Prop :=
  forall p, exists v w, shows ts (Px 0 0 0 0) m p v /\ shows ts (Px 0 0 0 0) m' p w /\ nearly v w.
Definition sameMask (ts : Z) (m m' : tilemap Z) : Prop :=
  forall p, exists v, shows ts 0 m p v /\ shows ts 0 m' p v.
Definition nearlyLayer (ts : Z) (li li' : limage) : Prop :=
  match liCanvas li, liCanvas li' with None, None => True | Some m, Some m' => nearlyImage ts m m' | _, _ => False end /\
  match liMask li, liMask li' with None, None => True | Some m, Some m' => sameMask ts m m' | _, _ => False end.
