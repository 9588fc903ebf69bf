(** What thumbnail sheets, trimming and transformed rectangles should be. *)
From Coq Require Import QArith.
From Verif Require Import Base MRect MThumb.
Open Scope Z_scope.

Definition within (r s : rect) : Prop := forall p, pt_in p r = true -> pt_in p s = true.
Definition apart (r s : rect) : Prop := forall p, pt_in p r = true -> pt_in p s = true -> False.
(** How many squares of side [size] a square of side [side] holds. *)
Definition room (side size : Z) : Z := (side / size) * (side / size).
Definition smallest_power (side size count : Z) : Prop :=
  exists k, 0 <= k /\ side = 2 ^ k /\ count <= room side size /\ forall j, 0 <= j < k -> room (2 ^ j) size < count.

(** The pixel ([x], [y]) of an image of [w] x [h] pixels is visible. *)
Definition visible (w h stride : Z) (pix : bytes) (thr x y : Z) : Prop :=
  0 <= x < w /\ 0 <= y < h /\ exists a, idx pix (y * stride + x * 4 + 3) = Some a /\ thr < a.
(** The image [i] shows the pixel ([x], [y]) of the given image at the same point. *)
Definition kept (stride : Z) (pix : bytes) (i : img) (x y : Z) : Prop :=
  pt_in (Pt x y) (irect i) = true /\
  forall c, 0 <= c < 4 -> idx (ipix i) ((y - ry0 (irect i)) * istride i + (x - rx0 (irect i)) * 4 + c) = idx pix (y * stride + x * 4 + c).

(** Rounding to floating point numbers: monotone, and integers that are not too large
    stay what they are. *)
Definition rounding (rnd : Q -> Q) : Prop :=
  (forall x y, x <= y -> rnd x <= rnd y)%Q /\ (forall n, - 2 ^ 53 <= n <= 2 ^ 53 -> (rnd (inject_Z n) == inject_Z n)%Q).
