(** What moving a layer by whole pixels should do, and what is assumed of the libraries. *)
From Coq Require Import QArith SpecFloat.
From Verif Require Import Base MRect MThumb MBlend MTile STile MTileRender STileRender MScale SBlend.
Open Scope Z_scope.

Definition translation (dx dy : Z) : aff := Aff 1 0 (inject_Z dx) 0 1 (inject_Z dy).
Definition shifted (p : point) (dx dy : Z) : point := Pt (MRect.px p + dx) (py p + dy).

(** Coordinates small enough for float64. *)
Definition moderate (rc : rect) (dx dy : Z) : Prop :=
  - 2 ^ 51 <= rx0 rc /\ rx0 rc < rx1 rc /\ rx1 rc < 2 ^ 51 /\ - 2 ^ 51 <= ry0 rc /\ ry0 rc < ry1 rc /\ ry1 rc < 2 ^ 51 /\
  - 2 ^ 51 <= dx <= 2 ^ 51 /\ - 2 ^ 51 <= dy <= 2 ^ 51.

(** The sizes of the images that the library makes. *)
Definition sized (lib : library) : Prop := forall m src dst,
  0 <= rdx dst -> 0 <= rdy dst ->
  (forall img, zlen (warp8 lib m src img dst) = rdx dst * rdy dst) /\
  (forall img, zlen (warp16 lib m src img dst) = rdx dst * rdy dst) /\
  (forall img, zlen (warpA lib m src img dst) = rdx dst * rdy dst).
(** A translation by whole pixels copies opaque pixels, keeps transparent pixels transparent
    and draws nothing else. What becomes of partly transparent pixels is left open. *)
Definition copies (top : Z) (warp : aff -> rect -> list px -> rect -> list px) : Prop :=
  forall dx dy src img dst p, moderate src dx dy -> pt_in p dst = true -> let q := shifted p (- dx) (- dy) in
    (forall v, pt_in q src = true -> image_at src img q v -> pa v = top -> image_at dst (warp (translation dx dy) src img dst) p v) /\
    (forall v, pt_in q src = true -> image_at src img q v -> pa v = 0 -> image_at dst (warp (translation dx dy) src img dst) p (Px 0 0 0 0)) /\
    (pt_in q src = false -> image_at dst (warp (translation dx dy) src img dst) p (Px 0 0 0 0)).
(** The values of masks are copied, and nothing else is drawn. *)
Definition copiesA (warp : aff -> rect -> list Z -> rect -> list Z) : Prop :=
  forall dx dy src img dst p, moderate src dx dy -> pt_in p dst = true -> let q := shifted p (- dx) (- dy) in
    (forall v, pt_in q src = true -> image_at src img q v -> image_at dst (warp (translation dx dy) src img dst) p v) /\
    (pt_in q src = false -> image_at dst (warp (translation dx dy) src img dst) p 0).
Definition good_library (lib : library) : Prop :=
  sized lib /\ copies 255 (warp8 lib) /\ copies 65535 (warp16 lib) /\ copiesA (warpA lib).

(** What math.Pow of the Go library returns for the exponents 1 and 1/2 (special cases) and 2
    (one multiplication of the significand by itself). *)
Definition go_pow (pow : spec_float -> spec_float -> spec_float) : Prop :=
  forall i n, 0 <= i <= n -> n = 255 \/ n = 65535 -> let x := fdiv64 (fofZ i) (fofZ n) in
  pow x (fofZ 1) = x /\ pow x (fofZ 2) = fmul64 x x /\ pow x (fdiv64 (fofZ 1) (fofZ 2)) = fsqrt x.
