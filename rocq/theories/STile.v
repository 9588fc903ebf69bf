(** What tiling means, without the tiles' loops: the image shown by a set of tiles. *)
From Verif Require Import Base MRect MBlend MTile.
Open Scope Z_scope.

(** The value of a tiled image at a point: that of a tile at position [k] whose
    square of side [ts] contains the point; [zero] if there is none. *)
Definition in_tile (ts : Z) (k p : point) : Prop :=
  MRect.px k <= MRect.px p < MRect.px k + ts /\ py k <= py p < py k + ts.
Definition tile_at {V} (ts : Z) (k : point) (cells : list V) (p : point) : option V :=
  idx cells ((py p - py k) * ts + (MRect.px p - MRect.px k)).
Definition shows {V} (ts : Z) (zero : V) (tiles : tilemap V) (p : point) (v : V) : Prop :=
  (exists k cells, m_get pt_eqb tiles k = Some cells /\ in_tile ts k p /\ tile_at ts k cells p = Some v) \/
  (v = zero /\ forall k cells, m_get pt_eqb tiles k = Some cells -> ~ in_tile ts k p).
(** No point belongs to two tiles, and all tiles are full squares. *)
Definition well_tiled {V} (ts : Z) (tiles : tilemap V) : Prop :=
  (forall k k' c c' p, m_get pt_eqb tiles k = Some c -> m_get pt_eqb tiles k' = Some c' ->
     in_tile ts k p -> in_tile ts k' p -> k = k') /\
  (forall k c, m_get pt_eqb tiles k = Some c -> zlen c = ts * ts).

(** The samples of pixel [p] in planes that hold the rectangle [r] row by row, [dX]
    apart. *)
Definition sample_pos (r : rect) (dX : Z) (p : point) : Z := ((py p - ry0 r) * rdx r + (MRect.px p - rx0 r)) * dX.
Definition plane_ok (r : rect) (dX : Z) (b : bytes) : Prop := rdx r * rdy r * dX <= zlen b + dX - 1.

(** The pixel at position [i] of the planes: absent alpha means opaque, and fully
    transparent pixels count as empty. *)
Definition source_px (r g b : bytes) (a : option bytes) (i : Z) (v : px) : Prop :=
  exists rv gv bv av, idx r i = Some rv /\ idx g i = Some gv /\ idx b i = Some bv /\
    match a with Some a => idx a i = Some av | None => av = 255 end /\
    v = if 0 <? av then Px rv gv bv av else Px 0 0 0 0.
(** The mask value meant by a value of a mask tile. *)
Definition mask_value (defaultColor v : Z) : Z := if defaultColor =? 0 then v else 255 - v.

(** [l] lists the numbers [lo, lo + step, ...] below [hi], each once. *)
Definition progression (lo hi step : Z) (l : list Z) : Prop :=
  NoDup l /\ forall t, In t l <-> lo <= t < hi /\ exists k, 0 <= k /\ t = lo + k * step.
