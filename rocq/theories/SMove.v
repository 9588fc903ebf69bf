(** What moving a loaded tree by whole pixels should do. *)
From Coq Require Import QArith.
From Verif Require Import Base MRect MThumb MBlend SBlend MTile STile MLoad SCompress SRecord STileRender MScale SScale SPipe SSharp SGlass.
Open Scope Z_scope.

(** The pixels that the library makes of bytes are bytes. *)
Definition typed (lib : library) : Prop := forall m src dst,
  (forall img, Forall pixel_ok img -> Forall pixel_ok (warp8 lib m src img dst)) /\
  (forall img, Forall byteZ img -> Forall byteZ (warpA lib m src img dst)).

(** A listing of the entries of a map, in any order *)
Definition listing {V} (m l : list (Z * V)) : Prop :=
  NoDup (map fst l) /\ forall k v, In (k, v) l <-> m_get Z.eqb m k = Some v.

(** Every pixel is opaque or transparent (the masks and the opacities may have any values). *)
Definition solid (l : slayer) : Prop :=
  match chan_data l 8 (-1) with Some da => Forall (fun a => a = 0 \/ a = 255) da | None => True end.
Inductive solid_tree : stree -> Prop :=
| solid_sleaf l : solid l -> solid_tree (SLeaf l)
| solid_sfolder dv f c : Forall solid_tree c -> solid_tree (SFolder dv f c).

(** No picture of the tree covers the point. *)
Inductive clear_of (p : point) : stree -> Prop :=
| clear_leaf l : pt_in p (sl_rect l) = false -> clear_of p (SLeaf l)
| clear_folder dv f c : Forall (clear_of p) c -> clear_of p (SFolder dv f c).
(** The channels of masks hold bytes. *)
Definition mask_bytes (l : slayer) : Prop := match chan_data l 8 (-2) with Some d => bytes_ok d | None => True end.
(** A mask has a value other than 0 at some point where no coordinate is negative before or after the move. *)
Definition mask_stays (dx dy : Z) (l : slayer) : Prop := has_mask l = true -> exists p v,
  0 <= MRect.px p /\ 0 <= py p /\ 0 <= MRect.px p + dx /\ 0 <= py p + dy /\ pt_in p (mask_rect l) = true /\ mask_at l p v /\ v <> 0.

(** A matrix of the options that moves by [dx] and [dy]: zeros in the diagonal stand for ones. *)
Definition moves_by (m : aff) (dx dy : Z) : Prop :=
  (a0 m = inject_Z 0 \/ a0 m = inject_Z 1) /\ a1 m = inject_Z 0 /\ a2 m = inject_Z dx /\
  a3 m = inject_Z 0 /\ (a4 m = inject_Z 0 \/ a4 m = inject_Z 1) /\ a5 m = inject_Z dy.
