(** What it means to change the layers of a loaded tree as if the file had other switches,
    opacities and blend modes: C73. *)
From Coq Require Import String.
From Verif Require Import Base MRect MLayer SConfig SRecord MRender SPipe SSharp.
Close Scope string_scope.
Open Scope Z_scope.

(** The fields Visible, Opacity and BlendMode that the user gives the layers, by their number *)
Record edit := Edit { e_vis : Z -> bool; e_opa : Z -> Z; e_bm : Z -> bytes }.

(** ** In the tree *)
Definition touch (e : edit) (a : lattr) : lattr :=
  let i := lseq a in Lattr i (e_vis e i) (e_opa e i) (e_bm e i) (lclipping a) (lbce a) (lmen a) (lmdc a).
Fixpoint touched (e : edit) (l : MRender.layer) : MRender.layer :=
  match l with Lay a ks cs => Lay (touch e a) (map (touched e) ks) (map (touched e) cs) end.
(** The root is not a layer of the file and stays as it is. *)
Definition retouched (e : edit) (root : MRender.layer) : MRender.layer := Lay (latt root) (map (touched e) (lkids root)) (lgroup root).

(** ** In the file *)
(** The key of the blend mode of a picture; "pass through" means normal there. *)
Definition leaf_key (l : slayer) (k : bytes) : Prop :=
  (sl_blend l = ascii "pass"%string /\ k = ascii "norm"%string) \/ (sl_blend l <> ascii "pass"%string /\ k = sl_blend l).
(** The same pixels, mask, place in a clipping group and kind of layer. The names, the other flags and
    the other information may be different. *)
Definition alike (l l' : slayer) : Prop :=
  sl_rect l' = sl_rect l /\ sl_channels l' = sl_channels l /\ sl_clip l' = sl_clip l /\ sl_mask l' = sl_mask l /\
  blends_group l' = blends_group l /\ forall t, has_type l' t <-> has_type l t.
Definition layer_edited (e : edit) (i : Z) (l l' : slayer) : Prop :=
  alike l l' /\ hidden l' = negb (e_vis e i) /\ sl_opacity l' = e_opa e i.
(** [i] numbers the stored layers. *)
Inductive tree_edited (e : edit) : Z -> stree -> stree -> Prop :=
| leaf_edited i l l' : layer_edited e i l l' -> leaf_key l' (e_bm e i) -> tree_edited e i (SLeaf l) (SLeaf l')
| folder_edited i d f f' c c' : trees_edited e (i + 1) c c' ->
    layer_edited e (i + 1 + zlen (flat_map sflatten c)) f f' -> folder_key f' (e_bm e (i + 1 + zlen (flat_map sflatten c))) ->
    tree_edited e i (SFolder d f c) (SFolder d f' c')
with trees_edited (e : edit) : Z -> list stree -> list stree -> Prop :=
| edited_nil i : trees_edited e i [] []
| edited_cons i t t' ts ts' : tree_edited e i t t' -> trees_edited e (i + zlen (sflatten t)) ts ts' -> trees_edited e i (t :: ts) (t' :: ts').

(** The forest can be stored instead of another one, and its layers are sharp. *)
Definition storable (inflate : bytes -> Z -> option (bytes * Z)) (large neg : bool) (pl : placement) (pad gmask : bytes) (bs : list iblock) (tail : bytes) (sf : list stree) : Prop :=
  section_valid inflate large neg 8 3 pl (flat_map sflatten sf) pad gmask bs tail /\ Forall stree_valid sf /\ sharp_forest sf.
