(** The rectangle of the tree and what is visible in the file. *)
From Verif Require Import Base MRect SRecord MBlend SGlass SNames.
Open Scope Z_scope.

(** The pictures of a tree *)
Inductive picture_in (l : slayer) : stree -> Prop :=
| pic_leaf : picture_in l (SLeaf l)
| pic_content d f c t : In t c -> picture_in l t -> picture_in l (SFolder d f c).
(** Some picture has a visible pixel at the point. *)
Definition visible_in (sf : list stree) (p : point) : Prop :=
  exists s l v, In s sf /\ picture_in l s /\ leaf_value l p v /\ v <> nothing.

(** A box whose edges are edges of tiles, around all layers and folders *)
Definition aligned (ts : Z) (r : rect) : Prop := (ts | rx0 r) /\ (ts | ry0 r) /\ (ts | rx1 r) /\ (ts | ry1 r).
Definition within_box (r box : rect) : Prop := forall p, pt_in p r = true -> pt_in p box = true.
Definition around (sf : list stree) (box : rect) : Prop := forall s l, In s sf -> in_tree l s -> within_box (sl_rect l) box.
