(** Trees of layers none of which is brighter than a colour. *)
From Verif Require Import Base MRect MLayer SRecord MBlend SPipe SSharp SGlass.
Open Scope Z_scope.

(** The modes whose documented colour is not above both the layer's and the backdrop's *)
Definition tame (m : mode) : Prop :=
  match m with
  | Normal | Darken | Multiply | ColorBurn | LinearBurn | DarkerColor | Lighten | LighterColor | PinLight | Difference | Subtract => True
  | _ => False
  end.
(** No colour of the pixel is brighter than in [k]. *)
Definition dim (k v : px) : Prop := pr v <= pr k /\ pg v <= pg k /\ pb v <= pb k.
(** The mask of the layer shows the point fully or not at all. *)
Definition hard_mask (p : point) (l : slayer) : Prop := has_mask l = true -> forall v, mask_at l p v -> v = 0 \/ v = 255.
(** All pictures of the tree are as dark as [k] at the point, all modes are such modes, and the masks are hard there; pass-through folders have no masks. *)
Inductive calm (p : point) (k : px) : stree -> Prop :=
| calm_leaf l m : leaf_mode l m -> tame m -> hard_mask p l -> (forall v, leaf_value l p v -> dim k v) -> calm p k (SLeaf l)
| calm_folder dv f c m : folder_mode f (Some m) -> tame m -> hard_mask p f -> Forall (calm p k) c -> calm p k (SFolder dv f c)
| calm_through dv f c : folder_mode f None -> has_mask f = false -> Forall (calm p k) c -> calm p k (SFolder dv f c).
