(** Trees of layers that all have one colour at a point. *)
From Verif Require Import Base MRect MLayer SRecord MBlend SPipe SSharp SGlass SBright.
Open Scope Z_scope.

(** The modes whose documented colour for two equal colours is this colour *)
Definition even (m : mode) : Prop :=
  match m with
  | Normal | Darken | DarkerColor | Lighten | LighterColor | PinLight | Hue | Saturation | Color | Luminosity => True
  | _ => False
  end.
(** Where the pictures of the tree are not transparent, they are opaque and have the colour [k]; all modes are such modes. Nothing is clipped, no folder passes through or
    has a mask; the masks of the pictures are hard. Opacities do not matter. *)
Inductive plainly (p : point) (k : px) : stree -> Prop :=
| plainly_leaf l m : leaf_mode l m -> even m -> hard_mask p l -> clips (SLeaf l) = false -> (forall v, leaf_value l p v -> v = nothing \/ v = k) -> plainly p k (SLeaf l)
| plainly_folder dv f c m : folder_mode f (Some m) -> even m -> has_mask f = false -> clips (SFolder dv f c) = false -> Forall (plainly p k) c -> plainly p k (SFolder dv f c).
(** The pixel [v] shows the colour of [k] or is transparent. *)
Definition tinted (k v : px) : Prop := pa v = 0 \/ pr v = pr k /\ pg v = pg k /\ pb v = pb k.
