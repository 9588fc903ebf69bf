(** Pictures without colour, and channels of pictures. *)
From Verif Require Import Base MRect MLayer SRecord MBlend SPipe SSharp SGlass SFrame.
Open Scope Z_scope.

Definition grey (v : px) : Prop := pr v = pg v /\ pg v = pb v.
(** All the pictures of the layers are grey at the point. *)
Definition grey_at (p : point) (ts : list stree) : Prop := forall t l v, In t ts -> picture_in l t -> leaf_value l p v -> grey v.
