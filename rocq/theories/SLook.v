(** Trees whose layers show the same. *)
From Verif Require Import Base MRect MLayer SRecord MBlend SPipe SSharp SGlass.
Open Scope Z_scope.

(** The points that can be shown *)
Definition in_sight (q : point) : Prop := 0 <= MRect.px q /\ 0 <= py q.
(** There is no mask, or it is white everywhere. *)
Definition lets_all (l : slayer) : Prop := has_mask l = true -> mask_colour l <> 0 /\ forall q, in_sight q -> mask_at l q 255.
(** The masks have the same values, or both let everything through. *)
Definition same_mask (through : Prop) (l l' : slayer) : Prop :=
  (has_mask l = has_mask l' /\ (has_mask l = true -> (mask_colour l = 0 <-> mask_colour l' = 0) /\ forall q v, in_sight q -> mask_at l q v <-> mask_at l' q v)) \/
  (~ through /\ lets_all l /\ lets_all l').
(** The eye, the opacity, whether the layer is clipped, and whether it is blended as a group with the layers clipped to it *)
Definition same_switches (l l' : slayer) : Prop :=
  hidden l = hidden l' /\ sl_opacity l = sl_opacity l' /\ (sl_clip l = 0 <-> sl_clip l' = 0) /\ blends_group l = blends_group l'.
(** The pictures have the same pixels, wherever their rectangles are and however the planes are stored. *)
Inductive looks : stree -> stree -> Prop :=
| looks_leaf l l' : same_switches l l' -> same_mask False l l' -> (forall m, leaf_mode l m <-> leaf_mode l' m) ->
    (forall q v, in_sight q -> leaf_value l q v <-> leaf_value l' q v) -> looks (SLeaf l) (SLeaf l')
| looks_folder dv f c dv' f' c' : same_switches f f' -> same_mask (folder_mode f None) f f' -> (forall m, folder_mode f m <-> folder_mode f' m) ->
    Forall2 looks c c' -> looks (SFolder dv f c) (SFolder dv' f' c').
