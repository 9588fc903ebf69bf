(** Trees that are not the same and look the same: without invisible layers, and with layers that
    do not overlap in another order. *)
From Verif Require Import Base MRect MLayer SRecord MBlend SPipe SSharp SGlass SFrame.
Open Scope Z_scope.

(** A layer or folder that is never seen: it is hidden, its opacity is 0, or none of the pictures in it has a
    visible pixel. *)
Definition invisible (t : stree) : Prop :=
  hidden (rec_of t) = true \/ sl_opacity (rec_of t) = 0 \/ forall l q v, picture_in l t -> leaf_value l q v -> v = nothing.
(** The pictures of the two do not overlap. *)
Definition apart (t t' : stree) : Prop :=
  forall l l' q, picture_in l t -> picture_in l' t' -> pt_in q (sl_rect l) = true -> pt_in q (sl_rect l') = true -> False.
(** Nothing is clipped to what is below the list. *)
Definition starts (ts : list stree) : Prop := match ts with t :: _ => clips t = false | [] => True end.
Definition all_clip (cs : list stree) : Prop := Forall (fun c => clips c = true) cs.

(** [tidied ts ts']: in [ts'], at any depth, some invisible layers have been left out together
    with the layers clipped to them, and some neighbours that do not overlap have changed places. *)
Inductive tidied_tree : stree -> stree -> Prop :=
| tidied_leaf l : tidied_tree (SLeaf l) (SLeaf l)
| tidied_folder dv f c c' : tidied c c' -> tidied_tree (SFolder dv f c) (SFolder dv f c')
with tidied : list stree -> list stree -> Prop :=
| tidied_nil : tidied [] []
| tidied_keep t t' ts ts' : tidied_tree t t' -> tidied ts ts' -> tidied (t :: ts) (t' :: ts')
| tidied_drop t cs ts ts' : clips t = false -> all_clip cs -> starts ts -> invisible t -> tidied ts ts' -> tidied (t :: cs ++ ts) ts'
| tidied_swap t1 cs1 t2 cs2 ts ts' : clips t1 = false -> all_clip cs1 -> clips t2 = false -> all_clip cs2 -> starts ts ->
    ~ mode_of t1 None -> ~ mode_of t2 None -> apart t1 t2 -> tidied ts ts' ->
    tidied (t1 :: cs1 ++ t2 :: cs2 ++ ts) (t2 :: cs2 ++ t1 :: cs1 ++ ts').
