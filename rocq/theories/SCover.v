(** How much of a point the layers of a file cover: with exact numbers, and whatever their modes are. *)
From Coq Require Import QArith.
From Verif Require Import Base MRect MBlend SBlend SRecord SPipe SSharp SGlass SStack.
Open Scope Z_scope.

Definition masks (l : slayer) : Z := if has_mask l then 1 else 0.

Section point.
  Variable p : point.

  (** [shape t a lo hi]: the layer covers the part [a] of the point, seen through its mask, without its opacity.
      [cover w j ts e e' lo hi]: if [e] of the point was covered, the layers [ts] make [e'] of it. They lie in [j]
      pass-through folders, one in the other, whose opacity is [w] in all. A layer leaves the part [1 - t] of
      what was open; a clipped one adds nothing; one in a pass-through folder counts as if it lay outside.
      [lo] and [hi]: the levels of 255 that the picture may have less or more: three for every layer, and one for every
      pass-through folder around it; one for a mask. *)
  Inductive shape : stree -> Q -> Z -> Z -> Prop :=
  | shape_leaf l s v : leaf_value l p s -> seen_at l p v -> shape (SLeaf l) (unit (pa s) * unit v) (masks l) (masks l)
  | shape_folder dv f c m a v lo hi : folder_mode f (Some m) -> cover 1 0 c 0 a lo hi -> seen_at f p v ->
      shape (SFolder dv f c) (a * unit v) (lo + masks f) (hi + masks f)
  with adds : Q -> Z -> stree -> Q -> Q -> Z -> Z -> Prop :=
  | adds_hidden w j t e : hidden (rec_of t) = true -> adds w j t e e 0 0
  | adds_layer w j t m a e lo hi : hidden (rec_of t) = false -> mode_of t (Some m) -> shape t a lo hi ->
      adds w j t e (e + a * (w * unit (sl_opacity (rec_of t))) * (1 - e)) (lo + j + 3) hi
  | adds_through w j dv f c e e' lo hi : hidden f = false -> folder_mode f None -> has_mask f = false ->
      cover (w * unit (sl_opacity f)) (j + 1) c e e' lo hi -> adds w j (SFolder dv f c) e e' lo hi
  with cover : Q -> Z -> list stree -> Q -> Q -> Z -> Z -> Prop :=
  | cover_nil w j e : cover w j [] e e 0 0
  | cover_clipped w j t ts e e' lo hi : clips t = true -> cover w j ts e e' lo hi -> cover w j (t :: ts) e e' lo hi
  | cover_next w j t ts e e1 e2 lo1 hi1 lo2 hi2 : clips t = false -> adds w j t e e1 lo1 hi1 -> cover w j ts e1 e2 lo2 hi2 ->
      cover w j (t :: ts) e e2 (lo1 + lo2) (hi1 + hi2).
End point.

(** The alpha [x], of 255, is the part [e] but for at most [lo] levels less or [hi] levels more. *)
Definition around (lo hi x : Z) (e : Q) : Prop := (- inject_Z lo <= inject_Z x - (255 # 1) * e <= inject_Z hi)%Q.

(** No pass-through folder has a mask. *)
Inductive no_masked_through : stree -> Prop :=
| nmt_leaf l : no_masked_through (SLeaf l)
| nmt_folder dv f c : (folder_mode f None -> has_mask f = false) -> Forall no_masked_through c -> no_masked_through (SFolder dv f c).
