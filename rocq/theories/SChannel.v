(** Trees of layers where one colour of the pictures is the same. *)
From Verif Require Import Base MRect MLayer SRecord MBlend SPipe SSharp SGlass SLook.
Open Scope Z_scope.

(** The colours of a pixel *)
Inductive colour := Red | Green | Blue.
Definition level (c : colour) (v : px) : Z := match c with Red => pr v | Green => pg v | Blue => pb v end.
(** The blending modes that do not mix the colours *)
Definition separable (m : mode) : Prop :=
  match m with DarkerColor | LighterColor | Hue | Saturation | Color | Luminosity => False | _ => True end.
(** The same level of one colour, and of another in the other pixel; the same alpha *)
Definition same_level (c c' : colour) (v v' : px) : Prop := level c v = level c' v' /\ pa v = pa v'.
(** The pictures at the same places of the trees have the same levels of one colour, the layers are used in the same way, and no
    mode mixes the colours. *)
Inductive alike (c c' : colour) : stree -> stree -> Prop :=
| alike_leaf l l' : same_switches l l' -> same_mask False l l' -> (forall m, leaf_mode l m <-> leaf_mode l' m) -> (forall m, leaf_mode l m -> separable m) ->
    (forall q, in_sight q -> exists v v', leaf_value l q v /\ leaf_value l' q v' /\ same_level c c' v v') -> alike c c' (SLeaf l) (SLeaf l')
| alike_folder dv f ts dv' f' ts' : same_switches f f' -> same_mask (folder_mode f None) f f' -> (forall m, folder_mode f m <-> folder_mode f' m) ->
    (forall m, folder_mode f (Some m) -> separable m) -> Forall2 (alike c c') ts ts' -> alike c c' (SFolder dv f ts) (SFolder dv' f' ts').
