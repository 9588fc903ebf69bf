(** Layers that change nothing because of their colour. *)
From Verif Require Import Base MRect MLayer SRecord MBlend SPipe SSharp SGlass STidy.
Open Scope Z_scope.

(** The colour that leaves every backdrop as it is: white or black (for the modes that have one) *)
Definition neutral (m : mode) : option Z :=
  match m with
  | Darken | Multiply | ColorBurn | LinearBurn | Divide => Some 255
  | Lighten | Screen | ColorDodge | LinearDodge | Add | Difference | Exclusion | Subtract => Some 0
  | _ => None
  end.
(** All the grey levels that leave every backdrop as it is, also in the modes with a neutral grey. The modes Hard Light, Vivid Light and Hard Mix have none. *)
Definition leaves_all (m : mode) (n : Z) : Prop :=
  match m with
  | Overlay | LinearLight | PinLight => n = 128
  | SoftLight => 126 <= n <= 129
  | _ => neutral m = Some n
  end.
(** At the point the picture has the neutral colour of its mode, or is transparent. *)
Definition neutral_here (p : point) (l : slayer) : Prop :=
  exists m n, leaf_mode l m /\ neutral m = Some n /\ forall v, leaf_value l p v -> pa v = 0 \/ (pr v = n /\ pg v = n /\ pb v = n).
Section square.
  Variable A : point -> Prop.
  Variable p : point.
  (** The second list is the first without a layer that is neutral at the point and lies over an opaque picture, here or in isolated folders. *)
  Inductive without : list stree -> list stree -> Prop :=
  | without_here pre l post d : clips (SLeaf l) = false -> starts post -> neutral_here p l -> laid A p None pre nothing d -> pa d = 255 ->
      without (pre ++ SLeaf l :: post) (pre ++ post)
  | without_inside pre dv f c c' m post : sl_clip f = 0 -> folder_mode f (Some m) -> without c c' ->
      without (pre ++ SFolder dv f c :: post) (pre ++ SFolder dv f c' :: post).
End square.
