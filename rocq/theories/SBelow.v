(** Trees that differ only below an opaque layer. *)
From Verif Require Import Base MRect MLayer SRecord MBlend SPipe SSharp SGlass STidy.
Open Scope Z_scope.

Section square.
  (** The points of the square that is drawn at a time, and one of them *)
  Variable A : point -> Prop.
  Variable p : point.
  (** A layer of the mode normal and the full opacity whose picture is opaque at the point, through its mask and with what is clipped to it *)
  Definition opaque_here (t : stree) (cs : list stree) : Prop :=
    hidden (rec_of t) = false /\ sl_opacity (rec_of t) = 255 /\ mode_of t (Some Normal) /\
    exists v v', image A p t 255 nothing v /\ topped A p t cs v v' /\ pa v' = 255.
  (** Below such a layer, in the same list, there may be anything, and if this list is the content of a pass-through folder without a mask and of the full
      opacity, also below the folder. *)
  Inductive cut_off : list stree -> list stree -> Prop :=
  | cut_here pre pre' t cs post : clips t = false -> all_clip cs -> starts post -> opaque_here t cs ->
      cut_off (pre ++ t :: cs ++ post) (pre' ++ t :: cs ++ post)
  | cut_through pre pre' dv f c c' post : hidden f = false -> sl_clip f = 0 -> sl_opacity f = 255 -> folder_mode f None -> has_mask f = false -> cut_off c c' ->
      cut_off (pre ++ SFolder dv f c :: post) (pre' ++ SFolder dv f c' :: post).
  (** All this may be in isolated folders; below them the layers are the same. *)
  Inductive same_above : list stree -> list stree -> Prop :=
  | same_cut ts ts' : cut_off ts ts' -> same_above ts ts'
  | same_inside pre dv f c c' m post : sl_clip f = 0 -> folder_mode f (Some m) -> same_above c c' ->
      same_above (pre ++ SFolder dv f c :: post) (pre ++ SFolder dv f c' :: post).
End square.
