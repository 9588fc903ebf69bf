(** Trees from which a pass-through folder has been removed, leaving its content. *)
From Verif Require Import Base MRect MLayer SRecord MBlend SPipe SSharp SGlass.
Open Scope Z_scope.

(** A layer with another opacity *)
Definition with_opacity (o : Z) (l : slayer) : slayer :=
  SLayer (sl_rect l) (sl_channels l) (sl_blend l) o (sl_clip l) (sl_flags l) (sl_filler l) (sl_mask l) (sl_ranges l) (sl_name l) (sl_npad l) (sl_info l) (sl_tail l).
(** The content of a folder of the opacity [op] outside it; layers that are clipped to others keep their opacity. *)
Definition faded (op : Z) (t : stree) : stree :=
  if clips t then t
  else match t with
       | SLeaf l => SLeaf (with_opacity (sl_opacity l * op / 255) l)
       | SFolder dv f c => SFolder dv (with_opacity (sl_opacity f * op / 255) f) c
       end.
(** A pass-through folder that is on and has no mask; nothing is clipped to what is below it or to the folder, or in it to what is not
    in it. *)
Definition dissolvable (f : slayer) (c above : list stree) : Prop :=
  hidden f = false /\ sl_clip f = 0 /\ folder_mode f None /\ has_mask f = false /\
  match c with t :: _ => clips t = false | [] => True end /\ match above with t :: _ => clips t = false | [] => True end.

(** ** In other folders *)
Section square.
  (** The points of the square that is drawn at a time, and one of them *)
  Variable A : point -> Prop.
  Variable p : point.
  (** [opened d ts ts']: a folder somewhere in [ts] has been dissolved in [ts']; the layers are drawn over [d]. What lies below the folder, in the
      same list, is opaque at the point. The folder may be in isolated folders and in pass-through folders of the full opacity (for
      others the opacities would have to be multiplied twice, with two roundings). *)
  Inductive opened : px -> list stree -> list stree -> Prop :=
  | opened_here pre dv f c post d x : dissolvable f c post -> laid A p None pre d x -> pa x = 255 ->
      opened d (pre ++ SFolder dv f c :: post) (pre ++ map (faded (sl_opacity f)) c ++ post)
  | opened_isolated pre dv f c c' post m d : sl_clip f = 0 -> folder_mode f (Some m) -> opened nothing c c' ->
      opened d (pre ++ SFolder dv f c :: post) (pre ++ SFolder dv f c' :: post)
  | opened_through pre dv f c c' post d x : sl_clip f = 0 -> folder_mode f None -> sl_opacity f = 255 -> laid A p None pre d x -> opened (stored x) c c' ->
      opened d (pre ++ SFolder dv f c :: post) (pre ++ SFolder dv f c' :: post).
End square.
