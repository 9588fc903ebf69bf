(** A file whose layers lie elsewhere. *)
From Verif Require Import Base MRect SCompress SRecord SLayer SPipe SSharp SGlass SMove.
Open Scope Z_scope.

(** The layers of a file moved by [dx] and [dy]: the rectangles of the pictures and of the masks. (The rectangle of the
    "real" mask is not used for drawing.) *)
Definition move_rect (dx dy : Z) (r : rect) : rect := Rct (rx0 r + dx) (ry0 r + dy) (rx1 r + dx) (ry1 r + dy).
Definition move_mask (dx dy : Z) (m : smask) : smask :=
  match m with
  | SNone => SNone
  | SShort r c f p pad => SShort (move_rect dx dy r) c f p pad
  | SLong r c f p rf rc rr => SLong (move_rect dx dy r) c f p rf rc rr
  end.
Definition move_layer (dx dy : Z) (l : slayer) : slayer :=
  SLayer (move_rect dx dy (sl_rect l)) (sl_channels l) (sl_blend l) (sl_opacity l) (sl_clip l) (sl_flags l) (sl_filler l)
    (move_mask dx dy (sl_mask l)) (sl_ranges l) (sl_name l) (sl_npad l) (sl_info l) (sl_tail l).
Fixpoint move_tree (dx dy : Z) (t : stree) : stree :=
  match t with
  | SLeaf l => SLeaf (move_layer dx dy l)
  | SFolder dv f c => SFolder (move_layer dx dy dv) (move_layer dx dy f) (map (move_tree dx dy) c)
  end.
(** A layer without picture (a folder), or one with the three planes of colours whose pixels are opaque or transparent *)
Definition solid_picture (l : slayer) : Prop :=
  (exists t, has_type l t /\ t <> 0) \/
  solid l /\ exists r g b, chan_data l 8 0 = Some r /\ chan_data l 8 1 = Some g /\ chan_data l 8 2 = Some b.
