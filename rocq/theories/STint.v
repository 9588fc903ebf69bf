(** A file whose layers lie elsewhere and have other colours. *)
From Verif Require Import Base MRect SCompress SRecord SLayer SPipe SSharp SGlass SMove SShift.
Open Scope Z_scope.

(** The layer [l'] is the layer [l] moved by [dx] and [dy] with the values of red, green and blue sent through [f]. The channels may be
    compressed in another way; all else is the same. *)
Definition graded (f : Z -> Z) (dx dy : Z) (l l' : slayer) : Prop :=
  (exists ch, l' = SLayer (move_rect dx dy (sl_rect l)) ch (sl_blend l) (sl_opacity l) (sl_clip l) (sl_flags l) (sl_filler l)
    (move_mask dx dy (sl_mask l)) (sl_ranges l) (sl_name l) (sl_npad l) (sl_info l) (sl_tail l)) /\
  forall k, chan_data l' 8 k = if (0 <=? k) && (k <=? 2) then option_map (map f) (chan_data l 8 k) else chan_data l 8 k.
(** All layers of a tree replaced *)
Fixpoint each_layer (g : slayer -> slayer) (t : stree) : stree :=
  match t with
  | SLeaf l => SLeaf (g l)
  | SFolder dv f c => SFolder (g dv) (g f) (map (each_layer g) c)
  end.
