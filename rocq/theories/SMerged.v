(** Specification of the merged image of a file: layer part, image data, alpha channel and
    colour table (Adobe file format document). *)
From Verif Require Import Base SUtil MRect MPicker MConfig MLayer SConfig SCompress SRecord SPicker.

(** The layer and mask section: empty, or with layers. *)
Inductive layer_part inflate (large : bool) (mode depth : Z) : bytes -> Prop :=
| no_layers : layer_part inflate large mode depth (be (if large then 8 else 4) 0)
| with_layers nch neg pl sf pad gmask bs tail : mode_depth_ok mode depth -> colour_planes mode = Some nch ->
    section_valid inflate large neg depth nch pl (flat_map sflatten sf) pad gmask bs tail -> Forall stree_valid sf ->
    layer_part inflate large mode depth (enc_section large neg pl (flat_map sflatten sf) pad gmask bs tail).

(** The image data section: the planes of all channels one after the other, as they are or
    each row in PackBits. [fs] are the samples of the channels. *)
Inductive image_part (large : bool) (depth w h : Z) (fs : list (Z -> Z -> Z)) : bytes -> Prop :=
| image_raw : image_part large depth w h fs (be 2 0 ++ flat_map (enc_plane depth w h) fs)
| image_rle ls : depth = 1 \/ depth = 8 -> expand_lines ls = flat_map (enc_plane depth w h) fs ->
    zlen ls = h * zlen fs -> Forall (fun l => line_ok l /\ zlen (expand_line l) = (w * depth + 7) / 8) ls ->
    Forall (fun l => zlen (enc_line l) < if large then 4294967296 else 65536) ls ->
    zlen (enc_rle large ls) <= 281474976710656 ->
    image_part large depth w h fs (be 2 1 ++ enc_rle large ls).

(** Whether channel [n], behind the colours, is the transparency of the image: it exists, and
    the resource with the identifiers of the alpha channels lists the identifier 0 or is missing. *)
Definition has_alpha (channels n : Z) (res : list rblock) (a : bool) : Prop :=
  (channels <= n /\ a = false) \/
  (n < channels /\ last_res res 1053 = None /\ a = true) \/
  (n < channels /\ exists r ids, last_res res 1053 = Some r /\ res_data r = flat_map (be 4) ids /\
     Forall (fun i => 0 <= i < 4294967296) ids /\ (a = true <-> In 0 ids)).

(** The index of the transparent colour, if there is one. *)
Definition clear_index (res : list rblock) (t : option Z) : Prop :=
  (last_res res 1047 = None /\ t = None) \/
  (exists r i post, last_res res 1047 = Some r /\ 0 <= i < 65536 /\ res_data r = be 2 i ++ post /\ t = Some i).
(** Entry [i] of the colour table [cmd]: all reds, all greens, all blues. *)
Definition table_colour (cmd : bytes) (t : option Z) (i : Z) (c : color) : Prop :=
  exists reds greens blues r g b, cmd = reds ++ greens ++ blues /\ zlen reds = 256 /\ zlen greens = 256 /\ zlen blues = 256 /\
    idx reds i = Some r /\ idx greens i = Some g /\ idx blues i = Some b /\
    c = CNRGBA r g b (match t with Some j => if i =? j then 0 else 255 | None => 255 end).

(** The samples of one pixel make the colour [c]; [a]: alpha, [t]: transparent index. *)
Definition merged_colour (depth mode : Z) (cmd : bytes) (t : option Z) (a : bool) (ss : list Z) (c : color) : Prop :=
  if mode =? 0 then exists s, nth_error ss 0 = Some s /\ c = CGray1 (s =? 0)
  else if mode =? 2 then exists s, nth_error ss 0 = Some s /\ table_colour cmd t s c
  else exists n s, colour_planes mode = Some n /\
    (if a then nth_error ss (Z.to_nat n) = Some s else s = opaque depth) /\
    pixel_colour depth mode (firstn (Z.to_nat n) ss) s = Some c.
(** The modes with the depths they allow. *)
Definition image_mode (mode depth : Z) (cmd : bytes) : Prop :=
  (mode = 0 /\ depth = 1) \/ (mode = 2 /\ depth = 8 /\ zlen cmd = 768) \/ mode_depth_ok mode depth.
Definition colour_channels (mode : Z) : Z := if mode =? 3 then 3 else if mode =? 4 then 4 else 1.

(** The file [s] with header [h], colour table [cmd], resources [res], layer part [sec] and
    image data [img], whose channels have the samples [fs]. *)
Definition merged_file inflate (h : header) (cmd : bytes) (res : list rblock) (fs : list (Z -> Z -> Z)) (t : option Z) (a : bool) (s : bytes) : Prop :=
  exists rsv sec img, s = enc_config h rsv cmd res ++ sec ++ img /\ header_valid h /\ zlen rsv = 6 /\ zlen cmd < 4294967296 /\
    Forall rblock_valid res /\ zlen (enc_rblocks res) < 4294967296 /\
    image_mode (h_mode h) (h_depth h) cmd /\ colour_channels (h_mode h) <= h_channels h /\
    zlen fs = h_channels h /\ Forall (samples_ok (h_depth h)) fs /\
    layer_part inflate (h_version h =? 2) (h_mode h) (h_depth h) sec /\
    image_part (h_version h =? 2) (h_depth h) (h_width h) (h_height h) fs img /\
    has_alpha (h_channels h) (colour_channels (h_mode h)) res a /\ clear_index res t.

(** The image is that of the samples. *)
Definition image_shown (h : header) (cmd : bytes) (t : option Z) (a : bool) (fs : list (Z -> Z -> Z)) (pk : picker) : Prop :=
  pk_rect pk = Rct 0 0 (h_width h) (h_height h) /\
  forall x y, 0 <= x < h_width h -> 0 <= y < h_height h ->
    exists c, picker_at pk x y = Some c /\ merged_colour (h_depth h) (h_mode h) cmd t a (map (fun f => f x y) fs) c.
(** The channels are those of the samples, under their numbers. *)
Definition channels_shown (h : header) (fs : list (Z -> Z -> Z)) (chs : list (Z * channel)) : Prop :=
  zlen chs = h_channels h /\
  forall i g, idx fs i = Some g -> exists d pk, idx chs i = Some (i, Chan d pk) /\ pk_rect pk = Rct 0 0 (h_width h) (h_height h) /\
    forall x y, 0 <= x < h_width h -> 0 <= y < h_height h -> picker_at pk x y = Some (channel_colour (h_depth h) (g x y)).
