(** Specification of the layer and mask section (Adobe file format document)
    as an encoder, and of what the decoded layers must look like. Independent
    of the decoder model except for the record types of its results. *)
From Coq Require Import String Ascii.
From Verif Require Import Base SUtil SCompress SConfig MRect MPicker MConfig MLayer.

(** The bytes of an ASCII literal. *)
Definition ascii (s : string) : bytes := map (fun c => Z.of_N (N_of_ascii c)) (list_ascii_of_string s).

(** ** Additional layer information *)

(** Padding before the block, signature 8B64 instead of 8BIM, key, data. *)
Record iblock := IBlock { ib_pre : bytes; ib_64 : bool; ib_key : bytes; ib_data : bytes }.

(** Keys with a length of 8 bytes in PSB files. *)
Definition long_key_names : list bytes :=
  map ascii ["LMsk"; "Lr16"; "Lr32"; "Layr"; "Mt16"; "Mt32"; "Mtrn"; "Alph"; "FMsk"; "lnk2"; "FEid"; "FXid"; "PxSD"]%string.
Definition is_long (large : bool) (key : bytes) : bool := large && existsb (list_eqb key) long_key_names.
(** Keys whose blocks hold layers. *)
Definition holds_layers (key : bytes) : Prop := In key (map ascii ["Layr"; "Lr16"; "Lr32"]%string).

Definition no8 (p : bytes) : Prop := ~ In 56 p.

Definition enc_iblock (large : bool) (b : iblock) : bytes :=
  ib_pre b ++ ascii (if ib_64 b then "8B64" else "8BIM") ++ ib_key b ++
  be (if is_long large (ib_key b) then 8 else 4) (zlen (ib_data b)) ++ ib_data b.

Definition iblock_valid (large : bool) (b : iblock) : Prop :=
  no8 (ib_pre b) /\ zlen (ib_key b) = 4 /\ ~ holds_layers (ib_key b) /\
  zlen (ib_data b) < if is_long large (ib_key b) then 281474976710656 else 4294967296.

Definition enc_infos (large : bool) (bs : list iblock) (tail : bytes) : bytes :=
  flat_map (enc_iblock large) bs ++ tail.

(** The data last written for a key. *)
Fixpoint last_info (bs : list iblock) (key : bytes) : option bytes :=
  match bs with
  | [] => None
  | b :: bs =>
      match last_info bs key with
      | Some d => Some d
      | None => if list_eqb (ib_key b) key then Some (ib_data b) else None
      end
  end.

(** ** Layer masks *)

Definition int32 (v : Z) : Prop := -2147483648 <= v < 2147483648.
Definition rect_valid (r : rect) : Prop :=
  int32 (rx0 r) /\ int32 (ry0 r) /\ int32 (rx1 r) /\ int32 (ry1 r) /\ rx0 r <= rx1 r /\ ry0 r <= ry1 r.
(** Top, left, bottom, right. *)
Definition enc_rect (r : rect) : bytes := be 4 (ry0 r) ++ be 4 (rx0 r) ++ be 4 (ry1 r) ++ be 4 (rx1 r).

(** The mask parameters: unused high bits, user density and feather, vector
    density and feather. Feathers are 64 bit patterns. *)
Record sparams := SParams { sp_high : Z; sp_ud : option Z; sp_uf : option Z; sp_vd : option Z; sp_vf : option Z }.
Definition present {A} (o : option A) (v : Z) : Z := match o with Some _ => v | None => 0 end.
Definition enc_opt (n : nat) (o : option Z) : bytes := match o with Some v => be n v | None => [] end.
Definition enc_params (o : option sparams) : bytes :=
  match o with
  | None => []
  | Some p =>
      (16 * sp_high p + present (sp_ud p) 1 + present (sp_uf p) 2 + present (sp_vd p) 4 + present (sp_vf p) 8) ::
      enc_opt 1 (sp_ud p) ++ enc_opt 8 (sp_uf p) ++ enc_opt 1 (sp_vd p) ++ enc_opt 8 (sp_vf p)
  end.
Definition in_range (o : option Z) (n : Z) : Prop := match o with Some v => 0 <= v < n | None => True end.
Definition params_valid (flags : Z) (o : option sparams) : Prop :=
  0 <= flags < 256 /\
  match o with
  | None => Z.testbit flags 4 = false
  | Some p => Z.testbit flags 4 = true /\ 0 <= sp_high p < 16 /\ in_range (sp_ud p) 256 /\
      in_range (sp_uf p) 18446744073709551616 /\ in_range (sp_vd p) 256 /\ in_range (sp_vf p) 18446744073709551616
  end.
Definition get_param (f : sparams -> option Z) (o : option sparams) (dflt : Z) : Z :=
  match o with Some p => match f p with Some v => v | None => dflt end | None => dflt end.

Inductive smask :=
| SNone                                                                      (* length 0 *)
| SShort (r : rect) (color flags : Z) (p : option sparams) (pad : bytes)      (* length 20 *)
| SLong (r : rect) (color flags : Z) (p : option sparams) (rflags rcolor : Z) (rr : rect).

Definition mask_body (m : smask) : bytes :=
  match m with
  | SNone => []
  | SShort r c f p pad => enc_rect r ++ [c; f] ++ enc_params p ++ pad
  | SLong r c f p rf rc rr => enc_rect r ++ [c; f] ++ enc_params p ++ [rf; rc] ++ enc_rect rr
  end.
Definition enc_mask (m : smask) : bytes := enc_block (mask_body m).

(** The rectangle of the real mask must not have negative coordinates: see C28. *)
Definition smask_valid (m : smask) : Prop :=
  match m with
  | SNone => True
  | SShort r c f p pad => rect_valid r /\ params_valid f p /\ zlen (enc_params p) + zlen pad = 2
  | SLong r c f p rf rc rr => rect_valid r /\ params_valid f p /\ rect_valid rr /\ 0 <= rx0 rr /\ 0 <= ry0 rr
  end.

(** Absent densities are 255, absent feathers 0. *)
Definition mask_of (m : smask) : mask :=
  match m with
  | SNone => mask0
  | SShort r c f p pad =>
      Mask r c f ZR 0 0 (get_param sp_ud p 255) (get_param sp_uf p 0) (get_param sp_vd p 255) (get_param sp_vf p 0)
  | SLong r c f p rf rc rr =>
      Mask r c f rr rc rf (get_param sp_ud p 255) (get_param sp_uf p 0) (get_param sp_vd p 255) (get_param sp_vf p 0)
  end.

(** ** Channel image data *)

Definition row_bytes (w depth : Z) : Z := (w * depth + 7) / 8.
Definition plane_bytes (r : rect) (depth : Z) : Z := row_bytes (rdx r) depth * rdy r.

(** Raw data, RLE lines, ZIP data with its contents, ZIP data of the
    differences of the given rows of samples. *)
Inductive payload :=
| PRaw (d : bytes)
| PRle (ls : list line)
| PZip (z d : bytes)
| PZipDelta (z : bytes) (rows : list (list Z)).

Definition enc_payload (large : bool) (p : payload) : bytes :=
  match p with
  | PRaw d => be 2 0 ++ d
  | PRle ls => be 2 1 ++ enc_rle large ls
  | PZip z _ => be 2 2 ++ z
  | PZipDelta z _ => be 2 3 ++ z
  end.

Definition payload_data (depth : Z) (p : payload) : bytes :=
  match p with
  | PRaw d => d
  | PRle ls => expand_lines ls
  | PZip _ d => d
  | PZipDelta _ rows => enc_rows (Z.to_nat (depth / 8)) rows
  end.

(** [unzips z d]: the library inflates all of [z] to [d]. *)
Definition unzips (inflate : bytes -> Z -> option (bytes * Z)) (z d : bytes) : Prop :=
  0 < zlen z /\ inflate z (zlen d) = Some (d, zlen z).

Definition payload_valid (inflate : bytes -> Z -> option (bytes * Z)) (large : bool) (r : rect) (depth : Z) (p : payload) : Prop :=
  plane_bytes r depth <= 281474976710656 /\
  match p with
  | PRaw d => zlen d = plane_bytes r depth
  | PRle ls =>
      (depth = 1 \/ depth = 8) /\ zlen ls = rdy r /\
      Forall (fun l => line_ok l /\ zlen (expand_line l) = row_bytes (rdx r) depth) ls /\
      Forall (fun l => zlen (enc_line l) < if large then 4294967296 else 65536) ls /\
      zlen (enc_rle large ls) <= 281474976710656
  | PZip z d => zlen d = plane_bytes r depth /\ unzips inflate z d
  | PZipDelta z rows =>
      (depth = 16 \/ depth = 32) /\ 1 <= rdx r /\ zlen rows = rdy r /\
      Forall (fun row => zlen row = rdx r /\ Forall (fun x => 0 <= x < 2 ^ depth) row) rows /\
      unzips inflate z (enc_rows (Z.to_nat (depth / 8)) (map (row_diff (2 ^ depth) 0) rows))
  end.

(** ** Layers *)

Record slayer := SLayer {
  sl_rect : rect;
  sl_channels : list (Z * payload);
  sl_blend : bytes;
  sl_opacity : Z;
  sl_clip : Z;
  sl_flags : Z;
  sl_filler : Z;
  sl_mask : smask;
  sl_ranges : bytes;
  sl_name : bytes;
  sl_npad : bytes;
  sl_info : list iblock;
  sl_tail : bytes }.

(** The extra data: mask, blending ranges, name padded to a multiple of 4,
    additional information. *)
Definition enc_extra (large : bool) (l : slayer) : bytes :=
  enc_block (enc_mask (sl_mask l) ++ enc_block (sl_ranges l) ++
    (zlen (sl_name l) :: sl_name l) ++ sl_npad l ++ enc_infos large (sl_info l) (sl_tail l)).

Definition enc_record (large : bool) (l : slayer) : bytes :=
  enc_rect (sl_rect l) ++ be 2 (zlen (sl_channels l)) ++
  flat_map (fun c => be 2 (fst c) ++ be (if large then 8 else 4) (zlen (enc_payload large (snd c)))) (sl_channels l) ++
  ascii "8BIM" ++ sl_blend l ++ [sl_opacity l; sl_clip l; sl_flags l; sl_filler l] ++ enc_extra large l.

Definition enc_images (large : bool) (l : slayer) : bytes :=
  flat_map (fun c => enc_payload large (snd c)) (sl_channels l).

(** The rectangle a channel refers to. *)
Definition chan_rect (l : slayer) (id : Z) : rect :=
  if id =? -2 then mk_rect (mask_of (sl_mask l))
  else if id =? -3 then mk_rrect (mask_of (sl_mask l)) else sl_rect l.

(** Number of colour channels of the modes that can have layers. *)
Definition colour_planes (mode : Z) : option Z :=
  if mode =? 1 then Some 1 else if mode =? 3 then Some 3 else if mode =? 4 then Some 4 else None.
Definition mode_depth_ok (mode depth : Z) : Prop :=
  ((mode = 1 \/ mode = 3) /\ (depth = 8 \/ depth = 16 \/ depth = 32)) \/ (mode = 4 /\ (depth = 8 \/ depth = 16)).

(** Names: UTF-16 code units with their number, then anything. *)
Definition enc_luni (rs : list Z) : bytes :=
  let us := flat_map utf16_of rs in be 4 (zlen us) ++ flat_map (be 2) us.
Definition luni_is (d : bytes) (rs : list Z) : Prop :=
  Forall is_scalar rs /\ zlen (flat_map utf16_of rs) < 4294967296 /\ exists post, d = enc_luni rs ++ post.

(** Section divider settings: type; signature and blend mode; sub type. *)
Definition divider_is (d : bytes) (typ : Z) (bm : option bytes) (sub : Z) : Prop :=
  (0 <= typ < 4294967296) /\
  ((bm = None /\ sub = 0 /\ exists t, zlen t < 8 /\ d = be 4 typ ++ t) \/
   (exists b t, bm = Some b /\ sub = 0 /\ zlen b = 4 /\ zlen t < 4 /\ d = be 4 typ ++ ascii "8BIM" ++ b ++ t) \/
   (exists b t, bm = Some b /\ 0 <= sub < 4294967296 /\ zlen b = 4 /\ d = be 4 typ ++ ascii "8BIM" ++ b ++ be 4 sub ++ t)).
Definition divider_info (bs : list iblock) : option bytes :=
  match last_info bs (ascii "lsct") with Some d => Some d | None => last_info bs (ascii "lsdk") end.

Definition slayer_valid (inflate : bytes -> Z -> option (bytes * Z)) (large : bool) (depth nch : Z) (l : slayer) : Prop :=
  rect_valid (sl_rect l) /\
  zlen (sl_channels l) < 65536 /\ NoDup (map fst (sl_channels l)) /\
  Forall (fun c => (fst c = -1 \/ fst c = -2 \/ fst c = -3 \/ 0 <= fst c < nch) /\
                   payload_valid inflate large (chan_rect l (fst c)) depth (snd c) /\
                   zlen (enc_payload large (snd c)) < if large then 9223372036854775808 else 4294967296)
         (sl_channels l) /\
  zlen (sl_blend l) = 4 /\
  smask_valid (sl_mask l) /\ zlen (sl_ranges l) < 4294967296 /\
  zlen (sl_name l) <= 255 /\ 0 <= zlen (sl_npad l) < 4 /\ (1 + zlen (sl_name l) + zlen (sl_npad l)) mod 4 = 0 /\
  Forall (iblock_valid large) (sl_info l) /\ no8 (sl_tail l) /\
  zlen (enc_extra large l) < 4294967296 /\
  match last_info (sl_info l) (ascii "luni") with
  | None | Some [] => True
  | Some d => exists rs, luni_is d rs
  end /\
  match divider_info (sl_info l) with
  | None => True
  | Some d => exists typ bm sub, divider_is d typ bm sub
  end.

(** ** What is decoded *)

Definition chan_data (l : slayer) (depth id : Z) : option bytes :=
  match find (fun c => fst c =? id) (sl_channels l) with
  | Some c => Some (payload_data depth (snd c))
  | None => None
  end.

Definition gray_kind (depth : Z) : pkind :=
  if depth =? 1 then PkGray1 else if depth =? 8 then PkGray8 else if depth =? 16 then PkGray16 else PkGray32.
Definition layer_kind (mode depth : Z) (alpha : bool) : pkind :=
  match mode, depth, alpha with
  | 1, 8, false => PkNGray8 | 1, 8, true => PkNGrayA8
  | 1, 16, false => PkNGray16 | 1, 16, true => PkNGrayA16
  | 1, _, false => PkNGray32 | 1, _, true => PkNGrayA32
  | 3, 8, false => PkNRGB8 | 3, 8, true => PkNRGBA8
  | 3, 16, false => PkNRGB16 | 3, 16, true => PkNRGBA16
  | 3, _, false => PkNRGB32 | 3, _, true => PkNRGBA32
  | _, 8, false => PkNCMYK8 | _, 8, true => PkNCMYKA8
  | _, _, false => PkNCMYK16 | _, _, true => PkNCMYKA16
  end.

(** The image: a picker over the planes of the colour channels and alpha, a
    missing colour channel being an empty plane; every channel by its id. *)
Definition image_is (mode depth nch : Z) (sl : slayer) (l : lrec) : Prop :=
  l_picker l = Some (Picker (layer_kind mode depth match chan_data sl depth (-1) with Some _ => true | None => false end)
    (sl_rect sl)
    (map (fun i => match chan_data sl depth i with Some d => d | None => [] end) (zseq (Z.to_nat nch)) ++
     match chan_data sl depth (-1) with Some d => [d] | None => [] end)) /\
  forall id, m_get Z.eqb (l_channels l) id =
    match chan_data sl depth id with
    | Some d => Some (Chan d (Picker (gray_kind depth) (chan_rect sl id) [d]))
    | None => None
    end.

Definition attributes_are (i : Z) (sl : slayer) (l : lrec) : Prop :=
  l_seq l = i /\ l_rect l = sl_rect sl /\ l_blend l = sl_blend sl /\ l_opacity l = sl_opacity sl /\
  l_clipping l = negb (sl_clip sl =? 0) /\ l_flags l = sl_flags sl /\ l_mask l = mask_of (sl_mask sl) /\
  l_mbcs l = sl_name sl /\
  (* the name *)
  match last_info (sl_info sl) (ascii "luni") with
  | None | Some [] => l_name l = sl_name sl /\ l_uname l = []
  | Some d => forall rs, luni_is d rs -> l_name l = flat_map utf8_of rs /\ l_uname l = flat_map utf8_of rs
  end /\
  (* blend clipped elements *)
  l_blendclip l = match last_info (sl_info sl) (ascii "clbl") with Some (c :: _) => negb (c =? 0) | _ => true end /\
  (* section divider setting *)
  match divider_info (sl_info sl) with
  | None => l_sdtype l = 0 /\ l_sdblend l = sl_blend sl /\ l_sdsub l = 0
  | Some d => forall typ bm sub, divider_is d typ bm sub ->
      l_sdtype l = typ /\ l_sdblend l = match bm with Some b => b | None => sl_blend sl end /\ l_sdsub l = sub
  end /\
  (* the other additional information *)
  (forall k, k <> ascii "luni" -> k <> ascii "clbl" -> k <> ascii "lsct" ->
    m_get list_eqb (l_info l) k = last_info (sl_info sl) k).

Definition layer_is (skip : bool) (mode depth nch i : Z) (sl : slayer) (l : lrec) : Prop :=
  attributes_are i sl l /\
  if skip then l_picker l = None /\ l_channels l = [] else image_is mode depth nch sl l.

Fixpoint layers_are (skip : bool) (mode depth nch i : Z) (sls : list slayer) (ls : list lrec) : Prop :=
  match sls, ls with
  | [], [] => True
  | sl :: sls, l :: ls => layer_is skip mode depth nch i sl l /\ layers_are skip mode depth nch (i + 1) sls ls
  | _, _ => False
  end.

(** ** The section *)

(** Layer info: length, number of layers (negated if [neg]), records, images,
    padding. *)
Definition enc_layer_info (large neg : bool) (sls : list slayer) (pad : bytes) : bytes :=
  let body := be 2 (if neg then - zlen sls else zlen sls) ++ flat_map (enc_record large) sls ++
              flat_map (enc_images large) sls ++ pad in
  be (if large then 8 else 4) (zlen body) ++ body.

(** Layers may be stored in place, or in a block of the additional
    information after the blocks [bs1] (files of depth 16 and 32 do so). *)
Inductive placement :=
| InPlace
| InBlock (bs1 : list iblock) (pre : bytes) (sig64 : bool) (key : bytes).
Definition placement_valid (large : bool) (pl : placement) : Prop :=
  match pl with
  | InPlace => True
  | InBlock bs1 pre _ key => Forall (iblock_valid large) bs1 /\ no8 pre /\ holds_layers key
  end.
Definition blocks_of (pl : placement) : list iblock :=
  match pl with InPlace => [] | InBlock bs1 _ _ _ => bs1 end.

Definition enc_body (large neg : bool) (pl : placement) (sls : list slayer) (pad gmask : bytes) (bs : list iblock) (tail : bytes) : bytes :=
  match pl with
  | InPlace => enc_layer_info large neg sls pad ++ enc_block gmask ++ enc_infos large bs tail
  | InBlock bs1 pre sig64 key =>
      be (if large then 8 else 4) 0 ++ enc_block gmask ++
      flat_map (enc_iblock large) bs1 ++
      (pre ++ ascii (if sig64 then "8B64" else "8BIM") ++ key ++ enc_layer_info large neg sls pad) ++
      enc_infos large bs tail
  end.
Definition enc_section (large neg : bool) (pl : placement) (sls : list slayer) (pad gmask : bytes) (bs : list iblock) (tail : bytes) : bytes :=
  let body := enc_body large neg pl sls pad gmask bs tail in
  be (if large then 8 else 4) (zlen body) ++ body.

(** Without any block the decoder accepts a short or a long tail, but in PSD
    files not one of 4 to 7 bytes. *)
Definition tail_valid (large : bool) (pl : placement) (bs : list iblock) (tail : bytes) : Prop :=
  no8 tail /\
  match pl with
  | InPlace => bs <> [] \/ zlen tail < (if large then 8 else 4) \/ 8 <= zlen tail
  | InBlock _ _ _ _ => True
  end.

Definition section_valid inflate (large neg : bool) (depth nch : Z) (pl : placement) (sls : list slayer)
  (pad gmask : bytes) (bs : list iblock) (tail : bytes) : Prop :=
  Forall (slayer_valid inflate large depth nch) sls /\ zlen sls < 32768 /\
  placement_valid large pl /\ zlen gmask < 4294967296 /\
  Forall (iblock_valid large) bs /\ tail_valid large pl bs tail /\
  zlen (enc_body large neg pl sls pad gmask bs tail) < if large then 281474976710656 else 4294967296.

(** ** Trees of layers *)

Inductive stree := SLeaf (l : slayer) | SFolder (divider folder : slayer) (content : list stree).
(** Storage order, bottom to top: divider, content, folder. *)
Fixpoint sflatten (t : stree) : list slayer :=
  match t with
  | SLeaf l => [l]
  | SFolder d f c => d :: flat_map sflatten c ++ [f]
  end.

(** The type of the section divider setting. *)
Definition has_type (l : slayer) (typ : Z) : Prop :=
  match divider_info (sl_info l) with
  | None => typ = 0
  | Some d => exists bm sub, divider_is d typ bm sub
  end.
(** Folders are open (1) or closed (2), and start with a bounding divider (3). *)
Inductive stree_valid : stree -> Prop :=
| sleaf_valid l t : has_type l t -> t <> 1 -> t <> 2 -> t <> 3 -> stree_valid (SLeaf l)
| sfolder_valid d f c t : has_type d 3 -> has_type f t -> t = 1 \/ t = 2 -> Forall stree_valid c -> stree_valid (SFolder d f c).

(** The decoded tree: [i] numbers the stored layers. *)
Inductive tree_is (skip : bool) (mode depth nch : Z) : Z -> stree -> layer -> Prop :=
| leaf_is i sl l : layer_is skip mode depth nch i sl l -> tree_is skip mode depth nch i (SLeaf sl) (Layer l [])
| folder_is i d f c l ls :
    trees_are skip mode depth nch (i + 1) c ls ->
    layer_is skip mode depth nch (i + 1 + zlen (flat_map sflatten c)) f l ->
    tree_is skip mode depth nch i (SFolder d f c) (Layer l ls)
with trees_are (skip : bool) (mode depth nch : Z) : Z -> list stree -> list layer -> Prop :=
| trees_nil i : trees_are skip mode depth nch i [] []
| trees_cons i t ts l ls : tree_is skip mode depth nch i t l ->
    trees_are skip mode depth nch (i + zlen (sflatten t)) ts ls ->
    trees_are skip mode depth nch i (t :: ts) (l :: ls).
