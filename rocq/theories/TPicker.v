(** Theorems: pixel pickers and the hooks of package image, C25 and C26. *)
From Verif Require Import Base SUtil MRect MReader MPicker MConfig SConfig MLayer MApi SPicker PPicker SSkip TDecode.

(** ** C25 *)

(** Whatever the samples of the channels are, [At] of the picker for a depth
    and mode returns the colour made of the samples of that point. *)
Theorem C25_pixels depth mode (alpha : bool) k r fs pk x y : findPicker depth mode alpha = Some k ->
  Forall (samples_ok depth) fs -> setSource k r (map (enc_plane depth (rdx r) (rdy r)) fs) = Some pk ->
  pt_in (Pt x y) r = true ->
  let at_ := fun f : Z -> Z -> Z => f (x - rx0 r) (y - ry0 r) in
  let n := Z.to_nat (if mode =? 3 then 3 else if mode =? 4 then 4 else 1) in
  exists c, picker_at pk x y = Some c /\
    pixel_colour depth mode (map at_ (firstn n fs)) (if alpha then at_ (nth n fs (fun _ _ => 0)) else opaque depth) = Some c.
Proof. exact (picker_samples depth mode alpha k r fs pk x y). Qed.
Print Assumptions C25_pixels.

(** The same for the pickers of single channels, at all depths. *)
Theorem C25_channels depth k r f fs pk x y : findGrayPicker depth = Some k ->
  samples_ok depth f -> setSource k r (enc_plane depth (rdx r) (rdy r) f :: fs) = Some pk ->
  pt_in (Pt x y) r = true ->
  picker_at pk x y = Some (channel_colour depth (f (x - rx0 r) (y - ry0 r))).
Proof. exact (channel_samples depth k r f fs pk x y). Qed.
Print Assumptions C25_channels.

(** And for indexed colours. *)
Theorem C25_palette pal r f pk fs x y : samples_ok 8 f ->
  setSource (PkPalette pal) r (enc_plane 8 (rdx r) (rdy r) f :: fs) = Some pk -> pt_in (Pt x y) r = true ->
  picker_at pk x y = idx pal (f (x - rx0 r) (y - ry0 r)).
Proof. exact (palette_samples pal r f pk fs x y). Qed.
Print Assumptions C25_palette.

(** No picker indexes outside planes of the size the decoder allocates. *)
Theorem C25_in_bounds depth (ps : list bytes) r k x y :
  (depth = 8 \/ depth = 16 \/ depth = 32) -> pt_in (Pt x y) r = true ->
  (exists mode a, findPicker depth mode a = Some k) \/ findGrayPicker depth = Some k ->
  planes k = zlen ps -> Forall (fun p => zlen p = plane_size depth r) ps ->
  exists c, picker_at (Picker k r ps) x y = Some c.
Proof. exact (picker_total_at depth ps r k x y). Qed.
Print Assumptions C25_in_bounds.

(** [At] of the merged image of any decoded file never panics inside the
    rectangle; an indexed file needs 256 colours and 8 bits per sample. *)
Theorem C25_merged inflate kind procs o s f n rest evs x y : bytes_ok s -> o_skip_merged o = false ->
  Decode inflate kind procs o s = (Ok (f, n, rest), evs) ->
  (cfg_mode (f_config f) = 2 -> cfg_depth (f_config f) <> 1 /\ bytes_ok (f_data f) /\
     exists pal, palette (f_config f) = Some pal /\ 256 <= zlen pal) ->
  pt_in (Pt x y) (cfg_rect (f_config f)) = true ->
  exists pk c, f_picker f = Some pk /\ picker_at pk x y = Some c.
Proof. exact (decode_at inflate kind procs o s f n rest evs x y). Qed.
Print Assumptions C25_merged.

Example C25_pixels_example :
  let r := Rct (-2) 5 1 7 in
  let fs := [fun x y => x + 10 * y; fun x y => x * y; fun x y => 65535 - x; fun _ _ => 7] in
  findPicker 16 3 true = Some PkNRGBA16 /\ pt_in (Pt 0 6) r = true /\
  match setSource PkNRGBA16 r (map (enc_plane 16 (rdx r) (rdy r)) fs) with
  | Some pk => picker_at pk 0 6 = Some (CNRGBA64 12 2 65533 7)
  | None => False
  end.
Proof. vm_compute. repeat split. Qed.
Example C25_channels_example :
  let r := Rct 10 0 21 3 in
  let f := fun x y => (x + y) mod 2 in
  enc_plane 1 11 3 f = [85; 85; 170; 170; 85; 85] /\ pt_in (Pt 20 2) r = true /\
  match setSource PkGray1 r [enc_plane 1 11 3 f] with
  | Some pk => picker_at pk 20 2 = Some (CGray1 true) /\ picker_at pk 19 2 = Some (CGray1 false)
  | None => False
  end.
Proof. vm_compute. repeat split. Qed.
Lemma ex_mod2 : samples_ok 1 (fun x y => (x + y) mod 2).
Proof. intros x y. change (2 ^ 1) with 2. lia. Qed.
Example C25_merged_example :
  match Decode no_zlib Plain 1 default_options ex_two_layers with
  | (Ok (f, _, _), _) =>
      cfg_mode (f_config f) = 1 /\ pt_in (Pt 1 1) (cfg_rect (f_config f)) = true /\
      match f_picker f with Some pk => picker_at pk 1 1 = Some (CNGrayA 6 255) | None => False end
  | _ => False
  end.
Proof. vm_compute. repeat split. Qed.

(** The conditions are needed. An indexed file of one bit per sample decodes,
    but [At] panics at a point of its image; and so does [At] of a layer that
    lacks a channel of its mode. *)
Definition ex_indexed1 : bytes :=
  enc_config (Header 1 1 9 1 1 2) (repeat 0 6%nat) (repeat 7 768%nat) [] ++ be 4 0 ++ be 2 0 ++ [255; 128].
Definition ex_no_blue : bytes :=
  ex_psd 3 1 1 8 3 (enc_block (be 2 1 ++ ex_rec 0 0 1 1 [(0, 3); (1, 3)] ++ be 2 0 ++ [5] ++ be 2 0 ++ [6]) ++ be 4 0) [1; 2; 3].
Theorem C25_panic_refuted :
  (exists s f n pk, bytes_ok s /\ Decode no_zlib Plain 1 default_options s = (Ok (f, n, []), []) /\
     f_picker f = Some pk /\ pt_in (Pt 8 0) (pk_rect pk) = true /\ picker_at pk 8 0 = None) /\
  (exists s f n evs r pk, bytes_ok s /\ Decode no_zlib Plain 1 default_options s = (Ok (f, n, []), evs) /\
     f_layer f = [Layer r []] /\ l_picker r = Some pk /\ pt_in (Pt 0 0) (pk_rect pk) = true /\ picker_at pk 0 0 = None).
Proof.
  split.
  - exists ex_indexed1. eexists. eexists. eexists. split; [apply bytes_okb; vm_compute; reflexivity|].
    split; [vm_compute; reflexivity|]. split; [reflexivity|]. split; reflexivity.
  - exists ex_no_blue. eexists. eexists. eexists. eexists. eexists. split; [apply bytes_okb; vm_compute; reflexivity|].
    split; [vm_compute; reflexivity|]. split; [reflexivity|]. split; [reflexivity|]. split; reflexivity.
Qed.
Print Assumptions C25_panic_refuted.

(** ** C26 *)

(** Whenever the image.Decode hook succeeds it returns an image, and the
    image.DecodeConfig hook succeeds with the same width, height and colour
    model. *)
Theorem C26_hooks_agree inflate kind procs s p rest : bytes_ok s ->
  image_Decode inflate kind procs s = Ok (p, rest) ->
  exists pk rest', p = Some pk /\
    image_DecodeConfig inflate kind s = Ok (rdx (pk_rect pk), rdy (pk_rect pk), colorModel (pk_kind pk), rest').
Proof. exact (hooks_agree_some inflate kind procs s p rest). Qed.
Print Assumptions C26_hooks_agree.

Example C26_example :
  match image_Decode no_zlib Discarder 2 ex_two_layers with
  | Ok (Some pk, rest) => rest = [] /\ colorModel (pk_kind pk) = MdNGrayA
  | _ => False
  end /\
  match image_DecodeConfig no_zlib Discarder ex_two_layers with
  | Ok (2, 2, MdNGrayA, rest) => zlen rest = 132
  | _ => False
  end.
Proof. vm_compute. repeat split. Qed.
