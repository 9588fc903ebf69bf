(** Theorems: layer records and their parts, C14 to C16, C27, C28. *)
From Coq Require Import String.
From Verif Require Import Base SUtil MRect MReader MPicker MConfig SConfig SCompress MLayer MApi STree SLayer SRecord PRecord4 XRecord.

(** ** C14 *)

(** Blocks with paddings free of the byte '8', followed by a tail, are read as
    the map of the data last written for each key; exactly they are consumed.
    [enc_infos] gives some keys 8 byte lengths in PSB files. *)
Theorem C14_additional_info :
  forall inflate kind procs cfg o bs tail rest fuel,
  Forall (iblock_valid (psb cfg)) bs -> no8 tail ->
  zlen (enc_infos (psb cfg) bs tail) < Z.of_nat fuel ->
  exists m,
    run inflate kind (readAdditional procs cfg o fuel (zlen (enc_infos (psb cfg) bs tail)) 0 [] [])
        (enc_infos (psb cfg) bs tail ++ rest) = (Ok ((m, [], zlen (enc_infos (psb cfg) bs tail)), rest), []) /\
    forall k, m_get list_eqb m k = last_info bs k.
Proof. exact additional_run. Qed.
Print Assumptions C14_additional_info.

Definition ex_blocks : list iblock :=
  [IBlock [] false (ascii "abcd") [1; 2; 3]; IBlock [0; 9] true (ascii "LMsk") [4]; IBlock [] false (ascii "abcd") [56; 5]].
Example C14_example :
  let cfg := Cfg 2 (Rct 0 0 1 1) 1 8 1 [] [] in
  Forall (iblock_valid (psb cfg)) ex_blocks /\ no8 [0; 0] /\
  last_info ex_blocks (ascii "abcd") = Some [56; 5] /\ last_info ex_blocks (ascii "LMsk") = Some [4] /\
  last_info ex_blocks (ascii "none") = None /\
  run (fun _ _ => None) Plain (readAdditional 1 cfg default_options 100 (zlen (enc_infos true ex_blocks [0; 0])) 0 [] [])
    (enc_infos true ex_blocks [0; 0] ++ [7]) =
    (Ok (([(ascii "abcd", [56; 5]); (ascii "LMsk", [4])], [], 50), [7]), []).
Proof.
  cbn zeta. split; [apply iblocks_ok; reflexivity|split; [apply no8b_ok; reflexivity|]].
  vm_compute. split; [reflexivity|split; [reflexivity|split; reflexivity]].
Qed.

(** ** C15 *)

(** A file with a valid header and the encoding of a forest of layers decodes
    to that forest, with the attributes, additional information and (unless
    skipped) the channel images of every layer, in order; the count is the
    length of the encoding. The merged image is skipped; its bytes are [rest].
    Layers are stored in place or in a block of the additional information. *)
Theorem C15_layers_roundtrip :
  forall inflate kind procs o h rsv cmd res nch neg pl sf pad gmask bs tail rest, (1 <= procs)%nat ->
  header_valid h -> zlen rsv = 6 -> zlen cmd < 4294967296 ->
  Forall rblock_valid res -> zlen (enc_rblocks res) < 4294967296 ->
  mode_depth_ok (h_mode h) (h_depth h) -> colour_planes (h_mode h) = Some nch ->
  o_skip_merged o = true -> (forall c, o_config_loaded o c = false) ->
  let large := h_version h =? 2 in
  section_valid inflate large neg (h_depth h) nch pl (flat_map sflatten sf) pad gmask bs tail ->
  Forall stree_valid sf ->
  let enc := enc_config h rsv cmd res ++ enc_section large neg pl (flat_map sflatten sf) pad gmask bs tail in
  exists f evs, Decode inflate kind procs o (enc ++ rest) = (Ok (f, zlen enc, rest), evs) /\
    DecodeConfig inflate kind (enc ++ rest) =
      Ok (f_config f, zlen (enc_config h rsv cmd res), enc_section large neg pl (flat_map sflatten sf) pad gmask bs tail ++ rest) /\
    trees_are (o_skip_layer o) (h_mode h) (h_depth h) nch 0 sf (f_layer f) /\
    (forall k, m_get list_eqb (f_info f) k = last_info (blocks_of pl ++ bs) k) /\
    f_data f = [] /\ f_picker f = None /\ f_channel f = [].
Proof. exact decode_layers_config. Qed.
Print Assumptions C15_layers_roundtrip.

(** Two files of 2x2 grey pixels: a folder "AB" with a masked, RLE compressed
    layer and, above it, a raw layer with alpha. *)
Definition ex_base (rc : rect) (chs : list (Z * payload)) (m : smask) (nm npad : bytes) (inf : list iblock) : slayer :=
  SLayer rc chs (ascii "norm") 200 1 8 0 m [] nm npad inf [].
Definition ex_divider : slayer :=
  ex_base ZR [] SNone [] [0; 0; 0] [IBlock [] false (ascii "lsct") (be 4 3)].
Definition ex_folder : slayer :=
  ex_base ZR [] SNone [65] [0; 0]
    [IBlock [] false (ascii "luni") (enc_luni [65; 128512]);
     IBlock [] false (ascii "lsct") (be 4 1 ++ ascii "8BIM" ++ ascii "pass")].
Definition ex_masked : slayer :=
  ex_base (Rct (-1) 0 2 2) [(0, PRle [[Rep 3 7]; [Lit [1; 2]; Nop; Lit [3]]]); (-2, PRaw [9; 9])]
    (SLong (Rct 0 0 2 1) 255 16 (Some (SParams 0 (Some 100) None None (Some 4611686018427387904))) 1 0 (Rct 0 0 1 1))
    [66] [0; 0] [IBlock [] false (ascii "clbl") [0; 0; 0; 0]; IBlock [] false (ascii "tsly") [1]].
Definition ex_alpha : slayer :=
  ex_base (Rct 0 0 1 2) [(-1, PRaw [255; 0]); (0, PRaw [5; 6])] SNone [67] [0; 0] [].
Definition ex_forest : list stree := [SFolder ex_divider ex_folder [SLeaf ex_masked]; SLeaf ex_alpha].
Definition ex_places : list placement := [InPlace; InBlock [IBlock [] false (ascii "Patt") []] [0] false (ascii "Lr16")].
Definition ex_header : header := Header 1 1 2 2 8 1.

Example C15_example :
  header_valid ex_header /\ mode_depth_ok 1 8 /\ colour_planes 1 = Some 1 /\ Forall stree_valid ex_forest /\
  Forall (fun pl => section_valid (fun _ _ => None) false true 8 1 pl (flat_map sflatten ex_forest) [0] [1; 2] [] [0; 0]) ex_places /\
  Forall (fun pl =>
    match Decode (fun _ _ => None) Plain 1 (Opts false true (fun _ => false))
        (enc_config ex_header (repeat 0 6%nat) [] [] ++
         enc_section false true pl (flat_map sflatten ex_forest) [0] [1; 2] [] [0; 0] ++ [42]) with
    | (Ok (f, _, rest), _) => rest = [42] /\
        map (fun l => match l with Layer r c => (l_name r, map (fun l => match l with Layer r _ => (l_name r, l_blendclip r, map snd (map (fun c => (fst c, ch_data (snd c))) (l_channels r))) end) c) end) (f_layer f) =
        [([65; 240; 159; 152; 128], [([66], false, [[9; 9]; [7; 7; 7; 1; 2; 3]])]); ([67], [])]
    | _ => False
    end) ex_places.
Proof.
  assert (V : Forall (slayer_valid (fun _ _ => None) false 8 1) (flat_map sflatten ex_forest)).
  { change (flat_map sflatten ex_forest) with [ex_divider; ex_masked; ex_folder; ex_alpha].
    apply Forall_cons; [|apply Forall_cons; [|apply Forall_cons; [|apply Forall_cons; [|constructor]]]].
    - apply slayer_check; [reflexivity|exact I|]. exists 3, None, 0. split; [lia|]. left. split; [reflexivity|]. split; [reflexivity|].
      exists []. split; reflexivity.
    - apply slayer_check; [vm_compute; reflexivity|exact I|exact I].
    - apply slayer_check; [vm_compute; reflexivity| |].
      + exists [65; 128512]. split; [apply Forall_cons; [left; lia|apply Forall_cons; [right; lia|constructor]]|]. split; [reflexivity|].
        exists []. reflexivity.
      + exists 1, (Some (ascii "pass")), 0. split; [lia|]. right. left. exists (ascii "pass"), []. split; [reflexivity|].
        split; [reflexivity|]. split; [reflexivity|]. split; reflexivity.
    - apply slayer_check; [vm_compute; reflexivity|exact I|exact I]. }
  split; [unfold header_valid, dim_limit; cbn; lia|]. split; [left; split; [left; reflexivity|left; reflexivity]|]. split; [reflexivity|]. split.
  { apply Forall_cons; [|apply Forall_cons; [|constructor]].
    - apply (sfolder_valid _ _ _ 1); [|  |left; reflexivity|].
      + exists None, 0. split; [lia|]. left. split; [reflexivity|]. split; [reflexivity|]. exists []. split; reflexivity.
      + exists (Some (ascii "pass")), 0. split; [lia|]. right. left. exists (ascii "pass"), []. split; [reflexivity|].
        split; [reflexivity|]. split; [reflexivity|]. split; reflexivity.
      + apply Forall_cons; [|constructor]. apply (sleaf_valid _ 0); [reflexivity|lia|lia|lia].
    - apply (sleaf_valid _ 0); [reflexivity|lia|lia|lia]. }
  split.
  - apply Forall_cons; [|apply Forall_cons; [|constructor]].
    + split; [exact V|]. split; [reflexivity|]. split; [exact I|]. split; [reflexivity|]. split; [constructor|].
      split; [split; [apply no8b_ok; reflexivity|right; left; reflexivity]|]. vm_compute. reflexivity.
    + split; [exact V|]. split; [reflexivity|]. split; [split; [apply iblocks_ok; reflexivity|split; [apply no8b_ok; reflexivity|right; left; reflexivity]]|].
      split; [reflexivity|]. split; [constructor|].
      split; [split; [apply no8b_ok; reflexivity|exact I]|]. vm_compute. reflexivity.
  - apply Forall_cons; [vm_compute; split; reflexivity|]. apply Forall_cons; [vm_compute; split; reflexivity|constructor].
Qed.

(** ** C15 and C16: one record *)

(** Also for modes whose images are not supported, the record of a layer is
    read as its attributes (among them the name, C16: [attributes_are]) and the
    ids and lengths of its channels. *)
Theorem C15_record_roundtrip :
  forall inflate kind procs cfg o depth nch sl i rest fuel, nch <= 32768 ->
  slayer_valid inflate (psb cfg) depth nch sl ->
  zlen (enc_record (psb cfg) sl) < Z.of_nat fuel ->
  exists l cds,
    run inflate kind (read_record cfg (fun n => readAdditional procs cfg o fuel n 0 [] []) i)
        (enc_record (psb cfg) sl ++ rest) = (Ok ((l, cds, zlen (enc_record (psb cfg) sl)), rest), []) /\
    attributes_are i sl l /\
    map (fun c => (cd_index c, cd_len c)) cds = map (fun c => (fst c, zlen (enc_payload (psb cfg) (snd c)))) (sl_channels sl).
Proof. exact record_run. Qed.
Print Assumptions C15_record_roundtrip.

(** The name of a decoded layer. *)
Theorem C16_layer_name :
  forall inflate kind procs cfg o depth nch sl i rest fuel, nch <= 32768 ->
  slayer_valid inflate (psb cfg) depth nch sl ->
  zlen (enc_record (psb cfg) sl) < Z.of_nat fuel ->
  exists l cds,
    run inflate kind (read_record cfg (fun n => readAdditional procs cfg o fuel n 0 [] []) i)
        (enc_record (psb cfg) sl ++ rest) = (Ok ((l, cds, zlen (enc_record (psb cfg) sl)), rest), []) /\
    (forall rs, last_info (sl_info sl) (ascii "luni") = Some (enc_luni rs) -> Forall is_scalar rs ->
       l_name l = flat_map utf8_of rs) /\
    (last_info (sl_info sl) (ascii "luni") = None -> l_name l = sl_name sl).
Proof. exact record_name. Qed.
Print Assumptions C16_layer_name.

Example C16_layer_name_example :
  slayer_valid (fun _ _ => None) false 8 1 ex_folder /\
  last_info (sl_info ex_folder) (ascii "luni") = Some (enc_luni [65; 128512]) /\
  Forall is_scalar [65; 128512] /\ flat_map utf8_of [65; 128512] = [65; 240; 159; 152; 128].
Proof.
  split; [|split; [reflexivity|split; [|reflexivity]]].
  - apply slayer_check; [vm_compute; reflexivity| |].
    + exists [65; 128512]. split; [apply Forall_cons; [left; lia|apply Forall_cons; [right; lia|constructor]]|]. split; [reflexivity|].
      exists []. reflexivity.
    + exists 1, (Some (ascii "pass")), 0. split; [lia|]. right. left. exists (ascii "pass"), []. split; [reflexivity|].
      split; [reflexivity|]. split; [reflexivity|]. split; reflexivity.
  - apply Forall_cons; [left; lia|apply Forall_cons; [right; lia|constructor]].
Qed.

(** ** C27 *)

(** Every mask record (none, length 20, or length 36 and more with any of the
    four optional parameters) is read field by field and consumed exactly. *)
Theorem C27_mask_roundtrip :
  forall inflate kind m rest, smask_valid m ->
  run inflate kind readLayerMask (enc_mask m ++ rest) = (Ok ((mask_of m, zlen (enc_mask m)), rest), []).
Proof. exact mask_run. Qed.
Print Assumptions C27_mask_roundtrip.

Example C27_example :
  smask_valid (sl_mask ex_masked) /\ zlen (enc_mask (sl_mask ex_masked)) = 50 /\
  mask_of (sl_mask ex_masked) = Mask (Rct 0 0 2 1) 255 16 (Rct 0 0 1 1) 0 1 100 0 255 4611686018427387904 /\
  smask_valid (SShort (Rct (-5) 3 2 4) 0 16 (Some (SParams 7 (Some 1) None None None)) []).
Proof.
  split; [apply smask_validb_ok; reflexivity|]. split; [reflexivity|]. split; [reflexivity|]. apply smask_validb_ok. reflexivity.
Qed.

(** ** C28 *)

(** False: the rectangle of the real user mask is read as unsigned, so that one
    with negative coordinates becomes a different, huge rectangle; the ordinary
    mask rectangle with the same coordinates is read correctly. *)
Theorem C28_real_rect_refuted :
  forall inflate, exists r rr : rect, rect_valid r /\ rect_valid rr /\
  forall kind, exists m n,
    run inflate kind readLayerMask (enc_mask (SLong r 255 0 None 0 255 rr)) = (Ok ((m, n), []), []) /\
    mk_rect m = r /\ mk_rrect m <> rr /\ mk_rrect m = Rct 1 1 4294967295 4294967295.
Proof. exact mask_sign_lost. Qed.
Print Assumptions C28_real_rect_refuted.
