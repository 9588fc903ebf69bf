(** Theorems: the whole decoder, C17, C18, C20, C22 to C24. *)
From Verif Require Import Base SUtil MRect MReader MPicker MConfig SConfig MLayer MApi STree SLayer PLayer PDecode PFwd.

(** ** Concrete files for the examples *)

Definition no_zlib : bytes -> Z -> option (bytes * Z) := fun _ _ => None.

(** A file of version [v], [c] channels, [w] times [h], depth [d], mode [m],
    with the layer section [sec] (without length) and merged image data [im]. *)
Definition ex_psd (c w h d m : Z) (sec im : bytes) : bytes :=
  enc_config (Header 1 c w h d m) (repeat 0 6%nat) [] [] ++ enc_block sec ++ be 2 0 ++ im.

(** A layer record without name, mask and additional information; the
    rectangle is top, left, bottom, right; channels are id and length. *)
Definition ex_rec (t l b r : Z) (chs : list (Z * Z)) : bytes :=
  be 4 t ++ be 4 l ++ be 4 b ++ be 4 r ++ be 2 (zlen chs) ++
  flat_map (fun '(i, n) => be 2 i ++ be 4 n) chs ++
  [56;66;73;77; 110;111;114;109; 255; 0; 0; 0] ++ be 4 0.

(** One grey layer of 2x1 pixels with alpha, at (3,-1). *)
Definition ex_layer_info (k : Z) : bytes :=
  enc_block (be 2 2 ++ ex_rec (-1) 3 0 5 [(0, 4); (-1, 4)] ++ ex_rec 0 0 1 1 [(0, 3)] ++
             be 2 0 ++ [k; 2] ++ be 2 0 ++ [3; 4] ++ be 2 0 ++ [7] ++ [0]).

(** An ordinary file with two layers, and one with two layer blocks in the
    additional information. *)
Definition ex_two_layers : bytes :=
  ex_psd 1 2 2 8 1 (ex_layer_info 1 ++ be 4 0 ++ [56;66;73;77; 97;98;99;100] ++ be 4 2 ++ [1; 2]) [9; 8; 7; 6].
Definition ex_two_sections : bytes :=
  ex_psd 1 2 2 8 1
    (be 4 0 ++ be 4 0 ++ [56;66;73;77; 76;97;121;114] ++ ex_layer_info 1 ++
     [56;66;73;77; 76;114;49;54] ++ ex_layer_info 2) [9; 8; 7; 6].
(** A global mask block that is longer than the section. *)
Definition ex_back : bytes :=
  ex_psd 1 2 2 8 1 (be 4 0 ++ be 4 10) [9; 8; 7; 6; 5; 4; 3; 2; 1; 0; 0; 0].
Definition ex_opts : options := default_options.
Definition ex_skip : options := Opts true false (fun _ => false).

Lemma bytes_okb s : forallb (fun b => (0 <=? b) && (b <? 256)) s = true -> bytes_ok s.
Proof.
  intros H. apply Forall_forall. intros x Hx. rewrite forallb_forall in H. specialize (H x Hx).
  unfold is_byte. lia.
Qed.

(** ** C17 *)

(** On every non-seekable reader a successful read of the layer section takes
    the length field and exactly the number of bytes it declares. *)
Theorem C17_section_exact :
  forall inflate kind procs cfg o s tree info c rest evs, bytes_ok s ->
  run inflate kind (readLayerAndMaskInfo procs cfg o (fuel_for s)) s = (Ok ((tree, info, c), rest), evs) ->
  exists lenfield body, s = lenfield ++ body ++ rest /\ zlen lenfield = (if psb cfg then 8 else 4) /\
    zlen body = be_value lenfield 0 /\ c = zlen lenfield + zlen body.
Proof. exact section_exact. Qed.
Print Assumptions C17_section_exact.

Example C17_example :
  let cfg := Cfg 1 (Rct 0 0 2 2) 1 8 1 [] [] in
  let s := skipn 34 ex_two_layers in
  bytes_ok s /\
  match run no_zlib Plain (readLayerAndMaskInfo 2 cfg ex_opts (fuel_for s)) s with
  | (Ok ((tree, info, c), rest), evs) =>
      zlen tree = 2 /\ info = [([97;98;99;100], [1; 2])] /\ c = zlen s - 6 /\ rest = [0; 0; 9; 8; 7; 6] /\ zlen evs = 2
  | _ => False
  end.
Proof. split; [apply bytes_okb|]; vm_compute; repeat split; reflexivity. Qed.

(** ** C18 *)

Theorem C18_decode_count :
  forall inflate kind procs o s f n rest evs, bytes_ok s ->
  Decode inflate kind procs o s = (Ok (f, n, rest), evs) ->
  exists taken, s = taken ++ rest /\ zlen taken = n.
Proof. exact decode_count. Qed.
Print Assumptions C18_decode_count.

Example C18_example :
  let s := ex_two_layers ++ [1; 2; 3] in
  bytes_ok s /\
  match Decode no_zlib Plain 4 ex_opts s with
  | (Ok (f, n, rest), evs) => n = 166 /\ rest = [1; 2; 3] /\ f_data f = [9; 8; 7; 6]
  | _ => False
  end /\
  match Decode no_zlib Plain 4 (Opts false true (fun _ => false)) s with
  | (Ok (f, n, rest), evs) => n = 160 /\ rest = [0; 0; 9; 8; 7; 6; 1; 2; 3]
  | _ => False
  end.
Proof. split; [apply bytes_okb|]; vm_compute; repeat split; reflexivity. Qed.

(** ** C20 *)

(** The property is false: a file that is rejected by a plain reader and
    accepted by a seekable one, after seeking backwards. *)
Theorem C20_seek_refuted :
  exists s f n pos, bytes_ok s /\
  Decode no_zlib Plain 1 default_options s = (Err ESizeMismatch, []) /\
  Decode_seek no_zlib 1 default_options s = (Ok (f, n, pos), []) /\
  Exists (fun d => d < 0) (seeks no_zlib (decode_prog (fuel_for s) 1 default_options) s 0).
Proof.
  exists ex_back. eexists. eexists. eexists. split; [apply bytes_okb; vm_compute; reflexivity|].
  split; [vm_compute; reflexivity|]. split; [vm_compute; reflexivity|].
  assert (seeks no_zlib (decode_prog (fuel_for ex_back) 1 default_options) ex_back 0 = [10; -10]) as -> by (vm_compute; reflexivity).
  right. left. lia.
Qed.
Print Assumptions C20_seek_refuted.

(** What holds: a file that a plain reader accepts gives the same result, the
    same count and the same callbacks on readers that discard and on seekable
    readers, which end at the count and never move backwards. *)
Theorem C20_readers_agree :
  forall inflate procs o s f n rest evs, bytes_ok s -> zlen s < 9223372036854775808 ->
  Decode inflate Plain procs o s = (Ok (f, n, rest), evs) ->
  Decode inflate Discarder procs o s = (Ok (f, n, rest), evs) /\
  Decode_seek inflate procs o s = (Ok (f, n, n), evs).
Proof. exact decode_readers. Qed.
Print Assumptions C20_readers_agree.

Theorem C20_forward :
  forall inflate procs o s f n rest evs, bytes_ok s -> zlen s < 9223372036854775808 ->
  Decode inflate Plain procs o s = (Ok (f, n, rest), evs) ->
  Forall (fun d => 0 <= d) (seeks inflate (decode_prog (fuel_for s) procs o) s 0).
Proof. exact decode_seeks. Qed.
Print Assumptions C20_forward.

Example C20_example :
  bytes_ok ex_two_layers /\
  match Decode no_zlib Plain 1 ex_skip ex_two_layers, Decode_seek no_zlib 1 ex_skip ex_two_layers with
  | (Ok (f, n, rest), _), (Ok (f', n', pos), _) => f = f' /\ n = 166 /\ n' = 166 /\ pos = 166 /\ zlen (f_layer f) = 2
  | _, _ => False
  end /\
  seeks no_zlib (decode_prog (fuel_for ex_two_layers) 1 ex_skip) ex_two_layers 0 = [12].
Proof. split; [apply bytes_okb|]; vm_compute; repeat split; reflexivity. Qed.

(** ** C22 *)

(** The callbacks of a successful decode are those of the layer sections of
    the file: per section one for each record, in order, with its index and the
    number of records, showing the layer with its image; none with
    SkipLayerImage. The layer tree is built from exactly these records. *)
Theorem C22_callbacks :
  forall inflate kind procs o s f n rest evs, bytes_ok s ->
  Decode inflate kind procs o s = (Ok (f, n, rest), evs) ->
  exists secs, Forall (section_ok (o_skip_layer o)) secs /\
    buildTree (concat secs) = Ok (f_layer f) /\
    evs = flat_map (section_events (o_skip_layer o)) secs.
Proof. exact decode_callbacks. Qed.
Print Assumptions C22_callbacks.

Example C22_example :
  bytes_ok ex_two_sections /\
  match Decode no_zlib Plain 1 ex_opts ex_two_sections with
  | (Ok (f, n, rest), evs) =>
      map (fun e => (ev_index e, ev_total e)) evs = [(0, 2); (1, 2); (0, 2); (1, 2)] /\
      map ev_layer evs = map lay_rec (f_layer f)
  | _ => False
  end /\
  match Decode no_zlib Plain 1 ex_skip ex_two_sections with
  | (Ok (f, n, rest), evs) => evs = [] /\ zlen (f_layer f) = 4
  | _ => False
  end.
Proof. split; [apply bytes_okb|]; vm_compute; repeat split; reflexivity. Qed.

(** ** C23 *)

(** The property is false: a file with two layer blocks. *)
Theorem C23_seqids_refuted :
  exists s f n rest evs, bytes_ok s /\
  Decode no_zlib Plain 1 default_options s = (Ok (f, n, rest), evs) /\
  ~ NoDup (map l_seq (flat_map records (f_layer f))).
Proof.
  exists ex_two_sections. eexists. eexists. eexists. eexists.
  split; [apply bytes_okb; vm_compute; reflexivity|]. split; [vm_compute; reflexivity|].
  match goal with |- ~ NoDup ?l => let v := eval vm_compute in l in change l with v end.
  intros H. inversion_clear H. apply H0. cbn. tauto.
Qed.
Print Assumptions C23_seqids_refuted.

(** What holds: files with one non-empty layer section, that is with at most
    one callback of index 0. *)
Theorem C23_seqids_one_section :
  forall inflate kind procs o s f n rest evs, bytes_ok s -> o_skip_layer o = false ->
  Decode inflate kind procs o s = (Ok (f, n, rest), evs) ->
  zlen (filter (fun e => ev_index e =? 0) evs) <= 1 ->
  NoDup (map l_seq (flat_map records (f_layer f))).
Proof. exact decode_seqids. Qed.
Print Assumptions C23_seqids_one_section.

Example C23_example :
  bytes_ok ex_two_layers /\
  match Decode no_zlib Plain 1 default_options ex_two_layers with
  | (Ok (f, n, rest), evs) =>
      zlen (filter (fun e => ev_index e =? 0) evs) = 1 /\ map l_seq (flat_map records (f_layer f)) = [0; 1]
  | _ => False
  end.
Proof. split; [apply bytes_okb|]; vm_compute; repeat split; reflexivity. Qed.

(** ** C24 *)

(** The property is false. Files that panic, by (1) a layer of an indexed
    image, for which there is no picker, (2) a channel id beyond the channels
    of the colour mode, (3) an RGB image with two channels, (4) a layer of a
    CMYK image of depth 32, (5) a layer rectangle of negative allocation size,
    (6) a section divider setting of two bytes, (7) alpha identifiers of two
    bytes, (8) a colour table of three bytes, (9) a transparency index of one
    byte, (10) a unicode name of two bytes, (11) one shorter than its length. *)
Definition ex_with_block (key d : bytes) : bytes :=
  let extra := be 4 0 ++ be 4 0 ++ [0; 0; 0; 0] ++ [56;66;73;77] ++ key ++ enc_block d in
  ex_psd 1 2 2 8 1
    (enc_block (be 2 1 ++ be 4 0 ++ be 4 0 ++ be 4 0 ++ be 4 0 ++ be 2 0 ++
      [56;66;73;77; 110;111;114;109; 255; 0; 0; 0] ++ enc_block extra)) [9; 8; 7; 6].
Definition ex_panics : list bytes :=
  [ ex_psd 1 2 2 8 2 (enc_block (be 2 1 ++ ex_rec 0 0 1 1 [])) [1; 2; 3; 4];
    ex_psd 1 2 2 8 1 (enc_block (be 2 1 ++ ex_rec 0 0 1 1 [(1, 3)] ++ be 2 0 ++ [7])) [1; 2; 3; 4];
    ex_psd 2 1 1 8 3 [] [1; 2];
    ex_psd 4 1 1 32 4 (enc_block (be 2 1 ++ ex_rec 0 0 1 1 [])) (repeat 0 16%nat);
    ex_psd 1 2 2 8 1 (enc_block (be 2 1 ++ ex_rec (-2147483648) (-2147483648) 2147483647 2147483647 [(0, 2)] ++ be 2 0)) [1; 2; 3; 4];
    ex_with_block [108;115;99;116] [0; 0];
    enc_config (Header 1 4 1 1 8 3) (repeat 0 6%nat) [] [RBlock sig_8BIM 1053 [] 0 [1; 2] 0] ++ enc_block [] ++ be 2 0 ++ [1; 2; 3; 4];
    enc_config (Header 1 1 1 1 8 2) (repeat 0 6%nat) [1; 2; 3] [] ++ enc_block [] ++ be 2 0 ++ [1];
    enc_config (Header 1 1 1 1 8 2) (repeat 0 6%nat) (repeat 0 768%nat) [RBlock sig_8BIM 1047 [] 0 [1] 0] ++ enc_block [] ++ be 2 0 ++ [1];
    ex_with_block [108;117;110;105] [0; 0];
    ex_with_block [108;117;110;105] [0; 0; 0; 9; 1; 2] ].

Theorem C24_panic_refuted :
  exists l, Forall (fun s => bytes_ok s /\
    fst (Decode no_zlib Plain 1 default_options s) = Panic) l /\ zlen l = 11.
Proof.
  exists ex_panics. split; [|reflexivity].
  unfold ex_panics.
  repeat (apply Forall_cons; [split; [apply bytes_okb|]; vm_compute; reflexivity|]). apply Forall_nil.
Qed.
Print Assumptions C24_panic_refuted.

(** What holds of every input: decoding terminates, that is the loops of the
    decoder always make progress. *)
Theorem C24_terminates :
  forall inflate kind procs o s, bytes_ok s -> fst (Decode inflate kind procs o s) <> NoFuel.
Proof. exact decode_terminates. Qed.
Print Assumptions C24_terminates.

Example C24_example :
  fst (Decode no_zlib Plain 1 ex_skip (ex_with_block [108;115;99;116] [0; 0; 0; 0])) <> Panic /\
  fst (Decode no_zlib Plain 1 ex_skip (firstn 107 (ex_with_block [108;115;99;116] [0; 0; 0; 0]))) = Err EUnexpectedEof.
Proof. split; [vm_compute; discriminate|vm_compute; reflexivity]. Qed.
