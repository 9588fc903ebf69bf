(** Theorems: C84, the panics of Decode are exactly those that the checks of
    SGuard prevent. *)
From Verif Require Import Base SUtil MRect MReader MPicker MConfig SConfig MCompress MLayer MApi SGuard PGuard2 PGuard4 PGuard5 TDecode.

(** Decode panics on a file if and only if one of the checks refuses it, after
    the same callbacks; the decoder with the checks never panics; and it does
    on every other file what Decode does. *)
Theorem C84_checks :
  forall inflate kind procs o s, (1 <= procs)%nat -> bytes_ok s ->
  let d := Decode inflate kind procs o s in let g := Guarded inflate kind procs o s in
  (fst d = Panic <-> exists c, fst g = Err (EGuard c)) /\ fst g <> Panic /\ snd g = snd d /\ (fst d <> Panic -> g = d).
Proof. exact checks_run. Qed.
Print Assumptions C84_checks.

Theorem C84_checks_seek :
  forall inflate procs o s, (1 <= procs)%nat -> bytes_ok s ->
  let d := Decode_seek inflate procs o s in let g := Guarded_seek inflate procs o s in
  (fst d = Panic <-> exists c, fst g = Err (EGuard c)) /\ fst g <> Panic /\ snd g = snd d /\ (fst d <> Panic -> g = d).
Proof. exact checks_seek. Qed.
Print Assumptions C84_checks_seek.

Theorem C84_checks_chunks :
  forall inflate eager procs o cs, (1 <= procs)%nat -> Forall bytes_ok cs ->
  let d := Decode_chunks inflate eager procs o cs in let g := Guarded_chunks inflate eager procs o cs in
  (fst d = Panic <-> exists c, fst g = Err (EGuard c)) /\ fst g <> Panic /\ snd g = snd d /\ (fst d <> Panic -> g = d).
Proof. exact checks_chunks. Qed.
Print Assumptions C84_checks_chunks.

(** The hooks of package image. *)
Theorem C84_checks_image :
  forall inflate kind procs s, (1 <= procs)%nat -> bytes_ok s ->
  let d := image_Decode inflate kind procs s in let g := Guarded_image_Decode inflate kind procs s in
  (d = Panic <-> exists c, g = Err (EGuard c)) /\ g <> Panic /\ (d <> Panic -> g = d).
Proof. exact checks_image. Qed.
Print Assumptions C84_checks_image.

Theorem C84_checks_image_config :
  forall inflate kind s, bytes_ok s ->
  let d := image_DecodeConfig inflate kind s in let g := Guarded_image_DecodeConfig inflate kind s in
  (d = Panic <-> exists c, g = Err (EGuard c)) /\ g <> Panic /\ (d <> Panic -> g = d).
Proof. exact checks_image_config. Qed.
Print Assumptions C84_checks_image_config.

(** Which checks can fail: those of the records in any case, those of the layer
    images unless they are skipped, those of the merged image unless it is
    skipped. *)
Theorem C84_causes :
  forall inflate kind procs o s c, (1 <= procs)%nat -> bytes_ok s ->
  fst (Guarded inflate kind procs o s) = Err (EGuard c) ->
  (c = c_divider \/ c = c_unicode \/ c = c_block) \/
  (o_skip_layer o = false /\ c_mode <= c <= c_rows) \/
  (o_skip_merged o = false /\ (c = c_lengths \/ c_transparent <= c <= c_channels)).
Proof. exact guarded_causes. Qed.
Print Assumptions C84_causes.

(** ** The checks at work *)

(** A library that inflates anything to zeros. *)
Definition zeros_zlib : bytes -> Z -> option (bytes * Z) := fun _ n => Some (zrepeat 0 n, 1).

(** Additional files: (12) a layer in a colour mode without known channels,
    (13) a version 2 file with a block of 2^62 bytes, (14) a layer of
    2147549185 times 4294836226 pixels of depth 16, whose size of 2^64 + 4
    bytes wraps to 4, compressed with prediction. *)
Definition ex_unknown_mode : bytes := ex_psd 1 2 2 8 7 (enc_block (be 2 1 ++ ex_rec 0 0 1 1 [])) [1; 2; 3; 4].
Definition ex_long_block : bytes :=
  enc_config (Header 2 1 1 1 8 1) (repeat 0 6%nat) [] [] ++
  (let sec := be 8 0 ++ be 4 0 ++ [56;66;73;77; 65;108;112;104] ++ be 8 (2 ^ 62) in be 8 (zlen sec) ++ sec) ++ be 2 0 ++ [1].
Definition ex_wrapped : bytes :=
  ex_psd 1 2 2 16 1
    (enc_block (be 2 1 ++ ex_rec (-2147483648) (-2147483648) 2147352578 65537 [(0, 3)] ++ be 2 3 ++ [7]))
    [1; 2; 3; 4; 5; 6; 7; 8].

Definition ex_causes : list (bytes * Z) :=
  combine ex_panics [c_picker; c_channel; c_channels; c_picker; c_size; c_divider; c_alpha; c_palette; c_transparent; c_unicode; c_unicode] ++
  [(ex_unknown_mode, c_mode); (ex_long_block, c_block); (ex_wrapped, c_prediction)].

Example C84_checks_example :
  Forall (fun '(s, c) => bytes_ok s /\ fst (Guarded zeros_zlib Plain 4 default_options s) = Err (EGuard c) /\
                         fst (Decode zeros_zlib Plain 4 default_options s) = Panic) ex_causes.
Proof.
  assert (Forall (fun '(s, c) => bytes_ok s /\ fst (Guarded zeros_zlib Plain 4 default_options s) = Err (EGuard c)) ex_causes) as H.
  { unfold ex_causes, ex_panics. cbn [combine app].
    repeat (apply Forall_cons; [split; [apply bytes_okb|]; vm_compute; reflexivity|]). apply Forall_nil. }
  revert H. apply Forall_impl. intros [s c] [Hs Hg]. split; [exact Hs|]. split; [exact Hg|].
  apply (C84_checks zeros_zlib Plain 4 default_options s ltac:(lia) Hs). exists c. exact Hg.
Qed.

(** A file that Decode accepts passes the checks. *)
Example C84_accepted_example :
  bytes_ok ex_two_layers /\ (exists f n r, fst (Decode no_zlib Plain 4 default_options ex_two_layers) = Ok (f, n, r)) /\
  Guarded no_zlib Plain 4 default_options ex_two_layers = Decode no_zlib Plain 4 default_options ex_two_layers.
Proof.
  split; [apply bytes_okb; vm_compute; reflexivity|]. split; [|vm_compute; reflexivity].
  eexists. eexists. eexists. vm_compute. reflexivity.
Qed.

(** The two checks of RLE data that need a file of many lines, at the level of
    the RLE decoder: rows beyond a buffer that is too short, and lengths whose
    sum exceeds the address space. *)
Example C84_rows_example :
  fst (run no_zlib Plain (decodePackBits' 2 [0; 0] 3 4 false) (flat_map (be 2) [2; 2; 2; 2] ++ [0; 1; 0; 1; 0; 1; 0; 1])) = Err (EGuard c_rows) /\
  fst (run no_zlib Plain (decodePackBits 2 [0; 0] 3 4 false) (flat_map (be 2) [2; 2; 2; 2] ++ [0; 1; 0; 1; 0; 1; 0; 1])) = Panic.
Proof. split; vm_compute; reflexivity. Qed.

Example C84_lengths_example :
  forall dest, let s := zrepeat 255 (4 * 65537) in
  fst (run no_zlib Plain (decodePackBits' 4 dest 1 65537 true) s) = Err (EGuard c_lengths) /\
  fst (run no_zlib Plain (decodePackBits 4 dest 1 65537 true) s) = Panic.
Proof. intros dest. apply long_lengths. lia. Qed.
