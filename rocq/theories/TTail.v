(** Theorems: C85, an incomplete file is not accepted, and what follows a file does not
    matter. *)
From Verif Require Import Base SUtil MRect MReader MPicker MConfig SConfig MCompress MLayer MApi STail PTail3 PTail4 TDecode TChunk.

(** What follows the file is left unread and changes neither the result nor the count nor
    the callbacks. The merged image is not compressed or run length encoded; or it is
    skipped and something follows the layers in the file itself. *)
Theorem C85_trailing :
  forall inflate kind procs o s t f n rest evs, Decode inflate kind procs o s = (Ok (f, n, rest), evs) ->
  (o_skip_merged o = true -> rest <> []) ->
  (o_skip_merged o = false -> exists m, plain_method m /\ merged_method inflate kind procs o s m) ->
  Decode inflate kind procs o (s ++ t) = (Ok (f, n, rest ++ t), evs).
Proof. exact trailing. Qed.
Print Assumptions C85_trailing.

(** With a merged image in any compression what is decoded does not depend on it either. *)
Theorem C85_trailing_zip :
  forall inflate kind procs o s t f n rest evs, steady inflate -> o_skip_merged o = false ->
  Decode inflate kind procs o s = (Ok (f, n, rest), evs) ->
  exists n' rest', Decode inflate kind procs o (s ++ t) = (Ok (f, n', rest'), evs).
Proof. exact trailing_zip. Qed.
Print Assumptions C85_trailing_zip.

(** If some of the bytes that Decode counts are missing at the end then it fails. *)
Theorem C85_truncated :
  forall inflate kind procs o s k f n rest evs, bytes_ok s -> Decode inflate kind procs o s = (Ok (f, n, rest), evs) ->
  (o_skip_merged o = false -> exists m, plain_method m /\ merged_method inflate kind procs o s m) ->
  0 <= k < n -> forall x, fst (Decode inflate kind procs o (firstn (Z.to_nat k) s)) <> Ok x.
Proof. exact truncated. Qed.
Print Assumptions C85_truncated.

(** So it does from a seekable reader, if the merged image is read. *)
Theorem C85_truncated_seek :
  forall inflate kind procs o s k f n rest evs m, bytes_ok s -> Decode inflate kind procs o s = (Ok (f, n, rest), evs) ->
  o_skip_merged o = false -> plain_method m -> merged_method inflate kind procs o s m ->
  0 <= k < n -> forall x, fst (Decode_seek inflate procs o (firstn (Z.to_nat k) s)) <> Ok x.
Proof. exact truncated_seek. Qed.
Print Assumptions C85_truncated_seek.

(** Of every file that is accepted from a seekable reader the count is the position. *)
Theorem C85_seek_position :
  forall inflate procs o s f n pos evs, bytes_ok s -> Decode_seek inflate procs o s = (Ok (f, n, pos), evs) -> pos = n.
Proof. exact seek_position. Qed.
Print Assumptions C85_seek_position.

(** Two layers and a run length encoded or plain merged image *)
Example C85_example :
  let s := ex_two_layers in
  bytes_ok s /\ (exists m, plain_method m /\ merged_method no_zlib Plain 2 default_options s m) /\
  match Decode no_zlib Plain 2 default_options s, Decode no_zlib Plain 2 default_options (s ++ [1; 2; 3]),
    Decode no_zlib Plain 2 default_options (firstn (length s - 1) s), Decode_seek no_zlib 2 default_options (firstn (length s - 1) s),
    Decode_seek no_zlib 2 default_options (s ++ [7]) with
  | (Ok (f, n, rest), _), (Ok (f', n', rest'), _), (Err e, _), (Err e', _), (Ok (_, n2, pos), _) => f' = f /\ n' = n /\ n = zlen s /\ rest = [] /\ rest' = [1; 2; 3] /\
      zlen (f_layer f) = 2 /\ e = EUnexpectedEof /\ e' = EUnexpectedEof /\ n2 = n /\ pos = n
  | _, _, _, _, _ => False
  end.
Proof.
  split; [apply bytes_okb; vm_compute; reflexivity|]. split.
  - exists 0. split; [now left|]. eexists _, _, _, _. vm_compute. reflexivity.
  - vm_compute. repeat split; reflexivity.
Qed.

(** A file of one grey pixel: the global layer mask is [mk], the merged image [im] *)
Definition ex_gm (mk im : bytes) : bytes :=
  enc_config (Header 1 1 1 1 8 1) (repeat 0 6%nat) [] [] ++ enc_block (be 4 0 ++ enc_block mk) ++ im.
Definition ex_bare : options := Opts true true (fun _ => false).

(** From a seekable reader, with the merged image skipped, a file is accepted that ends
    within its last section: discarding is seeking, and seeking beyond the end succeeds. *)
Theorem C85_truncated_seek_refuted :
  exists s k f n evs f' n' evs', bytes_ok s /\ Decode_seek no_zlib 1 ex_bare s = (Ok (f, n, zlen s), evs) /\ n = zlen s /\ 0 <= k < n /\
  Decode_seek no_zlib 1 ex_bare (firstn (Z.to_nat k) s) = (Ok (f', n', zlen s), evs') /\
  fst (Decode no_zlib Plain 1 ex_bare (firstn (Z.to_nat k) s)) = Err EEof.
Proof.
  exists (ex_gm [1; 2; 3; 4; 5; 6; 7; 8] []), 48. eexists _, _, _, _, _, _.
  split; [apply bytes_okb; vm_compute; reflexivity|]. split; [vm_compute; reflexivity|]. split; [reflexivity|].
  split; [vm_compute; split; [discriminate|reflexivity]|]. split; vm_compute; reflexivity.
Qed.
Print Assumptions C85_truncated_seek_refuted.

(** A file that ends within the checksum of a compressed merged image is accepted. *)
Theorem C85_truncated_zip_refuted :
  exists s f n evs f' n' evs', bytes_ok s /\ steady stored_zlib /\ Decode stored_zlib Plain 1 default_options s = (Ok (f, n, []), evs) /\
  Decode stored_zlib Plain 1 default_options (firstn (Z.to_nat (n - 3)) s) = (Ok (f', n', []), evs').
Proof.
  exists (ex_gm [] [0; 2; 120; 1; 1; 1; 0; 254; 255; 77; 0; 78; 0; 78]). eexists _, 60, _, _, _, _.
  split; [apply bytes_okb; vm_compute; reflexivity|]. split; [exact stored_steady|]. split; vm_compute; reflexivity.
Qed.
Print Assumptions C85_truncated_zip_refuted.

(** With the merged image skipped and nothing after the layers, what follows can make
    the file unacceptable: the padding of a name is one Read of what there is. *)
Theorem C85_trailing_refuted :
  exists s t f n evs, bytes_ok s /\ Decode no_zlib Plain 1 ex_tiny s = (Ok (f, n, []), evs) /\ n = zlen s /\
  fst (Decode no_zlib Plain 1 ex_tiny (s ++ t)) = Err ESizeMismatch.
Proof.
  exists (firstn 89 (ex_named [0] [] [])), [0]. eexists _, _, _.
  split; [apply bytes_okb; vm_compute; reflexivity|]. split; [vm_compute; reflexivity|]. split; vm_compute; reflexivity.
Qed.
Print Assumptions C85_trailing_refuted.
