(** Theorems: skipping the images of layers, C21. *)
From Verif Require Import Base SUtil MRect MReader MPicker MConfig SConfig MLayer MApi STree SLayer SSkip PSkip TDecode.

(** A file that decodes and whose channel images end within their layer
    sections (the predicate is the decoder with that check added, SSkip.v)
    decodes without images to the same file, with the same byte count and rest,
    without images of layers and without callbacks. *)
Theorem C21_skip_images inflate kind procs o s f n rest evs : bytes_ok s ->
  decodes_within inflate kind procs o s f n rest evs ->
  Decode inflate kind procs (Opts false (o_skip_merged o) (o_config_loaded o)) s = (Ok (f, n, rest), evs) /\
  Decode inflate kind procs (Opts true (o_skip_merged o) (o_config_loaded o)) s = (Ok (file_no_images f, n, rest), []).
Proof. exact (decode_skip inflate kind procs o s f n rest evs). Qed.
Print Assumptions C21_skip_images.

Example C21_example :
  bytes_ok ex_two_layers /\
  match run no_zlib Plain (strict_decode (fuel_for ex_two_layers) 4 ex_opts) ex_two_layers with
  | (Ok (f, n, rest), evs) => zlen (f_layer f) = 2 /\ n = 166 /\ rest = [] /\ zlen evs = 2 /\ file_no_images f <> f
  | _ => False
  end.
Proof.
  split; [apply bytes_okb; vm_compute; reflexivity|].
  vm_compute. split; [reflexivity|]. split; [reflexivity|]. split; [reflexivity|]. split; [reflexivity|]. intros [=].
Qed.

(** Without the condition the property is false: this file states a layer
    section length that covers the records only, and decodes with the images but
    not without. *)
Definition ex_short : bytes :=
  let recs := be 2 1 ++ ex_rec (-1) 3 0 5 [(0, 4); (-1, 4)] in
  let images := be 2 0 ++ [1; 2] ++ be 2 0 ++ [3; 4] in
  ex_psd 1 2 2 8 1 (enc_block recs ++ images ++ be 4 0) [9; 8; 7; 6].
Theorem C21_overrun_refuted : exists s, bytes_ok s /\
  (exists f n evs, Decode no_zlib Plain 1 default_options s = (Ok (f, n, []), evs) /\ zlen (f_layer f) = 1) /\
  exists e, Decode no_zlib Plain 1 ex_skip s = (Err e, []).
Proof.
  exists ex_short. split; [apply bytes_okb; vm_compute; reflexivity|]. split.
  - eexists. eexists. eexists. split; vm_compute; reflexivity.
  - eexists. vm_compute. reflexivity.
Qed.
Print Assumptions C21_overrun_refuted.
