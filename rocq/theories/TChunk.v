(** Theorems: readers that deliver their data in pieces, C19. *)
From Verif Require Import Base SUtil MRect MReader MPicker MConfig SConfig MLayer MApi SChunk PChunk TDecode.

(** A file with one layer without channels, named "A", whose name is padded
    with [pad] and followed by [blk] in the additional information. *)
Definition ex_named (pad blk im : bytes) : bytes :=
  ex_psd 1 1 1 8 1
    (enc_block (be 2 1 ++ be 4 0 ++ be 4 0 ++ be 4 0 ++ be 4 0 ++ be 2 0 ++
      [56;66;73;77; 110;111;114;109; 255; 0; 0; 0] ++ enc_block (be 4 0 ++ be 4 0 ++ [1; 65] ++ pad ++ blk))) im.
Definition ex_blk : bytes := [56;66;73;77; 97;98;99;100] ++ be 4 2 ++ [1; 2].
Definition single (s : bytes) : list bytes := map (fun b => [b]) s.
(** Without the merged image, and without its data in the file *)
Definition ex_tiny : options := Opts false true (fun _ => false).
Definition ex_end : bytes := firstn 90 (ex_named [0; 0] [] []).

(** What holds: a file that is accepted from one buffer, and whose alignment
    padding has no byte '8', gives the same result, the same count, the same
    unread bytes and the same callbacks for every way to split it into
    non-empty reads, with any number of workers. If the reader reports the end
    of the data together with the last byte, the merged image has to be decoded
    or data has to follow. Missing: files that are rejected from one buffer, and
    readers that report the end early at the end of the layers; both are false,
    see below. *)
Theorem C19_accepted_partial :
  forall inflate eager procs o s cs f n rest evs, splits cs s ->
  Decode inflate Plain procs o s = (Ok (f, n, rest), evs) ->
  Forall no8 (pads inflate (decode_prog (fuel_for s) procs o) s) ->
  (eager = true -> o_skip_merged o = true -> rest <> []) ->
  Decode_chunks inflate eager procs o cs = (Ok (f, n, rest), evs).
Proof. exact decode_chunks. Qed.
Print Assumptions C19_accepted_partial.

(** The configuration does not depend on the pieces, not even the error. *)
Theorem C19_config :
  forall inflate s cs, splits cs s ->
  fst (run_chunks (Ev := Empty_set) inflate false (decodeConfig_prog (fuel_for s)) cs) = DecodeConfig inflate Plain s.
Proof. exact config_chunks. Qed.
Print Assumptions C19_config.

Lemma single_splits s : splits (single s) s.
Proof.
  unfold splits, single. split.
  - induction s as [|x s IH]; cbn; [reflexivity|now rewrite IH].
  - apply Forall_forall. intros c Hc. apply in_map_iff in Hc as (x & <- & _). discriminate.
Qed.

Example C19_example :
  let s := ex_named [1; 2] ex_blk [9] in
  splits (single s) s /\ pads no_zlib (decode_prog (fuel_for s) 1 ex_opts) s = [[1; 2]] /\
  match Decode no_zlib Plain 1 ex_opts s, Decode_chunks no_zlib true 1 ex_opts (single s) with
  | (Ok (f, n, rest), _), (Ok (f', n', rest'), _) => f' = f /\ n = 107 /\ n' = 107 /\ rest = [] /\ rest' = [] /\ zlen (f_layer f) = 1
  | _, _ => False
  end.
Proof. split; [apply single_splits|]. vm_compute. repeat split; reflexivity. Qed.

(** The property is false for files that are rejected from one buffer: the
    padding of a name may go beyond the declared length of the record, and a
    reader that stops within the padding makes the file acceptable. *)
Theorem C19_broken_refuted :
  exists s cs f n rest evs, bytes_ok s /\ splits cs s /\
  Forall no8 (pads no_zlib (decode_prog (fuel_for s) 1 default_options) s) /\
  Decode no_zlib Plain 1 default_options s = (Err ESizeMismatch, []) /\
  Decode_chunks no_zlib false 1 default_options cs = (Ok (f, n, rest), evs).
Proof.
  exists (ex_named [0] [] [9]), (single (ex_named [0] [] [9])). eexists. eexists. eexists. eexists.
  split; [apply bytes_okb; vm_compute; reflexivity|]. split; [apply single_splits|].
  split; [|split; vm_compute; reflexivity].
  assert (pads no_zlib (decode_prog (fuel_for (ex_named [0] [] [9])) 1 default_options) (ex_named [0] [] [9]) = [[0; 0]]) as -> by (vm_compute; reflexivity).
  constructor; [|constructor]. intros [H|[H|[]]]; discriminate H.
Qed.
Print Assumptions C19_broken_refuted.

(** It is false for a reader that returns the last byte together with io.EOF,
    which the contract of io.Reader allows. *)
Theorem C19_eager_refuted :
  exists s cs f n evs, bytes_ok s /\ splits cs s /\
  Forall no8 (pads no_zlib (decode_prog (fuel_for s) 1 ex_tiny) s) /\
  Decode no_zlib Plain 1 ex_tiny s = (Ok (f, n, []), evs) /\
  Decode_chunks no_zlib true 1 ex_tiny cs = (Err EEof, []).
Proof.
  exists ex_end, [ex_end]. eexists. eexists. eexists.
  split; [apply bytes_okb; vm_compute; reflexivity|]. split; [split; [reflexivity|constructor; [discriminate|constructor]]|].
  split; [|split; vm_compute; reflexivity].
  assert (pads no_zlib (decode_prog (fuel_for ex_end) 1 ex_tiny) ex_end = [[0; 0]]) as -> by (vm_compute; reflexivity).
  constructor; [|constructor]. intros [H|[H|[]]]; discriminate H.
Qed.
Print Assumptions C19_eager_refuted.

(** The condition on the padding is needed: an '8' in it is taken for the start
    of a block if the reader stops before it. *)
Theorem C19_eight_refuted :
  exists s cs f n rest evs, bytes_ok s /\ splits cs s /\
  Decode no_zlib Plain 1 default_options s = (Ok (f, n, rest), evs) /\
  Decode_chunks no_zlib false 1 default_options cs = (Err EInfoSignature, []).
Proof.
  exists (ex_named [0; 56] ex_blk [9]), (single (ex_named [0; 56] ex_blk [9])). eexists. eexists. eexists. eexists.
  split; [apply bytes_okb; vm_compute; reflexivity|]. split; [apply single_splits|]. split; vm_compute; reflexivity.
Qed.
Print Assumptions C19_eight_refuted.
