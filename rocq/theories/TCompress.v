(** Theorems: PackBits and prediction, C05 to C10. *)
From Verif Require Import Base MRect MReader MSched MCompress SUtil SCompress PCompress PCompress2 PCompress3 MLayer PReader.

(** C05: decoding well formed lines writes their expansion and nothing else;
    bytes after the last line are ignored. *)
Theorem C05_packbits_decode :
  forall ls dest post,
  Forall line_ok ls -> zlen (expand_lines ls) <= zlen dest ->
  decodePackBitsPerLine dest (flat_map enc_line ls ++ post) (map (fun l => zlen (enc_line l)) ls) =
  Ok (overwrite dest (expand_lines ls)).
Proof. exact packbits_decode. Qed.
Print Assumptions C05_packbits_decode.

Example C05_example :
  let ls := [[Lit [1; 2; 3]; Nop; Rep 4 9]; []; [Rep 2 7]] in
  Forall line_ok ls /\
  decodePackBitsPerLine (repeat 5 11) (flat_map enc_line ls) [7; 0; 2] =
    Ok [1; 2; 3; 9; 9; 9; 9; 7; 7; 5; 5].
Proof.
  split; [|vm_compute; reflexivity].
  repeat constructor; unfold is_byte, zlen; cbn; lia.
Qed.

(** C06: on any input the result is the expansion of the unique reading of the
    data as lines of the given lengths, or the broken-data error if there is no
    such reading that fits. *)
Theorem C06_packbits_safe :
  forall dest buf lens,
  bytes_ok buf -> Forall (fun l => 0 <= l) lens -> zsum lens <= zlen buf ->
  let wf (ls : list line) :=
    Forall line_ok ls /\ map (fun l => zlen (enc_line l)) ls = lens /\
    firstn (Z.to_nat (zsum lens)) buf = flat_map enc_line ls /\
    zlen (expand_lines ls) <= zlen dest in
  match decodePackBitsPerLine dest buf lens with
  | Ok d => zlen d = zlen dest /\ exists ls, wf ls /\ d = overwrite dest (expand_lines ls)
  | Err e => e = EBrokenPackBits /\ ~ exists ls, wf ls
  | Panic | NoFuel => False
  end.
Proof. exact packbits_safe. Qed.
Print Assumptions C06_packbits_safe.

(** A literal run that crosses its line end, a repeat run without its byte, and
    a run larger than the destination. *)
Example C06_example :
  bytes_ok [3; 1; 2; 250; 9] /\
  decodePackBitsPerLine (repeat 0 9) [3; 1; 2; 250; 9] [3; 2] = Err EBrokenPackBits /\
  decodePackBitsPerLine (repeat 0 9) [1; 1; 2; 250; 9] [4; 1] = Err EBrokenPackBits /\
  decodePackBitsPerLine (repeat 0 8) [1; 1; 2; 250; 9] [3; 2] = Err EBrokenPackBits /\
  decodePackBitsPerLine (repeat 0 9) [1; 1; 2; 250; 9] [3; 2] = Ok [1; 2; 9; 9; 9; 9; 9; 9; 9].
Proof. split; [repeat constructor; unfold is_byte; lia | vm_compute; repeat split; reflexivity]. Qed.

(** C07: full lines on any number of processors. *)
Theorem C07_packbits_workers :
  forall procs dest width ls, (1 <= procs)%nat -> 0 <= width ->
  Forall (fun l => line_ok l /\ zlen (expand_line l) = width) ls -> zlen ls * width <= zlen dest ->
  decodePackBits_data procs dest (flat_map enc_line ls) width (zlen ls) (map (fun l => zlen (enc_line l)) ls) =
  Ok (overwrite dest (expand_lines ls)).
Proof. exact packbits_workers. Qed.
Print Assumptions C07_packbits_workers.

(** C07, schedules: the goroutines are started with tasks [ts]; each of them
    ends without error, and every interleaving [r] of their stores leaves the
    same destination. *)
Theorem C07_packbits_schedules :
  forall procs dest width ls, (1 <= procs)%nat -> 0 <= width -> ls <> [] ->
  Forall (fun l => line_ok l /\ zlen (expand_line l) = width) ls -> zlen ls * width <= zlen dest ->
  exists ts,
    (let n := worker_count procs (zlen ls) in
     let lens := map (fun l => zlen (enc_line l)) ls in
     pb_tasks (n - 1) dest (flat_map enc_line ls) lens (offsets_from 0 lens) width
       (Z.quot (zlen ls) (Z.of_nat n)) 0 = Some ts /\ length ts = n) /\
    (forall t, In t ts -> exists d, pb_run t = Ok d) /\
    forall r, interleave (pb_traces 0 ts) r -> exec store r dest = overwrite dest (expand_lines ls).
Proof. exact packbits_schedules'. Qed.
Print Assumptions C07_packbits_schedules.

(** C07 as seen by the caller of CompressionMethod.Decode: depth 8 (or 1, with
    lines of (width+7)/8 bytes), table of lengths and data from the reader. *)
Theorem C07_rle_roundtrip :
  forall inflate procs hint r depth channels large ls,
  let width := if depth =? 1 then (rdx r + 7) / 8 else rdx r in
  (1 <= procs)%nat -> 0 <= width -> zlen ls = rdy r * channels ->
  Forall (fun l => line_ok l /\ zlen (expand_line l) = width) ls ->
  Forall (fun l => zlen (enc_line l) < if large : bool then 4294967296 else 65536) ls ->
  zlen (enc_rle large ls) <= max_alloc ->
  forall kind rest,
  run inflate kind (decompress procs 1 (zlen ls * width) hint r depth channels large) (enc_rle large ls ++ rest) =
  (Ok ((expand_lines ls, zlen (enc_rle large ls)), rest), []).
Proof. intros inflate procs hint r depth channels large ls width H1 H2 H3 H4 H5 H6 kind rest. exact (parses_rle inflate procs hint r depth channels large ls H1 H2 H3 H4 H5 H6 kind rest). Qed.
Print Assumptions C07_rle_roundtrip.

(** Five lines of three bytes on two workers (two and three lines). *)
Definition ex_lines : list line := [[Lit [1; 2; 3]]; [Rep 3 7]; [Rep 2 1; Lit [4]]; [Lit [9; 9; 9]; Nop]; [Rep 3 0]].
Example C07_example :
  Forall (fun l => line_ok l /\ zlen (expand_line l) = 3) ex_lines /\
  worker_count 8 5 = 2%nat /\
  run (fun _ _ => None) Plain (decompress 8 1 15 0 (Rct 0 0 3 5) 8 1 false) (enc_rle false ex_lines ++ [77]) =
  (Ok (([1;2;3; 7;7;7; 1;1;4; 9;9;9; 0;0;0], 27), [77]), []).
Proof.
  split; [|vm_compute; repeat split; reflexivity].
  repeat constructor; unfold is_byte, zlen; cbn; lia.
Qed.

(** C08 is false: a 16 bit image of full rows decodes on one processor and
    fails on two, because the destination is split by pixels, not bytes. *)
Theorem C08_rle_cpus_refuted :
  exists r ls data,
    Forall line_ok ls /\ Forall (fun l => zlen (expand_line l) = 2 * rdx r) ls /\ zlen ls = rdy r /\
    data = enc_rle false ls /\
    forall inflate kind,
    run inflate kind (decompress 1 1 (2 * rdx r * rdy r) 0 r 16 1 false) data =
      (Ok ((expand_lines ls, zlen data), []), []) /\
    run inflate kind (decompress 2 1 (2 * rdx r * rdy r) 0 r 16 1 false) data = (Err EBrokenPackBits, []).
Proof. exact rle_cpus_refuted. Qed.
Print Assumptions C08_rle_cpus_refuted.

(** C09 *)
Theorem C09_delta_inverse :
  forall depth (n : nat) m w rows,
  (depth = 16 /\ n = 2%nat /\ m = 65536) \/ (depth = 32 /\ n = 4%nat /\ m = 4294967296) ->
  1 <= w -> Forall (fun r => zlen r = w /\ Forall (fun x => 0 <= x < m) r) rows ->
  decodeDelta (enc_rows n (map (row_diff m 0) rows)) w depth = Ok (enc_rows n rows).
Proof. exact decodeDelta_correct. Qed.
Print Assumptions C09_delta_inverse.

(** Two rows with decreasing samples (differences wrap around). *)
Example C09_example :
  row_diff 65536 0 [300; 5; 65535] = [300; 65241; 65530] /\
  decodeDelta (enc_rows 2 (map (row_diff 65536 0) [[300; 5; 65535]; [0; 1; 2]])) 3 16 =
    Ok [1; 44; 0; 5; 255; 255; 0; 0; 0; 1; 0; 2] /\
  decodeDelta (enc_rows 4 (map (row_diff 4294967296 0) [[70000; 1]])) 2 32 = Ok [0; 1; 17; 112; 0; 0; 0; 1].
Proof. vm_compute. repeat split; reflexivity. Qed.

(** C10 is false: at depth 8 the differences are returned as samples. *)
Theorem C10_delta_8bit_refuted :
  exists w rows, 1 <= w /\ Forall (fun r => zlen r = w /\ Forall (fun x => 0 <= x < 256) r) rows /\
    decodeDelta (enc_rows 1 (map (row_diff 256 0) rows)) w 8 <> Ok (enc_rows 1 rows).
Proof. exact delta_8bit_refuted. Qed.
Print Assumptions C10_delta_8bit_refuted.

(** C10, how wrong: at depth 8 the data is returned as it is, so a row is
    right only if its predicted form is the row itself. *)
Theorem C10_delta_8bit_identity :
  forall buf w depth, depth <> 16 -> depth <> 32 -> decodeDelta buf w depth = Ok buf.
Proof. exact delta_other_identity. Qed.
Print Assumptions C10_delta_8bit_identity.
