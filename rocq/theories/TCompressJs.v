(** Theorems about the other builds of decodePackBits (property C61). *)
From Verif Require Import Base BaseFacts MCompress SCompress PCompress PCompress2 PCompress3 MCompressJs PCompressJs.

(** The property is false: the GopherJS build does not count the no-op byte 128 and rejects
    valid lines that contain it. (Between the other builds it is false at depth 16:
    C08_rle_cpus_refuted, where one processor is the wasm build.) *)
Theorem C61_noop_refuted : exists ls dest, Forall line_ok ls /\ zlen (expand_lines ls) = zlen dest /\
  let buf := flat_map enc_line ls in
  let lens := map (fun l => zlen (enc_line l)) ls in
  (forall procs, (1 <= procs)%nat -> decodePackBits_data procs dest buf 2 2 lens = Ok (expand_lines ls)) /\
  jsDecodePackBits dest buf lens = Err EBrokenPackBits.
Proof.
  exists [[Nop; Lit [1; 2]]; [Rep 2 7]], [0; 0; 0; 0].
  assert (H : Forall (fun l => line_ok l /\ zlen (expand_line l) = 2) [[Nop; Lit [1; 2]]; [Rep 2 7]]) by (repeat constructor; unfold is_byte, zlen; cbn; lia).
  split; [eapply Forall_impl; [|exact H]; intros a [X _]; exact X|]. split; [reflexivity|]. split; [|reflexivity].
  intros procs Hp. apply (packbits_workers procs [0; 0; 0; 0] 2 [[Nop; Lit [1; 2]]; [Rep 2 7]]); auto; vm_compute; discriminate.
Qed.
Print Assumptions C61_noop_refuted.

(** What holds: lines of the expected width without no-op bytes are decoded alike by the
    ordinary build on any number of processors, by the wasm build (one processor) and by
    the GopherJS build. Missing: no-op bytes (false for GopherJS), lines of another
    length than [width] (false: C08). *)
Theorem C61_builds_agree_partial : forall procs dest width ls, (1 <= procs)%nat -> 0 <= width ->
  Forall (fun l => line_ok l /\ zlen (expand_line l) = width) ls -> (forall l, In l ls -> ~ In Nop l) -> zlen ls * width <= zlen dest ->
  let buf := flat_map enc_line ls in
  let lens := map (fun l => zlen (enc_line l)) ls in
  let result := Ok (overwrite dest (expand_lines ls)) in
  decodePackBits_data procs dest buf width (zlen ls) lens = result /\
  decodePackBits_data 1 dest buf width (zlen ls) lens = result /\
  jsDecodePackBits dest buf lens = result.
Proof. exact builds_agree. Qed.
Print Assumptions C61_builds_agree_partial.

(** Well formed lines of any length without no-op bytes, with data after the last *)
Theorem C61_js_wellformed_partial : forall ls dest post,
  Forall line_ok ls -> (forall l, In l ls -> ~ In Nop l) -> zlen (expand_lines ls) <= zlen dest -> bytes_ok post ->
  jsDecodePackBits dest (flat_map enc_line ls ++ post) (map (fun l => zlen (enc_line l)) ls) = Ok (overwrite dest (expand_lines ls)).
Proof. exact js_wellformed. Qed.
Print Assumptions C61_js_wellformed_partial.

(** Broken data is rejected alike, too, as long as the byte 128 does not occur. *)
Theorem C61_js_any_partial : forall dest buf lens,
  bytes_ok buf -> Forall (fun l => 0 <= l) lens -> zsum lens <= zlen buf -> ~ In 128 buf ->
  jsDecodePackBits dest buf lens = decodePackBitsPerLine dest buf lens.
Proof. exact js_any. Qed.
Print Assumptions C61_js_any_partial.

(** The JavaScript function ends on all data, and what it accepts has the size of the
    destination. *)
Theorem C61_js_total : forall dest buf lens, bytes_ok buf ->
  match jsDecodePackBits dest buf lens with Ok d => zlen d = zlen dest | Err _ => True | Panic | NoFuel => False end.
Proof. intros dest buf lens B. exact (js_lines_total lens [] dest buf 0 (Z.le_refl 0) B). Qed.
Print Assumptions C61_js_total.

Example C61_used :
  let ls := [[Lit [128; 2]; Rep 3 128]; [Rep 5 7]; [Rep 2 9; Lit [1; 128; 2]]] in
  Forall (fun l => line_ok l /\ zlen (expand_line l) = 5) ls /\ (forall l, In l ls -> ~ In Nop l) /\
  jsDecodePackBits (repeat 0 16) (flat_map enc_line ls) (map (fun l => zlen (enc_line l)) ls) = Ok [128; 2; 128; 128; 128; 7; 7; 7; 7; 7; 9; 9; 1; 128; 2; 0] /\
  jsDecodePackBits (repeat 0 8) [1; 1; 2; 250; 9] [3; 2] = Err EBrokenPackBits /\
  jsDecodePackBits (repeat 0 9) [3; 1; 2; 250; 9] [3; 2] = Err EBrokenPackBits.
Proof.
  split; [repeat constructor; unfold is_byte, zlen; cbn; lia|].
  split; [intros l I; cbn in I; intuition (subst; cbn in *; intuition discriminate)|]. vm_compute. auto.
Qed.
