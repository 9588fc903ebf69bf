(** The checks of SGuard: RLE and the other compressions. *)
From Verif Require Import Base BaseFacts MUtil MRect MReader MPicker MConfig MCompress MLayer SGuard PUtil PReader PConfig PCompress PCompress2 PGuard.

Definition good_task (t : pbtask) : Prop := bytes_ok (pt_buf t) /\ Forall (fun l => 0 <= l) (pt_lens t) /\ zsum (pt_lens t) <= zlen (pt_buf t).

Lemma zsum_app a b : zsum (a ++ b) = zsum a + zsum b.
Proof. induction a as [|x a IH]; cbn; [reflexivity|]. fold (zsum (a ++ b)) (zsum a). lia. Qed.
Lemma zsum_nonneg l : Forall (fun l => 0 <= l) l -> 0 <= zsum l.
Proof. induction 1; cbn; [lia|]. fold (zsum l). lia. Qed.
Lemma nonneg_firstn (l : list Z) : Forall (fun l => 0 <= l) l -> forall n, Forall (fun l => 0 <= l) (firstn n l).
Proof. induction 1; intros [|n]; cbn; auto. Qed.
Lemma nonneg_skipn (l : list Z) : Forall (fun l => 0 <= l) l -> forall n, Forall (fun l => 0 <= l) (skipn n l).
Proof. induction 1; intros [|n]; cbn; auto. Qed.
Lemma zsum_firstn_skipn l n : zsum (firstn n l) + zsum (skipn n l) = zsum l.
Proof. rewrite <- zsum_app, firstn_skipn. reflexivity. Qed.
Lemma zsum_firstn_step l a c : 0 <= a -> 0 <= c -> zsum (firstn (Z.to_nat (a + c)) l) = zsum (firstn (Z.to_nat a) l) + zsum (firstn (Z.to_nat c) (skipn (Z.to_nat a) l)).
Proof.
  intros Ha Hc. rewrite <- zsum_app. f_equal. replace (Z.to_nat (a + c)) with (Z.to_nat a + Z.to_nat c)%nat by lia.
  rewrite <- (firstn_skipn (Z.to_nat a) l) at 1. destruct (Nat.le_gt_cases (length l) (Z.to_nat a)) as [L|L].
  - rewrite (skipn_all2 l L), firstn_nil, !app_nil_r. rewrite firstn_all2; [reflexivity|]. rewrite firstn_length. lia.
  - rewrite firstn_app, firstn_length, Nat.min_l by lia. rewrite firstn_all2 by (rewrite firstn_length; lia). f_equal. f_equal. lia.
Qed.

Lemma pb_tasks_guard dest buf lens width step : bytes_ok buf -> Forall (fun l => 0 <= l) lens -> zsum lens <= zlen buf -> 0 <= width -> 0 <= step ->
  forall k ofs, 0 <= ofs -> ofs + Z.of_nat k * step < zlen lens ->
    if (ofs + Z.of_nat k * step) * width <=? zlen dest then exists ts, pb_tasks k dest buf lens (offsets_from 0 lens) width step ofs = Some ts /\ Forall good_task ts
    else pb_tasks k dest buf lens (offsets_from 0 lens) width step ofs = None.
Proof.
  intros Hb Hl Hs Hw Hst. induction k as [|k IH]; intros ofs Ho Hk; cbn [pb_tasks].
  - replace (ofs + Z.of_nat 0 * step) with ofs in * by lia. destruct (Z.leb_spec (ofs * width) (zlen dest)) as [L|L].
    + rewrite slice_ok by (pose proof (zlen_nonneg dest); nia). rewrite offsets_idx by lia. rewrite slice_ok by lia.
      assert (0 <= zsum (firstn (Z.to_nat ofs) lens)) as H1 by now apply zsum_nonneg, nonneg_firstn.
      assert (0 <= zsum (skipn (Z.to_nat ofs) lens)) as H2 by now apply zsum_nonneg, nonneg_skipn.
      pose proof (zsum_firstn_skipn lens (Z.to_nat ofs)) as H3.
      rewrite slice_ok by lia. eexists. split; [reflexivity|]. constructor; [|constructor]. unfold good_task. cbn [pt_buf pt_lens].
      rewrite (firstn_all2 (skipn _ buf)) by (rewrite skipn_length; unfold zlen in *; lia). rewrite (firstn_all2 (skipn _ lens)) by (rewrite skipn_length; unfold zlen in *; lia).
      split; [now apply bytes_ok_skipn|]. split; [now apply nonneg_skipn|]. rewrite zlen_skipn. unfold zlen in *. lia.
    + unfold slice at 1. replace (_ && _ && _) with false by lia. reflexivity.
  - specialize (IH (ofs + step) ltac:(lia) ltac:(lia)). replace (ofs + step + Z.of_nat k * step) with (ofs + Z.of_nat (S k) * step) in IH by lia.
    destruct (Z.leb_spec ((ofs + Z.of_nat (S k) * step) * width) (zlen dest)) as [L|L].
    + assert (ofs + step <= ofs + Z.of_nat (S k) * step) as Hle by nia. assert ((ofs + step) * width <= (ofs + Z.of_nat (S k) * step) * width) as Hle2 by nia.
      assert (ofs + step < zlen lens) as Hlt by nia.
      rewrite slice_ok by nia. rewrite !offsets_idx by lia. rewrite slice_ok by lia.
      assert (0 <= zsum (firstn (Z.to_nat ofs) lens)) as H1 by now apply zsum_nonneg, nonneg_firstn.
      assert (0 <= zsum (skipn (Z.to_nat (ofs + step)) lens)) as H2 by now apply zsum_nonneg, nonneg_skipn.
      pose proof (zsum_firstn_skipn lens (Z.to_nat (ofs + step))) as H3.
      pose proof (zsum_firstn_step lens ofs step Ho Hst) as H4.
      assert (0 <= zsum (firstn (Z.to_nat step) (skipn (Z.to_nat ofs) lens))) as H5 by now apply zsum_nonneg, nonneg_firstn, nonneg_skipn.
      rewrite slice_ok by lia. destruct IH as (ts & -> & G). cbn [option_map]. eexists. split; [reflexivity|]. constructor; [|exact G].
      unfold good_task. cbn [pt_buf pt_lens]. split; [now apply bytes_ok_firstn, bytes_ok_skipn|]. split; [now apply nonneg_firstn, nonneg_skipn|].
      replace (ofs + step - ofs) with step by lia. unfold zlen in *. rewrite firstn_length, skipn_length. lia.
    + rewrite IH. destruct (slice dest (ofs * width) ((ofs + step) * width)), (idx (offsets_from 0 lens) ofs), (idx (offsets_from 0 lens) (ofs + step)), (slice lens ofs (ofs + step)); try reflexivity. match goal with |- match ?x with _ => _ end = _ => destruct x; reflexivity end.
Qed.

Lemma run_good t : good_task t -> (exists d, pb_run t = Ok d) \/ pb_run t = Err EBrokenPackBits.
Proof.
  intros (A & B & C). unfold pb_run. pose proof (packbits_safe (pt_dest t) (pt_buf t) (pt_lens t) A B C) as H. cbv zeta in H.
  destruct (decodePackBitsPerLine _ _ _) as [d|e| |]; try contradiction; [left; eauto|right]. f_equal. apply H.
Qed.
Lemma join_good ts : Forall good_task ts -> (exists d, pb_join (map pb_run ts) = Ok d) \/ pb_join (map pb_run ts) = Err EBrokenPackBits.
Proof.
  induction 1 as [|t ts Ht _ IH]; cbn [map pb_join]; [left; eauto|].
  destruct (run_good t Ht) as [[d ->]| ->], IH as [[d' ->]| ->]; eauto.
Qed.

Lemma data_guard procs dest buf width lines lens : (1 <= procs)%nat -> bytes_ok buf -> Forall (fun l => 0 <= l) lens -> zsum lens <= zlen buf -> zlen lens = lines -> 0 <= width ->
  if rows_ok procs (zlen dest) width lines then (exists d, decodePackBits_data procs dest buf width lines lens = Ok d) \/ decodePackBits_data procs dest buf width lines lens = Err EBrokenPackBits
  else decodePackBits_data procs dest buf width lines lens = Panic.
Proof.
  intros Hp Hb Hl Hs <- Hw. unfold decodePackBits_data, rows_ok. destruct (worker_count_spec procs (zlen lens) Hp) as [W1 W2]. set (n := worker_count procs (zlen lens)) in *.
  destruct (Nat.eqb_spec n 1) as [E|E].
  - rewrite E. change (Z.of_nat 1) with 1. replace ((1 - 1) * (zlen lens / 1) * width) with 0 by lia. replace (0 <=? zlen dest) with true by (pose proof (zlen_nonneg dest); lia).
    exact (run_good (PbTask dest buf lens) (conj Hb (conj Hl Hs))).
  - destruct W2 as [W2|W2]; [contradiction|]. rewrite Z.quot_div_nonneg by lia.
    set (step := zlen lens / Z.of_nat n). assert (2 <= step) as S1 by (apply Z.div_le_lower_bound; lia).
    assert (Z.of_nat n * step <= zlen lens) as S2 by (apply Z.mul_div_le; lia).
    pose proof (pb_tasks_guard dest buf lens width step Hb Hl Hs Hw ltac:(lia) (n - 1) 0 ltac:(lia) ltac:(nia)) as T.
    replace (0 + Z.of_nat (n - 1) * step) with ((Z.of_nat n - 1) * step) in T by lia.
    destruct (_ <=? _).
    + destruct T as (ts & -> & G). now apply join_good.
    + now rewrite T.
Qed.

Lemma read_lens_total (large : bool) buf : bytes_ok buf -> forall m ofs, 0 <= ofs -> ofs + (if large then 4 else 2) * Z.of_nat m <= zlen buf ->
  exists lens, read_lens large buf ofs m = Some lens /\ zlen lens = Z.of_nat m /\ Forall (fun l => 0 <= l) lens.
Proof.
  intros Hb. induction m as [|m IH]; intros ofs Ho Hl; cbn [read_lens]; [exists (@nil Z); repeat split; constructor|].
  destruct (IH (ofs + (if large then 4 else 2)) ltac:(destruct large; lia) ltac:(destruct large; lia)) as (lens & -> & L & F).
  assert (exists v, (if large then readUint32 buf ofs else readUint16 buf ofs) = Some v /\ 0 <= v) as (v & -> & Hv).
  { destruct large.
    - destruct (readUint32_total buf ofs) as [v E]; try lia. exists v. split; [exact E|]. apply (readUint32_range buf ofs v Hb E).
    - destruct (readUint16_total buf ofs) as [v E]; try lia. exists v. split; [exact E|]. apply (readUint16_range buf ofs v Hb E). }
  cbn [option_map]. exists (v :: lens). split; [reflexivity|]. split; [rewrite zlen_cons; lia|]. constructor; assumption.
Qed.

Lemma packbits_guard procs dest width lines large : (1 <= procs)%nat -> 0 <= width -> 0 <= lines <= 2 ^ 40 ->
  hard (fun _ => True) (decodePackBits procs dest width lines large) (decodePackBits' procs dest width lines large).
Proof.
  intros Hp Hw Hl. unfold decodePackBits, decodePackBits'. set (ws := Z.shiftr (get4or8 large) 1). assert (ws = if large then 4 else 2) as Hws by (destruct large; reflexivity).
  assert (0 <= lines * ws <= 4 * 2 ^ 40) as Ht by (rewrite Hws; destruct large; lia). cbv zeta.
  eapply hard_bind; [apply hard_make; unfold max_alloc; lia|]. intros [] _.
  eapply hard_bind; [apply hard_rfull; lia|]. cbv beta. intros buf [Hb Hbl].
  destruct (read_lens_total large buf Hb (Z.to_nat lines) 0 ltac:(lia)) as (lens & E & L & F). { rewrite Hbl, Hws. destruct large; lia. }
  rewrite E. cbn [lift bind]. pose proof (zsum_nonneg _ F) as Hn. apply guard_make; [|intros G; right; lia].
  intros G. split; [lia|]. eapply hard_bind; [apply hard_rfull; lia|]. cbv beta. intros data [Hd Hdl].
  pose proof (data_guard procs dest data width lines lens Hp Hd F ltac:(lia) ltac:(lia) Hw) as T.
  apply guard_outcome.
  - intros R. rewrite R in T. split; [destruct T as [[d ->]| ->]; discriminate|]. split; [destruct T as [[d ->]| ->]; intros e Ee; [discriminate|injection Ee as <-; exact I]|].
    intros a _. now apply hard_ret.
  - intros R. now rewrite R in T.
Qed.

Lemma decompress_guard procs cm n hint r depth channels large : (1 <= procs)%nat -> 0 <= n -> 0 <= rdx r <= 2 ^ 33 -> 0 <= rdy r * channels <= 2 ^ 40 ->
  depth = 1 \/ depth = 8 \/ depth = 16 \/ depth = 32 -> (rdx r = 0 -> n = 0) ->
  hard (fun _ => True) (decompress procs cm n hint r depth channels large) (decompress' procs cm n hint r depth channels large).
Proof.
  intros Hp Hn Hx Hy Hd Hz. unfold decompress, decompress'.
  destruct (cm =? 0). { eapply hard_bind; [apply hard_rfull; lia|]. intros b _. now apply hard_ret. }
  destruct (cm =? 1). { apply packbits_guard; try lia. destruct (depth =? 1); [|lia]. rewrite Z.shiftr_div_pow2 by lia. apply Z.div_pos; lia. }
  destruct (cm =? 2). { cbn. eexists. split; [reflexivity|]. intros b c _. cbn. auto. }
  destruct (cm =? 3); [|apply hard_fail; exact I].
  cbn [decodeZLIB bind hard]. eexists. split; [reflexivity|]. intros b c Hb.
  destruct (delta_guard b (rdx r) depth ltac:(lia) Hd) as (A & B & C). cbv zeta in A, B.
  apply guard_outcome.
  - intros E. split; [now apply A|]. split; [intros e Ee; exfalso; eapply C, Ee|]. intros a _. now apply hard_ret.
  - intros E. apply B; [exact E|]. destruct (Z.eq_dec (rdx r) 0) as [E0|]; [|lia]. exfalso. rewrite (Hz E0) in Hb. rewrite E0, Hb in E. cbn in E. destruct (depth <? 16); cbn in E; discriminate.
Qed.

(** Lengths whose sum exceeds the address space *)
Lemma read_lens_255 : forall m buf ofs, (forall i, ofs <= i < ofs + 4 * Z.of_nat m -> idx buf i = Some 255) -> read_lens true buf ofs m = Some (repeat 4294967295 m).
Proof.
  induction m as [|m IH]; intros buf ofs H; cbn [read_lens repeat]; [reflexivity|]. unfold readUint32. rewrite !H by lia. rewrite IH by (intros i Hi; apply H; lia). reflexivity.
Qed.
Lemma long_lengths procs dest width lines inflate kind : 65537 <= lines <= 2 ^ 40 ->
  let s := zrepeat 255 (4 * lines) in
  fst (run inflate kind (decodePackBits' procs dest width lines true) s) = Err (EGuard c_lengths) /\
  fst (run inflate kind (decodePackBits procs dest width lines true) s) = Panic.
Proof.
  intros Hl s. assert (zlen s = 4 * lines) as Hs by (unfold s, zlen, zrepeat; rewrite repeat_length; lia).
  assert (forall i, 0 <= i < 4 * lines -> idx s i = Some 255) as Hi.
  { intros i Hi. destruct (idx_in s i) as [v E]; [lia|]. rewrite E. f_equal. unfold idx in E. replace (i <? 0) with false in E by lia.
    apply nth_error_In in E. unfold s, zrepeat in E. now apply repeat_spec in E. }
  assert (firstn (Z.to_nat (lines * 4)) s = s) as Hf by (apply firstn_all2; unfold zlen in Hs; lia).
  assert (read_lens true s 0 (Z.to_nat lines) = Some (repeat 4294967295 (Z.to_nat lines))) as Hr by (apply read_lens_255; intros i Hi'; apply Hi; lia).
  assert (zsum (repeat 4294967295 (Z.to_nat lines)) = 4294967295 * lines) as Hz.
  { assert (forall m, zsum (repeat 4294967295 m) = 4294967295 * Z.of_nat m) as Hm by (clear; induction m as [|m IH]; [reflexivity|]; cbn [repeat zsum fold_right]; fold (zsum (repeat 4294967295 m)); lia).
    rewrite Hm. lia. }
  clearbody s. unfold decodePackBits', decodePackBits, make_ok. cbv zeta. change (Z.shiftr (get4or8 true) 1) with 4. replace ((lines * 4 <? 0) || (max_alloc <? lines * 4)) with false by (unfold max_alloc; lia).
  cbn [bind rfull run]. replace (zlen s <? lines * 4) with false by lia. rewrite Hf, Hr. cbn [lift bind]. rewrite Hz. replace (4294967295 * lines <=? max_alloc) with false by (unfold max_alloc; lia).
  replace ((4294967295 * lines <? 0) || (max_alloc <? 4294967295 * lines)) with true by (unfold max_alloc; lia). split; reflexivity.
Qed.
