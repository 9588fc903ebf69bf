(** PackBits on several workers. *)
From Verif Require Import Base BaseFacts MUtil SUtil PUtil MRect MSched PSched MCompress SCompress PCompress.

(** * The stores of a worker *)

Definition tr_ok (pre done dest post : bytes) (w : list (Z * Z)) (r : outcome (Z * Z))
  (x : outcome (bytes * bytes)) : Prop :=
  match x with
  | Ok (done', dest') => r = Ok (zlen pre + zlen done', zlen dest') /\
      exec store w (pre ++ done ++ dest ++ post) = pre ++ done' ++ dest' ++ post /\
      zlen done + zlen dest = zlen done' + zlen dest' /\ zlen done <= zlen done'
  | Err e => r = Err e
  | Panic => r = Panic
  | NoFuel => r = NoFuel
  end.

Lemma pb_line_trace : forall fuel done dest pre post buf ln i,
  bytes_ok buf -> 0 <= i -> ln <= zlen buf ->
  let wr := pb_line_tr fuel (zlen pre + zlen done) (zlen dest) buf ln i in
  tr_ok pre done dest post (fst wr) (snd wr) (pb_line fuel done dest buf ln i) /\
  (forall p, In p (fst wr) -> zlen pre + zlen done <= fst p < zlen pre + zlen done + zlen dest).
Proof.
  assert (step : forall pre done dest post l new fuel buf ln j,
    0 <= l <= zlen dest -> zlen new = l ->
    (let wr := pb_line_tr fuel (zlen pre + zlen (done ++ new)) (zlen (skipn (Z.to_nat l) dest)) buf ln j in
     tr_ok pre (done ++ new) (skipn (Z.to_nat l) dest) post (fst wr) (snd wr) (pb_line fuel (done ++ new) (skipn (Z.to_nat l) dest) buf ln j) /\
     (forall p, In p (fst wr) -> zlen pre + zlen (done ++ new) <= fst p < zlen pre + zlen (done ++ new) + zlen (skipn (Z.to_nat l) dest))) ->
    let wr := let (w, r) := pb_line_tr fuel (zlen pre + zlen done + l) (zlen dest - l) buf ln j in
              (seq_stores (zlen pre + zlen done) new ++ w, r) in
    tr_ok pre done dest post (fst wr) (snd wr) (pb_line fuel (done ++ new) (skipn (Z.to_nat l) dest) buf ln j) /\
    (forall p, In p (fst wr) -> zlen pre + zlen done <= fst p < zlen pre + zlen done + zlen dest)).
  { intros pre done dest post l new fuel buf ln j Hl Hnew.
    rewrite zlen_app, zlen_skipn. replace (Z.max 0 (zlen dest - Z.of_nat (Z.to_nat l))) with (zlen dest - l) by lia.
    replace (zlen pre + (zlen done + zlen new)) with (zlen pre + zlen done + l) by lia.
    destruct (pb_line_tr fuel _ _ buf ln j) as [w r]. cbn [fst snd]. intros [T B]. split.
    - unfold tr_ok in *. destruct (pb_line _ _ _ _ _ _) as [[done' dest']| | |]; auto.
      destruct T as (T1 & T2 & T3 & T4). rewrite zlen_app, zlen_skipn in *. repeat apply conj; auto; try lia.
      rewrite exec_app.
      rewrite <- T2. f_equal.
      rewrite <- (firstn_skipn (Z.to_nat l) dest) at 1.
      rewrite <- !app_assoc.
      rewrite (app_assoc pre done), <- zlen_app.
      rewrite exec_seq_stores; [now rewrite <- !app_assoc|].
      rewrite firstn_length. unfold zlen in *. lia.
    - intros p Hp. apply in_app_or in Hp. destruct Hp as [Hp|Hp].
      + apply seq_stores_in in Hp. lia.
      + specialize (B _ Hp). lia. }
  induction fuel as [|fuel IH]; intros done dest pre post buf ln i Hb Hi Hln; cbn [pb_line pb_line_tr]; [easy|].
  destruct (i <? ln) eqn:E; [|cbn; repeat apply conj; auto; try easy; lia].
  destruct (idx buf i) as [c|] eqn:Hc; [|easy].
  pose proof (Forall_idx _ _ _ _ Hb Hc) as Hcb. unfold is_byte in Hcb.
  destruct (c <=? 127) eqn:E1.
  - destruct ((zlen dest <? c + 1) || (ln - i - 1 <? c + 1)) eqn:E2; [easy|]. cbn zeta.
    set (lit := firstn (Z.to_nat (c + 1)) (skipn (Z.to_nat (i + 1)) buf)).
    assert (Hlit : zlen lit = c + 1) by (unfold lit; rewrite zlen_firstn, zlen_skipn; lia).
    replace (Z.to_nat (c + 1) - length lit)%nat with 0%nat by (unfold zlen in Hlit; lia).
    cbn [firstn]. rewrite app_nil_r.
    apply step; auto; [lia|]. apply IH; auto. lia.
  - destruct (c =? 128) eqn:E2; [apply IH; auto; lia|].
    cbn zeta.
    assert (Hl : 1 <= u8 (- c) + 1) by (pose proof (u8_range (- c)); lia).
    destruct ((zlen dest <? u8 (- c) + 1) || (ln <=? i + 1)) eqn:E3; [easy|].
    destruct (idx buf (i + 1)) as [v|]; [|easy].
    apply step; [lia|apply zlen_zrepeat; lia|]. apply IH; auto. lia.
Qed.

Lemma pb_lines_trace lens : forall done dest pre post buf,
  bytes_ok buf -> Forall (fun l => 0 <= l) lens -> zsum lens <= zlen buf ->
  let wr := pb_lines_tr (zlen pre + zlen done) (zlen dest) buf lens in
  match pb_lines done dest buf lens with
  | Ok d => snd wr = Ok tt /\ zlen d = zlen done + zlen dest /\
      exec store (fst wr) (pre ++ done ++ dest ++ post) = pre ++ d ++ post
  | Err e => snd wr = Err e
  | Panic => snd wr = Panic
  | NoFuel => snd wr = NoFuel
  end /\
  (forall p, In p (fst wr) -> zlen pre + zlen done <= fst p < zlen pre + zlen done + zlen dest).
Proof.
  induction lens as [|ln lens IH]; intros done dest pre post buf Hb Hl Hs; cbn [pb_lines pb_lines_tr].
  - cbn. rewrite zlen_app, <- app_assoc. repeat split; auto; easy.
  - inversion Hl; subst. cbn [zsum fold_right] in *. fold (zsum lens) in *. cbn beta in *.
    assert (0 <= zsum lens).
    { clear - H2. induction lens; cbn; [lia|]. inversion H2; subst. fold (zsum lens). specialize (IHlens H3). lia. }
    pose proof (pb_line_trace (S (length buf)) done dest pre post buf ln 0 Hb ltac:(lia) ltac:(lia)) as T.
    cbv zeta in T. destruct (pb_line_tr (S (length buf)) _ _ buf ln 0) as [w r]. cbn [fst snd] in T. destruct T as [T B].
    unfold tr_ok in T.
    destruct (pb_line _ done dest buf ln 0) as [[done' dest']| | |]; cbn [obind]; try (subst r; cbn; auto).
    destruct T as (-> & T2 & T3 & T4).
    destruct (slice buf ln (zlen buf)) as [buf'|] eqn:Es; [|cbn; auto].
    assert (Hb' : bytes_ok buf' /\ zlen buf' = zlen buf - ln).
    { split; [|now rewrite (slice_zlen _ _ _ _ Es)]. apply slice_some in Es.
      destruct Es as (_ & _ & _ & ->). apply Forall_firstn', Forall_skipn'. exact Hb. }
    specialize (IH done' dest' pre post buf' (proj1 Hb') H2 ltac:(lia)).
    cbv zeta in IH. destruct (pb_lines_tr _ _ buf' lens) as [w' r']. cbn [fst snd] in *. destruct IH as [IH B'].
    split.
    + destruct (pb_lines done' dest' buf' lens); auto. destruct IH as (IH1 & IH2 & IH3).
      repeat split; auto; [lia|]. now rewrite exec_app, T2.
    + intros p Hp. apply in_app_or in Hp. destruct Hp as [Hp|Hp]; [auto|]. specialize (B' _ Hp). lia.
Qed.

(** * All workers, all schedules *)

Definition task_ok (t : pbtask) : Prop :=
  bytes_ok (pt_buf t) /\ Forall (fun l => 0 <= l) (pt_lens t) /\ zsum (pt_lens t) <= zlen (pt_buf t).

Lemma pb_traces_in ts : Forall task_ok ts -> forall base l p, 0 <= base ->
  In l (pb_traces base ts) -> In p l -> base <= fst p < base + zlen (flat_map pt_dest ts).
Proof.
  induction 1 as [|t ts Ht Hts IH]; intros base l p Hbase; cbn [pb_traces flat_map In]; [easy|].
  rewrite zlen_app. pose proof (zlen_nonneg (pt_dest t)). pose proof (zlen_nonneg (flat_map pt_dest ts)).
  intros [<-|Hl] Hp.
  - destruct Ht as (H1 & H2 & H3).
    destruct (pb_lines_trace (pt_lens t) [] (pt_dest t) (zrepeat 0 base) [] (pt_buf t) H1 H2 H3) as [_ B].
    rewrite zlen_zrepeat in B by lia. replace (base + zlen (@nil Z)) with base in B by (unfold zlen; cbn; lia).
    specialize (B _ Hp). lia.
  - specialize (IH (base + zlen (pt_dest t)) l p ltac:(lia) Hl Hp). lia.
Qed.

Lemma pb_traces_commute ts : Forall task_ok ts -> forall base, 0 <= base ->
  ForallOrdPairs (fun l l' => forall a b : Z * Z, In a l -> In b l' -> commute store a b) (pb_traces base ts).
Proof.
  induction 1 as [|t ts Ht Hts IH]; intros base Hbase; cbn [pb_traces]; [constructor|].
  pose proof (zlen_nonneg (pt_dest t)).
  constructor; [|apply IH; lia].
  apply Forall_forall. intros l' Hl' a b Ha Hb. apply store_commute.
  pose proof (pb_traces_in ts Hts _ _ _ (ltac:(lia) : 0 <= base + zlen (pt_dest t)) Hl' Hb).
  pose proof (pb_traces_in [t] (Forall_cons _ Ht (Forall_nil _)) base _ a Hbase (or_introl eq_refl) Ha) as B.
  cbn [flat_map] in B. rewrite app_nil_r in B. lia.
Qed.

Lemma pb_traces_seq ts : Forall task_ok ts -> forall pre d,
  pb_join (map pb_run ts) = Ok d ->
  exec store (concat (pb_traces (zlen pre) ts)) (pre ++ flat_map pt_dest ts) = pre ++ d.
Proof.
  induction 1 as [|t ts Ht Hts IH]; intros pre d; cbn [map pb_join pb_traces flat_map concat].
  - intros H. injection H as <-. reflexivity.
  - intros H. destruct Ht as (H1 & H2 & H3).
    pose proof (pb_lines_trace (pt_lens t) [] (pt_dest t) pre (flat_map pt_dest ts) (pt_buf t) H1 H2 H3) as [T _].
    cbv zeta in T. replace (zlen pre + zlen (@nil Z)) with (zlen pre) in T by (unfold zlen; cbn; lia).
    unfold pb_run at 1, decodePackBitsPerLine in H. cbn [app] in T.
    destruct (pb_lines [] (pt_dest t) (pt_buf t) (pt_lens t)) as [d1| | |];
      destruct (pb_join (map pb_run ts)) as [d2| | |] eqn:E; try discriminate.
    injection H as <-. destruct T as (T1 & T2 & T3).
    rewrite exec_app, T3. change (zlen (@nil Z)) with 0 in T2.
    specialize (IH (pre ++ d1) d2 eq_refl). rewrite <- !app_assoc, zlen_app, T2, Z.add_0_l in IH. exact IH.
Qed.

(** The memory after any schedule of the workers. *)
Lemma pb_schedules ts d r : Forall task_ok ts ->
  pb_join (map pb_run ts) = Ok d ->
  interleave (pb_traces 0 ts) r ->
  exec store r (flat_map pt_dest ts) = d.
Proof.
  intros Hts Hd Hil. rewrite (interleave_exec store _ _ Hil).
  - apply (pb_traces_seq ts Hts [] d Hd).
  - apply pb_traces_commute; [exact Hts|lia].
Qed.

(** * Splitting the lines *)

Lemma offsets_idx lens : forall total i, 0 <= i < zlen lens ->
  idx (offsets_from total lens) i = Some (total + zsum (firstn (Z.to_nat i) lens)).
Proof.
  induction lens as [|l lens IH]; intros total i Hi; [unfold zlen in Hi; cbn in Hi; lia|].
  rewrite zlen_cons in Hi. cbn [offsets_from]. destruct (Z.eq_dec i 0) as [->|].
  - rewrite idx_cons_0. cbn. f_equal. lia.
  - rewrite idx_cons_S by lia. rewrite IH by lia.
    replace (Z.to_nat i) with (S (Z.to_nat (i - 1))) by lia. cbn [firstn zsum fold_right].
    fold (zsum (firstn (Z.to_nat (i - 1)) lens)). f_equal. lia.
Qed.

Lemma slice_app3 {A} (a b c : list A) : slice (a ++ b ++ c) (zlen a) (zlen a + zlen b) = Some b.
Proof.
  unfold slice. rewrite !zlen_app. pose proof (zlen_nonneg a). pose proof (zlen_nonneg b). pose proof (zlen_nonneg c).
  replace ((0 <=? zlen a) && _ && _) with true by lia.
  rewrite skipn_app_exact by (unfold zlen; lia). rewrite firstn_app_exact by (unfold zlen; lia). reflexivity.
Qed.

Lemma slice_app2 {A} (a b : list A) : slice (a ++ b) (zlen a) (zlen (a ++ b)) = Some b.
Proof. pose proof (slice_app3 a b []) as H. rewrite app_nil_r in H. now rewrite zlen_app. Qed.

Definition encs (ls : list line) : bytes := flat_map enc_line ls.
Definition elens (ls : list line) : list Z := map (fun l => zlen (enc_line l)) ls.
Lemma zsum_elens ls : zsum (elens ls) = zlen (encs ls).
Proof.
  induction ls as [|l ls IH]; [reflexivity|].
  change (zsum (elens (l :: ls))) with (zlen (enc_line l) + zsum (elens ls)).
  change (encs (l :: ls)) with (enc_line l ++ encs ls). rewrite zlen_app. lia.
Qed.

Lemma encs_app a b : encs (a ++ b) = encs a ++ encs b.
Proof. apply flat_map_app. Qed.
Lemma expand_lines_app a b : expand_lines (a ++ b) = expand_lines a ++ expand_lines b.
Proof. apply flat_map_app. Qed.
Lemma elens_app a b : elens (a ++ b) = elens a ++ elens b.
Proof. apply map_app. Qed.
Lemma zlen_elens a : zlen (elens a) = zlen a.
Proof. apply zlen_map. Qed.

Lemma elens_nonneg a : Forall (fun l => 0 <= l) (elens a).
Proof. apply Forall_forall. intros x Hx. apply in_map_iff in Hx. destruct Hx as (l & <- & _). apply zlen_nonneg. Qed.
Lemma encs_bytes a : Forall line_ok a -> bytes_ok (encs a).
Proof.
  induction 1 as [|l a H1 H IH]; cbn; [constructor|]. apply Forall_bytes_app. split; [|exact IH].
  induction H1 as [|p l H1 H2 IHl]; cbn; [constructor|]. apply Forall_bytes_app. split; [|exact IHl].
  destruct p; cbn in *.
  - constructor; [unfold is_byte; lia|easy].
  - constructor; [unfold is_byte; lia|]. now constructor.
  - repeat constructor; unfold is_byte; lia.
Qed.

Definition full (width : Z) (l : line) : Prop := line_ok l /\ zlen (expand_line l) = width.
Lemma full_ok w ls : Forall (full w) ls -> Forall line_ok ls.
Proof. apply Forall_impl. now intros a []. Qed.
Lemma full_expand w ls : Forall (full w) ls -> zlen (expand_lines ls) = zlen ls * w.
Proof.
  induction 1 as [|l ls [H1 H2] H IH]; [reflexivity|].
  cbn [expand_lines flat_map]. fold (expand_lines ls). rewrite zlen_app, zlen_cons. lia.
Qed.

Lemma idx_offs a b : 0 < zlen b -> idx (offsets_from 0 (elens (a ++ b))) (zlen a) = Some (zlen (encs a)).
Proof.
  intros Hb. pose proof (zlen_nonneg a). rewrite offsets_idx by (rewrite zlen_elens, zlen_app; lia).
  rewrite elens_app, firstn_app_exact by (rewrite <- Nat2Z.id; fold (zlen (elens a)); now rewrite zlen_elens).
  now rewrite zsum_elens.
Qed.

Lemma overwrite_split dest n a b : zlen a = Z.of_nat n -> Z.of_nat n <= zlen dest ->
  overwrite (firstn n dest) a ++ overwrite (skipn n dest) b = overwrite dest (a ++ b).
Proof.
  intros Ha Hd. unfold overwrite. rewrite skipn_skipn, app_length.
  rewrite (skipn_all2 (firstn n dest)) by (rewrite firstn_length; unfold zlen in *; lia).
  rewrite app_nil_r, <- app_assoc. do 3 f_equal. unfold zlen in *. lia.
Qed.

Lemma pb_tasks_full k : forall done ls dest width step,
  Forall (full width) (done ++ ls) -> 0 <= width -> 0 <= step ->
  Z.of_nat k * step < zlen ls -> zlen (done ++ ls) * width <= zlen dest ->
  exists ts,
    pb_tasks k dest (encs (done ++ ls)) (elens (done ++ ls)) (offsets_from 0 (elens (done ++ ls))) width step (zlen done) = Some ts /\
    Forall task_ok ts /\
    flat_map pt_dest ts = skipn (Z.to_nat (zlen done * width)) dest /\
    pb_join (map pb_run ts) = Ok (overwrite (skipn (Z.to_nat (zlen done * width)) dest) (expand_lines ls)).
Proof.
  induction k as [|k IH]; intros done ls dest width step Hf Hw Hs Hk Hd; cbn [pb_tasks].
  - pose proof (zlen_nonneg done). rewrite zlen_app in Hd.
    assert (Hf2 : Forall (full width) ls) by (apply Forall_app in Hf; easy).
    unfold slice at 1. replace ((0 <=? zlen done * width) && _ && _) with true by nia.
    rewrite firstn_all2 by (rewrite skipn_length; unfold zlen; lia).
    rewrite idx_offs by lia.
    rewrite elens_app. rewrite <- (zlen_elens done), slice_app2, zlen_elens.
    rewrite encs_app, slice_app2.
    eexists. split; [reflexivity|]. split; [|split].
    + constructor; [|constructor]. unfold task_ok. cbn.
      split; [apply encs_bytes, (full_ok width), Hf2|]. split; [|rewrite zsum_elens; lia].
      apply elens_nonneg.
    + cbn. now rewrite app_nil_r.
    + cbn. rewrite <- (app_nil_r (encs ls)).
      unfold pb_run. cbn [pt_dest pt_buf pt_lens]. unfold encs, elens.
      rewrite packbits_decode.
      * now rewrite app_nil_r.
      * eapply full_ok, Hf2.
      * rewrite (full_expand width) by easy. rewrite zlen_skipn. nia.
  - pose proof (zlen_nonneg done). rewrite zlen_app in Hd.
    set (m := firstn (Z.to_nat step) ls). set (t := skipn (Z.to_nat step) ls).
    assert (Hls : ls = m ++ t) by (symmetry; apply firstn_skipn).
    assert (Hm : zlen m = step) by (unfold m; rewrite zlen_firstn; lia).
    assert (Ht : zlen t = zlen ls - step) by (unfold t; rewrite zlen_skipn; lia).
    clearbody m t. subst ls. rewrite zlen_app in *.
    assert (Hf1 : Forall (full width) m) by (apply Forall_app in Hf; destruct Hf as [_ Hf]; apply Forall_app in Hf; easy).
    unfold slice at 1. replace ((0 <=? zlen done * width) && _ && _) with true by nia.
    rewrite idx_offs by (rewrite zlen_app; lia).
    rewrite (app_assoc done m t). rewrite <- Hm. rewrite <- zlen_app. rewrite idx_offs by lia. rewrite Hm.
    rewrite <- (app_assoc done m t). rewrite 2 elens_app.
    rewrite zlen_app. rewrite <- (zlen_elens done), <- (zlen_elens m), slice_app3, !zlen_elens.
    rewrite 3 encs_app, zlen_app, slice_app3.
    destruct (IH (done ++ m) t dest width step) as (ts & T1 & T2 & T3 & T4); auto.
    + now rewrite <- app_assoc.
    + lia.
    + rewrite !zlen_app. lia.
    + rewrite <- app_assoc, zlen_app, Hm in T1.
      rewrite 2 elens_app, 2 encs_app in T1. rewrite Hm, T1. cbn [option_map].
      eexists. split; [reflexivity|].
      set (d0 := skipn (Z.to_nat (zlen done * width)) dest) in *.
      assert (Hd0 : zlen d0 = zlen dest - zlen done * width) by (unfold d0; rewrite zlen_skipn; nia).
      assert (Hsk : skipn (Z.to_nat (zlen (done ++ m) * width)) dest = skipn (Z.to_nat (step * width)) d0).
      { unfold d0. rewrite skipn_skipn. f_equal. rewrite zlen_app. nia. }
      rewrite Hsk in *.
      replace (Z.to_nat ((zlen done + step) * width - zlen done * width)) with (Z.to_nat (step * width)) by nia.
      split; [|split].
      * constructor; [|exact T2]. unfold task_ok. cbn.
        split; [apply encs_bytes, (full_ok width), Hf1|]. split; [|rewrite zsum_elens; lia].
        apply elens_nonneg.
      * cbn [flat_map pt_dest]. rewrite T3. apply firstn_skipn.
      * cbn [map pb_join]. rewrite T4.
        unfold pb_run at 1. cbn [pt_dest pt_buf pt_lens].
        pose proof (packbits_decode m (firstn (Z.to_nat (step * width)) d0) [] (full_ok _ _ Hf1)) as D.
        rewrite app_nil_r in D. unfold encs, elens. rewrite D.
        -- rewrite expand_lines_app. f_equal. apply overwrite_split; rewrite ?(full_expand width) by easy; nia.
        -- rewrite (full_expand width) by easy. rewrite zlen_firstn. nia.
Qed.

Lemma worker_count_spec procs lines : (1 <= procs)%nat ->
  (1 <= worker_count procs lines <= procs)%nat /\
  (worker_count procs lines = 1%nat \/ 2 * Z.of_nat (worker_count procs lines) <= lines).
Proof.
  induction procs as [|[|p] IH]; intros H; [lia|cbn; lia|].
  change (worker_count (S (S p)) lines) with
    (if lines <? 2 * Z.of_nat (S (S p)) then worker_count (S p) lines else S (S p)).
  specialize (IH ltac:(lia)). destruct (lines <? 2 * Z.of_nat (S (S p))) eqn:E; lia.
Qed.

(** C07, including the schedules. *)
Lemma packbits_workers procs dest width ls : (1 <= procs)%nat -> 0 <= width ->
  Forall (full width) ls -> zlen ls * width <= zlen dest ->
  decodePackBits_data procs dest (encs ls) width (zlen ls) (elens ls) = Ok (overwrite dest (expand_lines ls)).
Proof.
  intros Hp Hw Hf Hd. unfold decodePackBits_data.
  destruct (worker_count_spec procs (zlen ls) Hp) as [W1 W2].
  set (n := worker_count procs (zlen ls)) in *.
  destruct (n =? 1)%nat eqn:E.
  - rewrite <- (app_nil_r (encs ls)). apply packbits_decode; [eapply full_ok, Hf|].
    rewrite (full_expand width) by easy. exact Hd.
  - assert (n <> 1%nat) by (intros ->; discriminate).
    rewrite Z.quot_div_nonneg by lia.
    destruct (pb_tasks_full (n - 1) [] ls dest width (zlen ls / Z.of_nat n)) as (ts & T1 & _ & _ & T4); auto; try lia.
    { assert (Z.of_nat n * (zlen ls / Z.of_nat n) <= zlen ls) by (apply Z.mul_div_le; lia).
      assert (1 <= zlen ls / Z.of_nat n) by (apply Z.div_le_lower_bound; lia).
      replace (Z.of_nat (n - 1)) with (Z.of_nat n - 1) by lia. nia. }
    cbn [app] in T1. change (zlen (@nil line)) with 0 in T1. rewrite T1, T4. reflexivity.
Qed.

(** The tasks handed to the goroutines. *)
Definition tasks_of (procs : nat) (dest buf : bytes) (width lines : Z) (lens : list Z) : option (list pbtask) :=
  let n := worker_count procs lines in
  pb_tasks (n - 1) dest buf lens (offsets_from 0 lens) width (Z.quot lines (Z.of_nat n)) 0.

Lemma packbits_schedules procs dest width ls : (1 <= procs)%nat -> 0 <= width -> ls <> [] ->
  Forall (full width) ls -> zlen ls * width <= zlen dest ->
  exists ts, tasks_of procs dest (encs ls) width (zlen ls) (elens ls) = Some ts /\
    length ts = worker_count procs (zlen ls) /\
    (forall t, In t ts -> exists d, pb_run t = Ok d) /\
    forall r, interleave (pb_traces 0 ts) r -> exec store r dest = overwrite dest (expand_lines ls).
Proof.
  intros Hp Hw Hne Hf Hd. unfold tasks_of.
  destruct (worker_count_spec procs (zlen ls) Hp) as [W1 W2].
  set (n := worker_count procs (zlen ls)) in *.
  assert (0 < zlen ls) by (destruct ls; [easy|rewrite zlen_cons; pose proof (zlen_nonneg ls); lia]).
  rewrite Z.quot_div_nonneg by lia.
  destruct (pb_tasks_full (n - 1) [] ls dest width (zlen ls / Z.of_nat n)) as (ts & T1 & T2 & T3 & T4); auto; try lia.
  { assert (Z.of_nat n * (zlen ls / Z.of_nat n) <= zlen ls) by (apply Z.mul_div_le; lia).
    destruct W2 as [W2|W2]; [rewrite W2; cbn; lia|].
    assert (1 <= zlen ls / Z.of_nat n) by (apply Z.div_le_lower_bound; lia).
    replace (Z.of_nat (n - 1)) with (Z.of_nat n - 1) by lia. nia. }
  cbn [app] in T1. change (zlen (@nil line)) with 0 in T1, T3, T4. change (Z.to_nat (0 * width)) with 0%nat in *.
  cbn [skipn] in T3, T4. exists ts. split; [exact T1|]. split; [|split].
  - clear - T1 W1. assert (forall k dest b l o w s f ts, pb_tasks k dest b l o w s f = Some ts -> length ts = S k) as L.
    { induction k as [|k IH]; intros dest' b l o w s f ts'; cbn [pb_tasks].
      - repeat match goal with |- context [match ?x with _ => _ end] => destruct x; try discriminate end.
        now injection 1 as <-.
      - destruct (slice dest' _ _); try discriminate. destruct (idx o f); try discriminate.
        destruct (idx o (f + s)); try discriminate. destruct (slice l _ _); try discriminate.
        destruct (slice b _ _); try discriminate.
        destruct (pb_tasks k dest' b l o w s (f + s)) eqn:E; try discriminate.
        cbn. injection 1 as <-. cbn. f_equal. eauto. }
    rewrite (L _ _ _ _ _ _ _ _ _ T1). lia.
  - clear - T4. revert T4. generalize (overwrite dest (expand_lines ls)). induction ts as [|t ts IH]; intros d T4 x [].
    + subst x. cbn in T4. destruct (pb_run t); eauto; destruct (pb_join (map pb_run ts)); discriminate.
    + cbn in T4. destruct (pb_run t); destruct (pb_join (map pb_run ts)) eqn:E; try discriminate. eapply IH; eauto.
  - intros r Hr. rewrite <- T3. eapply pb_schedules; [exact T2| |exact Hr]. now rewrite T3.
Qed.
