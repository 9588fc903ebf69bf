(** Proofs about the other builds of decodePackBits. *)
From Verif Require Import Base BaseFacts MUtil SUtil PUtil MRect MSched MCompress SCompress PCompress PCompress2 PCompress3 MCompressJs.

(** The positions of the headers in a line without no-op bytes *)
Inductive header (buf : bytes) (ln : Z) : Z -> Prop :=
| H_start : header buf ln 0
| H_lit i c : header buf ln i -> i < ln -> idx buf i = Some c -> c <= 127 -> header buf ln (i + (c + 1 + 1))
| H_rep i c : header buf ln i -> i < ln -> idx buf i = Some c -> 128 < c -> header buf ln (i + 2).
Definition noNops (buf : bytes) (ln : Z) : Prop := forall i, header buf ln i -> i < ln -> idx buf i <> Some 128.

Lemma idx_suffix {A} (buf : list A) base i : 0 <= base -> 0 <= i -> idx (skipn (Z.to_nat base) buf) i = idx buf (base + i).
Proof. intros. rewrite idx_skipn by lia. f_equal. lia. Qed.
Lemma zseq_length n : length (zseq n) = n.
Proof. unfold zseq. now rewrite map_length, seq_length. Qed.
Lemma idx_zseq n i : 0 <= i < Z.of_nat n -> idx (zseq n) i = Some i.
Proof.
  intros H. unfold zseq. rewrite idx_map. unfold idx. replace (i <? 0) with false by lia.
  rewrite (nth_error_nth' _ 0%nat) by (rewrite seq_length; lia). cbn [option_map]. rewrite seq_nth by lia. f_equal. lia.
Qed.
Lemma js_copy_eq buf ofs l : 0 <= ofs -> 0 <= l -> ofs + l <= zlen buf -> js_copy buf ofs l = firstn (Z.to_nat l) (skipn (Z.to_nat ofs) buf).
Proof.
  intros H1 H2 H3. unfold js_copy. apply idx_ext_in.
  - rewrite zlen_map, zlen_firstn, zlen_skipn. unfold zlen at 1. rewrite zseq_length. lia.
  - intros i Hi. rewrite zlen_map in Hi. unfold zlen in Hi. rewrite zseq_length in Hi.
    rewrite idx_map, idx_zseq by lia. cbn [option_map]. rewrite idx_firstn by lia. rewrite idx_suffix by lia.
    destruct (idx_in buf (ofs + i)) as [v ->]; [lia|]. reflexivity.
Qed.

Lemma js_line_eq : forall fuel fuel' done dest buf ln i base, bytes_ok buf -> 0 <= base -> 0 <= i <= ln -> base + ln <= zlen buf ->
  noNops (skipn (Z.to_nat base) buf) ln -> header (skipn (Z.to_nat base) buf) ln i ->
  ln - i < Z.of_nat fuel -> ln - i < Z.of_nat fuel' ->
  js_line fuel' done dest buf ln i (base + i) =
  obind (pb_line fuel done dest (skipn (Z.to_nat base) buf) ln i) (fun '(done, dest) => Ok (done, dest, base + ln)).
Proof.
  induction fuel as [|fuel IH]; intros fuel' done dest buf ln i base B Hb Hi Hl N Hh F F'; [lia|].
  destruct fuel' as [|fuel']; [lia|]. cbn [js_line pb_line].
  destruct (Z.ltb_spec i ln) as [L|L]; [|cbn [obind]; do 2 f_equal; lia].
  rewrite idx_suffix by lia. destruct (idx buf (base + i)) as [c|] eqn:Ec; [|apply idx_none in Ec; lia].
  assert (Hc : 0 <= c <= 255) by (pose proof (Forall_idx _ _ _ _ B Ec) as X; unfold is_byte in X; lia).
  assert (Ec' : idx (skipn (Z.to_nat base) buf) i = Some c) by (rewrite idx_suffix by lia; exact Ec).
  assert (N8 : c <> 128) by (intros ->; exact (N i Hh L Ec')).
  destruct (Z.leb_spec c 127) as [C|C].
  - cbv zeta. destruct ((zlen dest <? c + 1) || (ln - i - 1 <? c + 1)) eqn:E; [reflexivity|].
    apply Bool.orb_false_iff in E. destruct E as [E1 E2]. apply Z.ltb_ge in E1, E2.
    rewrite js_copy_eq by lia. rewrite !BaseFacts.skipn_skipn.
    replace (Z.to_nat base + Z.to_nat (i + 1))%nat with (Z.to_nat (base + i + 1)) by lia.
    set (cp := firstn (Z.to_nat (c + 1)) (skipn (Z.to_nat (base + i + 1)) buf)).
    assert (Lc : length cp = Z.to_nat (c + 1)).
    { unfold cp. rewrite firstn_length, skipn_length. unfold zlen in Hl. lia. }
    rewrite Lc, Nat.sub_diag. cbn [firstn]. rewrite app_nil_r.
    replace (base + i + 1 + (c + 1)) with (base + (i + (c + 1 + 1))) by lia.
    apply IH; auto; try lia. now apply H_lit.
  - destruct (Z.eqb_spec c 128) as [|_]; [contradiction|].
    cbv zeta. assert (Eu : u8 (- c) + 1 = 256 - c + 1).
    { unfold u8. replace (- c) with (256 - c + (-1) * 256) by lia. rewrite Z.mod_add by lia. rewrite Z.mod_small; lia. }
    rewrite Eu. destruct ((zlen dest <? 256 - c + 1) || (ln <=? i + 1)) eqn:E; [reflexivity|].
    apply Bool.orb_false_iff in E. destruct E as [E1 E2]. apply Z.leb_gt in E2.
    rewrite idx_suffix by lia. replace (base + (i + 1)) with (base + i + 1) by lia.
    destruct (idx_in buf (base + i + 1)) as [v Ev]; [lia|]. rewrite Ev. cbn [js_byte].
    replace (base + i + 2) with (base + (i + 2)) by lia. apply IH; auto; try lia. eapply H_rep; eauto; lia.
Qed.

Lemma js_lines_eq lens : forall done dest buf base, bytes_ok buf -> 0 <= base -> Forall (fun l => 0 <= l) lens -> base + zsum lens <= zlen buf ->
  (forall a ln b, lens = a ++ ln :: b -> noNops (skipn (Z.to_nat (base + zsum a)) buf) ln) ->
  js_lines done dest buf lens base = pb_lines done dest (skipn (Z.to_nat base) buf) lens.
Proof.
  induction lens as [|ln lens IH]; intros done dest buf base B Hb F Hl N; [reflexivity|].
  inversion F as [|? ? F1 F2]; subst. cbn [zsum fold_right] in Hl. fold (zsum lens) in Hl.
  assert (Hz : 0 <= zsum lens) by (clear - F2; induction F2; cbn; [lia|]; unfold zsum in *; lia).
  cbn [js_lines pb_lines].
  pose proof (js_line_eq (S (length (skipn (Z.to_nat base) buf))) (S (length buf + Z.to_nat ln)) done dest buf ln 0 base) as E.
  rewrite Z.add_0_r in E. rewrite E; clear E; auto; try lia.
  - destruct (pb_line (S (length (skipn (Z.to_nat base) buf))) done dest (skipn (Z.to_nat base) buf) ln 0) as [[d1 d2]| | |]; cbn [obind]; try reflexivity.
    unfold slice. rewrite zlen_skipn.
    replace ((0 <=? ln) && (ln <=? Z.max 0 (zlen buf - Z.of_nat (Z.to_nat base))) && (Z.max 0 (zlen buf - Z.of_nat (Z.to_nat base)) <=? Z.max 0 (zlen buf - Z.of_nat (Z.to_nat base)))) with true by lia.
    cbv iota. rewrite firstn_all2 by (rewrite !skipn_length; unfold zlen; lia).
    rewrite BaseFacts.skipn_skipn. replace (Z.to_nat base + Z.to_nat ln)%nat with (Z.to_nat (base + ln)) by lia.
    apply IH; auto; try lia. intros a l b El. rewrite <- Z.add_assoc. apply (N (ln :: a) l b). now rewrite El.
  - replace base with (base + zsum []) by (cbn; lia). now apply (N [] ln lens).
  - constructor.
  - rewrite skipn_length. unfold zlen in Hl. lia.
Qed.

(** * Any data without the byte 128 *)
Lemma js_any dest buf lens : bytes_ok buf -> Forall (fun l => 0 <= l) lens -> zsum lens <= zlen buf -> ~ In 128 buf ->
  jsDecodePackBits dest buf lens = decodePackBitsPerLine dest buf lens.
Proof.
  intros B F H N. unfold jsDecodePackBits, decodePackBitsPerLine. rewrite js_lines_eq; auto; try lia.
  intros a ln b _ i _ _ E. apply N. unfold idx in E. destruct (i <? 0); [discriminate|]. apply nth_error_In in E.
  rewrite <- (firstn_skipn (Z.to_nat (0 + zsum a)) buf). apply in_or_app. now right.
Qed.

(** * Well formed lines *)
Lemma header_packet ps : line_ok ps -> ~ In Nop ps -> forall post i, header (enc_line ps ++ post) (zlen (enc_line ps)) i ->
  exists a b, ps = a ++ b /\ i = zlen (enc_line a).
Proof.
  intros OK N post. induction 1 as [|i c Hh (a & b & E & Ei) Hi Ec C|i c Hh (a & b & E & Ei) Hi Ec C].
  - exists [], ps. auto.
  - subst ps. unfold enc_line in Ec, Hi. rewrite flat_map_app in Ec, Hi. fold (enc_line a) in *. fold (enc_line b) in *. rewrite zlen_app in Hi. subst i.
    rewrite <- app_assoc, idx_app_r, Z.sub_diag in Ec by lia.
    apply Forall_app in OK. destruct OK as [OA OB].
    destruct b as [|p b]; [cbn [enc_line flat_map] in Hi; rewrite ?zlen_nil in Hi; lia|]. inversion OB as [|? ? Op OB']; subst.
    destruct p as [bs|n v|]; cbn in Ec; injection Ec as <-.
    + exists (a ++ [Lit bs]), b. split; [now rewrite <- app_assoc|]. unfold enc_line. rewrite flat_map_app, zlen_app. cbn [flat_map enc_packet app].
      rewrite app_nil_r, zlen_cons. lia.
    + cbn in Op. lia.
    + exfalso. apply N, in_or_app. right. now left.
  - subst ps. unfold enc_line in Ec, Hi. rewrite flat_map_app in Ec, Hi. fold (enc_line a) in *. fold (enc_line b) in *. rewrite zlen_app in Hi. subst i.
    rewrite <- app_assoc, idx_app_r, Z.sub_diag in Ec by lia.
    apply Forall_app in OK. destruct OK as [OA OB].
    destruct b as [|p b]; [cbn [enc_line flat_map] in Hi; rewrite ?zlen_nil in Hi; lia|]. inversion OB as [|? ? Op OB']; subst.
    destruct p as [bs|n v|]; cbn in Ec; injection Ec as <-.
    + cbn in Op. lia.
    + exists (a ++ [Rep n v]), b. split; [now rewrite <- app_assoc|]. unfold enc_line. rewrite flat_map_app, zlen_app. cbn [flat_map enc_packet app].
      rewrite !zlen_cons, zlen_nil. lia.
    + lia.
Qed.
Lemma line_noNops ps post : line_ok ps -> ~ In Nop ps -> noNops (enc_line ps ++ post) (zlen (enc_line ps)).
Proof.
  intros OK N i Hh Hi E. destruct (header_packet ps OK N post i Hh) as (a & b & -> & ->).
  unfold enc_line in E, Hi. rewrite flat_map_app in E, Hi. fold (enc_line a) in *. fold (enc_line b) in *. rewrite zlen_app in Hi.
  rewrite <- app_assoc, idx_app_r, Z.sub_diag in E by lia.
  apply Forall_app in OK. destruct OK as [OA OB].
  destruct b as [|p b]; [cbn [enc_line flat_map] in Hi; rewrite ?zlen_nil in Hi; lia|]. inversion OB as [|? ? Op OB']; subst.
  destruct p as [bs|n v|]; cbn in E, Op; [injection E as E; lia|injection E as E; lia|]. apply N, in_or_app. right. now left.
Qed.
Lemma enc_line_bytes ps : line_ok ps -> bytes_ok (enc_line ps).
Proof.
  induction 1 as [|p ps Hp H IH]; [constructor|]. cbn [enc_line flat_map]. apply Forall_bytes_app. split; [|exact IH].
  destruct p as [bs|n v|]; cbn in *; repeat constructor; unfold is_byte in *; try lia. apply Hp.
Qed.
Lemma js_wellformed ls dest post : Forall line_ok ls -> (forall l, In l ls -> ~ In Nop l) -> zlen (expand_lines ls) <= zlen dest -> bytes_ok post ->
  jsDecodePackBits dest (flat_map enc_line ls ++ post) (map (fun l => zlen (enc_line l)) ls) = Ok (overwrite dest (expand_lines ls)).
Proof.
  intros OK N Hf Bp. rewrite <- (packbits_decode ls dest post OK Hf). unfold jsDecodePackBits, decodePackBitsPerLine.
  assert (Zs : forall ls, zsum (map (fun l => zlen (enc_line l)) ls) = zlen (flat_map enc_line ls)).
  { induction ls0 as [|l ls0 IH]; [reflexivity|]. cbn [map zsum fold_right flat_map]. fold (zsum (map (fun l => zlen (enc_line l)) ls0)). rewrite zlen_app. lia. }
  rewrite js_lines_eq; auto; try lia.
  - apply Forall_bytes_app. split; [|exact Bp]. clear - OK. induction OK as [|l ls Hl H IH]; [constructor|]. cbn. apply Forall_bytes_app. split; [now apply enc_line_bytes|exact IH].
  - apply Forall_forall. intros x I. apply in_map_iff in I. destruct I as (l & <- & _). apply zlen_nonneg.
  - rewrite Zs, zlen_app. pose proof (zlen_nonneg post). lia.
  - intros a ln b E. apply map_eq_app in E. destruct E as (la & lb & -> & <- & E). apply map_eq_cons in E. destruct E as (l & lb' & -> & <- & <-).
    rewrite Zs, Z.add_0_l. rewrite flat_map_app, <- app_assoc, skipn_app_exact by (unfold zlen; lia). cbn [flat_map]. rewrite <- app_assoc.
    apply line_noNops; [|apply N, in_or_app; right; now left].
    apply Forall_app in OK. destruct OK as [_ OK]. now inversion OK.
Qed.

(** * Termination *)
Lemma js_line_total : forall fuel done dest buf ln j ofs, 0 <= j -> 0 <= ofs -> bytes_ok buf ->
  Z.max 0 (zlen buf - ofs) + Z.max 0 (ln - j) < Z.of_nat fuel ->
  js_line fuel done dest buf ln j ofs <> NoFuel /\ js_line fuel done dest buf ln j ofs <> Panic /\
  (forall d1 d2 o, js_line fuel done dest buf ln j ofs = Ok (d1, d2, o) -> 0 <= o /\ zlen d1 + zlen d2 = zlen done + zlen dest).
Proof.
  induction fuel as [|fuel IH]; intros done dest buf ln j ofs Hj Ho B F; [lia|]. cbn [js_line].
  destruct (Z.ltb_spec j ln) as [L|L]; [|repeat split; try discriminate; intros; [|congruence]; now match goal with H : Ok _ = Ok _ |- _ => injection H; intros; subst end].
  destruct (idx buf ofs) as [c|] eqn:Ec.
  - apply idx_some_lt in Ec as Hofs. assert (Hc : 0 <= c <= 255) by (pose proof (Forall_idx _ _ _ _ B Ec) as X; unfold is_byte in X; lia).
    destruct (Z.leb_spec c 127) as [C|C]; [|destruct (Z.eqb_spec c 128) as [E8|E8]]; cbv zeta.
    + destruct ((zlen dest <? c + 1) || (ln - j - 1 <? c + 1)) eqn:E; [repeat split; intros; discriminate|].
      apply Bool.orb_false_iff in E. destruct E as [E1 E2]. apply Z.ltb_ge in E1, E2.
      destruct (IH (done ++ js_copy buf (ofs + 1) (c + 1)) (skipn (Z.to_nat (c + 1)) dest) buf ln (j + (c + 1 + 1)) (ofs + 1 + (c + 1))) as (A1 & A2 & A3); try lia; auto.
      split; [exact A1|]. split; [exact A2|]. intros d1 d2 o X. destruct (A3 _ _ _ X) as [Y1 Y2]. split; [exact Y1|].
      rewrite zlen_app, zlen_skipn in Y2. unfold js_copy in Y2. rewrite zlen_map in Y2. unfold zlen at 4 in Y2. rewrite zseq_length in Y2. lia.
    + apply IH; auto; lia.
    + destruct ((zlen dest <? 256 - c + 1) || (ln <=? j + 1)) eqn:E; [repeat split; intros; discriminate|].
      apply Bool.orb_false_iff in E. destruct E as [E1 E2]. apply Z.ltb_ge in E1. apply Z.leb_gt in E2.
      destruct (IH (done ++ zrepeat (js_byte (idx buf (ofs + 1))) (256 - c + 1)) (skipn (Z.to_nat (256 - c + 1)) dest) buf ln (j + 2) (ofs + 2)) as (A1 & A2 & A3); try lia; auto.
      split; [exact A1|]. split; [exact A2|]. intros d1 d2 o X. destruct (A3 _ _ _ X) as [Y1 Y2]. split; [exact Y1|].
      rewrite zlen_app, zlen_skipn, zlen_zrepeat in Y2 by lia. lia.
  - destruct (ln <=? j + 1); [repeat split; intros; discriminate|]. apply IH; auto; lia.
Qed.
Lemma js_lines_total lens : forall done dest buf ofs, 0 <= ofs -> bytes_ok buf ->
  match js_lines done dest buf lens ofs with Ok d => zlen d = zlen done + zlen dest | Err _ => True | Panic | NoFuel => False end.
Proof.
  induction lens as [|ln lens IH]; intros done dest buf ofs Ho B; cbn [js_lines]; [now rewrite zlen_app|].
  destruct (js_line_total (S (length buf + Z.to_nat ln)) done dest buf ln 0 ofs) as (A1 & A2 & A3); auto; try (unfold zlen; lia).
  destruct (js_line (S (length buf + Z.to_nat ln)) done dest buf ln 0 ofs) as [[[d1 d2] o]| | |]; cbn [obind]; try contradiction; auto.
  destruct (A3 _ _ _ eq_refl) as [Y1 Y2]. specialize (IH d1 d2 buf o Y1 B). destruct (js_lines d1 d2 buf lens o); auto. lia.
Qed.

Lemma builds_agree procs dest width ls : (1 <= procs)%nat -> 0 <= width ->
  Forall (fun l => line_ok l /\ zlen (expand_line l) = width) ls -> (forall l, In l ls -> ~ In Nop l) -> zlen ls * width <= zlen dest ->
  let buf := flat_map enc_line ls in
  let lens := map (fun l => zlen (enc_line l)) ls in
  let result := Ok (overwrite dest (expand_lines ls)) in
  decodePackBits_data procs dest buf width (zlen ls) lens = result /\
  decodePackBits_data 1 dest buf width (zlen ls) lens = result /\
  jsDecodePackBits dest buf lens = result.
Proof.
  intros P W F N D buf lens result.
  assert (F' : Forall line_ok ls) by (eapply Forall_impl; [|exact F]; intros l [X _]; exact X).
  assert (E : zlen (expand_lines ls) = zlen ls * width).
  { clear - F. induction F as [|l ls [_ Hl] F IH]; [reflexivity|]. unfold expand_lines in *. cbn [flat_map]. rewrite zlen_app, zlen_cons, IH, Hl. lia. }
  split; [now apply packbits_workers|]. split; [now apply packbits_workers|].
  unfold buf. rewrite <- (app_nil_r (flat_map enc_line ls)). apply js_wellformed; auto; [lia|constructor].
Qed.
