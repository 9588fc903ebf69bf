(** Proofs about util.go. *)
From Verif Require Import Base BaseFacts MUtil SUtil.

(** * Decimal notation *)

Lemma dec_value_app ds1 ds2 acc : dec_value (ds1 ++ ds2) acc = dec_value ds2 (dec_value ds1 acc).
Proof. revert acc; induction ds1; intros; cbn; auto. Qed.

Lemma dec_value_lin ds acc : dec_value ds acc = acc * 10 ^ zlen ds + dec_value ds 0.
Proof.
  revert acc; induction ds as [|d ds IH]; intros acc; cbn [dec_value].
  - change (zlen (@nil Z)) with 0; lia.
  - rewrite IH, (IH (10 * 0 + (d - 48))), zlen_cons, Z.pow_add_r by (unfold zlen; lia). lia.
Qed.

(** Invariant of the loop: the remaining value and the digits written. *)
Lemma itoa_loop_correct room : forall x acc,
  0 <= x < 10 ^ Z.of_nat room -> (1 <= room)%nat ->
  exists room' ds,
    itoa_loop room x acc = Some (room', ds ++ acc) /\
    Forall is_digit ds /\ ds <> [] /\
    (forall d t, ds = d :: t -> d = 48 -> t = []) /\
    dec_value ds 0 = x /\ (room' + length ds = room)%nat.
Proof.
  induction room as [|room IH]; intros x acc Hx Hr; [lia|].
  cbn [itoa_loop]. destruct (x >? 9) eqn:E.
  - assert (Hq : Z.quot x 10 = x / 10) by (apply Z.quot_div_nonneg; lia).
    assert (Hm : Z.rem x 10 = x mod 10) by (apply Z.rem_mod_nonneg; lia).
    rewrite Hq, Hm.
    assert (Hd : 0 <= x mod 10 < 10) by (apply Z.mod_pos_bound; lia).
    rewrite u8_small by lia.
    assert (Hlt : x / 10 < 10 ^ Z.of_nat room).
    { apply Z.div_lt_upper_bound; [lia|].
      replace (Z.of_nat (S room)) with (1 + Z.of_nat room) in Hx by lia.
      rewrite Z.pow_add_r in Hx by lia. lia. }
    assert (1 <= room)%nat.
    { destruct room; [|lia]. cbn in Hlt. lia. }
    destruct (IH (x / 10) (x mod 10 + 48 :: acc)) as (r' & ds & E1 & Hds & Hne & Hlead & Hv & Hlen); [lia | lia |].
    exists r', (ds ++ [x mod 10 + 48]).
    rewrite E1, <- app_assoc; cbn [app]. split; [easy|].
    repeat split.
    + apply Forall_app; split; [easy|]. constructor; [|constructor]. unfold is_digit; lia.
    + intros C; apply app_eq_nil in C as [_ C]; discriminate.
    + intros d t Ed Hz. destruct ds as [|d0 ds0]; [easy|].
      cbn in Ed; injection Ed as -> <-.
      assert (ds0 = []) as -> by eauto. subst d. cbn in Hv. lia.
    + rewrite dec_value_app, Hv. cbn [dec_value]. lia.
    + rewrite app_length; cbn; lia.
  - unfold itoa_put. rewrite u8_small by lia.
    exists room, [x + 48]. cbn [app]. split; [easy|].
    repeat split.
    + constructor; [unfold is_digit; lia | constructor].
    + easy.
    + intros d t [= <- <-] _; easy.
    + cbn; lia.
    + cbn; lia.
Qed.

Lemma itoa_correct x :
  -9223372036854775808 < x < 9223372036854775808 ->
  exists s, itoa x = Some s /\ canonical_decimal x s.
Proof.
  intros Hx. unfold itoa.
  set (y := if x <? 0 then i64 (- x) else x).
  assert (Hy : y = Z.abs x).
  { unfold y; destruct (x <? 0) eqn:E; [rewrite i64_small; lia | lia]. }
  destruct (itoa_loop_correct 32 y []) as (r' & ds & E1 & Hds & Hne & Hlead & Hv & Hlen).
  { split; [lia|]. assert (9223372036854775808 < 10 ^ Z.of_nat 32) by reflexivity. lia. }
  { lia. }
  rewrite E1, app_nil_r.
  destruct (x <? 0) eqn:E.
  - unfold itoa_put. destruct r' as [|r'].
    + exfalso. (* 32 digits would need a value of at least 10^31 *)
      assert (Hl : length ds = 32%nat) by lia.
      destruct ds as [|d ds]; [easy|].
      assert (ds <> []) by (intros ->; cbn in Hl; lia).
      assert (d <> 48) by (intros ->; eauto).
      inversion Hds as [|? ? Hd Hds']; subst.
      cbn [dec_value] in Hv. rewrite dec_value_lin in Hv.
      assert (HH : forall l acc, Forall is_digit l -> 0 <= acc -> 0 <= dec_value l acc).
      { clear. induction l as [|c l IH]; intros acc Hl Ha; cbn [dec_value]; [easy|].
        inversion Hl; subst. unfold is_digit in *. apply IH; [easy | lia]. }
      specialize (HH ds 0 Hds' ltac:(lia)).
      assert (Hz : zlen ds = 31) by (unfold zlen; cbn in Hl; lia). rewrite Hz in Hv.
      change (10 ^ 31) with 10000000000000000000000000000000 in Hv.
      unfold is_digit in Hd. lia.
    + cbn [option_map snd]. eexists; split; [reflexivity|].
      exists ds. split; [exact Hds|]. split; [exact Hne|]. split; [exact Hlead|]. split; [lia|].
      rewrite E. now rewrite u8_small by lia.
  - eexists; split; [reflexivity|].
    exists ds. split; [exact Hds|]. split; [exact Hne|]. split; [exact Hlead|]. split; [lia|].
    now rewrite E.
Qed.

Lemma dec_value_inj_digits ds acc : Forall is_digit ds -> 0 <= acc -> acc <= dec_value ds acc.
Proof.
  revert acc; induction ds as [|d ds IH]; intros acc Hd Ha; cbn [dec_value]; [lia|].
  inversion Hd; subst. unfold is_digit in *. specialize (IH (10 * acc + (d - 48)) H2). lia.
Qed.

(** * Big endian numbers *)

Lemma be_length n v : length (be n v) = n.
Proof. induction n; cbn; auto. Qed.
Lemma zlen_be n v : zlen (be n v) = Z.of_nat n.
Proof. unfold zlen; now rewrite be_length. Qed.
Lemma be_bytes n v : bytes_ok (be n v).
Proof.
  induction n; constructor; [|easy].
  unfold is_byte. apply Z.mod_pos_bound; lia.
Qed.
Lemma be_value_lin bs acc : be_value bs acc = acc * 256 ^ zlen bs + be_value bs 0.
Proof.
  revert acc; induction bs as [|b bs IH]; intros acc; cbn [be_value].
  - rewrite zlen_nil; lia.
  - rewrite IH, (IH (256 * 0 + b)), zlen_cons, Z.pow_add_r by (unfold zlen; lia). lia.
Qed.
Lemma be_value_be n v : be_value (be n v) 0 = v mod 256 ^ Z.of_nat n.
Proof.
  induction n as [|n IH].
  - cbn. now rewrite Z.mod_1_r.
  - cbn [be be_value]. rewrite be_value_lin, IH, zlen_be.
    replace (Z.of_nat (S n)) with (1 + Z.of_nat n) by lia.
    rewrite Z.pow_add_r by lia. change (256 ^ 1) with 256.
    assert (0 < 256 ^ Z.of_nat n) by (apply Z.pow_pos_nonneg; lia).
    replace (256 * 256 ^ Z.of_nat n) with (256 ^ Z.of_nat n * 256) by lia.
    rewrite (Z.rem_mul_r v (256 ^ Z.of_nat n) 256) by lia. lia.
Qed.

Lemma bytes_ok_idx b i v : bytes_ok b -> idx b i = Some v -> 0 <= v < 256.
Proof. intros H E. exact (Forall_idx _ _ _ _ H E). Qed.

Lemma readUint16_spec b o v :
  bytes_ok b -> readUint16 b o = Some v ->
  exists b0 b1, idx b o = Some b0 /\ idx b (o + 1) = Some b1 /\ v = be_value [b0; b1] 0.
Proof.
  intros Hb. unfold readUint16.
  destruct (idx b o) as [b0|] eqn:E0; [|easy].
  destruct (idx b (o + 1)) as [b1|] eqn:E1; [|easy].
  intros [= <-]. exists b0, b1. repeat split.
  pose proof (bytes_ok_idx _ _ _ Hb E0). pose proof (bytes_ok_idx _ _ _ Hb E1).
  rewrite lor_shift by lia. cbn; lia.
Qed.

Lemma lor_step x b m k :
  m = 8 + k -> 0 <= b < 256 -> 0 <= k ->
  Z.lor (Z.shiftl x m) (Z.shiftl b k) = Z.shiftl (x * 256 + b) k.
Proof.
  intros -> Hb Hk.
  rewrite <- Z.shiftl_shiftl by lia. rewrite <- Z.shiftl_lor.
  rewrite lor_shift by lia. f_equal.
Qed.

Lemma lor3 b0 b1 b2 b3 :
  0 <= b0 < 256 -> 0 <= b1 < 256 -> 0 <= b2 < 256 -> 0 <= b3 < 256 ->
  Z.lor (Z.lor (Z.lor (Z.shiftl b0 24) (Z.shiftl b1 16)) (Z.shiftl b2 8)) b3 =
  ((b0 * 256 + b1) * 256 + b2) * 256 + b3.
Proof.
  intros. rewrite (lor_step b0 b1 24 16), (lor_step _ b2 16 8) by lia.
  rewrite lor_shift by lia. reflexivity.
Qed.

Lemma lor7 b0 b1 b2 b3 b4 b5 b6 b7 :
  0 <= b0 < 256 -> 0 <= b1 < 256 -> 0 <= b2 < 256 -> 0 <= b3 < 256 ->
  0 <= b4 < 256 -> 0 <= b5 < 256 -> 0 <= b6 < 256 -> 0 <= b7 < 256 ->
  Z.lor (Z.lor (Z.lor (Z.lor (Z.lor (Z.lor (Z.lor
             (Z.shiftl b0 56) (Z.shiftl b1 48)) (Z.shiftl b2 40)) (Z.shiftl b3 32))
             (Z.shiftl b4 24)) (Z.shiftl b5 16)) (Z.shiftl b6 8)) b7 =
  ((((((b0 * 256 + b1) * 256 + b2) * 256 + b3) * 256 + b4) * 256 + b5) * 256 + b6) * 256 + b7.
Proof.
  intros.
  rewrite (lor_step b0 b1 56 48), (lor_step _ b2 48 40), (lor_step _ b3 40 32),
    (lor_step _ b4 32 24), (lor_step _ b5 24 16), (lor_step _ b6 16 8) by lia.
  rewrite lor_shift by lia. reflexivity.
Qed.

Lemma readUint32_spec b o v :
  bytes_ok b -> readUint32 b o = Some v ->
  exists b0 b1 b2 b3, idx b o = Some b0 /\ idx b (o + 1) = Some b1 /\
    idx b (o + 2) = Some b2 /\ idx b (o + 3) = Some b3 /\ v = be_value [b0; b1; b2; b3] 0.
Proof.
  intros Hb. unfold readUint32.
  destruct (idx b o) as [b0|] eqn:E0; [|easy].
  destruct (idx b (o + 1)) as [b1|] eqn:E1; [|easy].
  destruct (idx b (o + 2)) as [b2|] eqn:E2; [|easy].
  destruct (idx b (o + 3)) as [b3|] eqn:E3; [|easy].
  intros [= <-]. exists b0, b1, b2, b3. repeat split.
  pose proof (bytes_ok_idx _ _ _ Hb E0). pose proof (bytes_ok_idx _ _ _ Hb E1).
  pose proof (bytes_ok_idx _ _ _ Hb E2). pose proof (bytes_ok_idx _ _ _ Hb E3).
  rewrite lor3 by lia. cbn; lia.
Qed.

Lemma readUint64_spec b o v :
  bytes_ok b -> readUint64 b o = Some v ->
  exists b0 b1 b2 b3 b4 b5 b6 b7, idx b o = Some b0 /\ idx b (o + 1) = Some b1 /\
    idx b (o + 2) = Some b2 /\ idx b (o + 3) = Some b3 /\
    idx b (o + 4) = Some b4 /\ idx b (o + 5) = Some b5 /\
    idx b (o + 6) = Some b6 /\ idx b (o + 7) = Some b7 /\
    v = be_value [b0; b1; b2; b3; b4; b5; b6; b7] 0.
Proof.
  intros Hb. unfold readUint64.
  destruct (idx b o) as [b0|] eqn:E0; [|easy].
  destruct (idx b (o + 1)) as [b1|] eqn:E1; [|easy].
  destruct (idx b (o + 2)) as [b2|] eqn:E2; [|easy].
  destruct (idx b (o + 3)) as [b3|] eqn:E3; [|easy].
  destruct (idx b (o + 4)) as [b4|] eqn:E4; [|easy].
  destruct (idx b (o + 5)) as [b5|] eqn:E5; [|easy].
  destruct (idx b (o + 6)) as [b6|] eqn:E6; [|easy].
  destruct (idx b (o + 7)) as [b7|] eqn:E7; [|easy].
  intros [= <-]. exists b0, b1, b2, b3, b4, b5, b6, b7. repeat split.
  pose proof (bytes_ok_idx _ _ _ Hb E0). pose proof (bytes_ok_idx _ _ _ Hb E1).
  pose proof (bytes_ok_idx _ _ _ Hb E2). pose proof (bytes_ok_idx _ _ _ Hb E3).
  pose proof (bytes_ok_idx _ _ _ Hb E4). pose proof (bytes_ok_idx _ _ _ Hb E5).
  pose proof (bytes_ok_idx _ _ _ Hb E6). pose proof (bytes_ok_idx _ _ _ Hb E7).
  rewrite lor7 by lia. cbn; lia.
Qed.

(** Reading a value written somewhere inside a buffer. *)
Lemma idx_mid (pre bs post : bytes) k :
  0 <= k < zlen bs -> idx (pre ++ bs ++ post) (zlen pre + k) = idx bs k.
Proof.
  intros. rewrite idx_app_r by lia. replace (zlen pre + k - zlen pre) with k by lia.
  apply idx_app_l; lia.
Qed.

Lemma readUint16_mid pre post b0 b1 o :
  o = zlen pre -> 0 <= b0 < 256 -> 0 <= b1 < 256 ->
  readUint16 (pre ++ [b0; b1] ++ post) o = Some (b0 * 256 + b1).
Proof.
  intros -> ? ?. unfold readUint16.
  replace (zlen pre) with (zlen pre + 0) by lia.
  rewrite (idx_mid pre [b0; b1] post 0), <- Z.add_assoc, (idx_mid pre [b0; b1] post (0 + 1))
    by (unfold zlen; cbn; lia).
  change (idx [b0; b1] 0) with (Some b0). change (idx [b0; b1] (0 + 1)) with (Some b1). cbn match.
  rewrite lor_shift by lia. reflexivity.
Qed.

Lemma readUint16_be pre post v o :
  o = zlen pre -> 0 <= v < 65536 -> readUint16 (pre ++ be 2 v ++ post) o = Some v.
Proof.
  intros Ho Hv. cbn [be]. rewrite readUint16_mid; try easy; try (apply Z.mod_pos_bound; lia).
  f_equal. change (256 ^ Z.of_nat 1) with 256. change (256 ^ Z.of_nat 0) with 1. lia.
Qed.

Lemma readUint32_be pre post v o :
  o = zlen pre -> 0 <= v < 4294967296 -> readUint32 (pre ++ be 4 v ++ post) o = Some v.
Proof.
  intros -> Hv. unfold readUint32.
  pose proof (idx_mid pre (be 4 v) post 0 ltac:(rewrite zlen_be; lia)) as H0. rewrite Z.add_0_r in H0.
  rewrite H0, !(idx_mid pre (be 4 v) post) by (rewrite zlen_be; lia).
  change (idx (be 4 v) 0) with (Some (v / 16777216 mod 256)).
  change (idx (be 4 v) 1) with (Some (v / 65536 mod 256)).
  change (idx (be 4 v) 2) with (Some (v / 256 mod 256)).
  change (idx (be 4 v) 3) with (Some (v / 1 mod 256)). cbn match.
  rewrite lor3 by (apply Z.mod_pos_bound; lia).
  f_equal. lia.
Qed.

Lemma be_value_8 v : 0 <= v < 18446744073709551616 -> be_value (be 8 v) 0 = v.
Proof. intros. rewrite be_value_be. apply Z.mod_small. cbn; lia. Qed.

Lemma readUint64_be pre post v o :
  o = zlen pre -> 0 <= v < 18446744073709551616 ->
  bytes_ok pre -> bytes_ok post -> readUint64 (pre ++ be 8 v ++ post) o = Some v.
Proof.
  intros -> Hv Hpre Hpost.
  destruct (readUint64 (pre ++ be 8 v ++ post) (zlen pre)) as [w|] eqn:E.
  - apply readUint64_spec in E;
      [|apply Forall_app; split; [easy|apply Forall_app; split; [apply be_bytes|easy]]].
    destruct E as (b0 & b1 & b2 & b3 & b4 & b5 & b6 & b7 & E0 & E1 & E2 & E3 & E4 & E5 & E6 & E7 & ->).
    pose proof (idx_mid pre (be 8 v) post 0 ltac:(rewrite zlen_be; lia)) as H0. rewrite Z.add_0_r in H0.
    rewrite H0 in E0; rewrite !(idx_mid pre (be 8 v) post) in E1, E2, E3, E4, E5, E6, E7 by (rewrite zlen_be; lia).
    f_equal. rewrite <- (be_value_8 v Hv) at 1. f_equal.
    apply idx_ext_in; [rewrite zlen_be; easy|].
    intros i Hi. assert (Hi' : 0 <= i < 8) by (unfold zlen in Hi; cbn in Hi; lia).
    assert (i = 0 \/ i = 1 \/ i = 2 \/ i = 3 \/ i = 4 \/ i = 5 \/ i = 6 \/ i = 7)
      as [->|[->|[->|[->|[->|[->|[->| ->]]]]]]] by lia; symmetry; assumption.
  - exfalso. unfold readUint64 in E.
    pose proof (idx_mid pre (be 8 v) post 0 ltac:(rewrite zlen_be; lia)) as H0. rewrite Z.add_0_r in H0.
    rewrite H0, !(idx_mid pre (be 8 v) post) in E by (rewrite zlen_be; lia).
    cbn -[Z.pow Z.lor Z.shiftl] in E. discriminate.
Qed.

(** Writing then reading. *)
Lemma writeUint16_spec b v o b' :
  writeUint16 b v o = Some b' -> 0 <= v < 65536 ->
  zlen b' = zlen b /\ 0 <= o /\ o + 1 < zlen b /\
  (forall i, idx b' i = if i =? o then Some (v / 256) else if i =? o + 1 then Some (v mod 256) else idx b i).
Proof.
  unfold writeUint16. destruct (upd b o (u8 (Z.shiftr v 8))) as [b1|] eqn:E1; [|easy].
  intros E2 Hv.
  pose proof (upd_zlen _ _ _ _ E1). pose proof (upd_zlen _ _ _ _ E2).
  assert (0 <= o < zlen b).
  { unfold upd in E1. destruct ((0 <=? o) && (o <? zlen b)) eqn:C; [lia | easy]. }
  assert (o + 1 < zlen b1).
  { unfold upd in E2. destruct ((0 <=? o + 1) && (o + 1 <? zlen b1)) eqn:C; [lia | easy]. }
  repeat split; try lia.
  intros i. rewrite (idx_upd _ _ _ i _ E2), (idx_upd _ _ _ i _ E1).
  rewrite Z.shiftr_div_pow2 by lia. change (2 ^ 8) with 256.
  assert (0 <= v / 256 < 256) by lia. rewrite (u8_small (v / 256)) by lia.
  unfold u8.
  destruct (o + 1 =? i) eqn:A, (o =? i) eqn:B, (i =? o) eqn:C, (i =? o + 1) eqn:D; try lia; try reflexivity.
Qed.

Lemma upd_inbounds {A} (l : list A) i v : 0 <= i < zlen l -> exists l', upd l i v = Some l'.
Proof. intros; unfold upd. replace ((0 <=? i) && (i <? zlen l)) with true by lia. eauto. Qed.

Lemma writeUint16_total b v o :
  0 <= o -> o + 1 < zlen b -> exists b', writeUint16 b v o = Some b'.
Proof.
  intros. unfold writeUint16.
  destruct (upd_inbounds b o (u8 (Z.shiftr v 8))) as [b1 E]; [lia|]. rewrite E.
  pose proof (upd_zlen _ _ _ _ E). apply upd_inbounds; lia.
Qed.

Lemma readUint16_writeUint16 b v o b' :
  0 <= v < 65536 -> writeUint16 b v o = Some b' -> readUint16 b' o = Some v.
Proof.
  intros Hv E. apply writeUint16_spec in E as (? & ? & ? & H2); [|easy].
  unfold readUint16. rewrite !H2.
  replace (o =? o) with true by lia. replace (o + 1 =? o) with false by lia.
  replace (o + 1 =? o + 1) with true by lia.
  rewrite lor_shift by lia. f_equal. change (2 ^ 8) with 256. lia.
Qed.

Lemma writeUint32_spec b v o b' :
  writeUint32 b v o = Some b' -> 0 <= v < 4294967296 ->
  zlen b' = zlen b /\ 0 <= o /\ o + 3 < zlen b /\
  (forall i, idx b' i = if i =? o then Some (v / 16777216)
                        else if i =? o + 1 then Some (v / 65536 mod 256)
                        else if i =? o + 2 then Some (v / 256 mod 256)
                        else if i =? o + 3 then Some (v mod 256) else idx b i).
Proof.
  unfold writeUint32.
  destruct (upd b o (u8 (Z.shiftr v 24))) as [b1|] eqn:E1; [|easy].
  destruct (upd b1 (o + 1) (u8 (Z.shiftr v 16))) as [b2|] eqn:E2; [|easy].
  destruct (upd b2 (o + 2) (u8 (Z.shiftr v 8))) as [b3|] eqn:E3; [|easy].
  intros E4 Hv.
  pose proof (upd_zlen _ _ _ _ E1). pose proof (upd_zlen _ _ _ _ E2).
  pose proof (upd_zlen _ _ _ _ E3). pose proof (upd_zlen _ _ _ _ E4).
  assert (0 <= o < zlen b).
  { unfold upd in E1. destruct ((0 <=? o) && (o <? zlen b)) eqn:C; [lia | easy]. }
  assert (o + 3 < zlen b3).
  { unfold upd in E4. destruct ((0 <=? o + 3) && (o + 3 <? zlen b3)) eqn:C; [lia | easy]. }
  repeat split; try lia.
  intros i. rewrite (idx_upd _ _ _ i _ E4), (idx_upd _ _ _ i _ E3), (idx_upd _ _ _ i _ E2), (idx_upd _ _ _ i _ E1).
  rewrite !Z.shiftr_div_pow2 by lia. change (2 ^ 8) with 256. change (2 ^ 16) with 65536. change (2 ^ 24) with 16777216.
  assert (0 <= v / 16777216 < 256) by lia. rewrite (u8_small (v / 16777216)) by lia.
  unfold u8.
  destruct (i =? o) eqn:C0, (i =? o + 1) eqn:C1, (i =? o + 2) eqn:C2, (i =? o + 3) eqn:C3; try lia;
  destruct (o + 3 =? i) eqn:D3; try lia; try reflexivity;
  destruct (o + 2 =? i) eqn:D2; try lia; try reflexivity;
  destruct (o + 1 =? i) eqn:D1; try lia; try reflexivity;
  destruct (o =? i) eqn:D0; try lia; try reflexivity.
Qed.

Lemma writeUint32_total b v o :
  0 <= o -> o + 3 < zlen b -> exists b', writeUint32 b v o = Some b'.
Proof.
  intros. unfold writeUint32.
  destruct (upd_inbounds b o (u8 (Z.shiftr v 24))) as [b1 E]; [lia|]. rewrite E.
  pose proof (upd_zlen _ _ _ _ E).
  destruct (upd_inbounds b1 (o + 1) (u8 (Z.shiftr v 16))) as [b2 E2]; [lia|]. rewrite E2.
  pose proof (upd_zlen _ _ _ _ E2).
  destruct (upd_inbounds b2 (o + 2) (u8 (Z.shiftr v 8))) as [b3 E3]; [lia|]. rewrite E3.
  pose proof (upd_zlen _ _ _ _ E3). apply upd_inbounds; lia.
Qed.

Lemma readUint32_writeUint32 b v o b' :
  0 <= v < 4294967296 -> writeUint32 b v o = Some b' -> readUint32 b' o = Some v.
Proof.
  intros Hv E. apply writeUint32_spec in E as (? & ? & ? & H2); [|easy].
  unfold readUint32. rewrite !H2.
  replace (o =? o) with true by lia. replace (o + 1 =? o) with false by lia.
  replace (o + 1 =? o + 1) with true by lia.
  replace (o + 2 =? o) with false by lia. replace (o + 2 =? o + 1) with false by lia.
  replace (o + 2 =? o + 2) with true by lia.
  replace (o + 3 =? o) with false by lia. replace (o + 3 =? o + 1) with false by lia.
  replace (o + 3 =? o + 2) with false by lia. replace (o + 3 =? o + 3) with true by lia.
  rewrite lor3 by lia. f_equal. lia.
Qed.

(** * Unicode strings *)

Lemma utf16_decode_of rs : Forall is_scalar rs -> utf16_decode (flat_map utf16_of rs) = rs.
Proof.
  induction 1 as [|r rs Hr Hrs IH]; [reflexivity|].
  cbn [flat_map]. unfold utf16_of at 1. unfold is_scalar in Hr.
  destruct (r <? 65536) eqn:E; cbn [app].
  - cbn [utf16_decode]. replace ((r <? 55296) || (57344 <=? r)) with true by lia.
    now rewrite IH.
  - set (h := 55296 + (r - 65536) / 1024). set (l := 56320 + (r - 65536) mod 1024).
    assert (0 <= (r - 65536) / 1024 < 1024) by (clear -Hr E; lia).
    assert (0 <= (r - 65536) mod 1024 < 1024) by (apply Z.mod_pos_bound; lia).
    cbn [utf16_decode]. replace ((h <? 55296) || (57344 <=? h)) with false by lia.
    replace ((55296 <=? h) && (h <? 56320)) with true by lia.
    replace ((56320 <=? l) && (l <? 57344)) with true by lia.
    rewrite IH. f_equal. unfold h, l.
    replace (55296 + (r - 65536) / 1024 - 55296) with ((r - 65536) / 1024) by lia.
    replace (56320 + (r - 65536) mod 1024 - 56320) with ((r - 65536) mod 1024) by lia.
    rewrite lor_shift by lia. change (2 ^ 10) with 1024.
    pose proof (Z.div_mod (r - 65536) 1024). lia.
Qed.

(** All possible values of a 6 bit tail or an aligned head. *)
Lemma lor_head k m x : 0 <= m -> 0 <= x < 2 ^ m -> Z.lor (k * 2 ^ m) x = k * 2 ^ m + x.
Proof. intros. rewrite <- Z.shiftl_mul_pow2 by lia. rewrite lor_shift by lia. now rewrite Z.shiftl_mul_pow2 by lia. Qed.

Lemma lor_tail r : Z.lor 128 (Z.land r 63) = 128 + r mod 64.
Proof.
  change 63 with (Z.ones 6). rewrite Z.land_ones by lia.
  assert (0 <= r mod 2 ^ 6 < 2 ^ 6) by (apply Z.mod_pos_bound; lia).
  change 128 with (2 * 2 ^ 6). rewrite lor_head by lia. reflexivity.
Qed.

Lemma utf8_rune_scalar r : is_scalar r -> utf8_rune r = utf8_of r.
Proof.
  unfold is_scalar; intros Hr. unfold utf8_rune, utf8_of.
  replace ((r <? 0) || (1114111 <? r) || ((55296 <=? r) && (r <=? 57343))) with false by lia.
  destruct (r <? 128) eqn:A; [replace (r <=? 127) with true by lia; easy|].
  replace (r <=? 127) with false by lia.
  rewrite !lor_tail, !Z.shiftr_div_pow2 by lia.
  change (2 ^ 6) with 64. change (2 ^ 12) with 4096. change (2 ^ 18) with 262144.
  destruct (r <? 2048) eqn:B.
  - replace (r <=? 2047) with true by lia.
    change 192 with (3 * 2 ^ 6). rewrite lor_head by lia. easy.
  - replace (r <=? 2047) with false by lia.
    destruct (r <? 65536) eqn:C.
    + replace (r <=? 65535) with true by lia.
      change 224 with (14 * 2 ^ 4). rewrite lor_head by lia. easy.
    + replace (r <=? 65535) with false by lia.
      change 240 with (30 * 2 ^ 3). rewrite lor_head by lia. easy.
Qed.

Lemma utf8_encode_scalar rs : Forall is_scalar rs -> utf8_encode rs = flat_map utf8_of rs.
Proof.
  induction 1 as [|r rs Hr Hrs IH]; [easy|].
  unfold utf8_encode in *. cbn [flat_map]. now rewrite utf8_rune_scalar, IH.
Qed.

Lemma utf16_of_range r u : is_scalar r -> In u (utf16_of r) -> 0 <= u < 65536.
Proof.
  unfold is_scalar, utf16_of; intros Hr.
  destruct (r <? 65536) eqn:E; cbn [In].
  - intros [<-|[]]; lia.
  - intros [<-|[<-|[]]]; [lia|].
    assert (0 <= (r - 65536) mod 1024 < 1024) by (apply Z.mod_pos_bound; lia). lia.
Qed.

Lemma read_units_be us pre post o :
  o = zlen pre -> Forall (fun u => 0 <= u < 65536) us ->
  read_units (pre ++ flat_map (be 2) us ++ post) o (length us) = Some us.
Proof.
  revert pre o; induction us as [|u us IH]; intros pre o Ho Hu; [reflexivity|].
  inversion Hu as [|? ? Hu1 Hu2]; subst.
  cbn [read_units length flat_map]. rewrite <- app_assoc.
  rewrite readUint16_be by easy.
  rewrite app_assoc. rewrite IH; [easy | | easy].
  rewrite zlen_app, zlen_be; lia.
Qed.

Lemma flat_map_be_zlen k us : zlen (flat_map (be k) us) = Z.of_nat k * zlen us.
Proof.
  induction us as [|u us IH]; cbn [flat_map]; [rewrite !zlen_nil; lia|].
  rewrite zlen_app, zlen_be, IH, zlen_cons; lia.
Qed.

Lemma readUnicodeString_correct rs post :
  Forall is_scalar rs ->
  let us := flat_map utf16_of rs in
  zlen us < 4294967296 ->
  readUnicodeString (be 4 (zlen us) ++ flat_map (be 2) us ++ post) = Some (flat_map utf8_of rs).
Proof.
  intros Hrs us Hlen. unfold readUnicodeString.
  pose proof (readUint32_be [] (flat_map (be 2) us ++ post) (zlen us) 0 eq_refl) as E.
  cbn [app] in E. rewrite E by (split; [apply zlen_nonneg | easy]).
  destruct (zlen us =? 0) eqn:Z0.
  - assert (us = []) as U by (apply zlen_0_nil; lia).
    destruct rs as [|r rs]; [easy|].
    unfold us in U; cbn [flat_map] in U. apply app_eq_nil in U as [U _].
    unfold utf16_of in U. destruct (r <? 65536); discriminate.
  - rewrite !zlen_app, zlen_be, flat_map_be_zlen.
    pose proof (zlen_nonneg post).
    replace (Z.of_nat 4 + (Z.of_nat 2 * zlen us + zlen post) <? 4 + 2 * zlen us) with false by lia.
    unfold zlen at 2; rewrite Nat2Z.id.
    rewrite read_units_be; [|now rewrite zlen_be|].
    + cbn [option_map]. unfold us. now rewrite utf16_decode_of, utf8_encode_scalar.
    + apply Forall_forall. intros u Hu. unfold us in Hu. apply in_flat_map in Hu as (r & Hr & Hu).
      rewrite Forall_forall in Hrs. eapply utf16_of_range; eauto.
Qed.

(** The only panics: fewer than four bytes, or a length field that claims more
    code units than there are. *)
Lemma read_units_total b o n :
  0 <= o -> o + 2 * Z.of_nat n <= zlen b -> exists us, read_units b o n = Some us.
Proof.
  revert o; induction n as [|n IH]; intros o Ho Hn; [cbn; eauto|].
  cbn [read_units]. unfold readUint16.
  destruct (idx_in b o) as [b0 ->]; [lia|].
  destruct (idx_in b (o + 1)) as [b1 ->]; [lia|].
  destruct (IH (o + 2)) as [us ->]; [lia|lia|]. cbn; eauto.
Qed.

Lemma readUint32_total b o : 0 <= o -> o + 3 < zlen b -> exists v, readUint32 b o = Some v.
Proof.
  intros. unfold readUint32.
  destruct (idx_in b o) as [b0 ->]; [lia|].
  destruct (idx_in b (o + 1)) as [b1 ->]; [lia|].
  destruct (idx_in b (o + 2)) as [b2 ->]; [lia|].
  destruct (idx_in b (o + 3)) as [b3 ->]; [lia|]. eauto.
Qed.
Lemma readUint16_total b o : 0 <= o -> o + 1 < zlen b -> exists v, readUint16 b o = Some v.
Proof.
  intros. unfold readUint16.
  destruct (idx_in b o) as [b0 ->]; [lia|].
  destruct (idx_in b (o + 1)) as [b1 ->]; [lia|]. eauto.
Qed.

Lemma readUint16_range b o v : bytes_ok b -> readUint16 b o = Some v -> 0 <= v < 65536.
Proof.
  intros Hb E. apply readUint16_spec in E as (b0 & b1 & E0 & E1 & ->); [|easy].
  pose proof (bytes_ok_idx _ _ _ Hb E0). pose proof (bytes_ok_idx _ _ _ Hb E1).
  cbn [be_value]; lia.
Qed.
Lemma readUint32_range b o v : bytes_ok b -> readUint32 b o = Some v -> 0 <= v < 4294967296.
Proof.
  intros Hb E. apply readUint32_spec in E as (b0 & b1 & b2 & b3 & E0 & E1 & E2 & E3 & ->); [|easy].
  pose proof (bytes_ok_idx _ _ _ Hb E0). pose proof (bytes_ok_idx _ _ _ Hb E1).
  pose proof (bytes_ok_idx _ _ _ Hb E2). pose proof (bytes_ok_idx _ _ _ Hb E3).
  cbn [be_value]; lia.
Qed.
Lemma readUint64_range b o v : bytes_ok b -> readUint64 b o = Some v -> 0 <= v < 18446744073709551616.
Proof.
  intros Hb E. apply readUint64_spec in E as (b0 & b1 & b2 & b3 & b4 & b5 & b6 & b7 & E0 & E1 & E2 & E3 & E4 & E5 & E6 & E7 & ->); [|easy].
  pose proof (bytes_ok_idx _ _ _ Hb E0). pose proof (bytes_ok_idx _ _ _ Hb E1).
  pose proof (bytes_ok_idx _ _ _ Hb E2). pose proof (bytes_ok_idx _ _ _ Hb E3).
  pose proof (bytes_ok_idx _ _ _ Hb E4). pose proof (bytes_ok_idx _ _ _ Hb E5).
  pose proof (bytes_ok_idx _ _ _ Hb E6). pose proof (bytes_ok_idx _ _ _ Hb E7).
  cbn [be_value]; lia.
Qed.

Lemma readUnicodeString_panics b :
  bytes_ok b ->
  (readUnicodeString b = None <->
   zlen b < 4 \/ exists ln, readUint32 b 0 = Some ln /\ zlen b < 4 + 2 * ln /\ ln <> 0).
Proof.
  intros Hb. unfold readUnicodeString.
  destruct (readUint32 b 0) as [ln|] eqn:E.
  - destruct (ln =? 0) eqn:Z0.
    + split; [easy|]. intros [H|(ln' & [= <-] & H)]; [|lia].
      apply readUint32_spec in E as (? & ? & ? & b3 & _ & _ & _ & E3 & _); [|easy].
      apply idx_some_lt in E3. lia.
    + destruct (zlen b <? 4 + 2 * ln) eqn:L.
      * split; [|easy]. intros _. right. exists ln. repeat split; lia.
      * pose proof (readUint32_range _ _ _ Hb E).
        destruct (read_units_total b 4 (Z.to_nat ln)) as [us ->]; [lia|lia|].
        cbn. split; [easy|]. intros [H1|(ln' & [= <-] & H1)]; lia.
  - split; [|easy]. intros _. left.
    destruct (Z_lt_le_dec (zlen b) 4); [easy|].
    destruct (readUint32_total b 0) as [v Ev]; [lia|lia|]. congruence.
Qed.
