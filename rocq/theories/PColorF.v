(** Colours with floating point samples (C30) and the colour models of the pickers (C25),
    proofs. *)
From Verif Require Import Base BaseFacts MRect MPicker MColor SColor PColor.

Lemma round_even_near m k : 1 <= k -> Z.abs (round_even m k * 2 ^ k - m) <= 2 ^ (k - 1).
Proof.
  intros Hk. unfold round_even. rewrite Z.shiftr_div_pow2, !Z.shiftl_mul_pow2 by lia.
  assert (Hp : 2 ^ k = 2 * 2 ^ (k - 1)) by (rewrite <- Z.pow_succ_r by lia; f_equal; lia).
  assert (Hh : 0 < 2 ^ (k - 1)) by (apply Z.pow_pos_nonneg; lia).
  pose proof (Z.div_mod m (2 ^ k) ltac:(lia)). pose proof (Z.mod_pos_bound m (2 ^ k) ltac:(lia)).
  set (q := m / 2 ^ k) in *. set (t := m mod 2 ^ k) in *. replace (m - q * 2 ^ k) with t by lia.
  clearbody q t. rewrite Hp in *. set (h := 2 ^ (k - 1)) in *. clearbody h.
  destruct ((1 * h <? t) || ((t =? 1 * h) && Z.odd q)) eqn:E; [|].
  - assert (h <= t) by lia. replace ((q + 1) * (2 * h) - m) with (2 * h - t) by lia. lia.
  - assert (t <= h). { apply orb_false_iff in E as [E _]. lia. } replace (q * (2 * h) - m) with (- t) by lia. lia.
Qed.

Lemma scale16_near prec neg m d : 24 <= prec -> 0 < d -> 0 < m < 2 ^ d -> let n := scale16 prec (Ffin neg m (- d)) in
  (512 * n - 1) * 2 ^ d <= 512 * 65535 * m < 512 * (n + 1) * 2 ^ d.
Proof.
  intros Hprec Hd Hm. cbn [scale16]. rewrite Z.opp_involutive.
  set (p := m * 65535). assert (Hp : 0 < p) by (unfold p; lia). set (k := Z.max 0 (Z.log2 p + 1 - prec)).
  assert (Hlog : Z.log2 p < d + 16).
  { apply Z.log2_lt_pow2; [exact Hp|]. rewrite Z.pow_add_r by lia. change (2 ^ 16) with 65536. unfold p. nia. }
  assert (HD : 0 < 2 ^ d) by (apply Z.pow_pos_nonneg; lia).
  set (q := Z.shiftl (if k =? 0 then p else round_even p k) k).
  assert (Hq : exists j, 0 < j /\ q mod j = 0 /\ 2 ^ d mod j = 0 /\ 2 * Z.abs (q - p) <= j /\ (Z.abs (q - p) = 0 \/ 256 * j <= 2 ^ d)).
  { unfold q. destruct (k =? 0) eqn:E.
    - exists 1. replace k with 0 by lia. rewrite Z.shiftl_0_r, !Z.mod_1_r. lia.
    - exists (2 ^ k). assert (Hk : 1 <= k <= d - 8) by lia. rewrite Z.shiftl_mul_pow2 by lia.
      assert (E2 : 2 ^ d = 2 ^ (d - k - 8) * 256 * 2 ^ k).
      { change 256 with (2 ^ 8). rewrite <- !Z.pow_add_r by lia. f_equal. lia. }
      split; [apply Z.pow_pos_nonneg; lia|]. split; [apply Z.mod_mul; apply Z.pow_nonzero; lia|].
      split; [rewrite E2; apply Z.mod_mul; apply Z.pow_nonzero; lia|].
      pose proof (round_even_near p k ltac:(lia)). assert (Hp2 : 2 ^ k = 2 * 2 ^ (k - 1)) by (rewrite <- Z.pow_succ_r by lia; f_equal; lia).
      split; [lia|]. right. assert (0 < 2 ^ (d - k - 8)) by (apply Z.pow_pos_nonneg; lia).
      assert (0 < 2 ^ k) by (apply Z.pow_pos_nonneg; lia). nia. }
  destruct Hq as (j & Hj & Q1 & D1 & N1 & N2). rewrite Z.shiftr_div_pow2 by lia.
  assert (Hq0 : 0 <= q < 65536 * 2 ^ d).
  { assert (p + 65535 <= 65535 * 2 ^ d) by (unfold p; nia). split; [|lia].
    destruct N2 as [N2|N2]; [lia|]. destruct (Z_lt_le_dec q 0) as [L|L]; [|exact L]. exfalso.
    assert (q <= - j). { apply Z.mod_divide in Q1 as [z Q1]; [|lia]. clearbody q. subst q. clear - L Hj. assert (z < 0) by nia. nia. } lia. }
  pose proof (Z.div_mod q (2 ^ d) ltac:(lia)) as DM. pose proof (Z.mod_pos_bound q (2 ^ d) HD) as MB.
  assert (Hn : 0 <= q / 2 ^ d < 65536) by (split; [apply Z.div_pos; lia|apply Z.div_lt_upper_bound; lia]).
  rewrite u32_small by lia. set (n := q / 2 ^ d) in *.
  assert (U : q + j <= (n + 1) * 2 ^ d).
  { apply Z.mod_divide in Q1 as [z Q1]; [|lia]. apply Z.mod_divide in D1 as [y D1]; [|lia].
    assert (L : q < (n + 1) * 2 ^ d) by lia. clearbody n. rewrite D1, Q1 in L |- *. clear - L Hj. assert (z < (n + 1) * y) by nia. nia. }
  unfold p in *. split; lia.
Qed.

Lemma testbit_div b n : 0 <= n -> 0 <= b < 2 ^ (n + 1) -> Z.testbit b n = (b / 2 ^ n =? 1).
Proof.
  intros Hn Hb. rewrite Z.testbit_odd, Z.shiftr_div_pow2 by exact Hn. rewrite Z.pow_add_r in Hb by lia. change (2 ^ 1) with 2 in Hb.
  assert (0 < 2 ^ n) by (apply Z.pow_pos_nonneg; lia).
  assert (0 <= b / 2 ^ n < 2) by (split; [apply Z.div_pos; lia|apply Z.div_lt_upper_bound; lia]).
  set (x := b / 2 ^ n) in *. assert (E : x = 0 \/ x = 1) by lia. destruct E as [-> | ->]; reflexivity.
Qed.

Definition flDec (mb eb b : Z) : fl :=
  let neg := b / 2 ^ (mb + eb) =? 1 in
  let ex := b / 2 ^ mb mod 2 ^ eb in
  let fr := b mod 2 ^ mb in
  let bias := 2 ^ (eb - 1) - 1 in
  if ex =? 2 ^ eb - 1 then (if fr =? 0 then Finf neg else Fnan)
  else Ffin neg (if ex =? 0 then fr else fr + 2 ^ mb) (Z.max ex 1 - bias - mb).
Lemma f32_dec b : u32_ok b -> f32 b = flDec 23 8 b.
Proof.
  intros H. unfold f32, flDec. rewrite (testbit_div b 31) by (unfold u32_ok in H; lia). rewrite Z.shiftr_div_pow2 by lia.
  change 255 with (Z.ones 8). change 8388607 with (Z.ones 23). rewrite !Z.land_ones by lia.
  pose proof (Z.mod_pos_bound (b / 2 ^ 23) (2 ^ 8) ltac:(lia)).
  change (23 + 8) with 31. change (Z.ones 8) with (2 ^ 8 - 1). destruct (_ =? 2 ^ 8 - 1); [reflexivity|].
  change (2 ^ (8 - 1) - 1) with 127. change (2 ^ 23) with 8388608 at 4. destruct (_ =? 0) eqn:E0; f_equal; lia.
Qed.
Lemma f64_dec b : 0 <= b < 2 ^ 64 -> f64 b = flDec 52 11 b.
Proof.
  intros H. unfold f64, flDec. rewrite (testbit_div b 63) by lia. rewrite Z.shiftr_div_pow2 by lia.
  change 2047 with (Z.ones 11). change 4503599627370495 with (Z.ones 52). rewrite !Z.land_ones by lia.
  pose proof (Z.mod_pos_bound (b / 2 ^ 52) (2 ^ 11) ltac:(lia)).
  change (52 + 11) with 63. change (Z.ones 11) with (2 ^ 11 - 1). destruct (_ =? 2 ^ 11 - 1); [reflexivity|].
  change (2 ^ (11 - 1) - 1) with 1023. change (2 ^ 52) with 4503599627370496 at 4. destruct (_ =? 0) eqn:E0; f_equal; lia.
Qed.

Lemma level_flDec mb eb prec b : 1 < mb -> 1 < eb -> mb + 1 < 2 ^ (eb - 1) -> 24 <= prec -> 0 <= b < 2 ^ (mb + eb + 1) ->
  let x := flDec mb eb b in
  level mb eb b (if f_ge1 x then 65535 else if f_le0 x then 0 else scale16 prec x).
Proof.
  intros Hmb Heb Hbias Hprec Hb. unfold flDec, level. cbv zeta.
  assert (HM : 0 < 2 ^ mb) by (apply Z.pow_pos_nonneg; lia). assert (HE : 0 < 2 ^ eb) by (apply Z.pow_pos_nonneg; lia).
  assert (HEE : 2 ^ eb = 2 * 2 ^ (eb - 1)) by (rewrite <- Z.pow_succ_r by lia; f_equal; lia).
  assert (Hs : b / 2 ^ (mb + eb) = 0 \/ b / 2 ^ (mb + eb) = 1).
  { assert (0 < 2 ^ (mb + eb)) by (apply Z.pow_pos_nonneg; lia). rewrite (Z.pow_add_r 2 (mb + eb) 1) in Hb by lia.
    assert (0 <= b / 2 ^ (mb + eb) < 2) by (split; [apply Z.div_pos; lia|apply Z.div_lt_upper_bound; lia]). lia. }
  set (s := b / 2 ^ (mb + eb)) in *. pose proof (Z.mod_pos_bound (b / 2 ^ mb) (2 ^ eb) HE) as Hex. set (ex := _ mod 2 ^ eb) in *.
  pose proof (Z.mod_pos_bound b (2 ^ mb) HM) as Hfr. set (fr := b mod 2 ^ mb) in *. clearbody s ex fr. set (bias := 2 ^ (eb - 1) - 1) in *.
  destruct (ex =? 2 ^ eb - 1) eqn:E1.
  { destruct (fr =? 0) eqn:E2; [|reflexivity]. destruct Hs as [-> | ->]; reflexivity. }
  set (m := if ex =? 0 then fr else fr + 2 ^ mb). cbn [f_ge1 f_le0].
  destruct (s =? 1) eqn:Es; [reflexivity|]. cbn [negb andb orb].
  assert (Hm0 : (m =? 0) = ((ex =? 0) && (fr =? 0))) by (unfold m; destruct (ex =? 0) eqn:E2; cbn [andb]; [reflexivity|lia]).
  assert (HM2 : 0 < 2 ^ (mb + 1)) by (apply Z.pow_pos_nonneg; lia). assert (HM3 : 2 ^ (mb + 1) = 2 * 2 ^ mb) by (rewrite Z.pow_add_r by lia; lia).
  assert (Hml : 0 <= m < 2 ^ (mb + 1)) by (unfold m; destruct (ex =? 0); lia).
  destruct (bias <=? ex) eqn:E3.
  - replace ((ex =? 0) && (fr =? 0)) with false by lia.
    replace (if 0 <=? Z.max ex 1 - bias - mb then 1 <=? m else Z.shiftl 1 (- (Z.max ex 1 - bias - mb)) <=? m) with true; [reflexivity|].
    assert (Hmm : 2 ^ mb <= m) by (unfold m; replace (ex =? 0) with false by lia; lia).
    destruct (0 <=? Z.max ex 1 - bias - mb) eqn:E4; [symmetry; lia|]. rewrite Z.shiftl_mul_pow2 by lia. symmetry. apply Z.leb_le.
    transitivity (2 ^ mb); [|exact Hmm]. rewrite Z.mul_1_l. apply Z.pow_le_mono_r; lia.
  - replace (0 <=? Z.max ex 1 - bias - mb) with false by lia. rewrite Z.shiftl_mul_pow2 by lia. rewrite Z.mul_1_l.
    replace (- (Z.max ex 1 - bias - mb)) with (bias + mb - Z.max ex 1) by lia. set (d := bias + mb - Z.max ex 1).
    assert (Hmd : m < 2 ^ d).
    { apply (Z.lt_le_trans _ (2 ^ (mb + 1))); [lia|]. apply Z.pow_le_mono_r; lia. }
    replace (2 ^ d <=? m) with false by lia. rewrite <- Hm0. destruct (m =? 0) eqn:E5; [reflexivity|].
    replace (Z.max ex 1 - bias - mb) with (- d) by lia. apply scale16_near; lia.
Qed.

Section float.
  Variable pow : Z -> Z.
  Hypothesis pow_ok : forall y, 0 <= pow y < 2 ^ 64.

  Lemma fromFloat_level y : level64 (pow y) (fromFloat pow y).
  Proof. unfold fromFloat. rewrite f64_dec by apply pow_ok. now apply (level_flDec 52 11 53). Qed.
  Lemma alpha_level a : u32_ok a -> level32 a (if f_ge1 (f32 a) then 65535 else if f_le0 (f32 a) then 0 else scale16 24 (f32 a)).
  Proof. intros H. rewrite f32_dec by exact H. apply (level_flDec 23 8 24); try lia. unfold u32_ok in H. lia. Qed.

  Lemma float_exact c : color_ok c -> is_float c -> float_rgba pow c (rgba pow c).
  Proof.
    assert (Full : forall v, v * 65535 / 65535 = v) by (intros v; apply Z.div_mul; lia).
    destruct c; intros H F; try contradiction; cbn [float_rgba rgba color_ok] in *.
    - exists (fromFloat pow y). split; [apply fromFloat_level|reflexivity].
    - pose proof (fromFloat_range pow y) as R. pose proof (alpha_level a (proj2 H)) as A. eexists. eexists. split; [apply fromFloat_level|]. split; [exact A|].
      destruct (f_ge1 (f32 a)) eqn:E1; [now rewrite Full|]. destruct (f_le0 (f32 a)) eqn:E0; [now rewrite Z.mul_0_r|].
      pose proof (scale32_range pow a E1 E0). now rewrite (proj1 (mulA_spec pow (fromFloat pow y) (scale16 24 (f32 a)) R ltac:(lia))).
    - pose proof (fromFloat_range pow r) as R1. pose proof (fromFloat_range pow g) as R2. pose proof (fromFloat_range pow b) as R3.
      pose proof (alpha_level a ltac:(tauto)) as A. eexists. eexists. eexists. eexists.
      split; [apply fromFloat_level|]. split; [apply fromFloat_level|]. split; [apply fromFloat_level|]. split; [exact A|].
      destruct (f_ge1 (f32 a)) eqn:E1; [now rewrite !Full|]. destruct (f_le0 (f32 a)) eqn:E0; [now rewrite !Z.mul_0_r|].
      pose proof (scale32_range pow a E1 E0).
      now rewrite (proj1 (mulA_spec pow (fromFloat pow r) (scale16 24 (f32 a)) R1 ltac:(lia))), (proj1 (mulA_spec pow (fromFloat pow g) (scale16 24 (f32 a)) R2 ltac:(lia))),
        (proj1 (mulA_spec pow (fromFloat pow b) (scale16 24 (f32 a)) R3 ltac:(lia))).
  Qed.
End float.

Lemma picker_model pk x y c : picker_at pk x y = Some c -> colour_of (colorModel (pk_kind pk)) c.
Proof.
  unfold picker_at. destruct (pk_kind pk); cbn [colorModel].
  { destruct (idx (plane pk 0) _); [|discriminate]. intros H. cbn [colour_of]. unfold idx in H.
    destruct (_ <? 0) in H; [discriminate|]. now apply nth_error_In in H. }
  all: cbv zeta; unfold oap, o1, option_map;
    repeat match goal with |- context [match ?o with Some _ => _ | None => _ end] => lazymatch o with match _ with _ => _ end => fail | _ => destruct o end end;
    intros [= <-]; try exact I; reflexivity.
Qed.
