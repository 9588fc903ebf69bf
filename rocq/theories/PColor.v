(** Colour types and models (C30, C31), proofs. *)
From Verif Require Import Base BaseFacts MPicker MColor SColor.

Lemma f32_nonneg b neg m e : f32 b = Ffin neg m e -> 0 <= m.
Proof.
  unfold f32. assert (0 <= Z.land b 8388607) by (apply Z.land_nonneg; lia). destruct (_ =? 255); [destruct (_ =? 0); discriminate|].
  destruct (_ =? 0); intros [= _ <- _]; lia.
Qed.
Lemma f64_nonneg b neg m e : f64 b = Ffin neg m e -> 0 <= m.
Proof.
  unfold f64. assert (0 <= Z.land b 4503599627370495) by (apply Z.land_nonneg; lia). destruct (_ =? 2047); [destruct (_ =? 0); discriminate|].
  destruct (_ =? 0); intros [= _ <- _]; lia.
Qed.

Lemma round_even_le m k n : 0 <= m -> 1 <= k -> m <= n * 2 ^ k -> 0 <= round_even m k <= n.
Proof.
  intros Hm Hk Hn. unfold round_even. rewrite Z.shiftr_div_pow2, !Z.shiftl_mul_pow2 by lia.
  assert (Hp : 0 < 2 ^ k) by (apply Z.pow_pos_nonneg; lia).
  assert (Hh : 0 < 2 ^ (k - 1)) by (apply Z.pow_pos_nonneg; lia).
  pose proof (Z.div_mod m (2 ^ k) ltac:(lia)). pose proof (Z.mod_pos_bound m (2 ^ k) Hp).
  assert (0 <= m / 2 ^ k) by (apply Z.div_pos; lia).
  set (q := m / 2 ^ k) in *. set (t := m mod 2 ^ k) in *. replace (m - q * 2 ^ k) with t by lia.
  clearbody q t. destruct ((1 * 2 ^ (k - 1) <? t) || ((t =? 1 * 2 ^ (k - 1)) && Z.odd q)) eqn:E; [|nia].
  assert (0 < t) by lia. assert (q < n) by nia. lia.
Qed.

Lemma scale16_range prec x : 16 <= prec -> (forall neg m e, x = Ffin neg m e -> 0 <= m) -> f_ge1 x = false -> f_le0 x = false ->
  0 <= scale16 prec x <= 65535.
Proof.
  intros Hprec Hx H1 H0. destruct x as [|neg|neg m e]; cbn [scale16]; try lia. specialize (Hx neg m e eq_refl).
  cbn [f_ge1 f_le0] in H1, H0. destruct neg; [discriminate H0|]. cbn [negb andb orb] in *.
  assert (He : e < 0) by (destruct (0 <=? e) eqn:E; lia). replace (0 <=? e) with false in H1 by lia.
  rewrite Z.shiftl_mul_pow2 in H1 by lia. assert (Hm : 0 < m < 2 ^ (- e)) by lia. clear H1 H0.
  set (p := m * 65535). assert (Hp : 0 < p) by (unfold p; lia). set (k := Z.max 0 (Z.log2 p + 1 - prec)).
  assert (Hlog : Z.log2 p < - e + 16).
  { apply Z.log2_lt_pow2; [exact Hp|]. rewrite Z.pow_add_r by lia. change (2 ^ 16) with 65536. unfold p. nia. }
  assert (Hk : 0 <= k <= - e) by lia.
  assert (Hle : p <= 65535 * 2 ^ (- e - k) * 2 ^ k).
  { rewrite <- Z.mul_assoc, <- Z.pow_add_r by lia. replace (- e - k + k) with (- e) by lia. unfold p. lia. }
  assert (Hpow : 0 < 2 ^ (- e - k)) by (apply Z.pow_pos_nonneg; lia).
  assert (Hr : 0 <= (if k =? 0 then p else round_even p k) <= 65535 * 2 ^ (- e - k)).
  { destruct (k =? 0) eqn:E.
    - replace k with 0 in Hle |- * by lia. change (2 ^ 0) with 1 in Hle. lia.
    - apply round_even_le; lia. }
  set (n := if k =? 0 then p else round_even p k) in *. rewrite Z.shiftr_div_pow2 by lia. rewrite Z.shiftl_mul_pow2 by lia.
  assert (Hb : 0 <= n * 2 ^ k / 2 ^ (- e) <= 65535).
  { assert (0 < 2 ^ k) by (apply Z.pow_pos_nonneg; lia). assert (E2 : 2 ^ (- e) = 2 ^ (- e - k) * 2 ^ k) by (rewrite <- Z.pow_add_r by lia; f_equal; lia).
    split; [apply Z.div_pos; nia|]. apply Z.div_le_upper_bound; [nia|]. rewrite E2. nia. }
  rewrite u32_small by lia. exact Hb.
Qed.

Section color.
  Variable pow : Z -> Z.
  Lemma fromFloat_range v : 0 <= fromFloat pow v <= 65535.
  Proof.
    unfold fromFloat. destruct (f_ge1 _) eqn:E1; [lia|]. destruct (f_le0 _) eqn:E0; [lia|].
    apply scale16_range; [lia|intros neg m e; apply f64_nonneg|exact E1|exact E0].
  Qed.
  Lemma mulA_spec y a : 0 <= y <= 65535 -> 0 <= a <= 65535 -> mulA y a = y * a / 65535 /\ 0 <= mulA y a <= a.
  Proof.
    intros Hy Ha. unfold mulA. rewrite u32_small by nia. split; [reflexivity|]. split; [apply Z.div_pos; nia|]. apply Z.div_le_upper_bound; nia.
  Qed.
  Lemma scale32_range a : f_ge1 (f32 a) = false -> f_le0 (f32 a) = false -> 0 <= scale16 24 (f32 a) <= 65535.
  Proof. intros. apply scale16_range; auto; [lia|]. intros neg m e. apply f32_nonneg. Qed.
  Lemma lor257 y : 0 <= y < 256 -> Z.lor y (Z.shiftl y 8) = y * 257.
  Proof. intros H. rewrite Z.lor_comm, lor_shift; [|lia|change (2 ^ 8) with 256; lia]. change (2 ^ 8) with 256. lia. Qed.

  Lemma rgba_premultiplied c : color_ok c -> premultiplied (rgba pow c).
  Proof.
    destruct c; cbn [color_ok rgba]; unfold u8_ok, u16_ok, u32_ok, premultiplied; intros H.
    - destruct y; lia.
    - rewrite lor257 by lia. lia.
    - lia.
    - pose proof (fromFloat_range y). lia.
    - rewrite !u32_small by lia. destruct (a =? 255) eqn:Ea; [lia|]. destruct (a =? 0) eqn:E0; [lia|].
      destruct (mulA_spec (y * 257) (a * 257)) as [_ B]; lia.
    - destruct (a =? 65535) eqn:Ea; [lia|]. destruct (a =? 0) eqn:E0; [lia|]. destruct (mulA_spec y a) as [_ B]; lia.
    - pose proof (fromFloat_range y). destruct (f_ge1 _) eqn:E1; [lia|]. destruct (f_le0 _) eqn:E0; [lia|].
      pose proof (scale32_range a E1 E0). destruct (mulA_spec (fromFloat pow y) (scale16 24 (f32 a))) as [_ B]; lia.
    - rewrite !lor257 by lia. rewrite !u32_small by nia.
      assert (D : forall v, 0 <= v < 256 -> 0 <= v * 257 * a / 255 <= a * 257).
      { intros v Hv. split; [apply Z.div_pos; nia|]. apply Z.div_le_upper_bound; nia. }
      repeat split; try apply D; lia.
    - destruct (mulA_spec r a) as [_ B1]; [lia..|]. destruct (mulA_spec g a) as [_ B2]; [lia..|]. destruct (mulA_spec b a) as [_ B3]; lia.
    - pose proof (fromFloat_range r). pose proof (fromFloat_range g). pose proof (fromFloat_range b).
      destruct (f_ge1 _) eqn:E1; [lia|]. destruct (f_le0 _) eqn:E0; [lia|]. pose proof (scale32_range a E1 E0).
      destruct (mulA_spec (fromFloat pow r) (scale16 24 (f32 a))) as [_ B1]; [lia..|].
      destruct (mulA_spec (fromFloat pow g) (scale16 24 (f32 a))) as [_ B2]; [lia..|].
      destruct (mulA_spec (fromFloat pow b) (scale16 24 (f32 a))) as [_ B3]; lia.
    - assert (D : forall v, 0 <= v < 256 -> 0 <= u32 (v * u32 (k * 66049)) / 65535 <= 65535).
      { intros v Hv. rewrite (u32_small (k * 66049)) by lia. rewrite u32_small by nia. split; [apply Z.div_pos; nia|]. apply Z.div_le_upper_bound; nia. }
      pose proof (D c ltac:(lia)). pose proof (D m ltac:(lia)). pose proof (D y ltac:(lia)).
      destruct (a =? 255) eqn:Ea; [lia|]. destruct (a =? 0) eqn:E0; [lia|]. rewrite !(u32_small (a * 257)) by lia.
      set (r := u32 (c * _) / 65535) in *. set (g := u32 (m * _) / 65535) in *. set (b := u32 (y * _) / 65535) in *.
      destruct (mulA_spec r (a * 257)) as [_ B1]; [lia..|]. destruct (mulA_spec g (a * 257)) as [_ B2]; [lia..|]. destruct (mulA_spec b (a * 257)) as [_ B3]; lia.
    - destruct (mulA_spec c k) as [_ B1]; [lia..|]. destruct (mulA_spec m k) as [_ B2]; [lia..|]. destruct (mulA_spec y k) as [_ B3]; [lia..|].
      destruct (a =? 65535) eqn:Ea; [lia|]. destruct (a =? 0) eqn:E0; [lia|].
      destruct (mulA_spec (mulA c k) a) as [_ C1]; [lia..|]. destruct (mulA_spec (mulA m k) a) as [_ C2]; [lia..|]. destruct (mulA_spec (mulA y k) a) as [_ C3]; lia.
  Qed.

  Lemma rgba_exact c q : color_ok c -> exact_rgba c = Some q -> rgba pow c = q.
  Proof.
    assert (Full : forall v, v * 65535 / 65535 = v) by (intros v; apply Z.div_mul; lia).
    assert (Zero : forall v, v * 0 / 65535 = 0) by (intros v; now rewrite Z.mul_0_r).
    destruct c; cbn [color_ok rgba exact_rgba]; unfold u8_ok, u16_ok, u32_ok; intros H [= <-].
    - destruct y; reflexivity.
    - rewrite lor257 by lia. now rewrite Full.
    - now rewrite Full.
    - rewrite !u32_small by lia. destruct (a =? 255) eqn:Ea.
      { replace a with 255 by lia. change (255 * 257) with 65535. now rewrite Full. }
      destruct (a =? 0) eqn:E0; [replace a with 0 by lia; change (0 * 257) with 0; now rewrite Zero|].
      now rewrite (proj1 (mulA_spec (y * 257) (a * 257) ltac:(lia) ltac:(lia))).
    - destruct (a =? 65535) eqn:Ea; [replace a with 65535 by lia; now rewrite Full|].
      destruct (a =? 0) eqn:E0; [replace a with 0 by lia; now rewrite Zero|]. now rewrite (proj1 (mulA_spec y a ltac:(lia) ltac:(lia))).
    - rewrite !lor257 by lia. rewrite !u32_small by nia.
      assert (D : forall v, v * 257 * (a * 257) / 65535 = v * 257 * a / 255).
      { intros v. change 65535 with (255 * 257). replace (v * 257 * (a * 257)) with (v * 257 * a * 257) by lia. now rewrite Z.div_mul_cancel_r by lia. }
      now rewrite !D.
    - now rewrite (proj1 (mulA_spec r a ltac:(lia) ltac:(lia))), (proj1 (mulA_spec g a ltac:(lia) ltac:(lia))), (proj1 (mulA_spec b a ltac:(lia) ltac:(lia))).
    - assert (D : forall v, 0 <= v < 256 -> u32 (v * u32 (k * 66049)) / 65535 = v * 257 * (k * 257) / 65535 /\ 0 <= v * 257 * (k * 257) / 65535 <= 65535).
      { intros v Hv. rewrite (u32_small (k * 66049)) by lia. rewrite u32_small by nia.
        replace (v * 257 * (k * 257)) with (v * (k * 66049)) by lia. split; [reflexivity|]. split; [apply Z.div_pos; nia|]. apply Z.div_le_upper_bound; nia. }
      destruct (D c ltac:(lia)) as [-> D1]. destruct (D m ltac:(lia)) as [-> D2]. destruct (D y ltac:(lia)) as [-> D3].
      destruct (a =? 255) eqn:Ea.
      { replace a with 255 by lia. change (255 * 257) with 65535. now rewrite !Full. }
      destruct (a =? 0) eqn:E0; [replace a with 0 by lia; change (0 * 257) with 0; now rewrite !Zero|]. rewrite (u32_small (a * 257)) by lia.
      now rewrite (proj1 (mulA_spec _ (a * 257) D1 ltac:(lia))), (proj1 (mulA_spec _ (a * 257) D2 ltac:(lia))), (proj1 (mulA_spec _ (a * 257) D3 ltac:(lia))).
    - destruct (mulA_spec c k) as [-> B1]; [lia..|]. destruct (mulA_spec m k) as [-> B2]; [lia..|]. destruct (mulA_spec y k) as [-> B3]; [lia..|].
      destruct (a =? 65535) eqn:Ea; [replace a with 65535 by lia; now rewrite !Full|].
      destruct (a =? 0) eqn:E0; [replace a with 0 by lia; now rewrite !Zero|].
      assert (Hk : forall v, 0 <= v <= 65535 -> 0 <= v * k / 65535 <= 65535) by (intros v Hv; split; [apply Z.div_pos; nia|]; apply Z.div_le_upper_bound; nia).
      now rewrite (proj1 (mulA_spec _ a (Hk c ltac:(lia)) ltac:(lia))), (proj1 (mulA_spec _ a (Hk m ltac:(lia)) ltac:(lia))), (proj1 (mulA_spec _ a (Hk y ltac:(lia)) ltac:(lia))).
  Qed.
End color.

Section models.
  Variables pow unpow : Z -> Z.
  Variables fdiv fmul : Z -> Z -> Z.
  Variables alpha32 inv_alpha32 : Z -> Z.
  Notation convert := (convert pow unpow fdiv fmul alpha32 inv_alpha32).

  Lemma convert_self m c : (m = MdGray1 \/ m = MdGray32 \/ m = MdNGrayA64 \/ m = MdNRGBA128 \/ m = MdNCMYKA) ->
    of_model m c = true -> convert m (Known c) = Some c.
  Proof. intros [-> |[-> |[-> |[-> | -> ]]]]; destruct c; try discriminate; reflexivity. Qed.

  Lemma luma_gray y : 0 <= y <= 65535 -> luma y y y = y.
  Proof. intros H. unfold luma. rewrite u32_small by lia. lia. Qed.

  Lemma nGrayA_near y a : u8_ok y -> u8_ok a -> exists y', convert MdNGrayA (Known (CNGrayA y a)) = Some (CNGrayA y' a) /\
    (a = 255 -> y' = y) /\ (1 <= a -> y - 1 <= y' <= y).
  Proof.
    unfold u8_ok. intros Hy Ha. cbn [convert nGrayAModel argba]. unfold nGrayAModel, argba.
    rewrite (rgba_exact pow (CNGrayA y a) (y * 257 * (a * 257) / 65535, y * 257 * (a * 257) / 65535, y * 257 * (a * 257) / 65535, a * 257)); [|split; assumption|reflexivity].
    set (v := y * 257 * (a * 257) / 65535).
    assert (Hv : 0 <= v <= a * 257 /\ 65535 * v <= y * 257 * (a * 257) < 65535 * v + 65535).
    { unfold v. pose proof (Z.div_mod (y * 257 * (a * 257)) 65535 ltac:(lia)). pose proof (Z.mod_pos_bound (y * 257 * (a * 257)) 65535 ltac:(lia)). nia. }
    clearbody v. rewrite luma_gray by lia.
    destruct (a * 257 =? 0) eqn:E0; [exists 0; replace a with 0 by lia; split; [reflexivity|split; lia]|].
    destruct (a * 257 =? 65535) eqn:E1.
    - assert (a = 255) by lia. subst a. exists (u8 (Z.shiftr v 8)). rewrite Z.shiftr_div_pow2 by lia. change (2 ^ 8) with 256.
      assert (v = y * 257) by lia. subst v. assert (y * 257 / 256 = y) as -> by lia. rewrite u8_small by lia. split; [reflexivity|split; lia].
    - rewrite u32_small by nia. set (t := v * 65535 / (a * 257)).
      assert (Ht : a * 257 * t <= v * 65535 < a * 257 * t + a * 257).
      { unfold t. pose proof (Z.div_mod (v * 65535) (a * 257) ltac:(lia)). pose proof (Z.mod_pos_bound (v * 65535) (a * 257) ltac:(lia)). lia. }
      clearbody t. rewrite !Z.shiftr_div_pow2 by lia. change (2 ^ 8) with 256.
      assert (T2 : y * 257 - 257 <= t <= y * 257) by nia.
      assert (Ea : a * 257 / 256 = a) by lia. rewrite Ea. rewrite (u8_small a) by lia.
      assert (0 <= t) by nia. exists (u8 (t / 256)). split; [reflexivity|]. split; [lia|]. intros _. rewrite u8_small by lia. lia.
  Qed.

  Lemma nGrayA32_near y a : u16_ok y -> u16_ok a -> exists y', convert MdNGrayA32 (Known (CNGrayA32 y a)) = Some (CNGrayA32 y' a) /\
    (a = 65535 -> y' = y) /\ (1 <= a -> y - 65535 / a - 1 <= y' <= y).
  Proof.
    unfold u16_ok. intros Hy Ha. cbn [convert]. unfold nGrayA32Model, argba.
    rewrite (rgba_exact pow (CNGrayA32 y a) (y * a / 65535, y * a / 65535, y * a / 65535, a)); [|split; assumption|reflexivity].
    set (v := y * a / 65535).
    assert (Hv : 0 <= v <= a /\ 65535 * v <= y * a < 65535 * v + 65535).
    { unfold v. pose proof (Z.div_mod (y * a) 65535 ltac:(lia)). pose proof (Z.mod_pos_bound (y * a) 65535 ltac:(lia)). nia. }
    clearbody v. rewrite luma_gray by lia.
    destruct (a =? 0) eqn:E0; [exists 0; replace a with 0 by lia; split; [reflexivity|split; lia]|].
    destruct (a =? 65535) eqn:E1.
    - assert (a = 65535) by lia. subst a. exists (u16 v). rewrite u16_small by lia. split; [reflexivity|split; lia].
    - rewrite u32_small by nia. set (t := v * 65535 / a). set (d := 65535 / a).
      assert (Ht : a * t <= v * 65535 < a * t + a).
      { unfold t. pose proof (Z.div_mod (v * 65535) a ltac:(lia)). pose proof (Z.mod_pos_bound (v * 65535) a ltac:(lia)). lia. }
      assert (Hd : a * d <= 65535 < a * d + a).
      { unfold d. pose proof (Z.div_mod 65535 a ltac:(lia)). pose proof (Z.mod_pos_bound 65535 a ltac:(lia)). lia. }
      clearbody t d. assert (T2 : y - d - 1 <= t <= y) by nia. assert (0 <= t) by nia.
      exists (u16 t). rewrite !u16_small by lia. split; [reflexivity|]. split; [lia|]. intros _. exact T2.
  Qed.

  (** Conversions give the type of the model and do not panic, apart from the
      cases below. *)
  Lemma convert_total m c : (m = MdGray1 \/ m = MdGray32 \/ m = MdNGrayA \/ m = MdNGrayA32 \/ m = MdNGrayA64 \/ m = MdNRGBA128 \/ m = MdNCMYKA \/ m = MdNCMYKA80) ->
    ~ ((m = MdNGrayA \/ m = MdNGrayA32) /\ exists y a, c = Known (CNGrayA64 y a)) ->
    ~ (m = MdNCMYKA80 /\ exists x1 x2 x3 x4 x5, c = Known (CNCMYKA x1 x2 x3 x4 x5)) ->
    ~ (m = MdNCMYKA /\ snd (argba pow c) = 0 /\ ~ exists x1 x2 x3 x4 x5, c = Known (CNCMYKA x1 x2 x3 x4 x5)) ->
    exists c', convert m c = Some c' /\ of_model m c' = true.
  Proof.
    intros Hm N1 N2 N3.
    destruct Hm as [-> |[-> |[-> |[-> |[-> |[-> |[-> | -> ]]]]]]]; cbn [convert].
    - unfold gray1Model. destruct (argba pow c) as [[[r g] b] a]. destruct c as [[]|]; eexists; split; reflexivity.
    - unfold gray32Model. destruct (argba pow c) as [[[r g] b] a]. destruct c as [[]|]; eexists; split; reflexivity.
    - unfold nGrayAModel. destruct (argba pow c) as [[[r g] b] a].
      assert (X : exists c', (if a =? 0 then Some (CNGrayA 0 0) else if a =? 65535 then Some (CNGrayA (u8 (Z.shiftr (luma r g b) 8)) 255)
        else Some (CNGrayA (u8 (Z.shiftr (u32 (luma r g b * 65535) / a) 8)) (u8 (Z.shiftr a 8)))) = Some c' /\ of_model MdNGrayA c' = true).
      { destruct (a =? 0); [|destruct (a =? 65535)]; eexists; split; reflexivity. }
      destruct c as [[]|]; try exact X. exfalso. apply N1. split; [now left|eauto].
    - unfold nGrayA32Model. destruct (argba pow c) as [[[r g] b] a].
      assert (X : exists c', (if a =? 0 then Some (CNGrayA32 0 0) else if a =? 65535 then Some (CNGrayA32 (u16 (luma r g b)) 65535)
        else Some (CNGrayA32 (u16 (u32 (luma r g b * 65535) / a)) (u16 a))) = Some c' /\ of_model MdNGrayA32 c' = true).
      { destruct (a =? 0); [|destruct (a =? 65535)]; eexists; split; reflexivity. }
      destruct c as [[]|]; try exact X. exfalso. apply N1. split; [now right|eauto].
    - unfold nGrayA64Model. destruct (argba pow c) as [[[r g] b] a].
      destruct c as [[]|]; try (destruct (a =? 0); [|destruct (a =? 65535)]); eexists; split; reflexivity.
    - unfold nRGBA128Model. destruct (argba pow c) as [[[r g] b] a].
      destruct c as [[]|]; try (destruct (65535 <=? a); [|destruct (a =? 0)]); eexists; split; reflexivity.
    - unfold nCMYKAModel. destruct (argba pow c) as [[[r g] b] a] eqn:E. cbn [snd] in N3.
      destruct (RGBToCMYK _ _ _) as [[[cc mm] yy] kk].
      assert (X : (exists x1 x2 x3 x4 x5, c = Known (CNCMYKA x1 x2 x3 x4 x5)) \/ (a =? 0) = false).
      { destruct (a =? 0) eqn:Ea; [|now right]. left.
        destruct c as [[]|]; try (exfalso; apply N3; split; [reflexivity|]; split; [lia|]; intros (? & ? & ? & ? & ? & X); discriminate X). eauto 8. }
      destruct X as [(x1 & x2 & x3 & x4 & x5 & -> )|Ea]; [eexists; split; reflexivity|]. rewrite Ea.
      destruct c as [[]|]; eexists; split; reflexivity.
    - unfold nCMYKA80Model. destruct (argba pow c) as [[[r g] b] a].
      assert (X : exists c', (if a =? 0 then Some (CNCMYKA80 65535 65535 65535 65535 0) else
        if Z.max (Z.max r g) b =? 0 then Some (CNCMYKA80 65535 65535 65535 65535 (u16 a)) else
        let q v := u32 (u32 (Z.max (Z.max r g) b - v) * 65535) / Z.max (Z.max r g) b in
        if a =? 65535 then Some (CNCMYKA80 (u16 (65535 - q r)) (u16 (65535 - q g)) (u16 (65535 - q b)) (u16 (65535 - u32 (65535 - Z.max (Z.max r g) b))) 65535)
        else let d v := u32 (v * 65535) / a in Some (CNCMYKA80 (u16 (65535 - d (q r))) (u16 (65535 - d (q g))) (u16 (65535 - d (q b))) (u16 (65535 - d (u32 (65535 - Z.max (Z.max r g) b)))) (u16 a)))
        = Some c' /\ of_model MdNCMYKA80 c' = true).
      { destruct (a =? 0); [|destruct (_ =? 0); [|destruct (a =? 65535)]]; eexists; split; reflexivity. }
      destruct c as [[]|]; try exact X. exfalso. apply N2. split; [reflexivity|eauto 8].
  Qed.
End models.
