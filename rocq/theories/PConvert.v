(** Conversion of colours, proofs. *)
From Verif Require Import Base BaseFacts MPicker MColor SColor PColor PColorF SConvert.

Lemma div_bounds x y : 0 < y -> y * (x / y) <= x < y * (x / y) + y.
Proof. intros H. pose proof (Z.div_mod x y ltac:(lia)). pose proof (Z.mod_pos_bound x y H). lia. Qed.

Section convert.
  Variables (pow unpow : Z -> Z) (fdiv fmul : Z -> Z -> Z) (alpha32 inv_alpha32 : Z -> Z).
  Notation convert := (convert pow unpow fdiv fmul alpha32 inv_alpha32).
  Notation rgba := (rgba pow).
  Notation argba := (argba pow).

  Lemma luma_brightness r g b a : 0 <= r <= a -> 0 <= g <= a -> 0 <= b <= a -> a <= 65535 -> brightness r g b (luma r g b) /\ 0 <= luma r g b <= a.
  Proof. intros Hr Hg Hb Ha. unfold luma, brightness. rewrite u32_small by lia. lia. Qed.

  Lemma to_gray1 c r g b a : strange c -> argba c = (r, g, b, a) -> premultiplied (r, g, b, a) ->
    exists y, brightness r g b y /\ convert MdGray1 c = Some (CGray1 (32768 <=? y)).
  Proof.
    intros S E (Hr & Hg & Hb & Ha). exists (luma r g b). split; [now apply (luma_brightness r g b a)|]. cbn [MColor.convert]. unfold gray1Model.
    destruct c as [[]|]; try contradiction S; rewrite E; reflexivity.
  Qed.

  Lemma to_gray16 c r g b a : strange c -> argba c = (r, g, b, a) -> premultiplied (r, g, b, a) ->
    exists y c', brightness r g b y /\ convert MdNGrayA32 c = Some c' /\ near 1 0 (rgba c') (y, y, y, a).
  Proof.
    intros S E (Hr & Hg & Hb & Ha). destruct (luma_brightness r g b a Hr Hg Hb Ha) as [B Hy]. exists (luma r g b). set (y := luma r g b) in *.
    assert (C : convert MdNGrayA32 c = if a =? 0 then Some (CNGrayA32 0 0) else if a =? 65535 then Some (CNGrayA32 (u16 y) 65535) else Some (CNGrayA32 (u16 (u32 (y * 65535) / a)) (u16 a))).
    { cbn [MColor.convert]. unfold nGrayA32Model. destruct c as [[]|]; try contradiction S; rewrite E; reflexivity. }
    clearbody y. rewrite C. destruct (a =? 0) eqn:E0; [|destruct (a =? 65535) eqn:E1].
    - eexists. split; [exact B|]. split; [reflexivity|]. cbn. lia.
    - eexists. split; [exact B|]. split; [reflexivity|]. rewrite u16_small by lia. cbn. lia.
    - eexists. split; [exact B|]. split; [reflexivity|]. rewrite u32_small by nia. pose proof (div_bounds (y * 65535) a ltac:(lia)) as Hq.
      set (q := y * 65535 / a) in *. clearbody q. assert (0 <= q <= 65535) by nia. rewrite !u16_small by lia.
      rewrite (rgba_exact pow (CNGrayA32 q a) (q * a / 65535, q * a / 65535, q * a / 65535, a)); [|unfold color_ok, u16_ok; lia|reflexivity].
      pose proof (div_bounds (q * a) 65535 ltac:(lia)). cbn [near]. nia.
  Qed.

  Lemma to_gray8 c r g b a : strange c -> argba c = (r, g, b, a) -> premultiplied (r, g, b, a) ->
    exists y c', brightness r g b y /\ convert MdNGrayA c = Some c' /\ near 512 255 (rgba c') (y, y, y, a).
  Proof.
    intros S E (Hr & Hg & Hb & Ha). destruct (luma_brightness r g b a Hr Hg Hb Ha) as [B Hy]. exists (luma r g b). set (y := luma r g b) in *.
    assert (C : convert MdNGrayA c = if a =? 0 then Some (CNGrayA 0 0) else if a =? 65535 then Some (CNGrayA (u8 (Z.shiftr y 8)) 255)
      else Some (CNGrayA (u8 (Z.shiftr (u32 (y * 65535) / a) 8)) (u8 (Z.shiftr a 8)))).
    { cbn [MColor.convert]. unfold nGrayAModel. destruct c as [[]|]; try contradiction S; rewrite E; reflexivity. }
    clearbody y. rewrite C. rewrite !Z.shiftr_div_pow2 by lia. change (2 ^ 8) with 256. destruct (a =? 0) eqn:E0; [|destruct (a =? 65535) eqn:E1].
    - eexists. split; [exact B|]. split; [reflexivity|]. cbn. lia.
    - eexists. split; [exact B|]. split; [reflexivity|]. rewrite u8_small by lia.
      rewrite (rgba_exact pow (CNGrayA (y / 256) 255) (y / 256 * 257 * (255 * 257) / 65535, y / 256 * 257 * (255 * 257) / 65535, y / 256 * 257 * (255 * 257) / 65535, 255 * 257)); [|unfold color_ok, u8_ok; lia|reflexivity].
      cbn [near]. lia.
    - eexists. split; [exact B|]. split; [reflexivity|]. rewrite u32_small by nia. pose proof (div_bounds (y * 65535) a ltac:(lia)) as Hq.
      set (q := y * 65535 / a) in *. clearbody q. assert (0 <= q <= 65535) by nia. rewrite !u8_small by lia.
      set (A := a / 256). set (Q := q / 256). assert (HA : 256 * A <= a < 256 * A + 256) by (unfold A; lia). assert (HQ : 256 * Q <= q < 256 * Q + 256) by (unfold Q; lia).
      clearbody A Q.
      rewrite (rgba_exact pow (CNGrayA Q A) (Q * 257 * (A * 257) / 65535, Q * 257 * (A * 257) / 65535, Q * 257 * (A * 257) / 65535, A * 257)); [|unfold color_ok, u8_ok; lia|reflexivity].
      pose proof (div_bounds (Q * 257 * (A * 257)) 65535 ltac:(lia)) as Hv. set (v := Q * 257 * (A * 257) / 65535) in *. clearbody v.
      set (Q' := Q * 257) in *. set (A' := A * 257) in *. assert (D1 : -255 <= Q' - q <= 255) by (unfold Q'; lia). assert (D2 : -255 <= A' - a <= 255) by (unfold A'; lia).
      assert (0 <= Q' <= 65535) by (unfold Q'; lia). assert (0 <= A' <= 65535) by (unfold A'; lia). clearbody Q' A'.
      (* Q' A' = q a + (Q' - q) A' + q (A' - a) *)
      assert (P1 : -(255 * 65535) <= (Q' - q) * A' <= 255 * 65535) by nia.
      assert (P2 : -(255 * 65535) <= q * (A' - a) <= 255 * 65535) by nia.
      assert (P3 : q * a <= y * 65535 < q * a + 65535) by nia.
      cbn [near]. nia.
  Qed.

  Lemma rgb8_near v : 0 <= v <= 65535 -> Z.abs (v / 256 * 257 - v) <= 255.
  Proof. lia. Qed.

  Lemma near3 t v x : v * 257 <= t <= v * 257 + 257 -> Z.abs (v * 257 - x) <= 255 -> Z.abs (t - x) <= 512.
  Proof. lia. Qed.

  Lemma cmyk_comp w v c : 0 < w <= 255 -> 0 <= v <= w -> c = 255 - (w - v) * 255 / w ->
    0 <= c <= 255 /\ v * 257 <= c * 257 * (w * 257) / 65535 <= v * 257 + 257.
  Proof.
    intros Hw Hv ->. pose proof (div_bounds ((w - v) * 255) w ltac:(lia)) as D. set (q := (w - v) * 255 / w) in *. clearbody q.
    assert (0 <= q <= 255) by nia. split; [lia|]. pose proof (div_bounds ((255 - q) * 257 * (w * 257)) 65535 ltac:(lia)) as D2. set (t := (255 - q) * 257 * (w * 257) / 65535) in *. clearbody t.
    assert ((255 - q) * w <= 255 * v + w) by nia. assert (255 * v <= (255 - q) * w) by nia. nia.
  Qed.

  Lemma to_cmyk8 c r g b : strange c -> argba c = (r, g, b, 65535) -> premultiplied (r, g, b, 65535) ->
    exists c', convert MdNCMYKA c = Some c' /\ near 512 0 (rgba c') (r, g, b, 65535).
  Proof.
    intros S E (Hr & Hg & Hb & _).
    set (R := r / 256). set (G := g / 256). set (B := b / 256).
    assert (C : convert MdNCMYKA c = let '(cc, mm, yy, kk) := RGBToCMYK R G B in
      Some (CNCMYKA (u8 (255 - u8 (u32 (cc * 65535) / 65535))) (u8 (255 - u8 (u32 (mm * 65535) / 65535))) (u8 (255 - u8 (u32 (yy * 65535) / 65535))) (u8 (255 - u8 (u32 (kk * 65535) / 65535))) 255)).
    { cbn [MColor.convert]. unfold nCMYKAModel. destruct c as [[]|]; try contradiction S; rewrite E; rewrite !Z.shiftr_div_pow2 by lia; change (2 ^ 8) with 256; fold R G B;
        rewrite (u8_small R), (u8_small G), (u8_small B) by (unfold R, G, B; lia); reflexivity. }
    rewrite C. clear C. unfold RGBToCMYK. set (w := Z.max (Z.max R G) B).
    assert (HR : 0 <= R <= 255) by (unfold R; lia). assert (HG : 0 <= G <= 255) by (unfold G; lia). assert (HB : 0 <= B <= 255) by (unfold B; lia).
    assert (Hid : forall v, 0 <= v <= 255 -> u8 (255 - u8 (u32 (v * 65535) / 65535)) = 255 - v).
    { intros v Hv. rewrite u32_small by lia. rewrite Z.div_mul by lia. rewrite (u8_small v), u8_small by lia. reflexivity. }
    destruct (w =? 0) eqn:E0.
    - eexists. split; [reflexivity|]. rewrite !Hid by lia. change (rgba (CNCMYKA (255 - 0) (255 - 0) (255 - 0) (255 - 255) 255)) with (0, 0, 0, 65535). cbn [near]. assert (R = 0 /\ G = 0 /\ B = 0) as (R0 & G0 & B0) by (clearbody R G B; unfold w in E0; lia). unfold R, G, B in R0, G0, B0. clear - R0 G0 B0 Hr Hg Hb. lia.
    - assert (Hw : 0 < w <= 255) by (unfold w in *; lia).
      destruct (cmyk_comp w R _ Hw ltac:(unfold w; lia) eq_refl) as [Q1 D1]. destruct (cmyk_comp w G _ Hw ltac:(unfold w; lia) eq_refl) as [Q2 D2]. destruct (cmyk_comp w B _ Hw ltac:(unfold w; lia) eq_refl) as [Q3 D3].
      rewrite (u8_small ((w - R) * 255 / w)), (u8_small ((w - G) * 255 / w)), (u8_small ((w - B) * 255 / w)), (u8_small (255 - w)) by lia.
      rewrite !Hid by lia. replace (255 - (255 - w)) with w by lia.
      eexists. split; [reflexivity|].
      set (c1 := 255 - (w - R) * 255 / w) in *. set (c2 := 255 - (w - G) * 255 / w) in *. set (c3 := 255 - (w - B) * 255 / w) in *.
      pose proof (rgba_exact pow (CNCMYKA c1 c2 c3 w 255)) as X. cbn [exact_rgba] in X. specialize (X _ ltac:(unfold color_ok, u8_ok; lia) eq_refl). rewrite X.
      cbn [near]. change (255 * 257) with 65535. rewrite !Z.div_mul by lia.
      pose proof (rgb8_near r ltac:(lia)) as N1. pose proof (rgb8_near g ltac:(lia)) as N2. pose proof (rgb8_near b ltac:(lia)) as N3. fold R in N1. fold G in N2. fold B in N3.
      repeat split; [eapply near3; eassumption|eapply near3; eassumption|eapply near3; eassumption|lia].
  Qed.

  Lemma near16 t v : v <= t <= v + 1 -> Z.abs (t - v) <= 1.
  Proof. lia. Qed.

  Lemma cmyk_comp16 w v c : 0 < w <= 65535 -> 0 <= v <= w -> c = 65535 - (w - v) * 65535 / w ->
    0 <= c <= 65535 /\ v <= c * w / 65535 <= v + 1.
  Proof.
    intros Hw Hv ->. pose proof (div_bounds ((w - v) * 65535) w ltac:(lia)) as D. set (q := (w - v) * 65535 / w) in *. clearbody q.
    assert (0 <= q <= 65535) by nia. split; [lia|]. pose proof (div_bounds ((65535 - q) * w) 65535 ltac:(lia)) as D2. set (t := (65535 - q) * w / 65535) in *. clearbody t.
    assert ((65535 - q) * w <= 65535 * v + w) by nia. assert (65535 * v <= (65535 - q) * w) by nia. lia.
  Qed.

  Lemma to_cmyk16 c r g b : strange c -> argba c = (r, g, b, 65535) -> premultiplied (r, g, b, 65535) -> (r, g, b) <> (0, 0, 0) ->
    exists c', convert MdNCMYKA80 c = Some c' /\ near 1 0 (rgba c') (r, g, b, 65535).
  Proof.
    intros S E (Hr & Hg & Hb & _) Hnz. set (w := Z.max (Z.max r g) b).
    assert (Hw : 0 < w <= 65535). { unfold w. split; [|lia]. destruct (Z.eq_dec (Z.max (Z.max r g) b) 0); [|lia]. exfalso. apply Hnz. f_equal; [f_equal|]; lia. }
    assert (Hq : forall v, 0 <= v <= w -> u32 (u32 (w - v) * 65535) / w = (w - v) * 65535 / w /\ 0 <= (w - v) * 65535 / w <= 65535).
    { intros v Hv. rewrite (u32_small (w - v)), u32_small by nia. split; [reflexivity|]. pose proof (div_bounds ((w - v) * 65535) w ltac:(lia)). nia. }
    assert (Hrw : 0 <= r <= w) by (unfold w; lia). assert (Hgw : 0 <= g <= w) by (unfold w; lia). assert (Hbw : 0 <= b <= w) by (unfold w; lia).
    destruct (Hq r Hrw) as [E1 Q1]. destruct (Hq g Hgw) as [E2 Q2]. destruct (Hq b Hbw) as [E3 Q3].
    assert (C : convert MdNCMYKA80 c = Some (CNCMYKA80 (65535 - (w - r) * 65535 / w) (65535 - (w - g) * 65535 / w) (65535 - (w - b) * 65535 / w) w 65535)).
    { transitivity (Some (CNCMYKA80 (u16 (65535 - u32 (u32 (w - r) * 65535) / w)) (u16 (65535 - u32 (u32 (w - g) * 65535) / w)) (u16 (65535 - u32 (u32 (w - b) * 65535) / w)) (u16 (65535 - u32 (65535 - w))) 65535)).
      - cbn [MColor.convert]. unfold nCMYKA80Model. destruct c as [[]|]; try contradiction S; rewrite E; fold w; replace (w =? 0) with false by lia; reflexivity.
      - rewrite E1, E2, E3, (u32_small (65535 - w)) by lia. rewrite !u16_small by lia. do 2 f_equal. lia. }
    rewrite C. eexists. split; [reflexivity|].
    destruct (cmyk_comp16 w r _ Hw Hrw eq_refl) as [R1 D1]. destruct (cmyk_comp16 w g _ Hw Hgw eq_refl) as [R2 D2]. destruct (cmyk_comp16 w b _ Hw Hbw eq_refl) as [R3 D3].
    set (c1 := 65535 - (w - r) * 65535 / w) in *. set (c2 := 65535 - (w - g) * 65535 / w) in *. set (c3 := 65535 - (w - b) * 65535 / w) in *.
    pose proof (rgba_exact pow (CNCMYKA80 c1 c2 c3 w 65535)) as X. cbn [exact_rgba] in X. specialize (X _ ltac:(unfold color_ok, u16_ok; lia) eq_refl). rewrite X.
    cbn [near]. rewrite !Z.div_mul by lia. repeat split; [now apply near16|now apply near16|now apply near16|lia].
  Qed.

  (** Floats: if the power functions are inverse to each other up to [d] steps. *)
  Variable d : Z.
  Hypothesis Hinv : forall v, 0 <= v <= 65535 -> Z.abs (fromFloat pow (unpow v) - v) <= d.

  Lemma to_gray32 c r g b : strange c -> argba c = (r, g, b, 65535) -> premultiplied (r, g, b, 65535) ->
    exists y c1 c2, brightness r g b y /\ convert MdGray32 c = Some c1 /\ convert MdNGrayA64 c = Some c2 /\
      near d 0 (rgba c1) (y, y, y, 65535) /\ near d 0 (rgba c2) (y, y, y, 65535).
  Proof.
    intros S E (Hr & Hg & Hb & Ha). destruct (luma_brightness r g b 65535 Hr Hg Hb Ha) as [B Hy]. exists (luma r g b). set (y := luma r g b) in *.
    exists (CGray32 (unpow y)), (CNGrayA64 (unpow y) one32). split; [exact B|]. pose proof (Hinv y Hy).
    split; [|split; [|split]].
    - cbn [MColor.convert]. unfold gray32Model. destruct c as [[]|]; try contradiction S; rewrite E; reflexivity.
    - cbn [MColor.convert]. unfold nGrayA64Model. destruct c as [[]|]; try contradiction S; rewrite E; reflexivity.
    - cbn [MColor.rgba near]. lia.
    - cbn [MColor.rgba]. change (f_ge1 (f32 one32)) with true. cbn [near]. lia.
  Qed.
  Lemma to_rgb128 c r g b : strange c -> argba c = (r, g, b, 65535) -> premultiplied (r, g, b, 65535) ->
    exists c', convert MdNRGBA128 c = Some c' /\ near d 0 (rgba c') (r, g, b, 65535).
  Proof.
    intros S E (Hr & Hg & Hb & Ha). exists (CNRGBA128 (unpow r) (unpow g) (unpow b) one32).
    pose proof (Hinv r Hr). pose proof (Hinv g Hg). pose proof (Hinv b Hb). split.
    - cbn [MColor.convert]. unfold nRGBA128Model. destruct c as [[]|]; try contradiction S; rewrite E; reflexivity.
    - cbn [MColor.rgba]. change (f_ge1 (f32 one32)) with true. cbn [near]. lia.
  Qed.
  Lemma to_clear m : m = MdNGrayA \/ m = MdNGrayA32 \/ m = MdNGrayA64 \/ m = MdNRGBA128 \/ m = MdNCMYKA80 ->
    exists c', rgba c' = (0, 0, 0, 0) /\ forall c r g b, strange c -> argba c = (r, g, b, 0) -> convert m c = Some c'.
  Proof.
    intros Hm. destruct Hm as [-> |[-> |[-> |[-> | ->]]]]; cbn [MColor.convert]; unfold nGrayAModel, nGrayA32Model, nGrayA64Model, nRGBA128Model, nCMYKA80Model.
    1: exists (CNGrayA 0 0). 2: exists (CNGrayA32 0 0). 3: exists (CNGrayA64 0 0). 4: exists (CNRGBA128 0 0 0 0). 5: exists (CNCMYKA80 65535 65535 65535 65535 0).
    all: split; [reflexivity|]; intros c r g b S E; destruct c as [[]|]; try contradiction S; rewrite E; reflexivity.
  Qed.
End convert.
