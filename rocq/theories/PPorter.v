(** Proofs about the Porter-Duff operators. *)
From Verif Require Import Base BaseFacts MBlend PBlend PLum PEnum PBlend3 MPorter SBlend SPorter.
Open Scope Z_scope.

Definition is_ar (ar : arith) : Prop := ar = machine \/ ar = ideal.

Lemma a_mul ar x y : is_ar ar -> 0 <= x * y < 4294967296 -> mul ar x y = x * y.
Proof. intros [-> | ->] H; openar; [apply u32_small; lia|reflexivity]. Qed.
Lemma a_add ar x y : is_ar ar -> 0 <= x + y < 4294967296 -> add ar x y = x + y.
Proof. intros [-> | ->] H; openar; [apply u32_small; lia|reflexivity]. Qed.
Lemma a_sub ar x y : is_ar ar -> 0 <= x - y < 4294967296 -> sub ar x y = x - y.
Proof. intros [-> | ->] H; openar; [apply u32_small; lia|reflexivity]. Qed.

Lemma prod16 x y : 0 <= x <= 65535 -> 0 <= y <= 65535 -> 0 <= x * y <= 4294836225.
Proof. intros. split; [lia|]. apply (Z.mul_le_mono_nonneg x 65535 y 65535); lia. Qed.

(** The sum of the two weighted alphas never exceeds one. *)
Lemma frac_range op sa da : 0 <= sa <= 65535 -> 0 <= da <= 65535 ->
  0 <= frac_src op sa da <= 65535 /\ 0 <= frac_dest op sa da <= 65535 /\
  sa * frac_src op sa da + da * frac_dest op sa da <= 65535 * 65535.
Proof. intros. destruct op; cbn [frac_src frac_dest]; repeat split; nia. Qed.

Lemma pd_color ar op sa da s d : is_ar ar -> 0 <= s <= sa -> sa <= 65535 -> 0 <= d <= da -> da <= 65535 ->
  pdColor ar op sa da s d = (s * frac_src op sa da + d * frac_dest op sa da) / 65535.
Proof.
  intros A Hs Hsa Hd Hda. destruct (frac_range op sa da) as (F1 & F2 & F3); try lia.
  pose proof (prod16 (65535 - sa) d ltac:(lia) ltac:(lia)) as P1. pose proof (prod16 (65535 - da) s ltac:(lia) ltac:(lia)) as P2.
  pose proof (prod16 da s ltac:(lia) ltac:(lia)) as P3. pose proof (prod16 sa d ltac:(lia) ltac:(lia)) as P4.
  assert (s * frac_src op sa da + d * frac_dest op sa da <= 65535 * 65535) as F4 by nia.
  assert (forall x, x * 65535 / 65535 = x) as D by (intros; apply Z.div_mul; lia).
  destruct op; cbn [pdColor frac_src frac_dest] in *;
    rewrite ?Z.mul_0_r, ?Z.add_0_l, ?Z.add_0_r, ?D; try reflexivity.
  - rewrite (a_sub ar), (a_mul ar) by (auto; lia). rewrite (a_add ar) by (auto; lia).
    replace (s * 65535 + d * (65535 - sa)) with ((65535 - sa) * d + s * 65535) by lia. rewrite Z.div_add by lia. lia.
  - rewrite (a_sub ar), (a_mul ar) by (auto; lia). rewrite (a_add ar) by (auto; lia).
    replace (s * (65535 - da) + d * 65535) with ((65535 - da) * s + d * 65535) by lia. rewrite Z.div_add by lia. lia.
  - rewrite (a_mul ar) by (auto; lia). f_equal. lia.
  - rewrite (a_mul ar) by (auto; lia). f_equal. lia.
  - rewrite (a_sub ar), (a_mul ar) by (auto; lia). f_equal. lia.
  - rewrite (a_sub ar), (a_mul ar) by (auto; lia). f_equal. lia.
  - rewrite (a_sub ar), !(a_mul ar), (a_add ar) by (auto; lia). reflexivity.
  - rewrite (a_sub ar), !(a_mul ar), (a_add ar) by (auto; lia). reflexivity.
  - rewrite !(a_sub ar), !(a_mul ar), (a_add ar) by (auto; lia). reflexivity.
Qed.

Lemma pd_alpha ar op sa da : is_ar ar -> 0 <= sa <= 65535 -> 0 <= da <= 65535 ->
  pdAlpha ar op sa da = (sa * frac_src op sa da + da * frac_dest op sa da) / 65535.
Proof.
  intros A Hs Hd. rewrite <- (pd_color ar op sa da sa da) by (auto; lia).
  destruct op; cbn [pdAlpha pdColor]; try reflexivity.
  - now rewrite !(a_mul ar), (Z.mul_comm da sa) by (auto; nia).
  - rewrite !(a_sub ar), !(a_mul ar) by (auto; nia). rewrite (a_add ar) by (auto; nia).
    replace (sa * da + da * (65535 - sa)) with (da * 65535) by lia. rewrite Z.div_mul by lia. reflexivity.
  - rewrite !(a_sub ar), !(a_mul ar) by (auto; nia). rewrite (a_add ar) by (auto; nia).
    replace (sa * (65535 - da) + da * sa) with (sa * 65535) by lia. rewrite Z.div_mul by lia. reflexivity.
Qed.

Lemma pd_textbook ar op s d : is_ar ar -> premul_ok 65535 s -> premul_ok 65535 d -> pd ar op s d = textbook op s d.
Proof.
  intros A Hs Hd. unfold premul_ok in *. unfold pd, textbook. rewrite !pd_color, pd_alpha by (auto; lia). reflexivity.
Qed.

Lemma textbook_ok op s d : premul_ok 65535 s -> premul_ok 65535 d -> premul_ok 65535 (textbook op s d).
Proof.
  intros Hs Hd. unfold premul_ok in *. unfold textbook. cbn [pr pg pb pa].
  destruct (frac_range op (pa s) (pa d)) as (F1 & F2 & F3); try lia.
  set (f := frac_src _ _ _) in *. set (g := frac_dest _ _ _) in *. clearbody f g.
  assert (forall x y, 0 <= x <= pa s -> 0 <= y <= pa d -> 0 <= (x * f + y * g) / 65535 <= (pa s * f + pa d * g) / 65535) as M.
  { intros. split; [apply Z.div_pos; nia|]. apply Z.div_le_mono; nia. }
  repeat split; try (apply M; lia). apply Z.div_le_upper_bound; lia.
Qed.

Lemma pd_fallback ar op s d : is_ar ar -> premul_ok 65535 s -> premul_ok 65535 d -> pdF ar op s d = textbook op s d.
Proof.
  intros A Hs Hd. pose proof (textbook_ok op s d Hs Hd) as T. unfold pdF. rewrite pd_textbook by auto.
  set (t := textbook op s d) in *. clearbody t. unfold premul_ok in T. destruct t as [r g b a]. cbn [pr pg pb pa] in *.
  destruct A as [-> | ->]; cbn [w16 machine ideal]; [rewrite !u16_small by lia|]; reflexivity.
Qed.

(** * Bytes *)

Lemma premul_eq ar p : is_ar ar -> (0 <= pr p <= 65535 /\ 0 <= pg p <= 65535 /\ 0 <= pb p <= 65535 /\ 0 <= pa p <= 65535) ->
  MPorter.premul ar p = premulx p /\ premul_ok 65535 (premulx p).
Proof.
  intros A (H1 & H2 & H3 & H4). destruct p as [r g b a]. unfold MPorter.premul, premulx, premul_ok. cbn [pr pg pb pa] in *.
  pose proof (prod16 r a H1 H4). pose proof (prod16 g a H2 H4). pose proof (prod16 b a H3 H4).
  split.
  - destruct (Z.eqb_spec a 0) as [-> |]; [now rewrite !Z.mul_0_r|]. destruct (Z.ltb_spec a 65535).
    + rewrite !a_mul by (auto; lia). reflexivity.
    + replace a with 65535 by lia. rewrite !Z.div_mul by lia. reflexivity.
  - assert (forall c, 0 <= c <= 65535 -> c * a / 65535 <= a) by (intros; apply Z.div_le_upper_bound; nia).
    repeat split; try (apply Z.div_pos; lia); auto; lia.
Qed.

Lemma rd16_eq ar p : is_ar ar -> pixel_ok p -> rd16 ar 65535 p = wide p.
Proof.
  intros A H. unfold pixel_ok in H. unfold rd16, wide. rewrite !a_mul by (auto; try rewrite a_mul by (auto; lia); lia).
  now rewrite Z.div_mul by lia.
Qed.
Lemma src16_ok sn p : pixel_ok p -> (sn = false -> premul_ok 255 p) -> premul_ok 65535 (src16 sn p).
Proof.
  intros H1 H2. unfold pixel_ok in H1. destruct sn; cbn [src16].
  - apply (premul_eq ideal (wide p)); [right; reflexivity|]. unfold wide; cbn [pr pg pb pa]. lia.
  - specialize (H2 eq_refl). unfold premul_ok, wide in *. cbn [pr pg pb pa]. lia.
Qed.
Lemma rdDest_eq ar dn p : is_ar ar -> pixel_ok p -> rdDest ar dn p = src16 dn p.
Proof.
  intros A H. unfold rdDest. unfold pixel_ok in H. rewrite !a_mul by (auto; lia). fold (wide p). destruct dn; [|reflexivity].
  apply premul_eq; [exact A|]. unfold wide; cbn [pr pg pb pa]; lia.
Qed.

Lemma setPx_eq ar dn p : is_ar ar -> premul_ok 65535 p -> setPx ar dn p = Some (out16 dn p) /\ pixel_ok (out16 dn p) /\ (dn = false -> premul_ok 255 (out16 dn p)).
Proof.
  intros A H. destruct p as [r g b a]. unfold premul_ok in *. cbn [pr pg pb pa] in *.
  assert (forall c, 0 <= c <= 65535 -> w8 ar (Z.shiftr c 8) = c / 256) as B.
  { intros c Hc. rewrite Z.shiftr_div_pow2 by lia. change (2 ^ 8) with 256. destruct A as [-> | ->]; cbn [w8 machine ideal]; [apply u8_small; lia|reflexivity]. }
  destruct dn; unfold setPx, setNRGBA, setRGBA, out16, unmulx, low8, pixel_ok, premul_ok; cbn [pr pg pb pa].
  - assert (forall c, 0 <= c <= a -> a <> 0 -> 0 <= c * 65535 / a <= 65535) as U.
    { intros c Hc Ha. split; [apply Z.div_pos; lia|apply Z.div_le_upper_bound; lia]. }
    split; [|split; [|discriminate]].
    + destruct (Z.eqb_spec a 65535) as [-> |].
      * cbn [Z.eqb Pos.eqb]. cbn [pr pg pb pa]. rewrite !Z.div_mul, !B by lia. reflexivity.
      * destruct (Z.eqb_spec a 0) as [-> |]; [now rewrite B by lia|]. cbn [pr pg pb pa].
        rewrite !udiv_pos by lia. rewrite !a_mul by (auto; lia). cbv beta iota.
        pose proof (U r). pose proof (U g). pose proof (U b). rewrite !B by (try apply U; lia). reflexivity.
    + destruct (Z.eqb_spec a 0); cbn [pr pg pb pa]; [cbn; lia|].
      pose proof (U r ltac:(lia) n). pose proof (U g ltac:(lia) n). pose proof (U b ltac:(lia) n).
      set (x := r * 65535 / a) in *. set (y := g * 65535 / a) in *. set (z := b * 65535 / a) in *. clearbody x y z. lia.
  - split; [now rewrite !B by lia|]. split; [lia|]. intros _. pose proof (Z.div_le_mono r a 256). pose proof (Z.div_le_mono g a 256). pose proof (Z.div_le_mono b a 256). lia.
Qed.

Lemma pdB_eq ar op sn dn s d : is_ar ar -> pixel_ok s -> pixel_ok d -> (sn = false -> premul_ok 255 s) -> (dn = false -> premul_ok 255 d) ->
  let p := out16 dn (textbook op (src16 sn s) (src16 dn d)) in
  pdB ar op sn dn 65535 s d = Some p /\ pixel_ok p /\ (dn = false -> premul_ok 255 p).
Proof.
  intros A Hs Hd Hsn Hdn p. unfold pdB. rewrite rd16_eq, rdDest_eq by auto.
  assert ((if sn then MPorter.premul ar (wide s) else wide s) = src16 sn s) as ->.
  { destruct sn; [|reflexivity]. apply premul_eq; [exact A|]. unfold pixel_ok in Hs. unfold wide; cbn [pr pg pb pa]; lia. }
  rewrite pd_textbook by (auto using src16_ok). apply setPx_eq; [exact A|]. apply textbook_ok; now apply src16_ok.
Qed.
Lemma pdA_eq ar op dn s d : is_ar ar -> byte s -> pixel_ok d -> (dn = false -> premul_ok 255 d) ->
  let p := out16 dn (textbook op (Px 0 0 0 (s * 257)) (src16 dn d)) in
  pdA ar op dn 65535 s d = Some p /\ pixel_ok p /\ (dn = false -> premul_ok 255 p).
Proof.
  intros A Hs Hd Hdn p. unfold pdA. unfold byte in Hs. rewrite (a_mul ar s 257), a_mul, Z.div_mul by (auto; lia). rewrite rdDest_eq by auto.
  assert (premul_ok 65535 (Px 0 0 0 (s * 257))) by (unfold premul_ok; cbn [pr pg pb pa]; lia).
  rewrite pd_textbook by (auto using src16_ok). apply setPx_eq; [exact A|]. apply textbook_ok; [assumption|now apply src16_ok].
Qed.
Lemma pdU_eq ar op dn s d : is_ar ar -> premul_ok 65535 s -> pixel_ok d -> (dn = false -> premul_ok 255 d) ->
  let p := out16 dn (textbook op s (src16 dn d)) in
  pdU ar op dn s d = Some p /\ pixel_ok p /\ (dn = false -> premul_ok 255 p).
Proof.
  intros A Hs Hd Hdn p. unfold pdU. rewrite rdDest_eq by auto.
  rewrite pd_textbook by (auto using src16_ok). apply setPx_eq; [exact A|]. apply textbook_ok; [assumption|now apply src16_ok].
Qed.

(** Laws on premultiplied byte images. *)
Lemma low8_wide p : pixel_ok p -> low8 (wide p) = p.
Proof. intros H. unfold pixel_ok in H. destruct p as [r g b a]. unfold low8, wide. cbn [pr pg pb pa] in *. f_equal; lia. Qed.

Ltac tb := unfold textbook, src16, out16; cbn [frac_src frac_dest].
Lemma textbook_copy s d : textbook Copy s d = s.
Proof. destruct s as [r g b a]. unfold textbook; cbn [frac_src frac_dest pr pg pb pa]. rewrite !Z.mul_0_r, !Z.add_0_r, !Z.div_mul by lia. reflexivity. Qed.
Lemma textbook_dest s d : textbook Dest s d = d.
Proof. destruct d as [r g b a]. unfold textbook; cbn [frac_src frac_dest pr pg pb pa]. rewrite !Z.mul_0_r, !Z.add_0_l, !Z.div_mul by lia. reflexivity. Qed.

Lemma premul_copy s d : premul_ok 255 s -> premul_ok 255 d -> pdB machine Copy false false 65535 s d = Some s.
Proof.
  intros Hs Hd. assert (pixel_ok s /\ pixel_ok d) as [Hs' Hd'] by (unfold premul_ok, pixel_ok in *; lia).
  destruct (pdB_eq machine Copy false false s d) as (-> & _); try (left; reflexivity); auto.
  rewrite textbook_copy. unfold out16, src16. now rewrite low8_wide.
Qed.
Lemma premul_over_opaque s d : premul_ok 255 s -> premul_ok 255 d -> pa s = 255 -> pdB machine SrcOver false false 65535 s d = Some s.
Proof.
  intros Hs Hd Ho. assert (pixel_ok s /\ pixel_ok d) as [Hs' Hd'] by (unfold premul_ok, pixel_ok in *; lia).
  destruct (pdB_eq machine SrcOver false false s d) as (-> & _); try (left; reflexivity); auto.
  unfold out16, src16. rewrite <- (low8_wide s) at 2 by auto. do 2 f_equal. destruct s as [r g b a]. cbn [pa] in Ho. subst a. unfold textbook, wide. cbn [frac_src frac_dest pr pg pb pa].
  change (65535 - 255 * 257) with 0. rewrite !Z.mul_0_r, !Z.add_0_r, !Z.div_mul by lia. reflexivity.
Qed.
Lemma premul_over_empty s d : premul_ok 255 s -> premul_ok 255 d -> pa s = 0 -> pdB machine SrcOver false false 65535 s d = Some d.
Proof.
  intros Hs Hd Ho. assert (pixel_ok s /\ pixel_ok d) as [Hs' Hd'] by (unfold premul_ok, pixel_ok in *; lia).
  destruct (pdB_eq machine SrcOver false false s d) as (-> & _); try (left; reflexivity); auto.
  unfold premul_ok in Hs. assert (s = Px 0 0 0 0) as -> by (destruct s; cbn in *; f_equal; lia).
  unfold out16, src16. rewrite <- (low8_wide d) at 2 by auto. do 2 f_equal. unfold textbook, wide. cbn [frac_src frac_dest pr pg pb pa].
  change (0 * 257) with 0. rewrite Z.sub_0_r, !Z.mul_0_l, !Z.add_0_l, !Z.div_mul by lia. reflexivity.
Qed.

(** Copying straight pixels. *)
Definition copychan (c a : Z) : Z := if a =? 0 then 0 else (c * 257 * (a * 257) / 65535) * 65535 / (a * 257) / 256.
Lemma copychan_bound c a : 0 <= c <= 255 -> 1 <= a <= 255 -> c - 1 <= copychan c a <= c /\ (128 <= a -> copychan c a = c).
Proof.
  intros Hc Ha. unfold copychan. destruct (Z.eqb_spec a 0); [lia|].
  assert (0 <= 255 * (c * 257 * (a * 257) / 65535) - (257 * (c * a) - 254) /\ 255 * (c * 257 * (a * 257) / 65535) <= 257 * (c * a)) as [X1 X2].
  { replace (c * 257 * (a * 257)) with (66049 * (c * a)) by lia. set (p := c * a). clearbody p. lia. }
  assert (c = 1 -> a + 2 * a / 255 <= c * 257 * (a * 257) / 65535) as X3. { intros ->. lia. }
  set (x := c * 257 * (a * 257) / 65535) in *. clearbody x.
  pose proof (Z.div_mod (x * 65535) (a * 257) ltac:(lia)) as E. pose proof (Z.mod_pos_bound (x * 65535) (a * 257) ltac:(lia)) as M.
  set (y := x * 65535 / (a * 257)) in *. clearbody y. set (r := (x * 65535) mod (a * 257)) in *. clearbody r.
  assert (a * y <= 257 * (c * a)) as Y1 by lia.
  assert (a * y >= 257 * (c * a) - 254 - (a - 1)) as Y2 by lia.
  assert (y <= 257 * c) as Y3 by nia. assert (256 * c - 256 <= y) as Y4 by nia.
  split; [lia|]. intros A. assert (256 * c <= y); [|lia].
  destruct (Z.leb_spec 2 c); [nia|]. destruct (Z.eqb_spec c 1) as [->|]; [|nia]. specialize (X3 eq_refl). nia.
Qed.
Lemma straight_trip p : pixel_ok p -> out16 true (src16 true p) = Px (copychan (pr p) (pa p)) (copychan (pg p) (pa p)) (copychan (pb p) (pa p)) (pa p).
Proof.
  intros H. unfold pixel_ok in H. destruct p as [r g b a]. unfold out16, src16, unmulx, premulx, wide, low8, copychan. cbn [pr pg pb pa] in *.
  destruct (Z.eqb_spec (a * 257) 0), (Z.eqb_spec a 0); try lia; cbn [pr pg pb pa].
  - subst. reflexivity.
  - f_equal. lia.
Qed.
Lemma straight_copy s d : pixel_ok s -> pixel_ok d ->
  exists p, pdB machine Copy true true 65535 s d = Some p /\ pa p = pa s /\
    (pa s = 0 -> p = Px 0 0 0 0) /\
    (pa s > 0 -> pr s - 1 <= pr p <= pr s /\ pg s - 1 <= pg p <= pg s /\ pb s - 1 <= pb p <= pb s) /\
    (pa s >= 128 -> p = s).
Proof.
  intros Hs Hd. destruct (pdB_eq machine Copy true true s d) as (E & _); try (left; reflexivity); auto; try discriminate.
  rewrite textbook_copy, straight_trip in E by auto. eexists. split; [exact E|]. cbn [pa]. split; [reflexivity|].
  unfold pixel_ok in Hs. destruct s as [r g b a]. cbn [pr pg pb pa] in *. split; [|split].
  - intros ->. reflexivity.
  - intros Ha. pose proof (copychan_bound r a). pose proof (copychan_bound g a). pose proof (copychan_bound b a). lia.
  - intros Ha. destruct (copychan_bound r a) as [_ ->]; try lia. destruct (copychan_bound g a) as [_ ->]; try lia. destruct (copychan_bound b a) as [_ ->]; try lia. reflexivity.
Qed.
Lemma straight_dest s d sn : pixel_ok s -> pixel_ok d -> (sn = false -> premul_ok 255 s) -> 
  pdB machine Dest sn true 65535 s d = Some (Px (copychan (pr d) (pa d)) (copychan (pg d) (pa d)) (copychan (pb d) (pa d)) (pa d)).
Proof.
  intros Hs Hd Hsn. destruct (pdB_eq machine Dest sn true s d) as (E & _); try (left; reflexivity); auto; try discriminate.
  now rewrite textbook_dest, straight_trip in E by auto.
Qed.
