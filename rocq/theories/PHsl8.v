(** Proofs: with 8 bits the modes that mix hue, saturation and brightness are the W3C
    formulas but for the rounding of the brightness. *)
From Coq Require Import QArith Lqa.
From Verif Require Import Base BaseFacts MBlend PBlend PLum SBlend PBlend2 PHsl SHsl PHsl16 SHsl8.
Open Scope Q_scope.

Lemma part (f e d k : Q) : -1 < e < 1 -> -1 < d < 1 -> 0 <= f <= k -> - (k + 1) < e + f * d < k + 1.
Proof. intros He Hd Hf. split; nra. Qed.

(** Both scale the distances from below. *)
Lemma low_low t T m M u U f k c : T <= t -> t < T + 1 -> 0 <= f < 1 -> U == u + f -> m == M + f -> 0 < M -> 0 <= T -> T < M ->
  - m <= u -> u <= (k - 1) * m -> -1 < c - (T + U * T / M) < 1 -> - (k + 1) < c - (t + u * t / m) < k + 1.
Proof.
  intros H1 H2 Hf HU Hm HM HT HTM Hu1 Hu2 Hc.
  assert (0 < m) as Pm by lra.
  set (r := u / m) in *. assert (u == r * m) as Er by (unfold r; field; lra).
  set (s := T / M) in *. assert (T == s * M) as Es by (unfold s; field; lra).
  assert (-1 <= r) as R1 by nra. assert (r <= k - 1) as R2 by nra. assert (0 <= s) as S1 by nra. assert (s < 1) as S2 by nra.
  assert (T + U * T / M == (1 + r) * (T + s * f)) as E1.
  { setoid_replace (U * T / M) with (U * s) by (unfold s; field; lra). rewrite HU, Er, Hm. rewrite Es. ring. }
  assert (t + u * t / m == (1 + r) * t) as E2 by (unfold r; field; lra).
  rewrite E1 in Hc. rewrite E2.
  setoid_replace (c - (1 + r) * t) with ((c - (1 + r) * (T + s * f)) + (1 + r) * (T + s * f - t)) by ring.
  apply part; [exact Hc| |lra]. assert (0 <= s * f) by nra. assert (s * f < 1) by nra. lra.
Qed.
(** Only the formula scales. *)
Lemma low_none t T m M u U f k : T <= t -> t < T + 1 -> 0 <= f < 1 -> U == u + f -> m == M + f -> t < m -> M <= T -> 0 <= t ->
  - m <= u -> u <= (k - 1) * m -> - (k + 1) < T + U - (t + u * t / m) < k + 1.
Proof.
  intros H1 H2 Hf HU Hm Ht HM Ht0 Hu1 Hu2.
  assert (0 < m) as Pm by lra.
  set (r := u / m) in *. assert (u == r * m) as Er by (unfold r; field; lra).
  assert (-1 <= r) as R1 by nra. assert (r <= k - 1) as R2 by nra.
  assert (t + u * t / m == t + r * t) as E2 by (unfold r; field; lra). rewrite E2, HU, Er.
  assert (0 < m - t) as D1 by lra. assert (m - t <= T - t + f) as D2 by lra.
  setoid_replace (T + (r * m + f) - (t + r * t)) with ((T - t + f) + r * (m - t)) by ring.
  destruct (Qlt_le_dec r 0).
  - assert (- (m - t) <= r * (m - t)) by nra. assert (r * (m - t) <= 0) by nra. split; lra.
  - assert (r * (m - t) <= r * (T - t + f)) by nra. assert (r * (T - t + f) <= r) by nra. assert (0 <= r * (m - t)) by nra. split; lra.
Qed.
Lemma high_high t T x X u U f k c : T <= t -> t < T + 1 -> 0 <= f < 1 -> U == u + f -> X == x + f -> 0 < x -> T <= 255 -> t <= 255 -> 255 - T < X ->
  u <= x -> - u <= (k - 1) * x -> -1 < c - (T + U * (255 - T) / X) < 1 -> - (k + 1) < c - (t + u * (255 - t) / x) < k + 1.
Proof.
  intros H1 H2 Hf HU HX Hx HT Ht HTX Hu1 Hu2 Hc.
  assert (0 < X) as PX by lra.
  set (r := - u / x) in *. assert (u == - (r * x)) as Er by (unfold r; field; lra).
  set (s := (255 - T) / X) in *. assert (255 - T == s * X) as Es by (unfold s; field; lra).
  assert (-1 <= r) as R1 by nra. assert (r <= k - 1) as R2 by nra. assert (0 <= s) as S1 by nra. assert (s < 1) as S2 by nra.
  assert (T + U * (255 - T) / X == 255 - (1 + r) * (255 - T - s * f)) as E1.
  { setoid_replace (U * (255 - T) / X) with (U * s) by (unfold s; field; lra).
    setoid_replace T with (255 - s * X) by lra. rewrite HU, Er, HX. ring. }
  assert (t + u * (255 - t) / x == 255 - (1 + r) * (255 - t)) as E2 by (unfold r; field; lra).
  rewrite E1 in Hc. rewrite E2.
  setoid_replace (c - (255 - (1 + r) * (255 - t))) with ((c - (255 - (1 + r) * (255 - T - s * f))) + (1 + r) * (T + s * f - t)) by ring.
  apply part; [exact Hc| |lra]. assert (0 <= s * f) by nra. assert (s * f < 1) by nra. lra.
Qed.
Lemma high_none t T x X u U f k : T <= t -> t < T + 1 -> 0 <= f < 1 -> U == u + f -> X == x + f -> 255 - t < x -> X <= 255 - T -> t <= 255 ->
  u <= x -> - u <= (k - 1) * x -> - (k + 1) < T + U - (t + u * (255 - t) / x) < k + 1.
Proof.
  intros H1 H2 Hf HU HX Hx HX2 Ht Hu1 Hu2.
  assert (0 < x) as Px by lra.
  set (r := - u / x) in *. assert (u == - (r * x)) as Er by (unfold r; field; lra).
  assert (-1 <= r) as R1 by nra. assert (r <= k - 1) as R2 by nra.
  assert (t + u * (255 - t) / x == t - r * (255 - t)) as E2 by (unfold r; field; lra). rewrite E2, HU, Er.
  set (d := x - (255 - t)). assert (0 < d) as D1 by (unfold d; lra). assert (d <= t - T - f) as D2 by (unfold d; lra).
  setoid_replace (T + (- (r * x) + f) - (t - r * (255 - t))) with (- (t - T - f) - r * d) by (unfold d; ring).
  destruct (Qlt_le_dec r 0).
  - assert (- r * d <= d) by nra. assert (0 <= - r * d) by nra. split; lra.
  - assert (r * d <= r * (t - T - f)) by nra. assert (r * (t - T - f) <= r) by nra. assert (0 <= r * d) by nra. split; lra.
Qed.

(** * From whole numbers *)
(** A channel [v] after setLum8: least and greatest channel, brightness [a] of the colour and [T] wanted *)
Definition cv (mn mx a T v : Z) : Z :=
  (if mn + T - a <? 0 then sc T T (a - mn) (v + T - a)
   else if 255 <? mx + T - a then sc T (255 - T) (mx - a) (v + T - a) else v + T - a)%Z.
Definition ev (mn mx : Z) (L t : Q) (v : Z) : Q :=
  if Qle_bool 0 (inject_Z mn + (t - L)) then
    if Qle_bool (inject_Z mx + (t - L)) 255 then inject_Z v + (t - L)
    else t + (inject_Z v - L) * (255 - t) / (inject_Z mx - L)
  else t + (inject_Z v - L) * t / (L - inject_Z mn).

Lemma inj_le a b : (a <= b)%Z -> inject_Z a <= inject_Z b. Proof. now rewrite <- Zle_Qle. Qed.
Lemma inj_lt a b : (a < b)%Z -> inject_Z a < inject_Z b. Proof. now rewrite <- Zlt_Qlt. Qed.
Lemma inj_sub a b : inject_Z (a - b) == inject_Z a - inject_Z b. Proof. unfold Z.sub. rewrite inject_Z_plus, inject_Z_opp. reflexivity. Qed.
Lemma qdiv256 A : inject_Z A == 256 * (A # 256). Proof. unfold Qeq. cbn. lia. Qed.
Lemma floor_low A : inject_Z (A / 256) <= A # 256. Proof. unfold Qle. cbn [Qnum Qden inject_Z]. pose proof (Z.mul_div_le A 256). lia. Qed.
Lemma floor_high A : A # 256 < inject_Z (A / 256) + 1.
Proof. change 1 with (inject_Z 1). rewrite <- inject_Z_plus. unfold Qlt. cbn [Qnum Qden inject_Z]. pose proof (Z.mul_succ_div_gt A 256). lia. Qed.
Lemma qle_false a b : Qle_bool a b = false -> b < a.
Proof. intros H. apply Qnot_le_lt. intros G. apply Qle_bool_iff in G. congruence. Qed.

Lemma sc_real T n D c : (0 < D)%Z -> -1 < inject_Z (sc T n D c) - (inject_Z T + (inject_Z c - inject_Z T) * inject_Z n / inject_Z D) < 1.
Proof.
  intros HD. unfold sc. destruct (quot_spec ((c - T) * n) D HD) as (r & E & Hr & _). set (q := Z.quot ((c - T) * n) D) in *. clearbody q.
  assert (inject_Z ((c - T) * n) == inject_Z (D * q + r)) as Eq by (rewrite <- E; reflexivity).
  rewrite inject_Z_mult, inject_Z_plus, inject_Z_mult, inj_sub in Eq. rewrite inject_Z_plus, Eq.
  assert (0 < inject_Z D) as PD by (now apply (inj_lt 0)).
  setoid_replace (inject_Z T + inject_Z q - (inject_Z T + (inject_Z D * inject_Z q + inject_Z r) / inject_Z D)) with (- (inject_Z r / inject_Z D)) by (field; lra).
  assert (inject_Z r < inject_Z D) by (apply inj_lt; lia). assert (- inject_Z D < inject_Z r) by (rewrite <- inject_Z_opp; apply inj_lt; lia).
  assert (inject_Z r / inject_Z D < 1) by (apply Qlt_shift_div_r; lra). assert (-1 < inject_Z r / inject_Z D) by (apply Qlt_shift_div_l; lra). lra.
Qed.

Lemma slope (k : positive) (u m : Q) : inject_Z (Zpos k) * u <= (256 - inject_Z (Zpos k)) * m -> u <= ((256 # k) - 1) * m.
Proof.
  intros H. set (q := inject_Z (Zpos k)) in *. assert (0 < q) as Pq by (now apply (inj_lt 0)).
  assert ((256 # k) * q == 256) as Ek by (unfold q, Qeq; cbn; lia). set (K := 256 # k) in *. clearbody K q.
  apply (Qmult_le_l u ((K - 1) * m) q Pq). setoid_replace (q * ((K - 1) * m)) with ((K * q - q) * m) by ring. rewrite Ek. exact H.
Qed.

Lemma channel (k : positive) v mn mx A B : (Zpos k < 256)%Z -> (0 <= mn)%Z -> (mx <= 255)%Z -> (mn <= v <= mx)%Z -> (256 * mn <= A <= 256 * mx)%Z -> (0 <= B <= 65280)%Z ->
  (Zpos k * (256 * v - A) <= (256 - Zpos k) * (A - 256 * mn))%Z -> (Zpos k * (A - 256 * v) <= (256 - Zpos k) * (256 * mx - A))%Z ->
  right_up_to k (ev mn mx (A # 256) (B # 256) v) (cv mn mx (A / 256) (B / 256) v).
Proof.
  unfold right_up_to. intros Hk Hmn Hmx Hv HA HB W1 W2.
  pose proof (floor_low A) as A1. pose proof (floor_high A) as A2. pose proof (floor_low B) as B1. pose proof (floor_high B) as B2.
  assert (mn <= A / 256 <= mx)%Z as Ha by (split; [apply Z.div_le_lower_bound|apply Z.div_le_upper_bound]; lia).
  assert (0 <= B / 256 <= 255)%Z as Hb by (split; [apply Z.div_le_lower_bound|apply Z.div_le_upper_bound]; lia).
  assert (0 <= (B # 256)) as T0 by (unfold Qle; cbn; lia). assert ((B # 256) <= 255) as T1 by (unfold Qle; cbn; lia).
  assert (inject_Z (Zpos k) * (inject_Z v - (A # 256)) <= (256 - inject_Z (Zpos k)) * ((A # 256) - inject_Z mn)) as S1.
  { apply inj_le in W1. rewrite !inject_Z_mult, !inj_sub, !inject_Z_mult in W1. change (inject_Z 256) with 256 in W1. rewrite (qdiv256 A) in W1. lra. }
  assert (inject_Z (Zpos k) * (- (inject_Z v - (A # 256))) <= (256 - inject_Z (Zpos k)) * (inject_Z mx - (A # 256))) as S2.
  { apply inj_le in W2. rewrite !inject_Z_mult, !inj_sub, !inject_Z_mult in W2. change (inject_Z 256) with 256 in W2. rewrite (qdiv256 A) in W2. lra. }
  apply slope in S1. apply slope in S2.
  set (a := (A / 256)%Z) in *. set (T := (B / 256)%Z) in *. set (t := B # 256) in *. set (L := A # 256) in *.
  assert (inject_Z mn <= L) as L1 by (unfold L, Qle; cbn; lia). assert (L <= inject_Z mx) as L2 by (unfold L, Qle; cbn; lia).
  set (K := 256 # k) in *. assert (1 <= K) as K1 by (unfold K, Qle; cbn; lia). clearbody a T t L K.
  assert (inject_Z mn <= inject_Z v /\ inject_Z v <= inject_Z mx) as [V1 V2] by (split; apply inj_le; lia).
  assert (inject_Z mx - inject_Z mn <= 255) as Sp. { rewrite <- inj_sub. apply (inj_le _ 255). lia. }
  assert (0 <= inject_Z T /\ inject_Z T <= 255) as [T2 T3] by (split; [apply (inj_le 0)|apply (inj_le _ 255)]; lia).
  cut (- (K + 1) < inject_Z (cv mn mx a T v) - ev mn mx L t v < K + 1); [lra|].
  unfold cv, ev.
  destruct (Qle_bool 0 (inject_Z mn + (t - L))) eqn:E1; [apply Qle_bool_iff in E1; destruct (Qle_bool (inject_Z mx + (t - L)) 255) eqn:E2; [apply Qle_bool_iff in E2|apply qle_false in E2]|apply qle_false in E1].
  - (* no scaling in the formula *)
    destruct (Z.ltb_spec (mn + T - a) 0) as [G|G].
    { exfalso. assert (inject_Z (mn + T - a) <= inject_Z (-1)) as G' by (apply inj_le; lia). rewrite inj_sub, inject_Z_plus in G'. change (inject_Z (-1)) with (-1) in G'. lra. }
    destruct (Z.ltb_spec 255 (mx + T - a)) as [G2|G2].
    { exfalso. assert (inject_Z 256 <= inject_Z (mx + T - a)) as G' by (apply inj_le; lia). rewrite inj_sub, inject_Z_plus in G'. change (inject_Z 256) with 256 in G'. lra. }
    rewrite inj_sub, inject_Z_plus. lra.
  - (* from above *)
    destruct (Z.ltb_spec (mn + T - a) 0) as [G|G].
    { exfalso. assert (inject_Z (mn + T - a) <= inject_Z (-1)) as G' by (apply inj_le; lia). rewrite inj_sub, inject_Z_plus in G'. change (inject_Z (-1)) with (-1) in G'. lra. }
    destruct (Z.ltb_spec 255 (mx + T - a)) as [G2|G2].
    + apply inj_lt in G2. rewrite inj_sub, inject_Z_plus in G2. change (inject_Z 255) with 255 in G2.
      assert (0 < mx - a)%Z as PX by (rewrite Zlt_Qlt, inj_sub; change (inject_Z 0) with 0; lra).
      pose proof (sc_real T (255 - T) (mx - a) (v + T - a) PX) as Q. rewrite !inj_sub, inject_Z_plus in Q. change (inject_Z 255) with 255 in Q.
      setoid_replace (inject_Z v + inject_Z T - inject_Z a - inject_Z T) with (inject_Z v - inject_Z a) in Q by ring.
      refine (high_high t (inject_Z T) (inject_Z mx - L) (inject_Z mx - inject_Z a) (inject_Z v - L) (inject_Z v - inject_Z a) (L - inject_Z a) K _ _ _ _ _ _ _ _ _ _ _ _ Q); try lra.
    + apply inj_le in G2. rewrite inj_sub, inject_Z_plus in G2. change (inject_Z 255) with 255 in G2. rewrite inj_sub, inject_Z_plus.
      setoid_replace (inject_Z v + inject_Z T - inject_Z a) with (inject_Z T + (inject_Z v - inject_Z a)) by ring.
      apply (high_none t (inject_Z T) (inject_Z mx - L) (inject_Z mx - inject_Z a) (inject_Z v - L) (inject_Z v - inject_Z a) (L - inject_Z a) K); lra.
  - destruct (Z.ltb_spec (mn + T - a) 0) as [G|G].
    + apply inj_lt in G. rewrite inj_sub, inject_Z_plus in G. change (inject_Z 0) with 0 in G.
      assert (0 < a - mn)%Z as PX by (rewrite Zlt_Qlt, inj_sub; change (inject_Z 0) with 0; lra).
      pose proof (sc_real T T (a - mn) (v + T - a) PX) as Q. rewrite !inj_sub, inject_Z_plus in Q.
      setoid_replace (inject_Z v + inject_Z T - inject_Z a - inject_Z T) with (inject_Z v - inject_Z a) in Q by ring.
      refine (low_low t (inject_Z T) (L - inject_Z mn) (inject_Z a - inject_Z mn) (inject_Z v - L) (inject_Z v - inject_Z a) (L - inject_Z a) K _ _ _ _ _ _ _ _ _ _ _ Q); try lra.
    + assert (0 <= inject_Z mn + inject_Z T - inject_Z a) as G'. { rewrite <- inject_Z_plus, <- inj_sub. apply (inj_le 0). exact G. }
      destruct (Z.ltb_spec 255 (mx + T - a)) as [G2|G2].
      { exfalso. assert (inject_Z 256 <= inject_Z (mx + T - a)) as G3 by (apply inj_le; lia). rewrite inj_sub, inject_Z_plus in G3. change (inject_Z 256) with 256 in G3.
        assert (mx + T - a <= 255 + (T - a + mn))%Z by lia. assert (T - a + mn <= 0 \/ 1 <= T - a + mn)%Z as [|O] by lia; [lia|].
        apply inj_le in O. rewrite inject_Z_plus, inj_sub in O. change (inject_Z 1) with 1 in O. lra. }
      rewrite inj_sub, inject_Z_plus. setoid_replace (inject_Z v + inject_Z T - inject_Z a) with (inject_Z T + (inject_Z v - inject_Z a)) by ring.
      apply (low_none t (inject_Z T) (L - inject_Z mn) (inject_Z a - inject_Z mn) (inject_Z v - L) (inject_Z v - inject_Z a) (L - inject_Z a) K); lra.
Qed.

(** * The formula *)
Lemma qle_shift a b d : Qle_bool (inject_Z a + d) (inject_Z b + d) = (a <=? b)%Z.
Proof.
  destruct (Z.leb_spec a b) as [H|H].
  - apply Qle_bool_iff. apply inj_le in H. lra.
  - destruct (Qle_bool _ _) eqn:E; [|reflexivity]. apply Qle_bool_iff in E. apply inj_lt in H. lra.
Qed.
Lemma least_shift r g b d : least (inject_Z r + d, inject_Z g + d, inject_Z b + d) = inject_Z (Z.min r (Z.min g b)) + d.
Proof.
  cbn [least]. rewrite !qle_shift. destruct (Z.leb_spec r g); [destruct (Z.leb_spec r b)|destruct (Z.leb_spec g b)]; do 2 f_equal; lia.
Qed.
Lemma greatest_shift r g b d : greatest (inject_Z r + d, inject_Z g + d, inject_Z b + d) = inject_Z (Z.max r (Z.max g b)) + d.
Proof.
  cbn [greatest]. rewrite !qle_shift. destruct (Z.leb_spec g r); [destruct (Z.leb_spec b r)|destruct (Z.leb_spec b g)]; do 2 f_equal; lia.
Qed.
Lemma lum8_luma r g b : lum8_of (exact (r, g, b)) == (77 * r + 151 * g + 28 * b # 256).
Proof. cbn [exact lum8_of]. unfold Qeq, Qplus, Qmult, inject_Z. cbn [Qnum Qden]. lia. Qed.

Definition same3 (c e : colour) : Prop := let '(x, y, z) := c in let '(x', y', z') := e in x == x' /\ y == y' /\ z == z'.
Lemma set_lum8_case r g b L t t' : t == t' -> lum8_of (exact (r, g, b)) == L -> 0 <= t' <= 255 -> (0 <= Z.min r (Z.min g b))%Z -> (Z.max r (Z.max g b) <= 255)%Z ->
  let mn := Z.min r (Z.min g b) in let mx := Z.max r (Z.max g b) in
  same3 (set_lum8 (exact (r, g, b)) t) (ev mn mx L t' r, ev mn mx L t' g, ev mn mx L t' b).
Proof.
  intros Et EL Ht Hn Hx mn mx. unfold set_lum8. set (d := t - lum8_of (exact (r, g, b))). assert (d == t' - L) as Ed by (unfold d; rewrite Et, EL; reflexivity).
  change (exact (r, g, b)) with (inject_Z r, inject_Z g, inject_Z b) in *. cbn [each]. unfold clip_color8. cbn zeta.
  set (l := lum8_of (inject_Z r + d, inject_Z g + d, inject_Z b + d)).
  assert (l == t') as El. { unfold l. cbn [lum8_of] in *. lra. }
  rewrite least_shift, greatest_shift. fold mn mx. clearbody l d.
  assert (inject_Z mx - inject_Z mn <= 255) as Sp. { rewrite <- inj_sub. apply (inj_le _ 255). unfold mx, mn. lia. }
  assert (forall a a', a == a' -> forall x y : bool, True) as _ by auto.
  assert (Qle_bool 0 (inject_Z mn + d) = Qle_bool 0 (inject_Z mn + (t' - L))) as -> by (now rewrite Ed).
  assert (Qle_bool (inject_Z mx + d) 255 = Qle_bool (inject_Z mx + (t' - L)) 255) as -> by (now rewrite Ed).
  unfold ev. destruct (Qle_bool 0 _) eqn:E1; destruct (Qle_bool _ 255) eqn:E2; cbn [each same3].
  - rewrite Ed. repeat split; reflexivity.
  - apply qle_false in E2. rewrite Ed, El. repeat split; field; lra.
  - apply qle_false in E1. rewrite Ed, El. repeat split; field; lra.
  - apply qle_false in E1. apply qle_false in E2. exfalso. lra.
Qed.

(** * The code *)
Lemma setLum8_value r g b lm : byte r -> byte g -> byte b -> byte lm ->
  let mn := Z.min r (Z.min g b) in let mx := Z.max r (Z.max g b) in let a := luma8 r g b in
  setLum8 machine r g b lm = Some (cv mn mx a lm r, cv mn mx a lm g, cv mn mx a lm b).
Proof.
  intros Hr Hg Hb Hl mn mx a. unfold setLum8.
  destruct (lum8_eq r g b Hr Hg Hb) as (-> & _ & Hy). fold a in Hy |- *. set (dl := (lm - a)%Z). unfold byte in *.
  assert (isub machine lm a = dl) as -> by (unfold dl; openar; unwrap1 lia; auto).
  assert (forall c, (0 <= c <= 255)%Z -> iadd machine (wi32 machine c) dl = (c + dl)%Z) as A by (intros c Hc; openar; repeat unwrap1 lia; auto).
  rewrite !A by lia. unfold clipColor8.
  destruct (lum8s_eq (r + dl) (g + dl) (b + dl)) as [-> _]; try (unfold wide; lia).
  assert (luma8 (r + dl) (g + dl) (b + dl) = lm) as -> by (unfold dl, a, luma8; lia).
  rewrite min3, max3. replace (Z.min (r + dl) (Z.min (g + dl) (b + dl))) with (mn + dl)%Z by lia. replace (Z.max (r + dl) (Z.max (g + dl) (b + dl))) with (mx + dl)%Z by lia.
  assert (mn <= a <= mx)%Z as Hm by (unfold a, luma8, mn, mx; lia).
  assert (mn <= r <= mx /\ mn <= g <= mx /\ mn <= b <= mx)%Z as (Br & Bg & Bb) by (unfold mn, mx; lia).
  assert (0 <= mn /\ mx <= 255)%Z as [M0 M1] by (unfold mn, mx; lia). clearbody mn mx a. unfold cv.
  replace (mn + lm - a)%Z with (mn + dl)%Z by lia. replace (mx + lm - a)%Z with (mx + dl)%Z by lia.
  assert (forall c, (c + lm - a = c + dl)%Z) as Ec by lia. rewrite !Ec.
  destruct (Z.ltb_spec (mn + dl) 0).
  - replace (255 <? mx + dl)%Z with false by lia.
    assert (isub machine lm (mn + dl) = (a - mn)%Z) as -> by (unfold dl in *; openar; unwrap1 lia; lia).
    assert (forall c, (mn <= c <= mx)%Z -> byte (sc lm lm (a - mn) (c + dl)) /\ scale8 machine lm lm (a - mn) (c + dl) = Some (sc lm lm (a - mn) (c + dl))) as R.
    { intros c Hc. split; [|apply scale8_eq; unfold byte, wide; lia].
      pose proof (sc_between lm lm (a - mn) (c + dl) ltac:(lia) ltac:(lia)).
      pose proof (sc_low lm lm (a - mn) (c + dl) ltac:(lia) ltac:(lia) ltac:(lia)). unfold byte. lia. }
    destruct (R r Br) as (R1 & ->). destruct (R g Bg) as (R2 & ->). destruct (R b Bb) as (R3 & ->).
    now rewrite !clamp8s_id by auto.
  - destruct (Z.ltb_spec 255 (mx + dl)).
    + assert (isub machine 255 lm = (255 - lm)%Z) as -> by (openar; unwrap1 lia; auto).
      assert (isub machine (mx + dl) lm = (mx - a)%Z) as -> by (unfold dl in *; openar; unwrap1 lia; lia).
      assert (forall c, (mn <= c <= mx)%Z -> byte (sc lm (255 - lm) (mx - a) (c + dl)) /\ scale8 machine lm (255 - lm) (mx - a) (c + dl) = Some (sc lm (255 - lm) (mx - a) (c + dl))) as R.
      { intros c Hc. split; [|apply scale8_eq; unfold byte, wide; lia].
        pose proof (sc_between lm (255 - lm) (mx - a) (c + dl) ltac:(lia) ltac:(lia)).
        pose proof (sc_high lm (255 - lm) (mx - a) (c + dl) ltac:(lia) ltac:(lia) ltac:(lia)). unfold byte. lia. }
      destruct (R r Br) as (R1 & ->). destruct (R g Bg) as (R2 & ->). destruct (R b Bb) as (R3 & ->).
      now rewrite !clamp8s_id by auto.
    + now rewrite !clamp8s_id by (unfold byte; auto; lia).
Qed.

Lemma setLum8_rounded c l : triple_in 255 c -> triple_in 255 l ->
  exists v, setLum machine W8 c l = Some v /\ all_near (set_lum8 (exact c) (lum8_of (exact l))) v.
Proof.
  destruct c as [[r g] b], l as [[lr lg] lb]. cbn [triple_in setLum]. intros Hc Hl.
  destruct (lum8_eq lr lg lb) as (-> & _ & Hy); unfold byte in *; try lia.
  eexists. split; [apply setLum8_value; unfold byte; lia|].
  set (B := (77 * lr + 151 * lg + 28 * lb)%Z). set (A := (77 * r + 151 * g + 28 * b)%Z).
  assert (0 <= B <= 65280)%Z as HB by (unfold B; lia).
  assert (0 <= B # 256 <= 255) as Ht by (unfold Qle; cbn; lia).
  pose proof (set_lum8_case r g b (A # 256) _ (B # 256) (lum8_luma lr lg lb) (lum8_luma r g b) Ht ltac:(lia) ltac:(lia)) as S. cbv zeta in S.
  destruct (set_lum8 _ _) as [[x y] z]. cbn [same3] in S. destruct S as (S1 & S2 & S3).
  unfold luma8. fold A B. set (mn := Z.min r (Z.min g b)) in *. set (mx := Z.max r (Z.max g b)) in *.
  cbn [all_near]. unfold right_up_to. rewrite S1, S2, S3.
  split; [|split]; apply channel; unfold A, mn, mx; lia.
Qed.

Lemma mix_near m s d e : triple_in 255 s -> triple_in 255 d -> mixed8 m s d = Some e -> exists v, mix machine W8 m s d = Some v /\ all_near e v.
Proof.
  assert (forall c, triple_in 255 c -> triple_in 65535 c) as W by (intros [[r g] b]; cbn [triple_in]; lia).
  assert (forall c st, triple_in 255 c -> triple_in 255 st -> setSat3 machine c st = Some (set_sat c (spread st)) /\ triple_in 255 (set_sat c (spread st))) as SS.
  { intros c st Hc Hst. destruct (setSat3_exact c st (W _ Hc) (W _ Hst)) as [E _]. split; [exact E|].
    destruct (setSat3_mix W8 c st Hc Hst) as (c' & E' & _ & T). rewrite E in E'. injection E' as ->. exact T. }
  intros Hs Hd E. destruct m; try discriminate E; cbn [mixed8 mix] in *; injection E as <-.
  - destruct (SS s d Hs Hd) as [-> T]. now apply setLum8_rounded.
  - destruct (SS d s Hd Hs) as [-> T]. now apply setLum8_rounded.
  - now apply setLum8_rounded.
  - now apply setLum8_rounded.
Qed.

(** * Colours that need no clipping *)
Lemma setLum8_inside c l : triple_in 255 c -> triple_in 255 l -> inside (set_lum8 (exact c) (lum8_of (exact l))) ->
  forall v, setLum machine W8 c l = Some v -> within_one (set_lum8 (exact c) (lum8_of (exact l))) v.
Proof.
  destruct c as [[r g] b], l as [[lr lg] lb]. cbn [triple_in setLum]. intros Hc Hl.
  destruct (lum8_eq lr lg lb) as (-> & _ & Hy); unfold byte in *; try lia.
  intros HI v E. rewrite setLum8_value in E by (unfold byte; lia). injection E as <-.
  set (B := (77 * lr + 151 * lg + 28 * lb)%Z). set (A := (77 * r + 151 * g + 28 * b)%Z).
  assert (0 <= B <= 65280)%Z as HB by (unfold B; lia).
  assert (0 <= B # 256 <= 255) as Ht by (unfold Qle; cbn; lia).
  pose proof (set_lum8_case r g b (A # 256) _ (B # 256) (lum8_luma lr lg lb) (lum8_luma r g b) Ht ltac:(lia) ltac:(lia)) as S. cbv zeta in S.
  destruct (set_lum8 _ _) as [[x y] z]. cbn [same3] in S. destruct S as (S1 & S2 & S3).
  unfold luma8. fold A B. cbn [inside within_one] in *. rewrite S1, S2, S3 in *.
  assert (256 * Z.min r (Z.min g b) <= A <= 256 * Z.max r (Z.max g b))%Z as HA by (unfold A; lia).
  pose proof (floor_low A) as A1. pose proof (floor_high A) as A2. pose proof (floor_low B) as B1. pose proof (floor_high B) as B2.
  assert (forall v, (v = r \/ v = g \/ v = b) -> 0 < ev (Z.min r (Z.min g b)) (Z.max r (Z.max g b)) (A # 256) (B # 256) v < 255) as HE by (intros ? [->|[->| ->]]; apply HI).
  pose proof (HE (Z.min r (Z.min g b)) ltac:(lia)) as E0. pose proof (HE (Z.max r (Z.max g b)) ltac:(lia)) as E1. clear HE HI S1 S2 S3.
  set (mn := Z.min r (Z.min g b)) in *. set (mx := Z.max r (Z.max g b)) in *. 
  assert (inject_Z mn <= A # 256) as L1 by (unfold Qle; cbn; lia). assert (A # 256 <= inject_Z mx) as L2 by (unfold Qle; cbn; lia).
  assert (mn <= A / 256 <= mx)%Z as Ha by (split; [apply Z.div_le_lower_bound|apply Z.div_le_upper_bound]; lia).
  set (a := (A / 256)%Z) in *. set (T := (B / 256)%Z) in *. set (t := B # 256) in *. set (L := A # 256) in *. clearbody a T t L.
  unfold ev in E0, E1. unfold ev.
  destruct (Qle_bool 0 (inject_Z mn + (t - L))) eqn:F1; [destruct (Qle_bool (inject_Z mx + (t - L)) 255) eqn:F2|].
  - apply Qle_bool_iff in F1. apply Qle_bool_iff in F2.
    assert (forall v, cv mn mx a T v = (v + T - a)%Z) as Ev.
    { intros v. unfold cv. destruct (Z.ltb_spec (mn + T - a) 0) as [G|G].
      { exfalso. assert (inject_Z (mn + T - a) <= inject_Z (-1)) as G' by (apply inj_le; lia). rewrite inj_sub, inject_Z_plus in G'. change (inject_Z (-1)) with (-1) in G'. lra. }
      destruct (Z.ltb_spec 255 (mx + T - a)) as [G2|G2]; [|reflexivity].
      exfalso. assert (inject_Z 256 <= inject_Z (mx + T - a)) as G' by (apply inj_le; lia). rewrite inj_sub, inject_Z_plus in G'. change (inject_Z 256) with 256 in G'. lra. }
    rewrite !Ev, !inj_sub, !inject_Z_plus. repeat split; lra.
  - apply qle_false in F2. exfalso. 
    assert (t + (inject_Z mx - L) * (255 - t) / (inject_Z mx - L) == 255) by (field; lra). lra.
  - apply qle_false in F1. exfalso.
    assert (t + (inject_Z mn - L) * t / (L - inject_Z mn) == 0) by (field; lra). lra.
Qed.
Lemma mix_inside m s d e : triple_in 255 s -> triple_in 255 d -> mixed8 m s d = Some e -> inside e -> exists v, mix machine W8 m s d = Some v /\ within_one e v.
Proof.
  intros Hs Hd E I. destruct (mix_near m s d e Hs Hd E) as (v & M & _). exists v. split; [exact M|].
  assert (forall c, triple_in 255 c -> triple_in 65535 c) as W by (intros [[r g] b]; cbn [triple_in]; lia).
  assert (forall c st, triple_in 255 c -> triple_in 255 st -> setSat3 machine c st = Some (set_sat c (spread st)) /\ triple_in 255 (set_sat c (spread st))) as SS.
  { intros c st Hc Hst. destruct (setSat3_exact c st (W _ Hc) (W _ Hst)) as [E' _]. split; [exact E'|].
    destruct (setSat3_mix W8 c st Hc Hst) as (c' & E1 & _ & T). rewrite E' in E1. injection E1 as ->. exact T. }
  destruct m; try discriminate E; cbn [mixed8 mix] in *; injection E as <-.
  - destruct (SS s d Hs Hd) as [E' T]. rewrite E' in M. now apply setLum8_inside.
  - destruct (SS d s Hd Hs) as [E' T]. rewrite E' in M. now apply setLum8_inside.
  - now apply setLum8_inside.
  - now apply setLum8_inside.
Qed.
