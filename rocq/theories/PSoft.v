(** The polynomial and the square root of SoftLight: within range. *)
From Coq Require Import SpecFloat.
From Verif Require Import Base BaseFacts MBlend PEnum PRound.

Definition poly_ok (n : width) (d : Z) : bool :=
  let t := softPoly machine n d in
  (d <=? t) && (t <=? maxv n) && (t =? softPoly ideal n d).
Definition sqrt_ok (n : width) (d : Z) : bool :=
  let t := sqrtw ideal n d in (d <=? t) && (t <=? maxv n).

Lemma poly8_all : forallb (poly_ok W8) (zrange 0 64) = true.
Proof. vm_compute. reflexivity. Qed.
Lemma sqrt8_all : forallb (sqrt_ok W8) (zrange 64 192) = true.
Proof. vm_compute. reflexivity. Qed.

Lemma poly16 d : 0 <= d < 16384 -> d <= softPoly ideal W16 d <= 65535 /\ softPoly machine W16 d = softPoly ideal W16 d.
Proof.
  intros H. unfold softPoly. cbn [w32 wi32 machine ideal]. unfold imul, iadd, isub. cbn [wi32 machine ideal].
  rewrite (i32_small d) by lia. rewrite (i32_small (d * 16)) by lia. rewrite (i32_small (d * 16 - 786420)) by lia.
  assert (-12 <= Z.quot (d * 16 - 786420) 65535 <= -8) as Q.
  { replace (d * 16 - 786420) with (- (786420 - d * 16)) by lia. rewrite Z.quot_opp_l, Z.quot_div_nonneg by lia. lia. }
  set (q := Z.quot (d * 16 - 786420) 65535) in *. clearbody q.
  assert (-196596 <= q * d <= 0) as R by nia.
  rewrite (i32_small (q * d)) by lia. rewrite (i32_small (q * d + 262140)) by lia.
  assert (65535 * d <= (q * d + 262140) * d <= 2147483647) as P by nia.
  rewrite (i32_small ((q * d + 262140) * d)) by lia. set (p := (q * d + 262140) * d) in *. clearbody p.
  rewrite Z.quot_div_nonneg by lia. assert (d <= p / 65535 <= 65535) by lia. rewrite u32_small by lia. lia.
Qed.

(** Quotient, square root and product, each rounded: the quotient [d / 65535] has
    mantissa [Q] and exponent [-54] or [-53]. *)
Lemma fdiv16 d : 16384 <= d <= 65534 -> exists Q e, fdiv64 (fofZ d) (fofZ 65535) = S754_finite false (Z.to_pos Q) e /\
  (e = -54 \/ e = -53) /\ 2 ^ 52 <= Q < 2 ^ 53 - 3 /\
  2 ^ (53 + (-54 - e)) * d * 2 ^ 1 - 65535 <= 65535 * Q <= 2 ^ (53 + (-54 - e)) * d * 2 + 65535.
Proof.
  intros H. change (fofZ 65535) with (S754_finite false 9007061815787520 (-37)).
  assert (exists k, (k = 15 \/ k = 16) /\ 2 ^ (k - 1) <= d < 2 ^ k) as (k & Hk & Hd).
  { destruct (Z.ltb_spec d 32768); [exists 15|exists 16]; (split; [lia|]); cbn; lia. }
  rewrite (fofZ_eq d k) by lia. unfold fdiv64, SFdiv, SFdiv_core_binary.
  assert (2 ^ 52 <= d * 2 ^ (53 - k) < 2 ^ 53) as Hm by (destruct Hk; subst k; cbn in *; lia).
  rewrite Z2Pos.id by lia. rewrite (digits_unique (d * 2 ^ (53 - k)) 53) by (change (53 - 1) with 52; lia).
  change (Zdigits2 9007061815787520) with 53. unfold fexp. change (emin 53 1024) with (-1074).
  replace (Z.min _ _) with (k - 69) by (destruct Hk; subst k; reflexivity).
  replace (k - 53 - -37 - (k - 69)) with 53 by lia. rewrite Z.shiftl_mul_pow2 by lia.
  pose proof (Z_div_mod (d * 2 ^ (53 - k) * 2 ^ 53) 9007061815787520 ltac:(lia)) as E.
  destruct (Z.div_eucl _ _) as [q r]. destruct E as [E Hr]. cbn [xorb].
  assert (2 ^ 52 <= q < 2 ^ 53 - 5) as Hq by (destruct Hk; subst k; cbn in *; lia).
  destruct (round_cases q (k - 69) (new_location 9007061815787520 r) 53) as (Q & C & _ & H1 & _); [lia|change (53 - 1) with 52; lia|lia|].
  rewrite Z.sub_diag, Z.pow_0_r, Z.div_1_r in *. exists Q, (k - 69). rewrite H1 by lia. rewrite Z.add_0_r.
  split; [reflexivity|]. destruct Hk; subst k; cbn in *; lia.
Qed.

Lemma fsqrt16 Q e : (e = -54 \/ e = -53) -> 2 ^ 52 <= Q < 2 ^ 53 - 3 -> exists S,
  fsqrt (S754_finite false (Z.to_pos Q) e) = S754_finite false (Z.to_pos S) (-53) /\ 2 ^ 52 <= S < 2 ^ 53 /\
  (forall c, 0 <= c -> c * c <= Q * 2 ^ (e + 106) -> c <= S) /\ (S - 1) * (S - 1) <= Q * 2 ^ (e + 106).
Proof.
  intros He HQ. unfold fsqrt, SFsqrt, SFsqrt_core_binary. rewrite Z2Pos.id by lia.
  rewrite (digits_unique Q 53) by (change (53 - 1) with 52; lia). unfold fexp. change (emin 53 1024) with (-1074).
  replace (Z.min _ _) with (-53) by (destruct He; subst e; reflexivity).
  replace (e - 2 * -53) with (e + 106) by lia.
  assert (match e + 106 with 0 => Q | Zpos _ => Z.shiftl Q (e + 106) | Zneg _ => 0 end = Q * 2 ^ (e + 106)) as ->.
  { destruct He; subst e; cbn [Z.add Z.pos_sub]; rewrite Z.shiftl_mul_pow2 by lia; reflexivity. }
  assert (2 ^ 104 <= Q * 2 ^ (e + 106) < (2 ^ 53 - 1) * (2 ^ 53 - 1)) as B by (destruct He; subst e; cbn in *; lia).
  set (m := Q * 2 ^ (e + 106)) in *. clearbody m.
  pose proof (Z.sqrtrem_spec m ltac:(lia)) as E. destruct (Z.sqrtrem m) as [q r]. destruct E as [E Hr].
  assert (0 <= q) by nia.
  assert (2 ^ 52 <= q < 2 ^ 53 - 1) as Hq.
  { change (2 ^ 104) with (2 ^ 52 * 2 ^ 52) in B. set (a := 2 ^ 52) in *. set (b := 2 ^ 53 - 1) in *. assert (0 < a /\ 0 < b) by (split; reflexivity). clearbody a b. clear - B E Hr H H0. nia. }
  destruct (round_cases q (-53) (if Zeq_bool r 0 then loc_Exact else loc_Inexact (if r <=? q then Lt else Gt)) 53) as (S & C & _ & H1 & _); [lia|change (53 - 1) with 52; lia|lia|].
  rewrite Z.sub_diag, Z.pow_0_r, Z.div_1_r in *. exists S. 
  assert (S < 2 ^ 53) by lia. specialize (H1 H0). change (-53 + 0) with (-53) in H1. split; [exact H1|]. split; [lia|].
  split; [intros c Hc Hcc; assert (c <= q); [nia|lia]|].
  assert ((S - 1) * (S - 1) <= q * q) by (apply Z.mul_le_mono_nonneg; lia). lia.
Qed.

Lemma fmul16 S : 2 ^ 52 <= S < 2 ^ 53 ->
  let t := ftrunc (fmul64 (S754_finite false (Z.to_pos S) (-53)) (fofZ 65535)) in
  t <= 65535 /\ (forall d, d * 2 ^ 53 <= S * 65535 -> d <= t) /\ t * 2 ^ 53 <= S * 65535 + 65536.
Proof.
  intros HS. change (fofZ 65535) with (S754_finite false 9007061815787520 (-37)). unfold fmul64, SFmul. cbn [xorb].
  rewrite Pos2Z.inj_mul, Z2Pos.id by lia. change (-53 + -37) with (-90).
  assert (exists k, (k = 105 \/ k = 106) /\ 2 ^ (k - 1) <= S * 9007061815787520 < 2 ^ k) as (k & Hk & Hb).
  { destruct (Z.ltb_spec (S * 9007061815787520) (2 ^ 105)); [exists 105|exists 106]; (split; [lia|]); cbn in *; lia. }
  destruct (round_cases (S * 9007061815787520) (-90) loc_Exact k) as (M & C & B & H1 & H2); [lia|lia|lia|].
  assert (ftrunc (binary_round_aux 53 1024 false (S * 9007061815787520) (-90) loc_Exact) = M / 2 ^ (143 - k)) as ->.
  { destruct (Z.eqb_spec M (2 ^ 53)) as [E|E].
    - rewrite H2 by lia. rewrite E. destruct Hk; subst k; reflexivity.
    - rewrite H1 by lia. unfold ftrunc. replace (0 <=? -90 + (k - 53)) with false by lia. rewrite Z.shiftr_div_pow2 by lia.
      rewrite Z2Pos.id by lia. f_equal. f_equal. lia. }
  clear H1 H2. destruct Hk; subst k.
  - change (105 - 53) with 52 in C. change (143 - 105) with 38. split; [cbn in *; lia|]. split; [intros d Hd; apply Z.div_le_lower_bound; [lia|]; cbn in *; lia|]. cbn in *. lia.
  - change (106 - 53) with 53 in C. change (143 - 106) with 37. split; [cbn in *; lia|]. split; [intros d Hd; apply Z.div_le_lower_bound; [lia|]; cbn in *; lia|]. cbn in *. lia.
Qed.

Lemma sqrt16 d : 16384 <= d <= 65535 -> d <= sqrtw ideal W16 d <= 65535.
Proof.
  intros H. destruct (Z.eqb_spec d 65535) as [->|Hn]. { replace (sqrtw ideal W16 65535) with 65535 by (vm_compute; reflexivity). lia. }
  unfold sqrtw. cbn [maxv w32 ideal].
  destruct (fdiv16 d ltac:(lia)) as (Q & e & -> & He & HQ & B).
  destruct (fsqrt16 Q e He HQ) as (S & -> & HS & HS2 & _).
  destruct (fmul16 S HS) as (T1 & T2 & _). cbv zeta in *. set (t := ftrunc _) in *. clearbody t. split; [|lia].
  apply T2. clear t T1 T2.
  set (c := (d * 2 ^ 53 + 65534) / 65535). assert (d * 2 ^ 53 <= c * 65535 <= d * 2 ^ 53 + 65534) as Hc by (subst c; cbn; lia).
  clearbody c. assert (c <= S); [|lia]. apply HS2; [cbn in *; lia|].
  assert (65535 * (Q * 2 ^ (e + 106)) >= d * 2 ^ 106 - 65535 * 2 ^ 53) as B2.
  { clear - He B. destruct He; subst e; cbn in *; lia. }
  set (m := Q * 2 ^ (e + 106)) in *. clearbody m. clear - Hc B2 H Hn.
  change (2 ^ 106) with (2 ^ 53 * 2 ^ 53) in B2. set (w := 2 ^ 53) in *. assert (Hw : 10 * 65535 * 65535 <= w) by (subst w; cbn; lia). clearbody w.
  assert ((c * 65535) * (c * 65535) <= (d * w + 65534) * (d * w + 65534)) by nia.
  assert (65534 <= d * (65535 - d)) by nia.
  assert (65534 * (w * w) <= d * (65535 - d) * (w * w)) by nia.
  assert (10 * 65535 * 65535 * w <= w * w) by nia.
  assert ((d * w + 65534) * (d * w + 65534) <= 65535 * 65535 * m); [|nia].
  assert (65535 * (65535 * m) >= 65535 * (d * (w * w) - 65535 * w)) by lia.
  assert (2 * 65534 * d * w <= 2 * 65534 * 65535 * w) by nia.
  nia.
Qed.

Lemma poly_range n d : 0 <= d < quarterv n ->
  d <= softPoly ideal n d <= maxv n /\ softPoly machine n d = softPoly ideal n d.
Proof.
  intros H. destruct n; cbn [quarterv] in H; [|exact (poly16 d H)].
  pose proof (forall_zrange _ _ _ poly8_all d ltac:(lia)) as E.
  unfold poly_ok in E. apply andb_prop in E. destruct E as [E E2]. apply andb_prop in E. lia.
Qed.

Lemma sqrt_range n d : quarterv n <= d <= maxv n ->
  d <= sqrtw ideal n d <= maxv n /\ sqrtw machine n d = sqrtw ideal n d.
Proof.
  intros H. assert (d <= sqrtw ideal n d <= maxv n) as R.
  { destruct n; cbn [quarterv maxv] in H; [|exact (sqrt16 d H)].
    pose proof (forall_zrange _ _ _ sqrt8_all d ltac:(lia)) as E. unfold sqrt_ok in E. apply andb_prop in E. lia. }
  split; [exact R|].
  unfold sqrtw in *. cbn [w32 machine ideal] in *. apply u32_small. destruct n; cbn [quarterv maxv] in *; lia.
Qed.
