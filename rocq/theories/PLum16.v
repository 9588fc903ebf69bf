(** The 16 bit luminosity is computed with float64: for colours of the file nothing
    is rounded. *)
From Coq Require Import SpecFloat.
From Verif Require Import Base BaseFacts MBlend SWide PRound PBlend2.
Open Scope Z_scope.

(** [x] is the float64 of [n * 2 ^ k], which has at most 53 bits. *)
Definition isF (x : spec_float) (n k : Z) : Prop :=
  n = 0 /\ x = S754_zero false \/
  exists j, 1 <= j <= 53 /\ 2 ^ (j - 1) <= n < 2 ^ j /\ x = S754_finite false (Z.to_pos (n * 2 ^ (53 - j))) (k + j - 53).

Lemma log_bits n : 0 < n < 2 ^ 53 -> exists j, 1 <= j <= 53 /\ 2 ^ (j - 1) <= n < 2 ^ j.
Proof.
  intros H. exists (Z.log2 n + 1). pose proof (Z.log2_spec n ltac:(lia)) as L. pose proof (Z.log2_nonneg n).
  pose proof (Z.log2_lt_pow2 n 53 ltac:(lia)) as U. replace (Z.log2 n + 1 - 1) with (Z.log2 n) by lia.
  replace (Z.log2 n + 1) with (Z.succ (Z.log2 n)) by lia. split; [lia|exact L].
Qed.

(** A product of a number below 2^53 and a power of two is rounded to itself. *)
Lemma shr_exact p : forall n, 0 <= n -> SpecFloat.iter_pos shr_1 p {| shr_m := n * 2 ^ Zpos p; shr_r := false; shr_s := false |} = {| shr_m := n; shr_r := false; shr_s := false |}.
Proof.
  assert (S : forall n, 0 <= n -> shr_1 {| shr_m := 2 * n; shr_r := false; shr_s := false |} = {| shr_m := n; shr_r := false; shr_s := false |}).
  { intros n Hn. destruct n as [|q|q]; [reflexivity|reflexivity|lia]. }
  induction p as [p IH|p IH|]; intros n Hn; cbn [SpecFloat.iter_pos].
  - replace (n * 2 ^ Zpos p~1) with (2 * (n * 2 ^ Zpos p * 2 ^ Zpos p)).
    2:{ replace (Zpos p~1) with (1 + (Zpos p + Zpos p)) by lia. rewrite !Z.pow_add_r by lia. change (2 ^ 1) with 2. ring. }
    assert (0 < 2 ^ Zpos p) by (apply Z.pow_pos_nonneg; lia). rewrite S by nia. rewrite IH by nia. now apply IH.
  - replace (n * 2 ^ Zpos p~0) with (n * 2 ^ Zpos p * 2 ^ Zpos p).
    2:{ replace (Zpos p~0) with (Zpos p + Zpos p) by lia. rewrite !Z.pow_add_r by lia. ring. }
    assert (0 < 2 ^ Zpos p) by (apply Z.pow_pos_nonneg; lia). rewrite IH by nia. now apply IH.
  - replace (n * 2 ^ 1) with (2 * n) by lia. now apply S.
Qed.

(** [m] has 53 bits, [x] zeroes follow. *)
Lemma round_exact m x e : 2 ^ 52 <= m < 2 ^ 53 -> 0 <= x -> -1074 <= x + e < 971 ->
  binary_round_aux 53 1024 false (m * 2 ^ x) e loc_Exact = S754_finite false (Z.to_pos m) (e + x).
Proof.
  intros Hm Hx He. assert (0 < 2 ^ x) by (apply Z.pow_pos_nonneg; lia). assert (0 < 2 ^ 52) as P52 by reflexivity.
  unfold binary_round_aux.
  assert (shr_fexp 53 1024 (m * 2 ^ x) e loc_Exact = ({| shr_m := m; shr_r := false; shr_s := false |}, e + x)) as ->.
  { unfold shr_fexp, fexp. rewrite (digits_unique (m * 2 ^ x) (53 + x)).
    - change (emin 53 1024) with (-1074). replace (Z.max (53 + x + e - 53) (-1074) - e) with x by lia. unfold shr. cbn [shr_record_of_loc].
      destruct x as [|p|p]; [|rewrite shr_exact by lia; reflexivity|lia]. rewrite Z.mul_1_r. f_equal. lia.
    - lia.
    - replace (53 + x - 1) with (52 + x) by lia. rewrite !Z.pow_add_r by lia. split; [apply Z.mul_le_mono_nonneg_r; lia|apply Z.mul_lt_mono_pos_r; lia]. }
  cbn [shr_m loc_of_shr_record round_nearest_even].
  destruct (shr_fexp_eq m (e + x) loc_Exact 53) as (r2 & -> & E2); [lia|change (53 - 1) with 52; lia|lia|].
  rewrite E2, Z.sub_diag, Z.pow_0_r, Z.div_1_r.
  destruct m as [|p|p]; try lia. replace (Zle_bool _ _) with true by (change (1024 - 53) with 971; symmetry; apply Z.leb_le; lia). f_equal. lia.
Qed.

Lemma mant_bits n j : 1 <= j <= 53 -> 2 ^ (j - 1) <= n < 2 ^ j -> 2 ^ 52 <= n * 2 ^ (53 - j) < 2 ^ 53.
Proof.
  intros Hj Hn. assert (0 < 2 ^ (53 - j)) by (apply Z.pow_pos_nonneg; lia). split.
  - replace 52 with ((j - 1) + (53 - j)) by lia. rewrite Z.pow_add_r by lia. apply Z.mul_le_mono_nonneg_r; lia.
  - replace 53 with (j + (53 - j)) at 2 by lia. rewrite Z.pow_add_r by lia. apply Z.mul_lt_mono_pos_r; lia.
Qed.
Lemma round_isF n x e : 0 < n < 2 ^ 53 -> 52 <= x -> x <= 200 -> -500 <= e <= 500 ->
  isF (binary_round_aux 53 1024 false (n * 2 ^ x) e loc_Exact) n (e + x).
Proof.
  intros Hn Hx Hx' He. right. destruct (log_bits n Hn) as (j & Hj & B). exists j. split; [exact Hj|]. split; [exact B|].
  replace (n * 2 ^ x) with (n * 2 ^ (53 - j) * 2 ^ (x + j - 53)).
  - rewrite round_exact; [f_equal; lia|now apply mant_bits|lia|lia].
  - rewrite <- Z.mul_assoc, <- Z.pow_add_r by lia. f_equal. f_equal. lia.
Qed.

Lemma fofZ_isF n : 0 <= n < 2 ^ 53 -> isF (fofZ n) n 0.
Proof.
  intros H. destruct (Z.eqb_spec n 0) as [->|]; [left; split; reflexivity|]. right.
  destruct (log_bits n ltac:(lia)) as (j & Hj & B). exists j. split; [exact Hj|]. split; [exact B|]. rewrite (fofZ_eq n j Hj B). f_equal.
Qed.

Lemma fmul_isF x y a b : isF x a 0 -> isF y b 0 -> 0 <= a * b < 2 ^ 53 -> isF (fmul64 x y) (a * b) 0.
Proof.
  intros [[-> ->]|(j & Hj & Bj & ->)] [[-> ->]|(i & Hi & Bi & ->)] H; try (left; split; [lia|reflexivity]).
  pose proof (mant_bits a j Hj Bj) as Ma. pose proof (mant_bits b i Hi Bi) as Mb.
  unfold fmul64, SFmul. cbn [xorb]. rewrite Pos2Z.inj_mul, !Z2Pos.id by lia.
  assert (0 < 2 ^ (j - 1)) by (apply Z.pow_pos_nonneg; lia). assert (0 < 2 ^ (i - 1)) by (apply Z.pow_pos_nonneg; lia).
  assert (Hp : 0 < a * b < 2 ^ 53) by nia.
  assert (i + j <= 54) as Hij.
  { assert (2 ^ (i - 1 + (j - 1)) < 2 ^ 53) as L. { rewrite Z.pow_add_r by lia. eapply Z.le_lt_trans; [|exact (proj2 Hp)]. rewrite (Z.mul_comm a b). apply Z.mul_le_mono_nonneg; lia. }
    apply Z.pow_lt_mono_r_iff in L; lia. }
  replace (a * 2 ^ (53 - j) * (b * 2 ^ (53 - i))) with (a * b * 2 ^ (106 - j - i)).
  2:{ replace (106 - j - i) with ((53 - j) + (53 - i)) by lia. rewrite Z.pow_add_r by lia. ring. }
  replace 0 with ((0 + j - 53 + (0 + i - 53)) + (106 - j - i)) at 3 by lia. apply round_isF; lia.
Qed.

Lemma align_eq n j ez : 1 <= j <= 53 -> 2 ^ (j - 1) <= n < 2 ^ j -> ez <= j - 53 ->
  Zpos (fst (shl_align (Z.to_pos (n * 2 ^ (53 - j))) (0 + j - 53) ez)) = n * 2 ^ (- ez).
Proof.
  intros Hj B He. pose proof (mant_bits n j Hj B) as M. unfold shl_align. destruct (ez - (0 + j - 53)) as [|p|p] eqn:E; [|lia|].
  - cbn [fst]. rewrite Z2Pos.id by lia. f_equal. f_equal. lia.
  - cbn [fst]. rewrite shift_pos_correct, Z2Pos.id by lia. change (Zpower_pos 2 p) with (2 ^ Zpos p). replace (- ez) with (Zpos p + (53 - j)) by lia.
    rewrite Z.pow_add_r by lia. ring.
Qed.

Lemma fadd_isF x y a b : isF x a 0 -> isF y b 0 -> 0 <= a -> 0 <= b -> a + b < 2 ^ 53 -> isF (fadd x y) (a + b) 0.
Proof.
  intros [[-> ->]|(j & Hj & Bj & Ex)] [[-> ->]|(i & Hi & Bi & Ey)] Ha Hb H.
  - left. split; reflexivity.
  - subst y. right. exists i. auto.
  - subst x. right. rewrite Z.add_0_r. exists j. auto.
  - subst x y. unfold fadd, SFadd. set (ez := Z.min (0 + j - 53) (0 + i - 53)). cbn [cond_Zopp].
    rewrite (align_eq a j ez Hj Bj) by lia. rewrite (align_eq b i ez Hi Bi) by lia. rewrite <- Z.mul_add_distr_r.
    assert (0 < 2 ^ (j - 1)) by (apply Z.pow_pos_nonneg; lia). assert (0 < 2 ^ (- ez)) by (apply Z.pow_pos_nonneg; lia).
    destruct (log_bits (a + b) ltac:(lia)) as (k & Hk & Bk).
    assert (j <= k /\ i <= k) as [Jk Ik].
    { assert (2 ^ (j - 1) < 2 ^ k) as L1 by lia. assert (2 ^ (i - 1) < 2 ^ k) as L2 by lia. apply Z.pow_lt_mono_r_iff in L1; [|lia|lia]. apply Z.pow_lt_mono_r_iff in L2; lia. }
    destruct ((a + b) * 2 ^ (- ez)) as [|p|p] eqn:E; [nia| |nia]. unfold binary_normalize, binary_round.
    assert (D : Zpos (digits2_pos p) = k - ez).
    { change (Zpos (digits2_pos p)) with (Zdigits2 (Zpos p)). rewrite <- E. apply digits_unique; [lia|].
      replace (k - ez - 1) with ((k - 1) + - ez) by lia. replace (k - ez) with (k + - ez) by lia. rewrite !Z.pow_add_r by lia.
      split; [apply Z.mul_le_mono_nonneg_r; lia|apply Z.mul_lt_mono_pos_r; lia]. }
    rewrite D. unfold fexp. change (emin 53 1024) with (-1074). replace (Z.max (k - ez + ez - 53) (-1074)) with (k - 53) by lia.
    assert (shl_align p ez (k - 53) = (p, ez)) as ->.
    { unfold shl_align. destruct (k - 53 - ez) eqn:X; [reflexivity|reflexivity|lia]. }
    rewrite <- E. right. exists k. split; [exact Hk|]. split; [exact Bk|].
    replace ((a + b) * 2 ^ (- ez)) with ((a + b) * 2 ^ (53 - k) * 2 ^ (k - 53 - ez)).
    + rewrite round_exact; [f_equal; lia|now apply mant_bits|lia|lia].
    + rewrite <- Z.mul_assoc, <- Z.pow_add_r by lia. f_equal. f_equal. lia.
Qed.

Lemma fdiv_isF x a : isF x a 0 -> isF (fdiv64 x (fofZ 65536)) a (-16).
Proof.
  change (fofZ 65536) with (S754_finite false 4503599627370496 (-36)).
  intros [[-> ->]|(j & Hj & Bj & ->)]; [left; split; reflexivity|]. right. exists j. split; [exact Hj|]. split; [exact Bj|].
  pose proof (mant_bits a j Hj Bj) as M. set (m := a * 2 ^ (53 - j)) in *. clearbody m.
  unfold fdiv64, SFdiv, SFdiv_core_binary. rewrite Z2Pos.id by lia. rewrite (digits_unique m 53) by (lia || (change (53 - 1) with 52; lia)).
  change (Zdigits2 4503599627370496) with 53. unfold fexp. change (emin 53 1024) with (-1074).
  replace (Z.min _ _) with (j - 70) by lia. replace (0 + j - 53 - -36 - (j - 70)) with 53 by lia. rewrite Z.shiftl_mul_pow2 by lia.
  pose proof (Z_div_mod (m * 2 ^ 53) 4503599627370496 ltac:(lia)) as E. destruct (Z.div_eucl _ _) as [q r]. destruct E as [E Hr].
  assert (q = m * 2 ^ 1 /\ r = 0) as [-> ->] by (change (2 ^ 53) with 9007199254740992 in E; change (2 ^ 1) with 2; lia).
  cbn [xorb]. replace (new_location 4503599627370496 0) with loc_Exact by reflexivity.
  rewrite round_exact; [f_equal; lia|exact M|lia|lia].
Qed.

Lemma fltb_isF x y a b k : isF x a k -> isF y b k -> 0 <= a -> 0 <= b -> fltb x y = (a <? b).
Proof.
  intros [[-> ->]|(j & Hj & Bj & ->)] [[-> ->]|(i & Hi & Bi & ->)] Ha Hb; unfold fltb, SFltb, SFcompare.
  - reflexivity.
  - assert (0 < 2 ^ (i - 1)) by (apply Z.pow_pos_nonneg; lia). symmetry. apply Z.ltb_lt. lia.
  - assert (0 < 2 ^ (j - 1)) by (apply Z.pow_pos_nonneg; lia). symmetry. apply Z.ltb_ge. lia.
  - destruct (Z.compare_spec (k + j - 53) (k + i - 53)) as [E|E|E].
    + assert (i = j) as -> by lia. pose proof (mant_bits a j Hj Bj). pose proof (mant_bits b j Hj Bi).
      assert (0 < 2 ^ (53 - j)) by (apply Z.pow_pos_nonneg; lia).
      change (Pos.compare_cont Eq (Z.to_pos (a * 2 ^ (53 - j))) (Z.to_pos (b * 2 ^ (53 - j)))) with (Pos.compare (Z.to_pos (a * 2 ^ (53 - j))) (Z.to_pos (b * 2 ^ (53 - j)))).
      rewrite <- Z2Pos.inj_compare by lia. destruct (Z.compare_spec (a * 2 ^ (53 - j)) (b * 2 ^ (53 - j))); destruct (Z.ltb_spec a b); try reflexivity; nia.
    + symmetry. apply Z.ltb_lt. assert (2 ^ j <= 2 ^ (i - 1)) by (apply Z.pow_le_mono_r; lia). lia.
    + symmetry. apply Z.ltb_ge. assert (2 ^ i <= 2 ^ (j - 1)) by (apply Z.pow_le_mono_r; lia). lia.
Qed.

Lemma lum16_isF r g b : triple_in 65535 (r, g, b) -> isF (lum16 r g b) (luma16 (r, g, b)) (-16).
Proof.
  intros H. cbn [triple_in] in H. unfold lum16, lum16f. apply fdiv_isF. unfold luma16.
  assert (2 ^ 53 = 9007199254740992) as W by reflexivity.
  rewrite (Z.mul_comm 19661), (Z.mul_comm 38666), (Z.mul_comm 7209).
  repeat (apply fadd_isF || apply fmul_isF || apply fofZ_isF); lia.
Qed.

Lemma lumlt16_eq s d : triple_in 65535 s -> triple_in 65535 d -> lumlt machine W16 s d = (luma16 s <? luma16 d).
Proof.
  intros Hs Hd. destruct s as [[r g] b], d as [[r' g'] b']. unfold lumlt.
  apply fltb_isF with (k := -16); try (now apply lum16_isF); cbn [triple_in luma16] in *; lia.
Qed.
