(** Rounding of float64 results: error bounds for the standard library's executable
    specification. *)
From Coq Require Import SpecFloat.
From Verif Require Import Base BaseFacts MBlend.

Lemma shr1_abs r : Z.abs (shr_m (shr_1 r)) = Z.abs (shr_m r) / 2.
Proof. destruct r as [[|[p|p|]|[p|p|]] ? ?]; cbn [shr_1 shr_m]; lia. Qed.
Lemma shr1_pos r : 0 <= shr_m r -> 0 <= shr_m (shr_1 r).
Proof. destruct r as [[|[p|p|]|[p|p|]] ? ?]; cbn [shr_1 shr_m]; lia. Qed.

Lemma shr_iter p : forall r, Z.abs (shr_m (SpecFloat.iter_pos shr_1 p r)) = Z.abs (shr_m r) / 2 ^ Zpos p.
Proof.
  induction p as [p IH|p IH|]; intros r; cbn [SpecFloat.iter_pos].
  - rewrite !IH, shr1_abs, !Z.div_div by lia. f_equal.
    replace (Zpos p~1) with (1 + Zpos p + Zpos p) by lia. rewrite !Z.pow_add_r by lia. change (2 ^ 1) with 2. lia.
  - rewrite !IH, !Z.div_div by lia. f_equal. replace (Zpos p~0) with (Zpos p + Zpos p) by lia. now rewrite Z.pow_add_r by lia.
  - now rewrite shr1_abs.
Qed.
Lemma shr_iter_pos p : forall r, 0 <= shr_m r -> 0 <= shr_m (SpecFloat.iter_pos shr_1 p r).
Proof. induction p as [p IH|p IH|]; intros r H; cbn [SpecFloat.iter_pos]; auto using shr1_pos. Qed.

Lemma digits_bound p : Zpos p < 2 ^ Zpos (digits2_pos p).
Proof.
  induction p as [p IH|p IH|]; cbn [digits2_pos]; [| |reflexivity];
    rewrite Pos2Z.inj_succ, Z.pow_succ_r by lia; lia.
Qed.
Lemma digits_low p : 2 ^ Zpos (digits2_pos p) <= 2 * Zpos p.
Proof.
  induction p as [p IH|p IH|]; cbn [digits2_pos]; [| |easy];
    rewrite Pos2Z.inj_succ, Z.pow_succ_r by lia; lia.
Qed.
Lemma Zdigits_bound m : Z.abs m < 2 ^ Zdigits2 m /\ 0 <= Zdigits2 m.
Proof. destruct m; cbn [Zdigits2 Z.abs]; [cbn; lia| |]; (split; [apply digits_bound|lia]). Qed.
Lemma digits_unique m k : 1 <= k -> 2 ^ (k - 1) <= m < 2 ^ k -> Zdigits2 m = k.
Proof.
  intros Hk H. destruct m as [|p|p]; [assert (0 < 2 ^ (k - 1)) by (apply Z.pow_pos_nonneg; lia); lia| |assert (0 < 2 ^ (k - 1)) by (apply Z.pow_pos_nonneg; lia); lia].
  cbn [Zdigits2]. pose proof (digits_bound p) as B. pose proof (digits_low p) as L. set (j := Zpos (digits2_pos p)) in *.
  assert (0 < j) by (subst j; lia). clearbody j.
  assert (2 ^ (k - 1) < 2 ^ j) by lia. apply Z.pow_lt_mono_r_iff in H1; [|lia|lia].
  assert (2 ^ (j - 1) < 2 ^ k). { replace j with (Z.succ (j - 1)) in L by lia. rewrite Z.pow_succ_r in L by lia. lia. }
  apply Z.pow_lt_mono_r_iff in H2; lia.
Qed.

Lemma shr_fexp_eq m e l k : 53 <= k -> 2 ^ (k - 1) <= m < 2 ^ k -> -1074 <= k + e - 53 ->
  exists r, shr_fexp 53 1024 m e l = (r, e + (k - 53)) /\ shr_m r = m / 2 ^ (k - 53).
Proof.
  intros Hk Hm He. unfold shr_fexp, fexp. rewrite (digits_unique m k) by lia. change (emin 53 1024) with (-1074).
  replace (Z.max (k + e - 53) (-1074) - e) with (k - 53) by lia.
  assert (0 < 2 ^ (k - 1)) by (apply Z.pow_pos_nonneg; lia).
  assert (shr_m (shr_record_of_loc m l) = m) as A by (destruct l as [|[| |]]; reflexivity).
  unfold shr. destruct (k - 53) as [|p|p] eqn:Ep; [|  |lia].
  - eexists. split; [f_equal; lia|]. rewrite A. now rewrite Z.pow_0_r, Z.div_1_r.
  - eexists. split; [reflexivity|]. pose proof (shr_iter p (shr_record_of_loc m l)) as S. rewrite A in S.
    pose proof (shr_iter_pos p (shr_record_of_loc m l) ltac:(lia)). rewrite !Z.abs_eq in S by lia. exact S.
Qed.
Lemma round_even_cases m l : round_nearest_even m l = m \/ round_nearest_even m l = m + 1.
Proof. unfold round_nearest_even. destruct l as [|[| |]]; auto. destruct (Z.even m); auto. Qed.

(** Rounding a positive mantissa of at least 53 bits: down or up by one unit in the
    last place. *)
Lemma round_cases m e l k : 53 <= k -> 2 ^ (k - 1) <= m < 2 ^ k -> -1074 <= k + e - 53 < 971 ->
  exists m1, (m1 = m / 2 ^ (k - 53) \/ m1 = m / 2 ^ (k - 53) + 1) /\ 2 ^ 52 <= m1 <= 2 ^ 53 /\
    (m1 < 2 ^ 53 -> binary_round_aux 53 1024 false m e l = S754_finite false (Z.to_pos m1) (e + (k - 53))) /\
    (m1 = 2 ^ 53 -> binary_round_aux 53 1024 false m e l = S754_finite false (Z.to_pos (2 ^ 52)) (e + (k - 53) + 1)).
Proof.
  intros Hk Hm He. unfold binary_round_aux. destruct (shr_fexp_eq m e l k Hk Hm ltac:(lia)) as (r & -> & Er).
  set (m1 := round_nearest_even _ _). exists m1.
  assert (m1 = m / 2 ^ (k - 53) \/ m1 = m / 2 ^ (k - 53) + 1) as C by (rewrite <- Er; apply round_even_cases).
  assert (2 ^ 52 <= m / 2 ^ (k - 53) < 2 ^ 53) as B.
  { assert (0 < 2 ^ (k - 53)) by (apply Z.pow_pos_nonneg; lia). split.
    - apply Z.div_le_lower_bound; [lia|]. rewrite <- Z.pow_add_r by lia. replace (k - 53 + 52) with (k - 1) by lia. lia.
    - apply Z.div_lt_upper_bound; [lia|]. rewrite <- Z.pow_add_r by lia. replace (k - 53 + 53) with k by lia. lia. }
  clearbody m1. split; [exact C|]. split; [lia|]. split; intros H.
  - destruct (shr_fexp_eq m1 (e + (k - 53)) loc_Exact 53) as (r2 & -> & E2); [lia|change (53 - 1) with 52; lia|lia|].
    rewrite E2. rewrite Z.sub_diag, Z.pow_0_r, Z.div_1_r. assert (0 < 2 ^ 52) by reflexivity. destruct m1 as [|p|p]; try lia.
    replace (Zle_bool _ _) with true by (change (1024 - 53) with 971; symmetry; apply Z.leb_le; lia). f_equal. lia.
  - destruct (shr_fexp_eq m1 (e + (k - 53)) loc_Exact 54) as (r2 & -> & E2); [lia|change (54 - 1) with 53; subst m1; split; [lia|reflexivity]|lia|].
    rewrite E2. subst m1. change (2 ^ 53 / 2 ^ (54 - 53)) with 4503599627370496.
    replace (Zle_bool _ _) with true by (change (1024 - 53) with 971; symmetry; apply Z.leb_le; lia). f_equal. 
Qed.

(** The float64 of a 15 or 16 bit integer. *)
Lemma fofZ_eq z k : 1 <= k <= 53 -> 2 ^ (k - 1) <= z < 2 ^ k -> fofZ z = S754_finite false (Z.to_pos (z * 2 ^ (53 - k))) (k - 53).
Proof.
  intros Hk Hz. assert (0 < 2 ^ (k - 1)) by (apply Z.pow_pos_nonneg; lia).
  unfold fofZ, binary_normalize. destruct z as [|p|p]; try lia. unfold binary_round.
  pose proof (digits_unique (Zpos p) k ltac:(lia) Hz) as D. cbn [Zdigits2] in D. rewrite D.
  unfold fexp. change (emin 53 1024) with (-1074). replace (Z.max (k + 0 - 53) (-1074)) with (k - 53) by lia.
  assert (exists q, shl_align p 0 (k - 53) = (q, k - 53) /\ Zpos q = Zpos p * 2 ^ (53 - k)) as (q & -> & Eq).
  { unfold shl_align. rewrite Z.sub_0_r. destruct (k - 53) as [|j|j] eqn:Ej; [|lia|].
    - exists p. split; [reflexivity|]. replace (53 - k) with 0 by lia. lia.
    - eexists. split; [reflexivity|]. rewrite shift_pos_correct. replace (53 - k) with (Zpos j) by lia. apply Z.mul_comm. }
  assert (2 ^ 52 <= Zpos q < 2 ^ 53) as Hq.
  { rewrite Eq. assert (0 < 2 ^ (53 - k)) by (apply Z.pow_pos_nonneg; lia). split.
    - replace 52 with ((k - 1) + (53 - k)) by lia. rewrite Z.pow_add_r by lia. apply Z.mul_le_mono_nonneg_r; lia.
    - replace 53 with (k + (53 - k)) at 2 by lia. rewrite Z.pow_add_r by lia. apply Z.mul_lt_mono_pos_r; lia. }
  unfold binary_round_aux. destruct (shr_fexp_eq (Zpos q) (k - 53) loc_Exact 53) as (r & Er & Em); [lia|change (53 - 1) with 52; lia|lia|].
  assert (r = shr_record_of_loc (Zpos q) loc_Exact) as ->.
  { revert Er. unfold shr_fexp, fexp. rewrite (digits_unique (Zpos q) 53) by (lia || (change (53 - 1) with 52; lia)).
    change (emin 53 1024) with (-1074). replace (Z.max _ _ - _) with 0 by lia. cbn [shr]. congruence. }
  rewrite Er. cbn [shr_m shr_record_of_loc loc_of_shr_record round_nearest_even]. 
  destruct (shr_fexp_eq (Zpos q) (k - 53 + (53 - 53)) loc_Exact 53) as (r2 & -> & E2); [lia|change (53 - 1) with 52; lia|lia|].
  rewrite E2, Z.sub_diag, Z.pow_0_r, Z.div_1_r.
  replace (Zle_bool _ _) with true by (change (1024 - 53) with 971; symmetry; apply Z.leb_le; lia). f_equal; [|lia].
  apply Pos2Z.inj. rewrite Z2Pos.id by lia. exact Eq.
Qed.
