(** The 16 bit luminosity code computes with float64: its results are clamped to
    16 bits. *)
From Coq Require Import SpecFloat.
From Verif Require Import Base BaseFacts MBlend PRound PBlend PLum PBlend2 PWide.
Open Scope Z_scope.

(** Every result of rounding has a mantissa below 2^53. *)
Definition mant_ok (x : spec_float) : Prop := match x with S754_finite _ m _ => Zpos m < 2 ^ 53 | _ => True end.

Lemma shr_fexp_bound m e l r e' : shr_fexp 53 1024 m e l = (r, e') -> Z.abs (shr_m r) < 2 ^ 53.
Proof.
  unfold shr_fexp, fexp. destruct (Zdigits_bound m) as [B D]. set (k := Zdigits2 m) in *. clearbody k.
  assert (Z.abs (shr_m (shr_record_of_loc m l)) = Z.abs m) as A by (destruct l as [|[| |]]; reflexivity).
  set (n := Z.max (k + e - 53) (emin 53 1024) - e). assert (k - 53 <= n) as Hn by (unfold n; lia). clearbody n.
  unfold shr. destruct n as [|p|p]; intros E; injection E as <- <-.
  - rewrite A. eapply Z.lt_le_trans; [exact B|]. apply Z.pow_le_mono_r; lia.
  - rewrite shr_iter, A. apply Z.div_lt_upper_bound; [lia|]. rewrite <- Z.pow_add_r by lia.
    eapply Z.lt_le_trans; [exact B|]. apply Z.pow_le_mono_r; lia.
  - rewrite A. eapply Z.lt_le_trans; [exact B|]. apply Z.pow_le_mono_r; lia.
Qed.

Lemma round_aux_ok s m e l : mant_ok (binary_round_aux 53 1024 s m e l).
Proof.
  unfold binary_round_aux. destruct (shr_fexp 53 1024 m e l) as [r e1].
  destruct (shr_fexp 53 1024 (round_nearest_even _ _) e1 loc_Exact) as [r2 e2] eqn:E.
  apply shr_fexp_bound in E. destruct (shr_m r2) as [|p|p]; [exact I| |exact I].
  destruct (Zle_bool _ _); [|exact I]. cbn [mant_ok Z.abs] in *. exact E.
Qed.
Lemma round_ok s m e : mant_ok (binary_round 53 1024 s m e).
Proof. unfold binary_round. destruct (shl_align _ _ _). apply round_aux_ok. Qed.
Lemma normalize_ok m e z : mant_ok (binary_normalize 53 1024 m e z).
Proof. destruct m; [exact I|apply round_ok|apply round_ok]. Qed.
Lemma fadd_ok x y : mant_ok x -> mant_ok y -> mant_ok (fadd x y).
Proof.
  intros Hx Hy. unfold fadd, SFadd. destruct x as [sx|sx| |sx mx ex], y as [sy|sy| |sy my ey]; try exact I; try assumption; try (destruct (Bool.eqb _ _); exact I).
  apply normalize_ok.
Qed.
Lemma fsub_ok x y : mant_ok x -> mant_ok y -> mant_ok (fsub x y).
Proof.
  intros Hx Hy. unfold fsub, SFsub. destruct x as [sx|sx| |sx mx ex], y as [sy|sy| |sy my ey]; try exact I; try assumption; try (destruct (Bool.eqb _ _); exact I).
  apply normalize_ok.
Qed.
Lemma fmul_ok x y : mant_ok (fmul64 x y).
Proof. unfold fmul64, SFmul. destruct x, y; try exact I. apply round_aux_ok. Qed.
Lemma fdiv_ok x y : mant_ok (fdiv64 x y).
Proof. unfold fdiv64, SFdiv. destruct x, y; try exact I. destruct (SFdiv_core_binary _ _ _ _ _ _) as [[? ?] ?]. apply round_aux_ok. Qed.
Lemma fofZ_ok z : mant_ok (fofZ z).
Proof. apply normalize_ok. Qed.

Lemma pos_le x m : match Some (Pos.compare x m) with Some Lt => true | _ => false end = false -> Zpos m <= Zpos x.
Proof. destruct (Pos.compare_spec x m); intros E; try discriminate E; lia. Qed.

Lemma clamp16f_ok a : mant_ok a -> 0 <= clamp16f machine a <= 65535 /\ clamp16f machine a = clamp16f ideal a.
Proof.
  intros Ha. unfold clamp16f. destruct (fltb a (fofZ 0)) eqn:E0; [lia|]. destruct (fltb (fofZ 65535) a) eqn:E1; [lia|].
  cbn [w32 machine ideal].
  assert (0 <= ftrunc a <= 65535) as H; [|rewrite u32_small by lia; lia].
  destruct a as [s|s| |s m e]; try (cbn; lia). change (fofZ 0) with (S754_zero false) in E0.
  change (fofZ 65535) with (S754_finite false 9007061815787520 (-37)) in E1.
  unfold fltb, SFltb in *. cbn [SFcompare] in *. destruct s; [discriminate E0|]. cbn [mant_ok] in Ha. change (2 ^ 53) with 9007199254740992 in Ha.
  unfold ftrunc. destruct (Z.compare_spec (-37) e) as [E|E|E].
  - subst e. cbn [Z.leb Z.compare Z.opp]. rewrite Z.shiftr_div_pow2 by lia. change (2 ^ 37) with 137438953472.
    assert (Zpos m <= 9007061815787520). { exact (pos_le _ _ E1). } lia.
  - discriminate E1.
  - destruct (Z.leb_spec 0 e); [lia|]. rewrite Z.shiftr_div_pow2 by lia.
    assert (2 ^ 38 <= 2 ^ (- e)) by (apply Z.pow_le_mono_r; lia). change (2 ^ 38) with 274877906944 in *.
    split; [apply Z.div_pos; lia|]. apply Z.div_le_upper_bound; lia.
Qed.

Lemma clipColor16_ok r g b : mant_ok r -> mant_ok g -> mant_ok b ->
  clipColor16 machine r g b = clipColor16 ideal r g b /\ triple_in 65535 (clipColor16 machine r g b).
Proof.
  intros Hr Hg Hb. unfold clipColor16. set (lm := lum16f r g b). assert (mant_ok lm) as Hl by apply fdiv_ok. clearbody lm.
  assert (forall num den c, mant_ok (fadd lm (fdiv64 (fmul64 (fsub c lm) num) den))) as S by (intros; apply fadd_ok; [exact Hl|apply fdiv_ok]).
  assert (forall x y z, mant_ok x -> mant_ok y -> mant_ok z ->
    (clamp16f machine x, clamp16f machine y, clamp16f machine z) = (clamp16f ideal x, clamp16f ideal y, clamp16f ideal z) /\
    triple_in 65535 (clamp16f machine x, clamp16f machine y, clamp16f machine z)) as C.
  { intros x y z Hx Hy Hz. destruct (clamp16f_ok x Hx) as [X1 X2], (clamp16f_ok y Hy) as [Y1 Y2], (clamp16f_ok z Hz) as [Z1 Z2]. cbn [triple_in]. rewrite <- X2, <- Y2, <- Z2. auto. }
  destruct (fltb (minf r (minf g b)) (fofZ 0)), (fltb (fofZ 65535) (maxf r (maxf g b))); apply C; auto.
Qed.

Lemma setLum16_mix c l : exists x, setLum machine W16 c l = Some x /\ setLum ideal W16 c l = Some x /\ triple_in 65535 x.
Proof.
  destruct c as [[r g] b], l as [[lr lg] lb]. cbn [setLum]. unfold setLum16.
  set (lm := fsub _ _). assert (mant_ok lm) as Hl by (apply fsub_ok; apply fdiv_ok). clearbody lm.
  destruct (clipColor16_ok (fadd (fofZ r) lm) (fadd (fofZ g) lm) (fadd (fofZ b) lm)) as [E T]; try (apply fadd_ok; [apply fofZ_ok|exact Hl]).
  rewrite <- E. eauto.
Qed.

Lemma mix16_ok m s d : overmax m = false -> triple_in 65535 s -> triple_in 65535 d -> mix_fits m s d.
Proof.
  intros Hm Hs Hd. destruct (narrow m) eqn:N; [now apply narrow_fits|]. unfold mix_fits.
  destruct m; try discriminate N; try discriminate Hm; cbn [mix].
  - destruct (setSat3_mix W16 s d Hs Hd) as (c & -> & -> & _). apply setLum16_mix.
  - destruct (setSat3_mix W16 d s Hd Hs) as (c & -> & -> & _). apply setLum16_mix.
  - apply setLum16_mix.
  - apply setLum16_mix.
Qed.
