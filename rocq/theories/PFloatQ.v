(** Values of float64 numbers and the errors of their operations. *)
From Coq Require Import QArith Qabs Qpower SpecFloat Lqa.
From Verif Require Import Base BaseFacts MBlend PRound PLum16.
Open Scope Z_scope.

(** Powers of two *)
Definition pw (e : Z) : Q := Qpower (2 # 1) e.
Lemma pw_pos e : (0 < pw e)%Q.
Proof. apply Qpower_0_lt. reflexivity. Qed.
Lemma pw_add a b : (pw (a + b) == pw a * pw b)%Q.
Proof. unfold pw. apply Qpower_plus. intros H. discriminate H. Qed.
Lemma pw_Z e : 0 <= e -> (pw e == inject_Z (2 ^ e))%Q.
Proof. intros H. unfold pw. rewrite Zpower_Qpower by exact H. reflexivity. Qed.
Lemma inject_lt a b : a < b <-> (inject_Z a < inject_Z b)%Q.
Proof. rewrite <- Zlt_Qlt. reflexivity. Qed.
Lemma inject_le a b : a <= b <-> (inject_Z a <= inject_Z b)%Q.
Proof. rewrite <- Zle_Qle. reflexivity. Qed.
Lemma inject_eq a b : (inject_Z a == inject_Z b)%Q <-> a = b.
Proof. apply inject_Z_injective. Qed.

Definition mag (m : positive) (e : Z) : Q := (inject_Z (Zpos m) * pw e)%Q.
Definition signed (s : bool) (q : Q) : Q := if s then (- q)%Q else q.
Definition val (x : spec_float) : Q := match x with S754_finite s m e => signed s (mag m e) | _ => 0%Q end.

(** [x] is zero or a number with 53 bits and an exponent of at most [B]. *)
Definition nf (B : Z) (x : spec_float) : Prop :=
  match x with
  | S754_zero _ => True
  | S754_finite _ m e => 2 ^ 52 <= Zpos m < 2 ^ 53 /\ - B <= e <= B
  | _ => False
  end.
Lemma nf_mono B B' x : nf B x -> B <= B' -> nf B' x.
Proof. destruct x; cbn [nf]; auto. intros [H1 H2] H. split; [exact H1|lia]. Qed.

Definition u52 : Q := 1 # 4503599627370496.
Definition close (exact v : Q) : Prop := exists d, (- u52 <= d <= u52)%Q /\ (v == exact * (1 + d))%Q.
Lemma close_refl v : close v v.
Proof. exists 0%Q. split; [split; discriminate|ring]. Qed.
Lemma close_eq a b v : (a == b)%Q -> close b v -> close a v.
Proof. intros E (d & H & V). exists d. split; [exact H|]. rewrite E. exact V. Qed.

Lemma close_pos exact v : (0 < exact)%Q -> (exact - u52 * exact <= v <= exact + u52 * exact)%Q -> close exact v.
Proof.
  intros P [L U]. exists ((v - exact) / exact)%Q. assert (~ exact == 0)%Q as N by lra. split.
  - split; [apply Qle_shift_div_l|apply Qle_shift_div_r]; try exact P; lra.
  - field. exact N.
Qed.
Lemma close_signed s exact v : close exact v -> close (signed s exact) (signed s v).
Proof. intros (d & H & V). exists d. split; [exact H|]. destruct s; cbn [signed]; rewrite V; ring. Qed.

(** The sign does not matter for rounding. *)
Definition with_sign (s : bool) (x : spec_float) : spec_float :=
  match x with S754_finite _ m e => S754_finite s m e | S754_zero _ => S754_zero s | S754_infinity _ => S754_infinity s | S754_nan => S754_nan end.
Lemma round_sign s m e l : binary_round_aux 53 1024 s m e l = with_sign s (binary_round_aux 53 1024 false m e l).
Proof.
  unfold binary_round_aux. destruct (shr_fexp 53 1024 m e l) as [r e1].
  destruct (shr_fexp 53 1024 (round_nearest_even _ _) e1 loc_Exact) as [r2 e2].
  destruct (shr_m r2); try reflexivity. destruct (Zle_bool _ _); reflexivity.
Qed.
Lemma nf_sign B s x : nf B x -> nf B (with_sign s x).
Proof. destruct x; cbn; auto. Qed.
Lemma val_sign s x : (val (with_sign s x) == signed s (val (with_sign false x)))%Q.
Proof. destruct x; cbn [val with_sign signed]; destruct s; try reflexivity. Qed.

Lemma mag_mul a b e : (mag (a * b) e == inject_Z (Zpos a) * mag b e)%Q.
Proof. unfold mag. rewrite Pos2Z.inj_mul, inject_Z_mult. ring. Qed.

Lemma div_bounds m n : 0 <= m -> 0 < n -> m / n * n <= m /\ m + 1 <= (m / n + 1) * n.
Proof. intros Hm Hn. pose proof (Z.div_mod m n). pose proof (Z.mod_pos_bound m n Hn). nia. Qed.

(** Rounding a number between [m] and [m + 1] (in units of [2 ^ e]) of at least 53 bits. *)
Lemma round_close s m e l k v B : 53 <= k -> 2 ^ (k - 1) <= m < 2 ^ k -> - B <= k + e - 53 < B -> 0 < B -> B <= 970 ->
  (inject_Z m * pw e <= v <= inject_Z (m + 1) * pw e)%Q ->
  let x := binary_round_aux 53 1024 s m e l in nf B x /\ close (signed s v) (val x).
Proof.
  intros Hk Hm He HB HB' [V1 V2] x. unfold x. rewrite round_sign.
  destruct (round_cases m e l k Hk Hm ltac:(lia)) as (m1 & Hm1 & Bm & R1 & R2).
  assert (0 < 2 ^ (k - 53)) as P by (apply Z.pow_pos_nonneg; lia).
  assert (2 ^ 52 * 2 ^ (k - 53) <= m) as Low. { rewrite <- Z.pow_add_r by lia. replace (52 + (k - 53)) with (k - 1) by lia. lia. }
  assert (0 < m) as Pm by (change (2 ^ 52) with 4503599627370496 in Low; lia).
  destruct (div_bounds m (2 ^ (k - 53)) ltac:(lia) P) as [D1 D2].
  pose proof (pw_pos e) as Pe.
  (* the value of the result *)
  assert (exists w, (w == inject_Z (m1 * 2 ^ (k - 53)) * pw e)%Q /\ nf B (binary_round_aux 53 1024 false m e l) /\
     (val (with_sign s (binary_round_aux 53 1024 false m e l)) == signed s w)%Q) as (w & W & N & E).
  { assert (S : (pw (e + (k - 53)) == pw e * inject_Z (2 ^ (k - 53)))%Q) by (rewrite pw_add, (pw_Z (k - 53)) by lia; reflexivity).
    destruct (Z.eq_dec m1 (2 ^ 53)) as [E|E].
    - rewrite (R2 E). exists (mag (Z.to_pos (2 ^ 52)) (e + (k - 53) + 1)). split; [|split].
      + unfold mag. rewrite Z2Pos.id by reflexivity. rewrite pw_add, S. change (pw 1) with (2 # 1)%Q. rewrite E, inject_Z_mult.
        change (2 ^ 53) with (2 ^ 52 * 2). rewrite inject_Z_mult. change (inject_Z 2) with (2 # 1)%Q. ring.
      + cbn [nf]. rewrite Z2Pos.id by reflexivity. split; [split; [apply Z.le_refl|reflexivity]|lia].
      + reflexivity.
    - rewrite R1 by lia. exists (mag (Z.to_pos m1) (e + (k - 53))). assert (0 < m1) by (change (2 ^ 52) with 4503599627370496 in Bm; lia). split; [|split].
      + unfold mag. rewrite Z2Pos.id by lia. rewrite S, inject_Z_mult. ring.
      + cbn [nf]. rewrite Z2Pos.id by lia. split; [lia|lia].
      + reflexivity. }
  split; [now apply nf_sign|].
  assert (close v w) as C.
  { apply close_pos.
    - eapply Qlt_le_trans; [|exact V1]. apply Qmult_lt_0_compat; [|exact Pe]. change 0%Q with (inject_Z 0). rewrite <- Zlt_Qlt. exact Pm.
    - set (g := 2 ^ (k - 53)) in *. clearbody g.
      assert (m1 * g <= m + g /\ m + 1 <= m1 * g + g) as [M1 M2] by (destruct Hm1 as [-> | ->]; nia).
      apply inject_le in M1. apply inject_le in M2. apply inject_le in Low. rewrite inject_Z_plus in M1, M2. rewrite inject_Z_plus in M2.
      rewrite inject_Z_mult in Low. change (inject_Z (2 ^ 52)) with (4503599627370496 # 1)%Q in Low.
      rewrite inject_Z_plus in V2. rewrite W. set (a := inject_Z (m1 * g)) in *. set (b := inject_Z m) in *. set (c := inject_Z g) in *. set (h := pw e) in *.
      assert (0 < c)%Q as Pc by (unfold c; change 0%Q with (inject_Z 0); rewrite <- Zlt_Qlt; exact P).
      change (inject_Z 1) with 1%Q in *. clearbody a b c h.
      assert (c * h <= u52 * v)%Q as U.
      { apply Qle_trans with (u52 * (b * h))%Q; [|apply Qmult_le_l; [reflexivity|exact V1]].
        setoid_replace (u52 * (b * h))%Q with ((u52 * b) * h)%Q by ring. apply Qmult_le_compat_r; [|lra]. unfold u52. lra. }
      assert (a * h <= (b + c) * h)%Q by (apply Qmult_le_compat_r; lra).
      assert ((b + 1) * h <= (a + c) * h)%Q by (apply Qmult_le_compat_r; lra).
      split; lra. }
  destruct (close_signed s v w C) as (d & Hd & Ed). exists d. split; [exact Hd|]. rewrite E. exact Ed.
Qed.

(** A number that fits 53 bits is not changed. *)
Lemma pow_cmp a b : 0 <= a -> 2 ^ a < 2 ^ b -> a < b.
Proof. intros Ha H. destruct (Z.lt_ge_cases a b) as [|G]; [assumption|]. assert (2 ^ b <= 2 ^ a) by (apply Z.pow_le_mono_r; lia). lia. Qed.
Lemma round_keeps s m e k n j : 53 <= k -> 2 ^ (k - 1) <= m < 2 ^ k -> -1074 <= k + e - 53 < 971 ->
  (inject_Z m * pw e == inject_Z n * pw j)%Q -> n < 2 ^ 53 ->
  (val (binary_round_aux 53 1024 s m e loc_Exact) == signed s (inject_Z m * pw e))%Q.
Proof.
  intros Hk Hm He E Hn.
  assert (0 < 2 ^ (k - 53)) as P by (apply Z.pow_pos_nonneg; lia).
  assert (2 ^ 52 * 2 ^ (k - 53) <= m) as Low. { rewrite <- Z.pow_add_r by lia. replace (52 + (k - 53)) with (k - 1) by lia. lia. }
  assert (0 < m) as Pm by (change (2 ^ 52) with 4503599627370496 in Low; lia).
  assert (exists M, m = M * 2 ^ (k - 53)) as (M & EM).
  { destruct (Z.le_gt_cases e j) as [G|G].
    - assert (m = n * 2 ^ (j - e)) as F.
      { apply inject_eq. rewrite inject_Z_mult, <- pw_Z by lia. replace j with (e + (j - e)) in E by lia. rewrite pw_add in E.
        pose proof (pw_pos e) as Pe. apply (Qmult_inj_r _ _ (pw e)); [lra|]. rewrite E. ring. }
      assert (0 < 2 ^ (j - e)) by (apply Z.pow_pos_nonneg; lia).
      assert (k - 1 < 53 + (j - e)).
      { apply pow_cmp; [lia|]. rewrite Z.pow_add_r by lia. nia. }
      exists (n * 2 ^ (j - e - (k - 53))). rewrite F at 1. rewrite <- Z.mul_assoc, <- Z.pow_add_r by lia. f_equal. f_equal. lia.
    - assert (n = m * 2 ^ (e - j)) as F.
      { apply inject_eq. rewrite inject_Z_mult, <- pw_Z by lia. replace e with (j + (e - j)) in E at 1 by lia. rewrite pw_add in E.
        pose proof (pw_pos j) as Pe. apply (Qmult_inj_r _ _ (pw j)); [lra|]. rewrite <- E. ring. }
      assert (1 <= 2 ^ (e - j)) by (change 1 with (2 ^ 0); apply Z.pow_le_mono_r; lia).
      assert (k - 1 < 53) by (apply pow_cmp; [lia|nia]). exists m. replace (k - 53) with 0 by lia. lia. }
  assert (2 ^ 52 <= M < 2 ^ 53) as BM.
  { split.
    - apply Z.mul_le_mono_pos_r with (p := 2 ^ (k - 53)); [lia|]. lia.
    - apply Z.mul_lt_mono_pos_r with (p := 2 ^ (k - 53)); [lia|]. rewrite <- EM, <- Z.pow_add_r by lia. replace (53 + (k - 53)) with k by lia. lia. }
  rewrite round_sign. rewrite EM at 1. rewrite round_exact by lia. cbn [with_sign val]. unfold mag. rewrite Z2Pos.id by (change (2 ^ 52) with 4503599627370496 in BM; lia).
  assert (inject_Z M * pw (e + (k - 53)) == inject_Z m * pw e)%Q as G.
  { rewrite pw_add, EM, inject_Z_mult, (pw_Z (k - 53)) by lia. ring. }
  destruct s; cbn [signed]; rewrite G; reflexivity.
Qed.

(** Numbers that are representable *)
Definition fits (v : Q) : Prop := exists n j, (v == inject_Z n * pw j)%Q /\ Z.abs n < 2 ^ 53.
Lemma fits_eq v v' : (v == v')%Q -> fits v -> fits v'.
Proof. intros E (n & j & H & B). exists n, j. split; [rewrite <- E; exact H|exact B]. Qed.
Lemma signed_inj s a b : (signed s a == signed s b)%Q -> (a == b)%Q.
Proof. destruct s; cbn [signed]; intros H; lra. Qed.

Lemma round_both s m e k B : 53 <= k -> 2 ^ (k - 1) <= m < 2 ^ k -> - B <= k + e - 53 < B -> 0 < B -> B <= 970 ->
  let x := binary_round_aux 53 1024 s m e loc_Exact in let v := signed s (inject_Z m * pw e) in
  nf B x /\ close v (val x) /\ (fits v -> (val x == v)%Q).
Proof.
  intros Hk Hm He HB HB' x v. pose proof (pw_pos e) as Pe.
  destruct (round_close s m e loc_Exact k (inject_Z m * pw e) B Hk Hm He HB HB') as [N C].
  { split; [apply Qle_refl|]. apply Qmult_le_compat_r; [|lra]. rewrite <- Zle_Qle. lia. }
  split; [exact N|]. split; [exact C|]. intros (n & j & F & Bn). unfold x, v in *.
  apply (round_keeps s m e k (Z.abs n) j Hk Hm); [lia| |exact Bn].
  pose proof (pw_pos j) as Pj.
  assert (0 < 2 ^ (k - 1)) by (apply Z.pow_pos_nonneg; lia).
  assert (0 < inject_Z m)%Q as Pm by (change 0%Q with (inject_Z 0); rewrite <- Zlt_Qlt; lia).
  assert (0 < inject_Z m * pw e)%Q as Pv by (apply Qmult_lt_0_compat; assumption).
  destruct s; cbn [signed] in F.
  - assert (n < 0) as Hn. { apply inject_lt. change (inject_Z 0) with 0%Q. apply Qnot_le_lt. intros G. assert (0 <= inject_Z n * pw j)%Q by (apply Qmult_le_0_compat; lra). lra. }
    rewrite Z.abs_neq, inject_Z_opp by lia. lra.
  - assert (0 < n) as Hn. { apply inject_lt. change (inject_Z 0) with 0%Q. apply Qnot_le_lt. intros G. assert (inject_Z n * pw j <= 0)%Q by (assert (0 <= (- inject_Z n) * pw j)%Q by (apply Qmult_le_0_compat; lra); lra). lra. }
    rewrite Z.abs_eq by lia. exact F.
Qed.

(** Numbers with few bits are shifted first. *)
Lemma digits_pos p : exists d, 1 <= d /\ Zpos (digits2_pos p) = d /\ 2 ^ (d - 1) <= Zpos p < 2 ^ d.
Proof.
  exists (Zpos (digits2_pos p)). pose proof (digits_bound p). pose proof (digits_low p). split; [lia|]. split; [reflexivity|]. split; [|lia].
  set (d := Zpos (digits2_pos p)) in *. assert (1 <= d) by (unfold d; lia). replace d with (1 + (d - 1)) in * by lia. rewrite Z.pow_add_r in * by lia. replace (1 + (d - 1) - 1) with (d - 1) by lia. lia.
Qed.
Lemma normalize_both z e B d : z <> 0 -> 1 <= d -> 2 ^ (d - 1) <= Z.abs z < 2 ^ d -> - B <= d + e - 53 < B -> 0 < B -> B <= 970 ->
  let x := binary_normalize 53 1024 z e false in let v := (inject_Z z * pw e)%Q in
  nf B x /\ close v (val x) /\ (fits v -> (val x == v)%Q).
Proof.
  intros Hz Hd Hb He HB HB' x v.
  assert (forall s p, Zpos p = Z.abs z -> (inject_Z z * pw e == signed s (inject_Z (Zpos p) * pw e))%Q ->
    let x := binary_round 53 1024 s p e in nf B x /\ close v (val x) /\ (fits v -> (val x == v)%Q)) as K.
  { intros s p Hp Es x0. unfold x0, binary_round. rewrite <- Hp in Hb.
    assert (Zpos (digits2_pos p) = d) as ->. { change (Zpos (digits2_pos p)) with (Zdigits2 (Zpos p)). apply digits_unique; lia. }
    unfold fexp. change (emin 53 1024) with (-1074). replace (Z.max (d + e - 53) (-1074)) with (d + e - 53) by lia.
    unfold shl_align. destruct (d + e - 53 - e) as [|q|q] eqn:X.
    - assert (d = 53) as -> by lia. destruct (round_both s (Zpos p) e 53 B) as (N & C & F); try lia.
      split; [exact N|]. split; [eapply close_eq; [exact Es|exact C]|]. intros G. rewrite F; [symmetry; exact Es|]. eapply fits_eq; [exact Es|exact G].
    - destruct (round_both s (Zpos p) e d B) as (N & C & F); try lia.
      split; [exact N|]. split; [eapply close_eq; [exact Es|exact C]|]. intros G. rewrite F; [symmetry; exact Es|]. eapply fits_eq; [exact Es|exact G].
    - rewrite shift_pos_correct. change (Zpower_pos 2 q) with (2 ^ Zpos q).
      assert (2 ^ 52 <= 2 ^ Zpos q * Zpos p < 2 ^ 53) as M.
      { replace 52 with (Zpos q + (d - 1)) by lia. replace 53 with (Zpos q + d) by lia. rewrite !Z.pow_add_r by lia.
        assert (0 < 2 ^ Zpos q) by (apply Z.pow_pos_nonneg; lia). split; [apply Z.mul_le_mono_nonneg_l; lia|apply Z.mul_lt_mono_pos_l; lia]. }
      assert (inject_Z z * pw e == signed s (inject_Z (2 ^ Zpos q * Zpos p) * pw (d + e - 53)))%Q as Es'.
      { assert (inject_Z (Zpos p) * pw e == inject_Z (2 ^ Zpos q * Zpos p) * pw (d + e - 53))%Q as G.
        { replace e with (Zpos q + (d + e - 53)) at 1 by lia. rewrite pw_add, inject_Z_mult, (pw_Z (Zpos q)) by lia. ring. }
        rewrite Es. destruct s; cbn [signed]; rewrite G; reflexivity. }
      destruct (round_both s (2 ^ Zpos q * Zpos p) (d + e - 53) 53 B) as (N & C & F); try lia.
      split; [exact N|]. split; [eapply close_eq; [exact Es'|exact C]|]. intros G. rewrite F; [symmetry; exact Es'|]. eapply fits_eq; [exact Es'|exact G]. }
  unfold x, binary_normalize. destruct z as [|p|p]; [lia| |].
  - apply (K false p); [reflexivity|]. cbn [signed]. reflexivity.
  - apply (K true p); [reflexivity|]. cbn [signed]. change (Zneg p) with (- Zpos p). rewrite inject_Z_opp. ring.
Qed.

Lemma align_val s m e ez : ez <= e -> Zpos (fst (shl_align m e ez)) = Zpos m * 2 ^ (e - ez) /\
  (inject_Z (cond_Zopp s (Zpos (fst (shl_align m e ez)))) * pw ez == signed s (mag m e))%Q.
Proof.
  intros H. assert (Zpos (fst (shl_align m e ez)) = Zpos m * 2 ^ (e - ez)) as A.
  { unfold shl_align. destruct (ez - e) as [|p|p] eqn:E; [|lia|].
    - cbn [fst]. replace (e - ez) with 0 by lia. lia.
    - cbn [fst]. rewrite shift_pos_correct. change (Zpower_pos 2 p) with (2 ^ Zpos p). replace (e - ez) with (Zpos p) by lia. ring. }
  split; [exact A|]. assert (inject_Z (Zpos m * 2 ^ (e - ez)) * pw ez == mag m e)%Q as G.
  { unfold mag. rewrite inject_Z_mult, <- pw_Z by lia. replace e with ((e - ez) + ez) at 2 by lia. rewrite pw_add. ring. }
  rewrite A. destruct s; cbn [signed cond_Zopp]; [rewrite inject_Z_opp|]; rewrite <- G; ring.
Qed.
Lemma bits_of z : z <> 0 -> exists d, 1 <= d /\ 2 ^ (d - 1) <= Z.abs z < 2 ^ d.
Proof.
  intros H. exists (Z.log2 (Z.abs z) + 1). pose proof (Z.log2_spec (Z.abs z) ltac:(lia)). pose proof (Z.log2_nonneg (Z.abs z)).
  replace (Z.log2 (Z.abs z) + 1 - 1) with (Z.log2 (Z.abs z)) by lia. replace (Z.log2 (Z.abs z) + 1) with (Z.succ (Z.log2 (Z.abs z))) by lia. split; [lia|assumption].
Qed.

Lemma sum_both sx mx ex sy my ey B : 2 ^ 52 <= Zpos mx < 2 ^ 53 -> 2 ^ 52 <= Zpos my < 2 ^ 53 -> - B <= ex <= B -> - B <= ey <= B -> B <= 900 ->
  let ez := Z.min ex ey in
  let x := binary_normalize 53 1024 (cond_Zopp sx (Zpos (fst (shl_align mx ex ez))) + cond_Zopp sy (Zpos (fst (shl_align my ey ez)))) ez false in
  let v := (signed sx (mag mx ex) + signed sy (mag my ey))%Q in
  nf (B + 53) x /\ close v (val x) /\ (fits v -> (val x == v)%Q).
Proof.
  intros Hx Hy Bx By HB ez x v.
  destruct (align_val sx mx ex ez ltac:(lia)) as [Ax Vx]. destruct (align_val sy my ey ez ltac:(lia)) as [Ay Vy].
  set (a := cond_Zopp sx (Zpos (fst (shl_align mx ex ez)))) in *. set (b := cond_Zopp sy (Zpos (fst (shl_align my ey ez)))) in *.
  assert (v == inject_Z (a + b) * pw ez)%Q as V by (unfold v; rewrite <- Vx, <- Vy, inject_Z_plus; ring).
  assert (Z.abs a < 2 ^ (53 + (ex - ez))) as Ba.
  { assert (Z.abs a = Zpos mx * 2 ^ (ex - ez)) as -> by (rewrite <- Ax; unfold a; destruct sx; cbn [cond_Zopp]; lia). rewrite Z.pow_add_r by lia. apply Z.mul_lt_mono_pos_r; [apply Z.pow_pos_nonneg; lia|lia]. }
  assert (Z.abs b < 2 ^ (53 + (ey - ez))) as Bb.
  { assert (Z.abs b = Zpos my * 2 ^ (ey - ez)) as -> by (rewrite <- Ay; unfold b; destruct sy; cbn [cond_Zopp]; lia). rewrite Z.pow_add_r by lia. apply Z.mul_lt_mono_pos_r; [apply Z.pow_pos_nonneg; lia|lia]. }
  clearbody a b. destruct (Z.eq_dec (a + b) 0) as [E|E].
  - unfold x. rewrite E in *. cbn [binary_normalize]. assert (v == 0)%Q as Z0 by (rewrite V; ring).
    split; [exact I|]. split; [|intros _; symmetry; exact Z0]. exists 0%Q. split; [split; discriminate|]. cbn [val]. rewrite Z0. ring.
  - destruct (bits_of _ E) as (d & Hd & Bd).
    assert (d - 1 < 54 + (Z.max ex ey - ez)) as Up.
    { apply pow_cmp; [lia|]. eapply Z.le_lt_trans; [exact (proj1 Bd)|].
      assert (2 ^ (53 + (ex - ez)) <= 2 ^ (53 + (Z.max ex ey - ez))) by (apply Z.pow_le_mono_r; lia).
      assert (2 ^ (53 + (ey - ez)) <= 2 ^ (53 + (Z.max ex ey - ez))) by (apply Z.pow_le_mono_r; lia).
      replace (54 + (Z.max ex ey - ez)) with (1 + (53 + (Z.max ex ey - ez))) by lia. rewrite (Z.pow_add_r 2 1) by lia. change (2 ^ 1) with 2. lia. }
    destruct (normalize_both (a + b) ez (B + 53) d E Hd Bd ltac:(lia) ltac:(lia) ltac:(lia)) as (N & C & F).
    split; [exact N|]. split; [eapply close_eq; [exact V|exact C]|]. intros G. unfold x. rewrite F; [symmetry; exact V|]. eapply fits_eq; [exact V|exact G].
Qed.

Lemma val_zero s : (val (S754_zero s) == 0)%Q.
Proof. reflexivity. Qed.
Lemma same_both (v w : Q) : (w == v)%Q -> close v w /\ (fits v -> (w == v)%Q).
Proof. intros E. split; [|intros _; exact E]. exists 0%Q. split; [split; discriminate|]. rewrite E. ring. Qed.

Lemma fadd_both B x y : nf B x -> nf B y -> 0 <= B <= 900 ->
  nf (B + 53) (fadd x y) /\ close (val x + val y) (val (fadd x y)) /\ (fits (val x + val y) -> (val (fadd x y) == val x + val y)%Q).
Proof.
  intros Hx Hy HB. destruct x as [sx|sx| |sx mx ex], y as [sy|sy| |sy my ey]; cbn [nf] in Hx, Hy; try contradiction.
  - unfold fadd, SFadd. destruct (Bool.eqb sx sy); (split; [exact I|apply same_both; reflexivity]).
  - split; [apply nf_mono with B; [exact Hy|lia]|]. apply same_both. cbn [fadd SFadd val]. ring.
  - split; [apply nf_mono with B; [exact Hx|lia]|]. apply same_both. cbn [fadd SFadd val]. ring.
  - apply sum_both; lia.
Qed.
Lemma fsub_both B x y : nf B x -> nf B y -> 0 <= B <= 900 ->
  nf (B + 53) (fsub x y) /\ close (val x - val y) (val (fsub x y)) /\ (fits (val x - val y) -> (val (fsub x y) == val x - val y)%Q).
Proof.
  intros Hx Hy HB. destruct x as [sx|sx| |sx mx ex], y as [sy|sy| |sy my ey]; cbn [nf] in Hx, Hy; try contradiction.
  - unfold fsub, SFsub. destruct (Bool.eqb sx (negb sy)); (split; [exact I|apply same_both; reflexivity]).
  - split; [cbn [fsub SFsub nf]; lia|]. apply same_both. cbn [fsub SFsub val]. destruct sy; cbn [negb signed]; ring.
  - split; [apply nf_mono with B; [exact Hx|lia]|]. apply same_both. cbn [fsub SFsub val]. ring.
  - destruct (sum_both sx mx ex (negb sy) my ey B ltac:(lia) ltac:(lia) ltac:(lia) ltac:(lia) ltac:(lia)) as (N & C & F).
    assert (forall z, cond_Zopp (negb sy) z = - cond_Zopp sy z) as Neg by (intros z; destruct sy; cbn; lia). rewrite Neg, Z.add_opp_r in N, C, F.
    assert (val (S754_finite sx mx ex) - val (S754_finite sy my ey) == signed sx (mag mx ex) + signed (negb sy) (mag my ey))%Q as V.
    { cbn [val]. destruct sy; cbn [negb signed]; ring. }
    split; [exact N|]. split; [eapply close_eq; [exact V|exact C]|]. intros G. rewrite V. apply F. eapply fits_eq; [exact V|exact G].
Qed.

Lemma fmul_both A B x y : nf A x -> nf B y -> 0 <= A -> 0 <= B -> A + B <= 800 ->
  nf (A + B + 54) (fmul64 x y) /\ close (val x * val y) (val (fmul64 x y)) /\ (fits (val x * val y) -> (val (fmul64 x y) == val x * val y)%Q).
Proof.
  intros Hx Hy HA HB H. destruct x as [sx|sx| |sx mx ex], y as [sy|sy| |sy my ey]; cbn [nf] in Hx, Hy; try contradiction;
    try (split; [exact I|apply same_both; cbn [fmul64 SFmul val]; ring]).
  assert (exists k, 105 <= k <= 106 /\ 2 ^ (k - 1) <= Zpos (mx * my) < 2 ^ k) as (k & Hk & Bk).
  { rewrite Pos2Z.inj_mul. destruct (Z.lt_ge_cases (Zpos mx * Zpos my) (2 ^ 105)) as [L|L]; [exists 105|exists 106]; (split; [lia|]); (split; [|]);
      change (105 - 1) with (52 + 52) || change (106 - 1) with 105 || change (2 ^ 106) with (2 ^ 53 * 2 ^ 53) || idtac; try assumption.
    - rewrite Z.pow_add_r by lia. apply Z.mul_le_mono_nonneg; lia.
    - apply Z.mul_lt_mono_nonneg; lia. }
  destruct (round_both (xorb sx sy) (Zpos (mx * my)) (ex + ey) k (A + B + 54) ltac:(lia) Bk ltac:(lia) ltac:(lia) ltac:(lia)) as (N & C & F).
  assert (val (S754_finite sx mx ex) * val (S754_finite sy my ey) == signed (xorb sx sy) (inject_Z (Zpos (mx * my)) * pw (ex + ey)))%Q as V.
  { cbn [val]. unfold mag. rewrite Pos2Z.inj_mul. assert (inject_Z (Zpos mx * Zpos my) * pw (ex + ey) == inject_Z (Zpos mx) * pw ex * (inject_Z (Zpos my) * pw ey))%Q as G by (rewrite inject_Z_mult, pw_add; ring).
    destruct sx, sy; cbn [xorb signed]; rewrite G; ring. }
  split; [exact N|]. split; [eapply close_eq; [exact V|exact C]|]. intros G. rewrite V. apply F. eapply fits_eq; [exact V|exact G].
Qed.

Lemma fdiv_close A B x y : nf A x -> nf B y -> 0 <= A -> 0 <= B -> A + B <= 800 -> ~ (val y == 0)%Q ->
  nf (A + B + 54) (fdiv64 x y) /\ close (val x / val y) (val (fdiv64 x y)).
Proof.
  intros Hx Hy HA HB H Ny. destruct x as [sx|sx| |sx mx ex], y as [sy|sy| |sy my ey]; cbn [nf] in Hx, Hy; try contradiction;
    try (exfalso; apply Ny; reflexivity).
  - split; [exact I|]. eapply close_eq; [|apply close_refl]. cbn [fdiv64 SFdiv val]. unfold Qdiv. ring.
  - unfold fdiv64, SFdiv, SFdiv_core_binary. rewrite (digits_unique (Zpos mx) 53), (digits_unique (Zpos my) 53) by (lia || (change (53 - 1) with 52; lia)).
    unfold fexp. change (emin 53 1024) with (-1074). replace (Z.min _ _) with (ex - ey - 53) by lia. replace (ex - ey - (ex - ey - 53)) with 53 by lia.
    rewrite Z.shiftl_mul_pow2 by lia.
    pose proof (Z_div_mod (Zpos mx * 2 ^ 53) (Zpos my) ltac:(lia)) as E. destruct (Z.div_eucl (Zpos mx * 2 ^ 53) (Zpos my)) as [q r]. destruct E as [E Hr].
    change (2 ^ 53) with 9007199254740992 in *. change (2 ^ 52) with 4503599627370496 in *.
    assert (4503599627370496 <= q < 2 * 9007199254740992) as Bq by (split; nia).
    assert (exists k, 53 <= k <= 54 /\ 2 ^ (k - 1) <= q < 2 ^ k) as (k & Hk & Bk).
    { destruct (Z.lt_ge_cases q 9007199254740992) as [L|L]; [exists 53|exists 54]; (split; [lia|]); [change (2 ^ (53 - 1)) with 4503599627370496; change (2 ^ 53) with 9007199254740992|change (2 ^ (54 - 1)) with 9007199254740992; change (2 ^ 54) with (2 * 9007199254740992)]; lia. }
    set (v := ((inject_Z (Zpos mx) * pw ex) / (inject_Z (Zpos my) * pw ey))%Q).
    pose proof (pw_pos ex) as Pex. pose proof (pw_pos ey) as Pey. pose proof (pw_pos (ex - ey - 53)) as Pz.
    assert (0 < inject_Z (Zpos my))%Q as Pmy by reflexivity.
    assert (pw ex == (9007199254740992 # 1) * (pw (ex - ey - 53) * pw ey))%Q as Ex.
    { replace ex with (53 + ((ex - ey - 53) + ey)) at 1 by lia. rewrite !pw_add. reflexivity. }
    destruct (round_close (xorb sx sy) q (ex - ey - 53) (new_location (Zpos my) r) k v (A + B + 54) ltac:(lia) Bk ltac:(lia) ltac:(lia) ltac:(lia)) as [N C].
    { assert (0 < inject_Z (Zpos my) * pw ey)%Q as Pd by (apply Qmult_lt_0_compat; assumption).
      assert (inject_Z q * inject_Z (Zpos my) <= inject_Z (Zpos mx) * (9007199254740992 # 1))%Q as Q1.
      { change (9007199254740992 # 1)%Q with (inject_Z 9007199254740992). rewrite <- !inject_Z_mult, <- Zle_Qle. lia. }
      assert (inject_Z (Zpos mx) * (9007199254740992 # 1) <= inject_Z (q + 1) * inject_Z (Zpos my))%Q as Q2.
      { change (9007199254740992 # 1)%Q with (inject_Z 9007199254740992). rewrite <- !inject_Z_mult, <- Zle_Qle. lia. }
      assert (0 < pw (ex - ey - 53) * pw ey)%Q as Pg by (apply Qmult_lt_0_compat; assumption).
      unfold v. rewrite Ex. split; [apply Qle_shift_div_l|apply Qle_shift_div_r]; try exact Pd.
      - setoid_replace (inject_Z q * pw (ex - ey - 53) * (inject_Z (Zpos my) * pw ey))%Q with (inject_Z q * inject_Z (Zpos my) * (pw (ex - ey - 53) * pw ey))%Q by ring.
        setoid_replace (inject_Z (Zpos mx) * ((9007199254740992 # 1) * (pw (ex - ey - 53) * pw ey)))%Q with (inject_Z (Zpos mx) * (9007199254740992 # 1) * (pw (ex - ey - 53) * pw ey))%Q by ring.
        apply Qmult_le_compat_r; [exact Q1|lra].
      - setoid_replace (inject_Z (q + 1) * pw (ex - ey - 53) * (inject_Z (Zpos my) * pw ey))%Q with (inject_Z (q + 1) * inject_Z (Zpos my) * (pw (ex - ey - 53) * pw ey))%Q by ring.
        setoid_replace (inject_Z (Zpos mx) * ((9007199254740992 # 1) * (pw (ex - ey - 53) * pw ey)))%Q with (inject_Z (Zpos mx) * (9007199254740992 # 1) * (pw (ex - ey - 53) * pw ey))%Q by ring.
        apply Qmult_le_compat_r; [exact Q2|lra]. }
    split; [exact N|]. eapply close_eq; [|exact C]. cbn [val]. unfold v, mag.
    assert (~ inject_Z (Zpos my) * pw ey == 0)%Q as Nz by (assert (0 < inject_Z (Zpos my) * pw ey)%Q by (apply Qmult_lt_0_compat; assumption); lra).
    destruct sx, sy; cbn [xorb signed]; field; try exact Nz; split; lra.
Qed.

Lemma mag_lt m1 e1 m2 e2 : 2 ^ 52 <= Zpos m1 < 2 ^ 53 -> 2 ^ 52 <= Zpos m2 < 2 ^ 53 -> e1 < e2 -> (mag m1 e1 < mag m2 e2)%Q.
Proof.
  intros H1 H2 H. unfold mag. pose proof (pw_pos e1) as P.
  replace e2 with (e1 + (e2 - e1)) by lia. rewrite pw_add, (pw_Z (e2 - e1)) by lia.
  assert (2 <= 2 ^ (e2 - e1)) by (change 2 with (2 ^ 1) at 1; apply Z.pow_le_mono_r; lia).
  assert (Zpos m1 < Zpos m2 * 2 ^ (e2 - e1)) as L by (change (2 ^ 53) with (2 ^ 52 * 2) in H1; nia).
  apply inject_lt in L. rewrite inject_Z_mult in L. setoid_replace (inject_Z (Zpos m2) * (pw e1 * inject_Z (2 ^ (e2 - e1))))%Q with (inject_Z (Zpos m2) * inject_Z (2 ^ (e2 - e1)) * pw e1)%Q by ring.
  apply Qmult_lt_r; assumption.
Qed.
Lemma mag_pos m e : (0 < mag m e)%Q.
Proof. unfold mag. apply Qmult_lt_0_compat; [reflexivity|apply pw_pos]. Qed.

Lemma fltb_val B x y : nf B x -> nf B y -> fltb x y = true <-> (val x < val y)%Q.
Proof.
  intros Hx Hy. unfold fltb, SFltb. destruct x as [sx|sx| |sx mx ex], y as [sy|sy| |sy my ey]; cbn [nf] in Hx, Hy; try contradiction; cbn [SFcompare val].
  - split; [discriminate|]. intros H. apply Qlt_irrefl in H. contradiction.
  - pose proof (mag_pos my ey). destruct sy; cbn [signed]; (split; [intros X; try discriminate X; lra|intros X; try reflexivity; lra]).
  - pose proof (mag_pos mx ex). destruct sx; cbn [signed]; (split; [intros X; try discriminate X; lra|intros X; try reflexivity; lra]).
  - pose proof (mag_pos mx ex) as Px. pose proof (mag_pos my ey) as Py.
    assert (forall a b ea eb, 2 ^ 52 <= Zpos a < 2 ^ 53 -> 2 ^ 52 <= Zpos b < 2 ^ 53 ->
      match match Z.compare ea eb with Lt => Lt | Gt => Gt | Eq => Pos.compare_cont Eq a b end with
      | Lt => (mag a ea < mag b eb)%Q | Eq => (mag a ea == mag b eb)%Q | Gt => (mag b eb < mag a ea)%Q end) as K.
    { intros a b ea eb Ha Hb. destruct (Z.compare_spec ea eb) as [->|L|L]; [|now apply mag_lt|now apply mag_lt].
      change (Pos.compare_cont Eq a b) with (Pos.compare a b). pose proof (pw_pos eb) as P. unfold mag.
      destruct (Pos.compare_spec a b) as [->|L|L]; [reflexivity| |]; (apply Qmult_lt_r; [exact P|]; rewrite <- Zlt_Qlt; lia). }
    destruct sx, sy; cbn [signed].
    + specialize (K mx my ex ey (proj1 Hx) (proj1 Hy)). destruct (Z.compare ex ey); try (destruct (Pos.compare_cont Eq mx my)); cbn [CompOpp]; (split; [intros X; try discriminate X; lra|intros X; try reflexivity; lra]).
    + split; [intros _; lra|reflexivity].
    + split; [discriminate|intros X; lra].
    + specialize (K mx my ex ey (proj1 Hx) (proj1 Hy)). destruct (Z.compare ex ey); try (destruct (Pos.compare_cont Eq mx my)); (split; [intros X; try discriminate X; lra|intros X; try reflexivity; lra]).
Qed.
Lemma fltb_not B x y : nf B x -> nf B y -> fltb x y = false <-> (val y <= val x)%Q.
Proof.
  intros Hx Hy. pose proof (fltb_val B x y Hx Hy) as K. destruct (fltb x y); split; intros H; try discriminate H; try reflexivity.
  - apply proj1 in K. specialize (K eq_refl). lra.
  - apply Qnot_lt_le. intros L. apply K in L. discriminate L.
Qed.

Lemma fofZ_val z : Z.abs z < 2 ^ 53 -> nf 60 (fofZ z) /\ (val (fofZ z) == inject_Z z)%Q.
Proof.
  intros H. destruct (Z.eq_dec z 0) as [->|Hz]; [split; [exact I|reflexivity]|].
  destruct (bits_of z Hz) as (d & Hd & Bd).
  assert (d - 1 < 53) by (apply pow_cmp; lia).
  destruct (normalize_both z 0 60 d Hz Hd Bd ltac:(lia) ltac:(lia) ltac:(lia)) as (N & _ & F).
  split; [exact N|]. unfold fofZ. rewrite F; [change (pw 0) with 1%Q; ring|]. exists z, 0. split; [reflexivity|exact H].
Qed.

(** Division by 65536 only changes the exponent. *)
Lemma fdiv_65536 B x : nf B x -> 0 <= B <= 800 -> nf (B + 16) (fdiv64 x (fofZ 65536)) /\ (val (fdiv64 x (fofZ 65536)) == val x * (1 # 65536))%Q.
Proof.
  intros Hx HB. change (fofZ 65536) with (S754_finite false 4503599627370496 (-36)).
  destruct x as [s|s| |s m e]; cbn [nf] in Hx; try contradiction; [split; [exact I|reflexivity]|].
  assert (fdiv64 (S754_finite s m e) (S754_finite false 4503599627370496 (-36)) = S754_finite s m (e - 16)) as ->.
  { unfold fdiv64, SFdiv, SFdiv_core_binary. rewrite (digits_unique (Zpos m) 53) by (lia || (change (53 - 1) with 52; lia)).
    change (Zdigits2 4503599627370496) with 53. unfold fexp. change (emin 53 1024) with (-1074).
    replace (Z.min _ _) with (e - 17) by lia. replace (e - -36 - (e - 17)) with 53 by lia. rewrite Z.shiftl_mul_pow2 by lia.
    pose proof (Z_div_mod (Zpos m * 2 ^ 53) 4503599627370496 ltac:(lia)) as E. destruct (Z.div_eucl _ _) as [q r]. destruct E as [E Hr].
    assert (q = Zpos m * 2 ^ 1 /\ r = 0) as [-> ->] by (change (2 ^ 53) with 9007199254740992 in E; change (2 ^ 1) with 2; lia).
    replace (new_location 4503599627370496 0) with loc_Exact by reflexivity. rewrite Bool.xorb_false_r.
    rewrite round_sign, round_exact by lia. cbn [with_sign Z.to_pos]. f_equal. lia. }
  split; [cbn [nf]; lia|]. cbn [val]. unfold mag. assert (pw (e - 16) == pw e * (1 # 65536))%Q as G by (change (e - 16) with (e + -16); rewrite pw_add; reflexivity).
  destruct s; cbn [signed]; rewrite G; ring.
Qed.

(** Cutting to 16 bits *)
Lemma clamp_val B x : nf B x -> 60 <= B -> let c := clamp16f machine x in
  0 <= c <= 65535 /\ ((val x < 0)%Q -> c = 0) /\ (((65535 # 1) < val x)%Q -> c = 65535) /\
  ((0 <= val x <= 65535 # 1)%Q -> (inject_Z c <= val x /\ val x < inject_Z c + 1)%Q).
Proof.
  intros Hx HB c. assert (nf B (fofZ 0) /\ nf B (fofZ 65535)) as [N0 N1].
  { split; (eapply nf_mono; [apply fofZ_val; reflexivity|exact HB]). }
  pose proof (fltb_val B x (fofZ 0) Hx N0) as K0. pose proof (fltb_val B (fofZ 65535) x N1 Hx) as K1.
  pose proof (fltb_not B x (fofZ 0) Hx N0) as L0. pose proof (fltb_not B (fofZ 65535) x N1 Hx) as L1.
  change (val (fofZ 0)) with 0%Q in *. assert (val (fofZ 65535) == 65535 # 1)%Q as E1 by (apply fofZ_val; reflexivity). rewrite E1 in K1, L1.
  unfold c, clamp16f. destruct (fltb x (fofZ 0)) eqn:F0.
  - apply proj1 in K0. specialize (K0 eq_refl). split; [lia|]. split; [reflexivity|]. split; intros; exfalso; lra.
  - apply proj1 in L0. specialize (L0 eq_refl). destruct (fltb (fofZ 65535) x) eqn:F1.
    + apply proj1 in K1. specialize (K1 eq_refl). split; [lia|]. split; [intros; exfalso; lra|]. split; [reflexivity|intros; exfalso; lra].
    + apply proj1 in L1. specialize (L1 eq_refl).
      assert (0 <= ftrunc x <= 65535 /\ (inject_Z (ftrunc x) <= val x)%Q /\ (val x < inject_Z (ftrunc x) + 1)%Q) as (R & T1 & T2).
      { destruct x as [s|s| |s m e]; cbn [nf] in Hx; try contradiction; [split; [cbn; lia|]; split; [apply Qle_refl|reflexivity]|].
        pose proof (mag_pos m e) as Pm. destruct s; cbn [val signed] in *; [exfalso; lra|].
        destruct (Z.le_gt_cases 0 e) as [G|G].
        - exfalso. unfold mag in L1. rewrite pw_Z, <- inject_Z_mult in L1 by exact G. change (65535 # 1)%Q with (inject_Z 65535) in L1. rewrite <- Zle_Qle in L1.
          assert (1 <= 2 ^ e) by (change 1 with (2 ^ 0); apply Z.pow_le_mono_r; lia). change (2 ^ 52) with 4503599627370496 in Hx. nia.
        - unfold ftrunc. destruct (Z.leb_spec 0 e); [lia|]. rewrite Z.shiftr_div_pow2 by lia. assert (0 < 2 ^ (- e)) as Pe by (apply Z.pow_pos_nonneg; lia).
          destruct (div_bounds (Zpos m) (2 ^ (- e)) ltac:(lia) Pe) as [D1 D2].
          assert (inject_Z (Zpos m) == mag m e * inject_Z (2 ^ (- e)))%Q as Em.
          { unfold mag. rewrite <- pw_Z, <- Qmult_assoc, <- pw_add by lia. replace (e + - e) with 0 by lia. change (pw 0) with 1%Q. ring. }
          assert (0 < inject_Z (2 ^ (- e)))%Q as Pe' by (change 0%Q with (inject_Z 0); rewrite <- Zlt_Qlt; exact Pe).
          assert (inject_Z (Zpos m / 2 ^ (- e)) <= mag m e)%Q as T1.
          { apply Qmult_le_r with (inject_Z (2 ^ (- e))); [exact Pe'|]. rewrite <- Em, <- inject_Z_mult, <- Zle_Qle. exact D1. }
          assert (mag m e < inject_Z (Zpos m / 2 ^ (- e)) + 1)%Q as T2.
          { apply Qmult_lt_r with (inject_Z (2 ^ (- e))); [exact Pe'|]. rewrite <- Em. change 1%Q with (inject_Z 1). rewrite <- inject_Z_plus, <- inject_Z_mult, <- Zlt_Qlt. lia. }
          split; [|split; assumption]. split; [apply Z.div_pos; lia|].
          assert (inject_Z (Zpos m / 2 ^ (- e)) <= 65535 # 1)%Q as U by lra. change (65535 # 1)%Q with (inject_Z 65535) in U. rewrite <- Zle_Qle in U. exact U. }
      cbn [w32 machine]. rewrite u32_small by lia. split; [exact R|]. split; [intros; exfalso; lra|]. split; [intros; exfalso; lra|]. intros _. split; assumption.
Qed.
