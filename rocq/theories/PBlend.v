(** Proofs about the blend modes: no overflow, results in range. *)
From Coq Require Import SpecFloat.
From Verif Require Import Base BaseFacts MBlend PSoft.

Definition in_width (n : width) (c : Z) : Prop := 0 <= c <= maxv n.
Definition separable (m : mode) : bool :=
  match m with DarkerColor | LighterColor | Hue | Saturation | Color | Luminosity => false | _ => true end.

(** Remove one innermost wrap around whose argument fits. *)
Ltac unwrap1 tac := match goal with
  | |- context [u32 ?e] => lazymatch e with context [u32 _] => fail | context [i32 _] => fail | _ => rewrite (u32_small e) by tac end
  | |- context [i32 ?e] => lazymatch e with context [u32 _] => fail | context [i32 _] => fail | _ => rewrite (i32_small e) by tac end
  end.
Ltac openar := unfold add, sub, mul, shl1, isub, iadd, imul in *; cbn [w32 wi32 w64 w8 w16 machine ideal] in *.

Lemma mul_range n x y : in_width n x -> in_width n y -> 0 <= x * y <= maxv n * maxv n.
Proof. unfold in_width. intros. split; [lia|]. apply Z.mul_le_mono_nonneg; lia. Qed.

(** [x * y / maxValue] exactly, in both widths. *)
Lemma mulmax_eq n x y : in_width n x -> in_width n y ->
  mulmax machine n x y = x * y / maxv n /\ mulmax ideal n x y = x * y / maxv n.
Proof.
  intros Hx Hy. pose proof (mul_range n x y Hx Hy) as R. destruct n; cbn [maxv mulmax] in *.
  - openar. repeat unwrap1 lia. rewrite Z.shiftr_div_pow2 by lia.
    change (2 ^ 23) with 8388608. set (p := x * y) in *. clearbody p. split; lia.
  - openar. repeat unwrap1 lia. split; reflexivity.
Qed.
(** [x * y] scaled by two (up to one more than [2 * x * y / 255] for large
    products). *)
Definition half_exact (n : width) (x y : Z) : Z :=
  match n with W8 => x * y * 32897 / 4194304 | W16 => x * y / 32768 end.
Lemma mulhalf_eq n x y : in_width n x -> in_width n y ->
  mulhalf machine n x y = half_exact n x y /\ mulhalf ideal n x y = half_exact n x y.
Proof.
  intros Hx Hy. pose proof (mul_range n x y Hx Hy) as R. destruct n; cbn [maxv mulhalf half_exact] in *.
  - openar. repeat unwrap1 lia. rewrite Z.shiftr_div_pow2 by lia.
    change (2 ^ 22) with 4194304. set (p := x * y) in *. clearbody p. split; lia.
  - openar. repeat unwrap1 lia. split; reflexivity.
Qed.

Lemma div_max n x y : in_width n x -> in_width n y -> 0 <= x * y / maxv n <= Z.min x y.
Proof.
  unfold in_width. intros Hx Hy. assert (0 < maxv n) by (destruct n; cbn; lia).
  split; [apply Z.div_pos; lia|]. apply Z.min_glb; apply Z.div_le_upper_bound; nia.
Qed.

Lemma udiv_pos a b : 0 < b -> udiv a b = Some (a / b).
Proof. intros. unfold udiv. destruct (Z.eqb_spec b 0); [lia|reflexivity]. Qed.

Lemma clip_range n a : 0 <= a -> 0 <= clip n a <= maxv n.
Proof. intros. unfold clip. destruct (Z.ltb_spec a (maxv n)); destruct n; cbn in *; lia. Qed.

Lemma clip0_pos a : 0 <= a < 2147483648 -> clip0 a = a.
Proof.
  intros H. unfold clip0. replace (Z.land a 2147483648) with 0; [reflexivity|]. symmetry.
  apply Z.bits_inj'. intros k Hk. rewrite Z.land_spec, Z.bits_0.
  change 2147483648 with (2 ^ 31). rewrite Z.pow2_bits_eqb by lia.
  destruct (Z.eqb_spec 31 k); [|apply andb_false_r]. subst.
  rewrite Z.testbit_eqb by lia. rewrite Z.div_small by (change (2 ^ 31) with 2147483648; lia). reflexivity.
Qed.
Lemma clip0_neg a : -2147483648 <= a < 0 -> clip0 a = 0 /\ clip0 (u32 a) = 0.
Proof.
  intros H. assert (forall b, Z.testbit b 31 = true -> clip0 b = 0) as X.
  { intros b Hb. unfold clip0. destruct (Z.eqb_spec (Z.land b 2147483648) 0) as [E|E]; [|reflexivity].
    apply (f_equal (fun z => Z.testbit z 31)) in E. rewrite Z.land_spec, Hb in E. discriminate. }
  split; apply X.
  - rewrite Z.testbit_eqb by lia. change (2 ^ 31) with 2147483648.
    replace (a / 2147483648) with (-1) by lia. reflexivity.
  - rewrite Z.testbit_eqb by lia. change (2 ^ 31) with 2147483648. unfold u32.
    replace (a mod 4294967296 / 2147483648) with 1 by lia. reflexivity.
Qed.

Definition chan_top (n : width) (m : mode) : Z := if overmax m then 2 * maxv n else maxv n.

(** [x + y - x * y / max <= max]. *)
Lemma screen_le n x y : in_width n x -> in_width n y -> x + y - x * y / maxv n <= maxv n.
Proof.
  unfold in_width. intros Hx Hy. assert (0 < maxv n) as Hn by (destruct n; cbn; lia).
  assert (x + y - maxv n <= x * y / maxv n); [|lia]. apply Z.div_le_lower_bound; [lia|]. nia.
Qed.
Lemma half_comm n x y : half_exact n x y = half_exact n y x.
Proof. unfold half_exact. now rewrite (Z.mul_comm x y). Qed.
Lemma half_le n x y : in_width n x -> in_width n y -> x < halfv n -> 0 <= half_exact n x y <= maxv n.
Proof.
  unfold in_width, half_exact. destruct n; cbn [maxv halfv]; intros.
  - assert (0 <= x * y <= 127 * 255) by nia. lia.
  - assert (0 <= x * y <= 32767 * 65535) by nia. lia.
Qed.
(** [0 <= x + y - 2 * x * y / max <= max]. *)
Lemma excl_le n x y : in_width n x -> in_width n y ->
  0 <= half_exact n x y <= x + y /\ x + y - half_exact n x y <= maxv n.
Proof.
  unfold in_width, half_exact. destruct n; cbn [maxv]; intros.
  - assert (0 <= x * y) by nia. assert (2 * (x * y) <= 255 * (x + y)) by nia.
    assert (255 * (x + y - 255) <= 2 * (x * y)) by nia. lia.
  - assert (0 <= x * y) by nia. assert (2 * (x * y) <= 65535 * (x + y)) by nia.
    assert (65536 * (x + y - 65535) <= 2 * (x * y)); [|lia].
    assert (0 <= x * y + (65535 - x) * (65535 - y)) by nia. assert (0 <= (65535 - x) * (65535 - y)) by nia. nia.
Qed.

Ltac gdiv := repeat match goal with
  | |- context [?a / ?b] => let q := fresh "q" in set (q := a / b) in *; clearbody q
  | H : 0 <= ?a / ?b <= _ |- _ => let q := fresh "q" in set (q := a / b) in *; clearbody q
  end.
Ltac fin := gdiv; eexists; split; [|split]; try reflexivity; try lia.

(** Every separable mode, in both widths: no overflow, no division by zero, the
    result fits. *)
Lemma chan_ok n m s d : separable m = true -> in_width n s -> in_width n d ->
  exists c, chan machine n m s d = Some c /\ chan ideal n m s d = Some c /\ 0 <= c <= chan_top n m.
Proof.
  intros Hm Hs Hd.
  assert (0 < maxv n /\ maxv n = 2 * halfv n - 1 /\ maxv n <= 65535 /\ 0 < quarterv n < halfv n) as Hn
    by (destruct n; cbn; lia).
  pose proof Hs as Hs'. pose proof Hd as Hd'. unfold in_width in Hs, Hd.
  assert (forall q, 0 <= q -> 0 <= clip n q <= maxv n) as Hclip by (intros; now apply clip_range).
  assert (forall t, 0 < t -> 0 <= clip n ((maxv n - d) * maxv n / t) <= maxv n) as Hburn
    by (intros; apply Hclip, Z.div_pos; [apply Z.mul_nonneg_nonneg; lia|lia]).
  assert (forall t, 0 < t -> 0 <= clip n (d * maxv n / t) <= maxv n) as Hdodge
    by (intros; apply Hclip, Z.div_pos; [apply Z.mul_nonneg_nonneg; lia|lia]).
  assert (0 <= (maxv n - d) * maxv n <= 65535 * 65535) as P1 by (split; [apply Z.mul_nonneg_nonneg; lia|apply Z.mul_le_mono_nonneg; lia]).
  assert (0 <= d * maxv n <= 65535 * 65535) as P2 by (split; [apply Z.mul_nonneg_nonneg; lia|apply Z.mul_le_mono_nonneg; lia]).
  destruct m; try discriminate Hm; cbn [chan]; cbv zeta; unfold chan_top; cbn [overmax].
  - (* Normal *) fin.
  - (* Darken *) fin; destruct (s <? d); lia.
  - (* Multiply *) destruct (mulmax_eq n s d Hs' Hd') as [-> ->]. pose proof (div_max n s d Hs' Hd'). fin.
  - (* ColorBurn *)
    destruct (Z.eqb_spec d (maxv n)); [fin|]. destruct (Z.eqb_spec s 0); [fin|].
    openar. gdiv; repeat unwrap1 lia. rewrite udiv_pos by lia.
    specialize (Hburn s ltac:(lia)). gdiv; repeat unwrap1 lia. fin.
  - (* LinearBurn *) openar. unwrap1 lia. destruct (Z.ltb_spec (maxv n) (d + s)); gdiv; repeat unwrap1 lia; fin.
  - (* Lighten *) fin; destruct (d <? s); lia.
  - (* Screen *) destruct (mulmax_eq n s d Hs' Hd') as [-> ->]. pose proof (div_max n s d Hs' Hd').
    pose proof (screen_le n s d Hs' Hd'). openar. gdiv; repeat unwrap1 lia. fin.
  - (* ColorDodge *)
    destruct (Z.eqb_spec d 0); [fin|]. destruct (Z.eqb_spec s (maxv n)); [fin|].
    openar. gdiv; repeat unwrap1 lia. rewrite udiv_pos by lia.
    specialize (Hdodge (maxv n - s) ltac:(lia)). fin.
  - (* LinearDodge *) openar. gdiv; repeat unwrap1 lia. specialize (Hclip (s + d) ltac:(lia)). fin.
  - (* Add *) openar. gdiv; repeat unwrap1 lia. fin.
  - (* Overlay *)
    destruct (Z.ltb_spec d (halfv n)).
    + destruct (mulhalf_eq n s d Hs' Hd') as [-> ->]. rewrite half_comm. pose proof (half_le n d s Hd' Hs' ltac:(lia)). fin.
    + openar. gdiv; repeat unwrap1 lia. destruct (mulmax_eq n (maxv n - (d - halfv n) * 2) (maxv n - s)) as [-> ->];
        [split; lia|split; lia|]. pose proof (div_max n (maxv n - (d - halfv n) * 2) (maxv n - s) ltac:(split; lia) ltac:(split; lia)).
      gdiv; repeat unwrap1 lia. fin.
  - (* SoftLight *)
    destruct (Z.ltb_spec s (halfv n)).
    + openar. gdiv; repeat unwrap1 lia. destruct (mulmax_eq n (maxv n - s * 2) d) as [-> ->]; [split; lia|easy|].
      pose proof (div_max n (maxv n - s * 2) d ltac:(split; lia) Hd').
      set (t := (maxv n - s * 2) * d / maxv n) in *. clearbody t.
      destruct (mulmax_eq n t (maxv n - d)) as [-> ->]; [split; lia|split; lia|].
      pose proof (div_max n t (maxv n - d) ltac:(split; lia) ltac:(split; lia)). gdiv; repeat unwrap1 lia. fin.
    + assert (exists t, d <= t <= maxv n /\ (if d <? quarterv n then softPoly machine n d else sqrtw machine n d) = t /\
        (if d <? quarterv n then softPoly ideal n d else sqrtw ideal n d) = t) as (t & Ht & E1 & E2).
      { destruct (Z.ltb_spec d (quarterv n)).
        - destruct (poly_range n d ltac:(lia)) as [R E]. eauto.
        - destruct (sqrt_range n d ltac:(lia)) as [R E]. eauto. }
      rewrite E1, E2. openar. gdiv; repeat unwrap1 lia.
      destruct (mulmax_eq n (s * 2 - maxv n) (t - d)) as [-> ->]; [split; lia|split; lia|].
      pose proof (div_max n (s * 2 - maxv n) (t - d) ltac:(split; lia) ltac:(split; lia)). gdiv; repeat unwrap1 lia. fin.
  - (* HardLight *)
    destruct (Z.ltb_spec s (halfv n)).
    + destruct (mulhalf_eq n d s Hd' Hs') as [-> ->]. rewrite half_comm. pose proof (half_le n s d Hs' Hd' ltac:(lia)). fin.
    + openar. gdiv; repeat unwrap1 lia. assert (in_width n (s * 2 - maxv n)) as H2 by (split; lia).
      destruct (mulmax_eq n d (s * 2 - maxv n) Hd' H2) as [-> ->].
      pose proof (div_max n _ _ Hd' H2). pose proof (screen_le n _ _ Hd' H2). gdiv; repeat unwrap1 lia. fin.
  - (* LinearLight *)
    destruct (Z.ltb_spec s (halfv n)).
    + openar. gdiv; repeat unwrap1 lia. destruct (Z.ltb_spec (d + s * 2 - maxv n) 0).
      * destruct (clip0_neg (d + s * 2 - maxv n)) as [-> ->]; [lia|]. fin.
      * unwrap1 lia. rewrite clip0_pos by lia. fin.
    + openar. gdiv; repeat unwrap1 lia. specialize (Hclip (d + (s - halfv n) * 2) ltac:(lia)). fin.
  - (* VividLight *)
    destruct (Z.ltb_spec s (halfv n)); openar; gdiv; repeat unwrap1 lia.
    + destruct (Z.eqb_spec (s * 2) 0); [fin|]. rewrite udiv_pos by lia. specialize (Hburn (s * 2) ltac:(lia)). gdiv; repeat unwrap1 lia. fin.
    + destruct (Z.eqb_spec (s * 2 - maxv n) (maxv n)); [fin|]. gdiv; repeat unwrap1 lia. rewrite udiv_pos by lia.
      specialize (Hdodge (maxv n - (s * 2 - maxv n)) ltac:(lia)). fin.
  - (* PinLight *)
    destruct (Z.ltb_spec s (halfv n)); openar; gdiv; repeat unwrap1 lia.
    + fin; destruct (Z.ltb_spec (s * 2) d); lia.
    + fin; destruct (Z.ltb_spec d ((s - halfv n) * 2)); lia.
  - (* HardMix *)
    destruct (Z.ltb_spec s (halfv n)); openar; gdiv; repeat unwrap1 lia.
    + destruct (Z.eqb_spec d (maxv n)); [fin; destruct (_ <=? halfv n); lia|]. destruct (Z.eqb_spec (s * 2) 0); [fin; destruct (_ <=? halfv n); lia|].
      rewrite udiv_pos by lia. specialize (Hburn (s * 2) ltac:(lia)). gdiv; repeat unwrap1 lia. fin; destruct (_ <=? halfv n); lia.
    + destruct (Z.eqb_spec d 0); [fin; destruct (_ <=? halfv n); lia|]. destruct (Z.eqb_spec ((s - halfv n) * 2) (maxv n)); [fin; destruct (_ <=? halfv n); lia|].
      gdiv; repeat unwrap1 lia. rewrite udiv_pos by lia. specialize (Hdodge (maxv n - (s - halfv n) * 2) ltac:(lia)). fin; destruct (_ <=? halfv n); lia.
  - (* Difference *) openar. destruct (Z.ltb_spec d s); gdiv; repeat unwrap1 lia; fin.
  - (* Exclusion *)
    destruct (mulhalf_eq n d s Hd' Hs') as [-> ->]. pose proof (excl_le n d s Hd' Hs'). openar. gdiv; repeat unwrap1 lia. fin.
  - (* Subtract *) openar. destruct (Z.ltb_spec d s); gdiv; repeat unwrap1 lia; fin.
  - (* Divide *)
    destruct (Z.eqb_spec d 0); [fin|]. destruct (Z.eqb_spec s 0); [fin|].
    openar. gdiv; repeat unwrap1 lia. rewrite udiv_pos by lia. specialize (Hdodge s ltac:(lia)). fin.
Qed.
