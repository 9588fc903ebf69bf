(** SoftLight with 16 bits: the square root is the integer square root, the
    polynomial is at most 2304 levels too large. *)
From Coq Require Import SpecFloat.
From Verif Require Import Base BaseFacts MBlend PEnum PRound PSoft.
Open Scope Z_scope.

(** 65535 is square free. *)
Definition square_free (p : Z) : bool := forallb (fun r => negb (r * r mod p =? 0)) (zrange 1 (p - 1)).
Lemma square_free_all : square_free 3 && square_free 5 && square_free 17 && square_free 257 = true.
Proof. vm_compute. reflexivity. Qed.
Lemma square_mod p r : 1 < p -> square_free p = true -> r * r mod p = 0 -> r mod p = 0.
Proof.
  intros Hp H E. destruct (Z.eqb_spec (r mod p) 0) as [|Hn]; [assumption|]. exfalso.
  pose proof (Z.mod_pos_bound r p ltac:(lia)) as B.
  pose proof (forall_zrange _ _ _ H (r mod p) ltac:(lia)) as F. cbv beta in F.
  rewrite <- Z.mul_mod, E in F by lia. discriminate F.
Qed.
Lemma not_square d r : 0 < d < 65535 -> 0 <= r -> r * r <> d * 65535.
Proof.
  intros Hd Hr E. pose proof square_free_all as H. apply andb_prop in H. destruct H as [H H4]. apply andb_prop in H. destruct H as [H H3].
  apply andb_prop in H. destruct H as [H1 H2].
  pose proof (square_mod 3 r ltac:(lia) H1 ltac:(rewrite E; lia)) as M1.
  pose proof (square_mod 5 r ltac:(lia) H2 ltac:(rewrite E; lia)) as M2.
  pose proof (square_mod 17 r ltac:(lia) H3 ltac:(rewrite E; lia)) as M3.
  pose proof (square_mod 257 r ltac:(lia) H4 ltac:(rewrite E; lia)) as M4.
  assert (r mod 65535 = 0) as M by lia. assert (exists k, r = 65535 * k) as (k & ->) by (exists (r / 65535); lia).
  clear M1 M2 M3 M4 M. assert (k = 0 \/ 1 <= k) as [->|] by lia; nia.
Qed.

Lemma sqrt16_eq d : 16384 <= d <= 65535 -> sqrtw ideal W16 d = Z.sqrt (d * 65535).
Proof.
  intros H. destruct (Z.eqb_spec d 65535) as [->|Hn]. { vm_compute. reflexivity. }
  pose proof (Z.sqrt_spec (d * 65535) ltac:(lia)) as R. pose proof (Z.sqrt_nonneg (d * 65535)) as R0.
  pose proof (not_square d (Z.sqrt (d * 65535)) ltac:(lia) R0) as N.
  set (r := Z.sqrt (d * 65535)) in *. clearbody r. cbv zeta in R.
  assert (r <= 65535) as R1 by nia.
  unfold sqrtw. cbn [maxv w32 ideal].
  destruct (fdiv16 d ltac:(lia)) as (Q & e & -> & He & HQ & B).
  destruct (fsqrt16 Q e He HQ) as (S & -> & HS & HS2 & HS3).
  destruct (fmul16 S HS) as (T1 & T2 & T3). cbv zeta in *. set (t := ftrunc _) in *. clearbody t.
  assert (d * 2 ^ 106 - 65535 * 2 ^ 53 <= 65535 * (Q * 2 ^ (e + 106)) <= d * 2 ^ 106 + 65535 * 2 ^ 53) as B2.
  { clear - He B. destruct He; subst e; cbn in *; lia. }
  set (m := Q * 2 ^ (e + 106)) in *. clearbody m. clear HQ B He Q e.
  assert (r <= t) as L.
  { apply T2. clear t T1 T2 T3 HS3.
    set (c := (r * 2 ^ 53 + 65534) / 65535). assert (r * 2 ^ 53 <= c * 65535 <= r * 2 ^ 53 + 65534) as Hc by (subst c; cbn; lia).
    clearbody c. assert (c <= S); [|lia]. apply HS2; [cbn in *; lia|]. clear HS HS2 S.
    change (2 ^ 106) with (2 ^ 53 * 2 ^ 53) in B2. set (w := 2 ^ 53) in *. assert (Hw : 10 * 65535 * 65535 <= w) by (subst w; cbn; lia). clearbody w.
    assert ((c * 65535) * (c * 65535) <= (r * w + 65534) * (r * w + 65534)) by nia.
    assert (r * r <= d * 65535 - 1) by lia.
    assert (r * r * (w * w) <= (d * 65535 - 1) * (w * w)) by nia.
    assert (10 * 65535 * 65535 * w <= w * w) by nia.
    assert (2 * 65534 * r * w <= 2 * 65534 * 65535 * w) by nia.
    assert ((r * w + 65534) * (r * w + 65534) = r * r * (w * w) + 2 * 65534 * r * w + 65534 * 65534) by ring.
    assert (65535 * (d * (w * w) - 65535 * w) <= 65535 * (65535 * m)) by lia.
    assert (65535 * (d * (w * w)) = d * 65535 * (w * w)) by ring.
    assert (65535 * 65535 * (c * c) = (c * 65535) * (c * 65535)) by ring.
    assert (65535 * 65535 * (c * c) <= 65535 * 65535 * m); lia. }
  assert (t <= r) as U; [|lia].
  destruct (Z.leb_spec t r) as [|G]; [assumption|]. exfalso.
  assert (d * 65535 + 1 <= t * t) as T.
  { assert (Z.succ r * Z.succ r <= t * t) by (apply Z.mul_le_mono_nonneg; lia). lia. } clear L R N.
  change (2 ^ 106) with (2 ^ 53 * 2 ^ 53) in B2. change (2 ^ 52) with 4503599627370496 in HS. clear T2 HS2.
  assert (Hw : 2 ^ 53 = 9007199254740992) by reflexivity. rewrite Hw in *. clear Hw.
  assert (0 <= t * 9007199254740992 - 65536 <= (S - 1) * 65535 + 65535) as A by lia.
  assert ((t * 9007199254740992 - 65536) * (t * 9007199254740992 - 65536) <= ((S - 1) * 65535 + 65535) * ((S - 1) * 65535 + 65535)) as A2
    by (apply Z.mul_le_mono_nonneg; lia).
  assert (65535 * 65535 * ((S - 1) * (S - 1)) <= 65535 * 65535 * m) as A3 by lia.
  set (S' := S - 1) in *. assert (0 <= S' <= 9007199254740992) by lia. clearbody S'.
  replace ((S' * 65535 + 65535) * (S' * 65535 + 65535)) with (65535 * 65535 * (S' * S') + 2 * 65535 * 65535 * S' + 65535 * 65535) in A2 by ring.
  replace ((t * 9007199254740992 - 65536) * (t * 9007199254740992 - 65536)) with
    (t * t * (9007199254740992 * 9007199254740992) - 131072 * 9007199254740992 * t + 65536 * 65536) in A2 by ring.
  set (ss := S' * S') in *. set (tt := t * t) in *. clearbody ss tt. lia.
Qed.

(** The polynomial [4 * d - 12 * d^2 + 16 * d^3] (in units of 65535). *)
Lemma poly16_eq d : 0 <= d < 16384 ->
  let p := 16 * d * d * d - 12 * 65535 * d * d + 4 * 65535 * 65535 * d in
  p - 65535 * 65535 < 65535 * 65535 * softPoly ideal W16 d <= p + 2304 * 65535 * 65535.
Proof.
  intros H p. unfold softPoly, imul, iadd, isub. cbn [w32 wi32 ideal].
  assert (exists k, Z.quot (d * 16 - 786420) 65535 = k - 12 /\ (k - 1) * 65535 < 16 * d <= k * 65535 /\ 0 <= k <= 4) as (k & -> & Hk & K4).
  { exists (12 - (786420 - d * 16) / 65535). replace (d * 16 - 786420) with (- (786420 - d * 16)) by lia. rewrite Z.quot_opp_l, Z.quot_div_nonneg by lia. lia. }
  assert (65535 * d <= ((k - 12) * d + 262140) * d) as P by nia.
  rewrite Z.quot_div_nonneg by lia.
  pose proof (Z.div_mod (((k - 12) * d + 262140) * d) 65535 ltac:(lia)) as E. pose proof (Z.mod_pos_bound (((k - 12) * d + 262140) * d) 65535 ltac:(lia)) as F.
  set (t := _ / 65535) in *. set (r := _ mod 65535) in *. clearbody t r.
  assert (0 <= (k * 65535 - 16 * d) * (d * d) <= 2304 * 65535 * 65535) as G.
  { split; [apply Z.mul_nonneg_nonneg; [lia|nia]|].
    destruct (Z.leb_spec k 3).
    - assert (16 * d <= 196605) by lia. assert (d * d <= 12287 * 12287) by nia.
      assert ((k * 65535 - 16 * d) * (d * d) <= 65535 * (12287 * 12287)); [|lia]. apply Z.mul_le_mono_nonneg; nia.
    - assert (k = 4) as -> by lia. set (x := d - 12287) in *. assert (d = 12287 + x) as Ed by lia. clearbody x. subst d. assert (1 <= x <= 4096) by lia.
      replace ((4 * 65535 - 16 * (12287 + x)) * ((12287 + x) * (12287 + x))) with
        (65548 * (12287 * 12287) - x * ((16 * 12287 - 131096) * 12287) - (32 * 12287 - 65548) * (x * x) - 16 * (x * x * x)) by ring.
      assert (0 <= x * x) by nia. assert (0 <= x * x * x) by nia. lia. }
  assert (65535 * (65535 * t) = p + (k * 65535 - 16 * d) * (d * d) - 65535 * r) as X.
  { replace (65535 * t) with (((k - 12) * d + 262140) * d - r) by lia. unfold p. ring. }
  clearbody p. set (g := (k * 65535 - 16 * d) * (d * d)) in *. clearbody g. lia.
Qed.
