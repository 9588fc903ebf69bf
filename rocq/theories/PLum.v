(** Proofs about the hue, saturation and luminosity helpers. *)
From Verif Require Import Base BaseFacts MBlend PBlend.

Definition byte (c : Z) : Prop := 0 <= c <= 255.
(** The weighted sum behind [lum8]. *)
Definition luma8 (r g b : Z) : Z := (77 * r + 151 * g + 28 * b) / 256.

Lemma lum8_eq r g b : byte r -> byte g -> byte b ->
  lum8 machine r g b = luma8 r g b /\ lum8 ideal r g b = luma8 r g b /\ byte (luma8 r g b).
Proof.
  unfold byte, luma8, lum8. intros. openar. repeat unwrap1 lia.
  rewrite !Z.shiftr_div_pow2 by lia. change (2 ^ 8) with 256. unwrap1 lia. lia.
Qed.

Definition wide (c : Z) : Prop := -255 <= c <= 510.
Lemma lum8s_eq r g b : wide r -> wide g -> wide b ->
  lum8s machine r g b = luma8 r g b /\ lum8s ideal r g b = luma8 r g b.
Proof.
  unfold wide, luma8, lum8s. intros. openar. repeat unwrap1 lia.
  rewrite !Z.shiftr_div_pow2 by lia. change (2 ^ 8) with 256. lia.
Qed.

Lemma idiv_pos a b : 0 < b -> idiv a b = Some (Z.quot a b).
Proof. intros. unfold idiv. destruct (Z.eqb_spec b 0); [lia|reflexivity]. Qed.

(** The truncated quotient with its remainder. *)
Lemma quot_spec a b : 0 < b -> exists r, a = b * Z.quot a b + r /\ Z.abs r < b /\ (0 <= a -> 0 <= r) /\ (a <= 0 -> r <= 0).
Proof.
  intros H. exists (Z.rem a b). pose proof (Z.quot_rem' a b). pose proof (Z.rem_bound_abs a b ltac:(lia)).
  split; [lia|]. split; [lia|]. split; intros.
  - apply Z.rem_nonneg; lia.
  - apply Z.rem_nonpos; lia.
Qed.

(** [lm + (c - lm) * num / den], the division truncated. *)
Definition sc (lm num den c : Z) : Z := lm + Z.quot ((c - lm) * num) den.

Lemma sc_between lm num den c : 0 <= num <= den -> 0 < den ->
  Z.min lm c <= sc lm num den c <= Z.max lm c.
Proof.
  intros Hn Hd. unfold sc.
  destruct (quot_spec ((c - lm) * num) den ltac:(lia)) as (rm & E & Hr & S1 & S2).
  set (q := Z.quot ((c - lm) * num) den) in *. clearbody q.
  destruct (Z.le_gt_cases 0 (c - lm)).
  - specialize (S1 ltac:(nia)). assert (q <= c - lm) by nia. assert (0 <= q) by nia. lia.
  - specialize (S2 ltac:(nia)). assert (c - lm <= q) by nia. assert (q <= 0) by nia. lia.
Qed.
(** The scaled distance is at most [num] times the original one over [den]. *)
Lemma sc_low lm num den c : 0 <= num -> 0 < den -> lm - den <= c -> lm - num <= sc lm num den c.
Proof.
  intros Hn Hd Hc. unfold sc.
  destruct (quot_spec ((c - lm) * num) den ltac:(lia)) as (rm & E & Hr & S1 & S2).
  set (q := Z.quot ((c - lm) * num) den) in *. clearbody q. nia.
Qed.
Lemma sc_high lm num den c : 0 <= num -> 0 < den -> c <= lm + den -> sc lm num den c <= lm + num.
Proof.
  intros Hn Hd Hc. unfold sc.
  destruct (quot_spec ((c - lm) * num) den ltac:(lia)) as (rm & E & Hr & S1 & S2).
  set (q := Z.quot ((c - lm) * num) den) in *. clearbody q. nia.
Qed.

Lemma scale8_eq lm num den c : 0 <= num <= 255 -> 0 < den <= 1000 -> byte lm -> wide c ->
  num <= den ->
  scale8 machine lm num den c = Some (sc lm num den c) /\ scale8 ideal lm num den c = Some (sc lm num den c).
Proof.
  unfold byte, wide, scale8. intros.
  assert (-510 * 255 <= (c - lm) * num <= 510 * 255) as P by nia.
  pose proof (sc_between lm num den c ltac:(lia) ltac:(lia)) as R. unfold sc in *.
  openar. unwrap1 lia. unwrap1 lia. rewrite !idiv_pos by lia.
  set (q := Z.quot ((c - lm) * num) den) in *. clearbody q. unwrap1 lia. auto.
Qed.

(** The luminosity of the scaled colour. *)
Lemma scaled_luma lm num den r g b : 0 <= num <= den -> 0 < den -> luma8 r g b = lm ->
  Z.abs (luma8 (sc lm num den r) (sc lm num den g) (sc lm num den b) - lm) <= 1.
Proof.
  intros Hn Hd E. unfold sc.
  destruct (quot_spec ((r - lm) * num) den Hd) as (r1 & E1 & A1 & _).
  destruct (quot_spec ((g - lm) * num) den Hd) as (r2 & E2 & A2 & _).
  destruct (quot_spec ((b - lm) * num) den Hd) as (r3 & E3 & A3 & _).
  set (q1 := Z.quot ((r - lm) * num) den) in *. set (q2 := Z.quot ((g - lm) * num) den) in *.
  set (q3 := Z.quot ((b - lm) * num) den) in *. clearbody q1 q2 q3.
  unfold luma8 in *. remember (77 * (r - lm) + 151 * (g - lm) + 28 * (b - lm)) as e eqn:Ee.
  assert (0 <= e < 256) as He by lia.
  remember (77 * q1 + 151 * q2 + 28 * q3) as S eqn:ESd.
  assert (den * S = num * e - (77 * r1 + 151 * r2 + 28 * r3)) as ES.
  { subst S e. transitivity (77 * (den * q1) + 151 * (den * q2) + 28 * (den * q3)); [ring|].
    replace (den * q1) with ((r - lm) * num - r1) by lia. replace (den * q2) with ((g - lm) * num - r2) by lia.
    replace (den * q3) with ((b - lm) * num - r3) by lia. ring. }
  clear E1 E2 E3. assert (0 <= num * e <= 255 * den) by nia.
  assert (-256 * den < den * S < 512 * den) by lia.
  assert (-256 < S < 512) by nia.
  replace (77 * (lm + q1) + 151 * (lm + q2) + 28 * (lm + q3)) with (S + lm * 256) by lia.
  clear - H1. lia.
Qed.

Lemma min3 a b c : minu a (minu b c) = Z.min a (Z.min b c).
Proof. unfold minu. destruct (Z.ltb_spec b c), (Z.ltb_spec a b), (Z.ltb_spec a c); lia. Qed.
Lemma max3 a b c : maxu a (maxu b c) = Z.max a (Z.max b c).
Proof. unfold maxu. destruct (Z.ltb_spec c b), (Z.ltb_spec b a), (Z.ltb_spec c a); lia. Qed.

Lemma clamp8s_id ar c : (ar = machine \/ ar = ideal) -> byte c -> clamp8s ar c = c.
Proof.
  unfold byte. intros Har H. unfold clamp8s. destruct (Z.ltb_spec c 0); [lia|]. destruct (Z.ltb_spec 255 c); [lia|].
  destruct Har; subst; cbn [w32 machine ideal]; [apply u32_small; lia|reflexivity].
Qed.

Definition near (r g b lm : Z) : Prop := Z.abs (luma8 r g b - lm) <= 1.

(** [clipColor8] on the colours that [setLum8] gives it. *)
Lemma clipColor8_ok r g b : let lm := luma8 r g b in
  wide r -> wide g -> wide b -> byte lm ->
  Z.max r (Z.max g b) - Z.min r (Z.min g b) <= 255 ->
  exists r' g' b', clipColor8 machine r g b = Some (r', g', b') /\ clipColor8 ideal r g b = Some (r', g', b') /\
    byte r' /\ byte g' /\ byte b' /\ near r' g' b' lm.
Proof.
  intros lm Hr Hg Hb Hlm Hsp. unfold clipColor8.
  destruct (lum8s_eq r g b Hr Hg Hb) as [-> ->]. fold lm. rewrite min3, max3.
  set (mn := Z.min r (Z.min g b)) in *. set (mx := Z.max r (Z.max g b)) in *.
  assert (mn <= lm <= mx) as Hmm by (unfold lm, luma8, mn, mx; lia).
  assert (mn <= r <= mx /\ mn <= g <= mx /\ mn <= b <= mx) as (Br & Bg & Bb) by lia.
  assert (wide mn /\ wide mx) as [Wmn Wmx] by (unfold wide in *; lia).
  assert (E : luma8 r g b = lm) by reflexivity. clearbody lm mn mx.
  unfold byte, wide in *. destruct (Z.ltb_spec mn 0).
  - destruct (Z.ltb_spec 255 mx); [lia|].
    assert (isub machine lm mn = lm - mn /\ isub ideal lm mn = lm - mn) as [-> ->] by (openar; unwrap1 lia; auto).
    assert (forall c, mn <= c <= mx -> byte (sc lm lm (lm - mn) c) /\
      scale8 machine lm lm (lm - mn) c = Some (sc lm lm (lm - mn) c) /\ scale8 ideal lm lm (lm - mn) c = Some (sc lm lm (lm - mn) c)) as R.
    { intros c Hc. split; [|apply scale8_eq; unfold byte, wide; lia].
      pose proof (sc_between lm lm (lm - mn) c ltac:(lia) ltac:(lia)).
      pose proof (sc_low lm lm (lm - mn) c ltac:(lia) ltac:(lia) ltac:(lia)). unfold byte. lia. }
    destruct (R r Br) as (R1 & -> & ->). destruct (R g Bg) as (R2 & -> & ->). destruct (R b Bb) as (R3 & -> & ->).
    rewrite !clamp8s_id by auto. eexists _, _, _. split; [reflexivity|]. split; [reflexivity|].
    split; [exact R1|]. split; [exact R2|]. split; [exact R3|]. apply scaled_luma; lia.
  - destruct (Z.ltb_spec 255 mx).
    + assert (isub machine 255 lm = 255 - lm /\ isub ideal 255 lm = 255 - lm) as [-> ->] by (openar; unwrap1 lia; auto).
      assert (isub machine mx lm = mx - lm /\ isub ideal mx lm = mx - lm) as [-> ->] by (openar; unwrap1 lia; auto).
      assert (forall c, mn <= c <= mx -> byte (sc lm (255 - lm) (mx - lm) c) /\
        scale8 machine lm (255 - lm) (mx - lm) c = Some (sc lm (255 - lm) (mx - lm) c) /\
        scale8 ideal lm (255 - lm) (mx - lm) c = Some (sc lm (255 - lm) (mx - lm) c)) as R.
      { intros c Hc. split; [|apply scale8_eq; unfold byte, wide; lia].
        pose proof (sc_between lm (255 - lm) (mx - lm) c ltac:(lia) ltac:(lia)).
        pose proof (sc_high lm (255 - lm) (mx - lm) c ltac:(lia) ltac:(lia) ltac:(lia)). unfold byte. lia. }
      destruct (R r Br) as (R1 & -> & ->). destruct (R g Bg) as (R2 & -> & ->). destruct (R b Bb) as (R3 & -> & ->).
      rewrite !clamp8s_id by auto. eexists _, _, _. split; [reflexivity|]. split; [reflexivity|].
      split; [exact R1|]. split; [exact R2|]. split; [exact R3|]. apply scaled_luma; lia.
    + rewrite !clamp8s_id by (unfold byte; auto; lia). eexists _, _, _. split; [reflexivity|]. split; [reflexivity|].
      unfold byte, near. lia.
Qed.

Lemma setLum8_ok r g b lm : byte r -> byte g -> byte b -> byte lm ->
  exists r' g' b', setLum8 machine r g b lm = Some (r', g', b') /\ setLum8 ideal r g b lm = Some (r', g', b') /\
    byte r' /\ byte g' /\ byte b' /\ near r' g' b' lm.
Proof.
  intros Hr Hg Hb Hl. unfold setLum8.
  destruct (lum8_eq r g b Hr Hg Hb) as (-> & -> & Hy). set (dl := lm - luma8 r g b).
  unfold byte in *.
  assert (isub machine lm (luma8 r g b) = dl /\ isub ideal lm (luma8 r g b) = dl) as [-> ->] by (unfold dl; openar; unwrap1 lia; auto).
  assert (E : luma8 (r + dl) (g + dl) (b + dl) = lm) by (unfold dl, luma8; lia).
  assert (-255 <= dl <= 255) by lia.
  assert (forall c, 0 <= c <= 255 -> iadd machine (wi32 machine c) dl = c + dl /\ iadd ideal (wi32 ideal c) dl = c + dl) as A.
  { intros c Hc. openar. repeat unwrap1 lia. auto. }
  destruct (A r Hr) as [-> ->]. destruct (A g Hg) as [-> ->]. destruct (A b Hb) as [-> ->].
  destruct (clipColor8_ok (r + dl) (g + dl) (b + dl)) as (r' & g' & b' & H1); unfold wide, byte; try lia.
  rewrite E in H1. eauto.
Qed.

(** * setSat *)
Lemma setSatMMM_ok n mn md mx st : in_width n mn -> in_width n md -> in_width n mx -> in_width n st ->
  mn <= md <= mx ->
  exists q, setSatMinMidMax machine mn md mx st = Some (0, q, if mn <? mx then st else 0) /\
    setSatMinMidMax ideal mn md mx st = Some (0, q, if mn <? mx then st else 0) /\ 0 <= q <= st /\
    (mn = md -> q = 0) /\ (md = mx -> mn < mx -> q = st).
Proof.
  intros H1 H2 H3 H4 Ho. unfold setSatMinMidMax. destruct (Z.ltb_spec mn mx).
  - pose proof (mul_range n (md - mn) st) as P. unfold in_width in *. assert (maxv n <= 65535) by (destruct n; cbn; lia).
    specialize (P ltac:(lia) ltac:(lia)). assert (maxv n * maxv n <= 65535 * 65535) by nia.
    openar. repeat unwrap1 lia. rewrite udiv_pos by lia. eexists. split; [reflexivity|]. split; [reflexivity|].
    split; [split; [apply Z.div_pos; lia|apply Z.div_le_upper_bound; nia]|].
    split; intros; subst; [now rewrite Z.sub_diag|]. rewrite Z.mul_comm. apply Z.div_mul. lia.
  - exists 0. unfold in_width in *. split; [reflexivity|]. split; [reflexivity|]. lia.
Qed.

(** What [setSat] promises: it keeps the order of the channels, the smallest
    becomes 0 and, unless the colour is grey, the largest becomes [st]. *)
Definition sat_result (r g b st r' g' b' : Z) : Prop :=
  let mx := Z.max r (Z.max g b) in let mn := Z.min r (Z.min g b) in
  let top := if mn <? mx then st else 0 in
  0 <= r' <= top /\ 0 <= g' <= top /\ 0 <= b' <= top /\
  Z.min r' (Z.min g' b') = 0 /\ Z.max r' (Z.max g' b') = top /\
  (r <= g -> r' <= g') /\ (g <= r -> g' <= r') /\ (r <= b -> r' <= b') /\ (b <= r -> b' <= r') /\
  (g <= b -> g' <= b') /\ (b <= g -> b' <= g').

Lemma setSat_ok n r g b st : in_width n r -> in_width n g -> in_width n b -> in_width n st ->
  exists r' g' b', setSat machine r g b st = Some (r', g', b') /\ setSat ideal r g b st = Some (r', g', b') /\
    sat_result r g b st r' g' b'.
Proof.
  intros Hr Hg Hb Hs. unfold setSat.
  assert (forall mn md mx q, mn <= md <= mx -> 0 <= q <= st -> (mn = md -> q = 0) -> (md = mx -> mn < mx -> q = st) ->
    0 <= q <= (if mn <? mx then st else 0)) as T.
  { intros mn md mx q Ho Hq H1 H2. destruct (Z.ltb_spec mn mx); [lia|]. rewrite H1 by lia. unfold in_width in *. lia. }
  Ltac satcase n Hs T mn md mx := destruct (setSatMMM_ok n mn md mx _ ltac:(assumption) ltac:(assumption) ltac:(assumption) Hs ltac:(lia)) as (q & -> & -> & Hq & Hz0 & Hz1);
    pose proof (T mn md mx q ltac:(lia) Hq Hz0 Hz1) as T1; clear T; eexists _, _, _; split; [reflexivity|split; [reflexivity|]];
    unfold sat_result, in_width in *; cbv zeta;
    replace (Z.max _ (Z.max _ _)) with mx by lia; replace (Z.min _ (Z.min _ _)) with mn by lia;
    destruct (Z.ltb_spec mn mx); repeat split; lia.
  destruct (Z.leb_spec r g).
  - destruct (Z.leb_spec g b); [satcase n Hs T r g b|].
    destruct (Z.leb_spec r b); [satcase n Hs T r b g|satcase n Hs T b r g].
  - destruct (Z.leb_spec r b); [satcase n Hs T g r b|].
    destruct (Z.leb_spec g b); [satcase n Hs T g b r|satcase n Hs T b g r].
Qed.
