(** Proofs about the compositing formula. *)
From Coq Require Import String.
From Verif Require Import Base BaseFacts MRect MBlend SBlend PBlend PLum PBlend2 PEnum PFormula PBlend3 PHsl SHsl8 PHsl8 SOver.
Close Scope string_scope.
Open Scope Z_scope.

Lemma mix_doc m s d : pixel_ok s -> pixel_ok d -> forall r g b, mix machine W8 m (px_rgb s) (px_rgb d) = Some (r, g, b) ->
  doc_colour m (px_rgb s) (px_rgb d) (r, g, b).
Proof.
  intros Hs Hd r g b M. unfold pixel_ok in *. unfold px_rgb in *.
  destruct (is_separable m) eqn:Sm.
  - destruct (chan_formula m (pr s) (pr d) Sm) as (cr & Cr & Fr); [unfold byte; lia|unfold byte; lia|].
    destruct (chan_formula m (pg s) (pg d) Sm) as (cg & Cg & Fg); [unfold byte; lia|unfold byte; lia|].
    destruct (chan_formula m (pb s) (pb d) Sm) as (cb & Cb & Fb); [unfold byte; lia|unfold byte; lia|].
    assert (E : mix machine W8 m (pr s, pg s, pb s) (pr d, pg d, pb d) = Some (cr, cg, cb)).
    { destruct m; try discriminate Sm; cbn [mix]; rewrite Cr, Cg, Cb; reflexivity. }
    rewrite E in M. injection M as <- <- <-. destruct m; try discriminate Sm; cbn [doc_colour]; auto.
  - pose proof (mix_luma m (pr s, pg s, pb s) (pr d, pg d, pb d)) as L. cbv zeta in L. rewrite M in L.
    spec L. { cbn; lia. } spec L. { cbn; lia. }
    destruct m; try discriminate Sm; unfold doc_colour.
    all: try (injection L as L; exact L). all: destruct L as (r' & g' & b' & E & (? & ? & ?) & ?); injection E as <- <- <-; split; [auto|split; [auto|]].
    all: match goal with |- match mixed8 ?m ?s ?d with _ => _ end => destruct (mixed8 m s d) as [e|] eqn:Me; [|discriminate Me];
           destruct (mix_near m s d e ltac:(cbn; lia) ltac:(cbn; lia) Me) as (v & Mv & N); rewrite M in Mv; injection Mv as <-; exact N end.
Qed.

Lemma floors x y n : 0 < n -> (x + y) mod n = 0 -> 0 <= x -> 0 <= y -> x mod n + y mod n = 0 \/ x mod n + y mod n = n.
Proof.
  intros Hn E Hx Hy. rewrite Z.add_mod in E by lia. pose proof (Z.mod_pos_bound x n Hn). pose proof (Z.mod_pos_bound y n Hn).
  apply Z.mod_divide in E; [|lia]. destruct E as [k E]. assert (k = 0 \/ k = 1) as [-> | ->] by nia; lia.
Qed.

Lemma w_split t a : 0 <= t <= 255 -> 0 <= a <= 255 -> exists f1 f2 f3,
  t * a = 255 * w1 255 t a + f1 /\ t * (255 - a) = 255 * w2 255 t a + f2 /\ (255 - t) * a = 255 * w3 255 t a + f3 /\
  0 <= f1 /\ 0 <= f2 /\ 0 <= f3 /\ (f1 + f2 = 0 /\ f3 = 0 \/ f1 + f2 = 255 /\ f1 + f3 = 255).
Proof.
  intros Ht Ha. exists (t * a mod 255), (t * (255 - a) mod 255), ((255 - t) * a mod 255). unfold w1, w2, w3.
  assert (P1 : 0 <= t * a) by (apply Z.mul_nonneg_nonneg; lia). assert (P2 : 0 <= t * (255 - a)) by (apply Z.mul_nonneg_nonneg; lia).
  assert (P3 : 0 <= (255 - t) * a) by (apply Z.mul_nonneg_nonneg; lia).
  pose proof (Z.mod_pos_bound (t * a) 255 ltac:(lia)). pose proof (Z.mod_pos_bound (t * (255 - a)) 255 ltac:(lia)). pose proof (Z.mod_pos_bound ((255 - t) * a) 255 ltac:(lia)).
  pose proof (Z.div_mod (t * a) 255 ltac:(lia)). pose proof (Z.div_mod (t * (255 - a)) 255 ltac:(lia)). pose proof (Z.div_mod ((255 - t) * a) 255 ltac:(lia)).
  assert (M1 : (t * a + t * (255 - a)) mod 255 = 0) by (replace (t * a + t * (255 - a)) with (t * 255) by lia; apply Z.mod_mul; lia).
  assert (M2 : (t * a + (255 - t) * a) mod 255 = 0) by (replace (t * a + (255 - t) * a) with (a * 255) by lia; apply Z.mod_mul; lia).
  pose proof (floors _ _ 255 ltac:(lia) M1 P1 P2) as F. pose proof (floors _ _ 255 ltac:(lia) M2 P1 P3) as G. clear M1 M2. 
  repeat (split; [lia|]). lia.
Qed.

Lemma out_near m t a s d b : 0 <= t <= 255 -> 0 <= a <= 255 -> 0 <= s <= 255 -> 0 <= d <= 255 -> 0 <= b <= chan_top W8 m -> wa 255 t a <> 0 ->
  rounded_down (compositing t a s d b) (wa 255 t a) (out8 m (w1 255 t a) (w2 255 t a) (w3 255 t a) b s d).
Proof.
  intros Ht Ha Hs Hd Hb Hw. destruct (weights_range 255 t a) as (G1 & G2 & G3 & G); try lia.
  destruct (w_split t a Ht Ha) as (f1 & f2 & f3 & E1 & E2 & E3 & F1 & F2 & F3 & F).
  unfold compositing, out8. fold (wa 255 t a). rewrite E1, E2, E3. unfold wa in *.
  set (a1 := w1 255 t a) in *. set (a2 := w2 255 t a) in *. set (a3 := w3 255 t a) in *. clearbody a1 a2 a3. clear E1 E2 E3 Ht Ha t a.
  set (num := b * a1 + s * a2 + d * a3). set (q := num / (a1 + a2 + a3)).
  pose proof (Z.mul_div_le num (a1 + a2 + a3) ltac:(lia)) as Lo. pose proof (Z.mul_succ_div_gt num (a1 + a2 + a3) ltac:(lia)) as Hi. fold q in Lo, Hi.
  replace ((255 * a2 + f2) * s + (255 * a1 + f1) * b + (255 * a3 + f3) * d) with (255 * num + (f1 * b + f2 * s + f3 * d)) by (unfold num; lia).
  assert (B : 0 <= b <= 510) by (unfold chan_top in Hb; cbn [maxv] in Hb; destruct (overmax m); lia).
  assert (Err : 0 <= f1 * b + f2 * s + f3 * d <= 255 * 510).
  { split; [nia|]. assert (f1 * b <= f1 * 510) by nia. assert (f2 * s <= f2 * 255) by nia. assert (f3 * d <= f3 * 255) by nia. lia. }
  assert (Q0 : 0 <= q). { apply Z.div_pos; [|lia]. unfold num. nia. }
  assert (Core : 255 * ((a1 + a2 + a3) * q) <= 255 * num + (f1 * b + f2 * s + f3 * d) < 255 * ((a1 + a2 + a3) * q) + 3 * (255 * 255)) by lia.
  clearbody q num. unfold rounded_down. destruct (overmax m).
  - destruct (Z.le_gt_cases q 255).
    + rewrite Z.min_l by lia. lia.
    + rewrite Z.min_r by lia. split; [|now right]. pose proof (Z.mul_le_mono_nonneg_l 255 q (a1 + a2 + a3) ltac:(lia) ltac:(lia)). lia.
  - lia.
Qed.

Lemma same_near t a s d b : 0 <= t <= 255 -> 0 <= a <= 255 -> 0 <= s <= 255 -> 0 <= d <= 255 -> 0 <= b <= 510 -> t = 0 \/ wa 255 t a = 0 ->
  rounded_down (compositing t a s d b) a d.
Proof.
  intros Ht Ha Hs Hd Hb [-> | H]; unfold rounded_down, compositing.
  - lia.
  - destruct (wa_bounds t a Ht Ha) as [W _]. destruct (Z.eq_dec t 0) as [-> | Nt]; [lia|].
    assert (t = 1) as -> by lia. assert (a = 0 \/ a = 1) as [-> | ->] by lia; [discriminate H|]. lia.
Qed.

Lemma chan_top8 m b : 0 <= b <= chan_top W8 m -> 0 <= b <= 510.
Proof. unfold chan_top. cbn [maxv]. destruct (overmax m); lia. Qed.

Lemma blend_composited1 m alpha s d : 0 <= alpha <= 255 -> pixel_ok s -> pixel_ok d ->
  exists r g b p, mix machine W8 m (px_rgb s) (px_rgb d) = Some (r, g, b) /\ blend8 machine m alpha s d = Some p /\
    let t := pa s * alpha / 255 in
    rounded_down (compositing t (pa d) (pr s) (pr d) r) (pa p) (pr p) /\
    rounded_down (compositing t (pa d) (pg s) (pg d) g) (pa p) (pg p) /\
    rounded_down (compositing t (pa d) (pb s) (pb d) b) (pa p) (pb p).
Proof.
  intros Ha Hs Hd. destruct (blend8_eq m alpha s d Ha Hs Hd) as (Ht & r & g & b & M & _ & T & E & _ & _).
  exists r, g, b. eexists. split; [exact M|]. cbv zeta in E. split; [exact E|]. cbv zeta in Ht |- *.
  set (t := pa s * alpha / 255) in *. clearbody t. unfold byte in Ht. unfold pixel_ok in Hs, Hd. cbn [triple_in] in T. destruct T as (Tr & Tg & Tb).
  destruct (Z.eqb_spec t 0) as [Z0|Z0]; cbn [orb].
  { repeat split; apply same_near; eauto using chan_top8; lia. }
  destruct (Z.eqb_spec (wa 255 t (pa d)) 0) as [Z1|Z1]; cbn [pr pg pb pa].
  { repeat split; apply same_near; eauto using chan_top8; lia. }
  repeat split; apply out_near; auto; lia.
Qed.

Lemma blend_between1 m alpha s d : 0 <= alpha <= 255 -> pixel_ok s -> pixel_ok d -> pa d = 255 ->
  exists r g b, mix machine W8 m (px_rgb s) (px_rgb d) = Some (r, g, b) /\
    let t := pa s * alpha / 255 in
    blend8 machine m alpha s d = Some (Px (between t (pr d) r) (between t (pg d) g) (between t (pb d) b) 255).
Proof.
  intros Ha Hs Hd E. destruct (blend8_eq m alpha s d Ha Hs Hd) as (Ht & r & g & b & M & _ & T & X & _ & _).
  exists r, g, b. split; [exact M|]. cbv zeta in X, Ht |- *. rewrite X.
  set (t := pa s * alpha / 255) in *. clearbody t. clear X. rewrite E. unfold byte in Ht. destruct (wa_255 t Ht) as (-> & -> & -> & ->).
  unfold pixel_ok in Hs, Hd. cbn [triple_in] in T. destruct T as (Tr & Tg & Tb).
  assert (O : forall c x y, 0 <= c <= chan_top W8 m -> 0 <= y <= 255 -> out8 m t 0 (255 - t) c x y = between t y c).
  { intros c x y Hc Hy. unfold out8, between. rewrite Z.mul_0_r, Z.add_0_r, (Z.mul_comm c), (Z.mul_comm y).
    replace (t + 0 + (255 - t)) with 255 by lia. unfold chan_top in Hc. cbn [maxv] in Hc. destruct (overmax m); [apply Z.min_comm|].
    rewrite Z.min_r; [reflexivity|]. assert (t * c + (255 - t) * y <= 255 * 255) by nia. apply Z.div_le_upper_bound; lia. }
  destruct (Z.eqb_spec t 0) as [-> |]; cbn [orb Z.eqb Pos.eqb].
  - assert (B : forall y c, 0 <= y <= 255 -> between 0 y c = y) by (intros y c Hy; unfold between; replace (0 * c + (255 - 0) * y) with (y * 255) by lia; rewrite Z.div_mul; lia).
    rewrite !B by lia. destruct d; cbn in *. congruence.
  - rewrite !O by lia. reflexivity.
Qed.

Lemma blend_composited m alpha s d : 0 <= alpha <= 255 -> pixel_ok s -> pixel_ok d ->
  exists r g b p, doc_colour m (pr s, pg s, pb s) (pr d, pg d, pb d) (r, g, b) /\ blend8 machine m alpha s d = Some p /\
    let t := pa s * alpha / 255 in
    rounded_down (compositing t (pa d) (pr s) (pr d) r) (pa p) (pr p) /\
    rounded_down (compositing t (pa d) (pg s) (pg d) g) (pa p) (pg p) /\
    rounded_down (compositing t (pa d) (pb s) (pb d) b) (pa p) (pb p) /\
    (pa d = 255 -> p = Px (between t (pr d) r) (between t (pg d) g) (between t (pb d) b) 255).
Proof.
  intros Ha Hs Hd. destruct (blend_composited1 m alpha s d Ha Hs Hd) as (r & g & b & p & M & E & R1 & R2 & R3). exists r, g, b, p.
  split; [exact (mix_doc m s d Hs Hd _ _ _ M)|]. split; [exact E|]. cbv zeta. repeat (split; [assumption|]). intros Hp.
  destruct (blend_between1 m alpha s d Ha Hs Hd Hp) as (r' & g' & b' & M' & E'). rewrite M in M'. injection M' as <- <- <-. cbv zeta in E'. congruence.
Qed.
