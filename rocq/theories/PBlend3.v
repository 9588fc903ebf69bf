(** Proofs of the compositing laws and of the formulas. *)
From Coq Require Import QArith.
From Verif Require Import Base BaseFacts MBlend PBlend PLum SBlend PBlend2 PEnum PFormula.
Open Scope Z_scope.

Ltac spec H := match type of H with ?P -> _ => let X := fresh in assert P as X; [| specialize (H X); clear X] end.

(** * Laws *)
Lemma blend8_range m al s d : byte al -> pixel_ok s -> pixel_ok d ->
  exists p, blend8 machine m al s d = Some p /\ blend8 ideal m al s d = Some p /\ pixel_ok p.
Proof.
  intros Ha Hs Hd. destruct (blend8_eq m al s d Ha Hs Hd) as (_ & r & g & b & _ & _ & _ & H). eauto.
Qed.

Lemma blend8_alpha m al s d p : byte al -> pixel_ok s -> pixel_ok d -> blend8 machine m al s d = Some p ->
  let t := pa s * al / 255 in
  pa p = if (t =? 0) || (wa 255 t (pa d) =? 0) then pa d else wa 255 t (pa d).
Proof.
  intros Ha Hs Hd E t. destruct (blend8_eq m al s d Ha Hs Hd) as (_ & r & g & b & _ & _ & _ & H1 & _).
  fold t in H1. cbv zeta in H1. rewrite E in H1. injection H1 as ->. destruct (_ || _); reflexivity.
Qed.

Lemma blend8_nothing m al s d : byte al -> pixel_ok s -> pixel_ok d -> pa s = 0 \/ al = 0 ->
  blend8 machine m al s d = Some d.
Proof.
  intros Ha Hs Hd H. destruct (blend8_eq m al s d Ha Hs Hd) as (_ & r & g & b & _ & _ & _ & H1 & _).
  cbv zeta in H1. rewrite H1. replace (pa s * al) with 0 by (destruct H as [-> | ->]; lia). reflexivity.
Qed.

Lemma wa_0 t : 0 <= t -> wa 255 t 0 = t /\ w1 255 t 0 = 0 /\ w2 255 t 0 = t /\ w3 255 t 0 = 0.
Proof. intros. unfold wa, w1, w2, w3. rewrite !Z.mul_0_r, Z.sub_0_r, Z.div_mul by lia. lia. Qed.
Lemma wa_255 t : 0 <= t <= 255 -> wa 255 t 255 = 255 /\ w1 255 t 255 = t /\ w2 255 t 255 = 0 /\ w3 255 t 255 = 255 - t.
Proof. intros. unfold wa, w1, w2, w3. rewrite Z.sub_diag, !Z.mul_0_r, !Z.div_mul by lia. change (0 / 255) with 0. lia. Qed.
Lemma wa_t255 da : 0 <= da <= 255 -> wa 255 255 da = 255 /\ w1 255 255 da = da /\ w2 255 255 da = 255 - da /\ w3 255 255 da = 0.
Proof.
  intros. unfold wa, w1, w2, w3. rewrite Z.sub_diag, Z.mul_0_l, !(Z.mul_comm 255), !Z.div_mul by lia.
  change (0 / 255) with 0. lia.
Qed.

Lemma blend8_over_transparent m al s d : byte al -> pixel_ok s -> pixel_ok d -> pa d = 0 ->
  let t := pa s * al / 255 in
  blend8 machine m al s d = Some (if t =? 0 then d else set_alpha s t).
Proof.
  intros Ha Hs Hd H t. destruct (blend8_eq m al s d Ha Hs Hd) as (Ht & r & g & b & _ & _ & M & H1 & _).
  fold t in H1, Ht. cbv zeta in H1. rewrite H1, H. unfold byte in Ht.
  destruct (wa_0 t ltac:(lia)) as (-> & -> & -> & ->). destruct (Z.eqb_spec t 0); [reflexivity|]. cbn [orb].
  unfold out8, set_alpha. unfold pixel_ok in *.
  assert (forall c x y, 0 <= x <= 255 -> (if overmax m then Z.min ((c * 0 + x * t + y * 0) / (0 + t + 0)) 255 else (c * 0 + x * t + y * 0) / (0 + t + 0)) = x) as E.
  { intros c x y Hx. rewrite !Z.mul_0_r, Z.add_0_l, Z.add_0_r, Z.add_0_l, Z.add_0_r, Z.div_mul by lia. destruct (overmax m); lia. }
  rewrite !E by lia. reflexivity.
Qed.

Lemma blend8_opaque_dest m al s d p : byte al -> pixel_ok s -> pixel_ok d -> pa d = 255 ->
  blend8 machine m al s d = Some p -> pa p = 255.
Proof.
  intros Ha Hs Hd H E. pose proof (blend8_alpha m al s d p Ha Hs Hd E) as A. cbv zeta in A. rewrite H in A.
  destruct (blend8_eq m al s d Ha Hs Hd) as (Ht & _). cbv zeta in Ht. unfold byte in Ht.
  destruct (wa_255 _ Ht) as (E1 & _). rewrite E1 in A. rewrite A. destruct (_ || _); reflexivity.
Qed.

Lemma blend8_opaque_source m s d p : pixel_ok s -> pixel_ok d -> pa s = 255 ->
  blend8 machine m 255 s d = Some p -> pa p = 255.
Proof.
  intros Hs Hd H E. pose proof (blend8_alpha m 255 s d p ltac:(unfold byte; lia) Hs Hd E) as A. cbv zeta in A. rewrite H in A.
  change (255 * 255 / 255) with 255 in A. unfold pixel_ok in Hd. destruct (wa_t255 (pa d) ltac:(lia)) as (E1 & _).
  rewrite E1 in A. exact A.
Qed.

(** An opaque source over an opaque destination at full opacity gives the blend
    colour itself. *)
Lemma blend8_opaque m s d : pixel_ok s -> pixel_ok d -> pa s = 255 -> pa d = 255 ->
  exists r g b, mix machine W8 m (px_rgb s) (px_rgb d) = Some (r, g, b) /\
    blend8 machine m 255 s d = Some (Px (Z.min r 255) (Z.min g 255) (Z.min b 255) 255).
Proof.
  intros Hs Hd H1 H2. destruct (blend8_eq m 255 s d ltac:(unfold byte; lia) Hs Hd) as (_ & r & g & b & M1 & _ & M & H & _).
  exists r, g, b. split; [exact M1|]. cbv zeta in H. rewrite H, H1, H2. change (255 * 255 / 255) with 255.
  destruct (wa_255 255 ltac:(lia)) as (-> & -> & -> & ->). cbn [orb Z.eqb Pos.eqb].
  assert (forall c x y, 0 <= c <= chan_top W8 m -> out8 m 255 0 (255 - 255) c x y = Z.min c 255) as E.
  { intros c x y Hc. unfold out8, chan_top in *. cbn [maxv] in Hc. change (255 - 255) with 0. rewrite !Z.mul_0_r, !Z.add_0_r, Z.div_mul by lia.
    destruct (overmax m); lia. }
  cbn [triple_in] in M. rewrite !E by lia. reflexivity.
Qed.

Lemma blend8_normal s d : pixel_ok s -> pixel_ok d -> pa s = 255 -> blend8 machine Normal 255 s d = Some s.
Proof.
  intros Hs Hd H1. destruct (blend8_eq Normal 255 s d ltac:(unfold byte; lia) Hs Hd) as (_ & r & g & b & M1 & _ & M & H & _).
  cbv zeta in H. rewrite H, H1. change (255 * 255 / 255) with 255. unfold pixel_ok in *.
  destruct (wa_t255 (pa d) ltac:(lia)) as (-> & -> & -> & ->). cbn [orb Z.eqb Pos.eqb].
  cbn in M1. injection M1 as <- <- <-. unfold out8. cbn [overmax].
  assert (forall x y, (x * pa d + x * (255 - pa d) + y * 0) / (pa d + (255 - pa d) + 0) = x) as E.
  { intros. replace (pa d + (255 - pa d) + 0) with 255 by lia. replace (x * pa d + x * (255 - pa d) + y * 0) with (x * 255) by lia. apply Z.div_mul. lia. }
  rewrite !E. destruct s; cbn in *; congruence.
Qed.

Lemma neutral_chan m v d : neutral m = Some v -> byte d -> chan machine W8 m v d = Some d.
Proof.
  intros H Hd.
  assert (forallb (fun m => match neutral m with Some v => forallb (fun d => match chan machine W8 m v d with Some c => c =? d | None => false end) (zrange 0 256) | None => true end)
    [Darken; Multiply; ColorBurn; LinearBurn; Divide; Lighten; Screen; ColorDodge; LinearDodge; Add; Difference; Exclusion; Subtract; LinearLight; PinLight] = true) as E by (vm_compute; reflexivity).
  rewrite forallb_forall in E. specialize (E m). rewrite H in E.
  spec E. { clear -H. destruct m; try discriminate H; cbn; tauto. }
  pose proof (forall_zrange _ _ _ E d) as X. cbv beta in X. spec X. { unfold byte in Hd. lia. }
  destruct (chan machine W8 m v d); [|discriminate]. f_equal. lia.
Qed.
Lemma blend8_neutral m al s d v : byte al -> pixel_ok s -> pixel_ok d -> neutral m = Some v ->
  pr s = v -> pg s = v -> pb s = v -> pa d = 255 -> blend8 machine m al s d = Some d.
Proof.
  intros Ha Hs Hd Hv Hr Hg Hb H. destruct (blend8_eq m al s d Ha Hs Hd) as (Ht & r & g & b & M1 & _ & M & H1 & _).
  cbv zeta in H1. cbv zeta in Ht. rewrite H1, H. set (t := pa s * al / 255) in *. clearbody t. unfold byte, pixel_ok in *.
  destruct (wa_255 t Ht) as (-> & -> & -> & ->). destruct (Z.eqb_spec t 0); [reflexivity|]. cbn [orb Z.eqb Pos.eqb].
  assert (mix machine W8 m (px_rgb s) (px_rgb d) = Some (px_rgb d)) as E.
  { unfold px_rgb. rewrite Hr, Hg, Hb.
    destruct m; try discriminate Hv; cbn [mix]; rewrite !(neutral_chan _ v) by (auto; unfold byte; lia); reflexivity. }
  rewrite E in M1. unfold px_rgb in M1. injection M1 as <- <- <-.
  assert (forall x y, 0 <= y <= 255 -> out8 m t 0 (255 - t) y x y = y) as O.
  { intros x y Hy. unfold out8. replace (t + 0 + (255 - t)) with 255 by lia.
    replace (y * t + x * 0 + y * (255 - t)) with (y * 255) by lia. rewrite Z.div_mul by lia. destruct (overmax m); lia. }
  rewrite !O by lia. destruct d; cbn in *; congruence.
Qed.

(** * Alpha *)
Lemma wa_bounds t d : 0 <= t <= 255 -> 0 <= d <= 255 ->
  Z.max t d - 1 <= wa 255 t d /\ 255 * wa 255 t d <= 255 * (t + d) - t * d < 255 * wa 255 t d + 510.
Proof.
  intros Ht Hd. assert (0 <= t * d <= 255 * t /\ t * d <= 255 * d) by nia. unfold wa, w1, w2, w3.
  replace (t * (255 - d)) with (255 * t - t * d) by lia. replace ((255 - t) * d) with (255 * d - t * d) by lia.
  set (p := t * d) in *. clearbody p. lia.
Qed.

Lemma blend8_alpha_bound m al s d p : byte al -> pixel_ok s -> pixel_ok d -> blend8 machine m al s d = Some p ->
  let t := pa s * al / 255 in
  pa d - 1 <= pa p /\ t - 1 <= pa p /\ 255 * pa p <= 255 * (t + pa d) - t * pa d < 255 * pa p + 510.
Proof.
  intros Ha Hs Hd E t. pose proof (blend8_alpha m al s d p Ha Hs Hd E) as A. cbv zeta in A. fold t in A.
  destruct (blend8_eq m al s d Ha Hs Hd) as (Ht & _). cbv zeta in Ht. fold t in Ht. unfold byte in Ht.
  unfold pixel_ok in *. destruct (wa_bounds t (pa d) Ht ltac:(lia)) as [B1 B2].
  destruct (Z.eqb_spec t 0) as [E0|E0]; cbn [orb] in A.
  - rewrite E0 in *. lia.
  - destruct (Z.eqb_spec (wa 255 t (pa d)) 0) as [E1|E1]; rewrite A; [|lia]. rewrite E1 in *. nia.
Qed.

Lemma blend8_faint m s d : pixel_ok s -> pixel_ok d -> pa s = 1 -> 2 <= pa d <= 254 ->
  exists p, blend8 machine m 255 s d = Some p /\ pa p = pa d - 1.
Proof.
  intros Hs Hd H1 H2. destruct (blend8_range m 255 s d ltac:(unfold byte; lia) Hs Hd) as (p & E & _). exists p. split; [exact E|].
  pose proof (blend8_alpha m 255 s d p ltac:(unfold byte; lia) Hs Hd E) as A. cbv zeta in A. rewrite H1 in A.
  change (1 * 255 / 255) with 1 in A. assert (wa 255 1 (pa d) = pa d - 1) as F by (unfold wa, w1, w2, w3; lia).
  replace (wa 255 1 (pa d) =? 0) with false in A by lia. cbn [orb Z.eqb] in A. lia.
Qed.

(** * Formulas *)
Lemma chan_formula m s d : is_separable m = true -> byte s -> byte d ->
  exists c, chan machine W8 m s d = Some c /\ within_formula m s d c = true.
Proof.
  intros Hm Hs Hd. unfold byte in *. pose proof (formulas_ok m s d Hm Hs Hd) as H. unfold formula_ok in H.
  destruct (chan_ok W8 m s d) as (c & E1 & E2 & _); 
    [exact Hm | unfold in_width; cbn [maxv]; lia | unfold in_width; cbn [maxv]; lia |].
  rewrite E2 in H. eauto.
Qed.
