(** Laws of the 16 bit paths. *)
From Verif Require Import Base BaseFacts MBlend PBlend PLum SBlend PBlend2 PWide PFloat.
Open Scope Z_scope.

Lemma unm_in (doit : bool) a c : 0 <= a <= 255 -> 0 <= c <= 255 -> (doit = true -> c <= a) -> 0 <= unm doit (a * 257) (c * 257) <= 65535.
Proof.
  intros Ha Hc H. unfold unm. destruct doit; [|lia]. specialize (H eq_refl). destruct (Z.eqb_spec (a * 257) 0); [lia|].
  split; [apply Z.div_pos; lia|]. apply Z.div_le_upper_bound; lia.
Qed.
Lemma unm3_in (doit : bool) p : pixel_ok p -> (doit = true -> premul_ok 255 p) ->
  triple_in 65535 (unm3 doit (pa p * 257) (pr p * 257) (pg p * 257) (pb p * 257)).
Proof.
  intros H1 H2. unfold pixel_ok, premul_ok in *. cbn [unm3 triple_in].
  repeat split; apply unm_in; try lia; intros E; specialize (H2 E); lia.
Qed.
Lemma unm3_inF p : premul_ok 65535 p -> triple_in 65535 (unm3 true (pa p) (pr p) (pg p) (pb p)).
Proof.
  intros H. unfold premul_ok in *. destruct (unmul3_eq true (pa p) (pr p) (pg p) (pb p)) as (_ & _ & E); [lia|lia|exact E].
Qed.

Lemma blendW_range m sp dp al s d : overmax m = false -> byte al -> pixel_ok s -> pixel_ok d ->
  (sp = true -> premul_ok 255 s) -> (dp = true -> premul_ok 255 d) ->
  exists p, blendW machine m sp dp al s d = Some p /\ blendW ideal m sp dp al s d = Some p /\ pixel_ok p /\ (dp = true -> premul_ok 255 p).
Proof.
  intros Hm Ha Hs Hd Hsp Hdp.
  destruct (blendW_eq m sp dp al s d Ha Hs Hd Hsp Hdp (mix16_ok m _ _ Hm (unm3_in sp s Hs Hsp) (unm3_in dp d Hd Hdp))) as (_ & _ & _ & r & g & b & _ & _ & H).
  cbn [unm3] in H. eexists. exact H.
Qed.
Lemma blendF_range m ma s d : overmax m = false -> 0 <= ma <= 65535 -> premul_ok 65535 s -> premul_ok 65535 d ->
  exists o, blendF machine m ma s d = Some o /\ blendF ideal m ma s d = Some o /\ forall p, o = Some p -> premul_ok 65535 p.
Proof.
  intros Hm Ha Hs Hd.
  destruct (blendF_eq m ma s d Hm Ha Hs Hd (mix16_ok m _ _ Hm (unm3_inF s Hs) (unm3_inF d Hd))) as (_ & _ & _ & r & g & b & _ & _ & H).
  cbn [unm3] in H. destruct H as (H1 & H2 & H3). eexists. split; [exact H1|]. split; [exact H2|].
  intros p E. destruct (_ || _); [discriminate E|]. injection E as <-. exact H3.
Qed.

(** Add does not overflow as long as the sums of the colours fit. *)
Lemma blendW_add sp dp al s d : byte al -> pixel_ok s -> pixel_ok d ->
  (sp = true -> premul_ok 255 s) -> (dp = true -> premul_ok 255 d) ->
  (forall c, In c [pr; pg; pb] -> unm sp (pa s * 257) (c s * 257) + unm dp (pa d * 257) (c d * 257) <= 65535) ->
  exists p, blendW machine Add sp dp al s d = Some p /\ blendW ideal Add sp dp al s d = Some p /\ pixel_ok p /\ (dp = true -> premul_ok 255 p).
Proof.
  intros Ha Hs Hd Hsp Hdp HS.
  pose proof (unm3_in sp s Hs Hsp) as S3. pose proof (unm3_in dp d Hd Hdp) as D3.
  edestruct (blendW_eq Add sp dp al s d Ha Hs Hd Hsp Hdp) as (_ & _ & _ & r & g & b & _ & _ & H).
  { apply add_fits; [exact S3|exact D3|]. cbn [unm3 triple_in] in *.
    pose proof (HS pr ltac:(cbn; tauto)). pose proof (HS pg ltac:(cbn; tauto)). pose proof (HS pb ltac:(cbn; tauto)). lia. }
  cbn [unm3] in H. eexists. exact H.
Qed.

(** A premultiplied source over an empty premultiplied pixel is copied exactly. *)
Lemma blendW_onto_empty m s d : premul_ok 255 s -> 0 < pa s -> d = Px 0 0 0 0 -> blendW machine m true true 255 s d = Some s.
Proof.
  intros Hs Hp ->. assert (pixel_ok s) as Hs' by (unfold premul_ok, pixel_ok in *; lia).
  assert (pixel_ok (Px 0 0 0 0)) as Hd by (unfold pixel_ok; cbn; lia).
  assert (premul_ok 255 (Px 0 0 0 0)) as Hd' by (unfold premul_ok; cbn; lia).
  pose proof (unm3_in true s Hs' (fun _ => Hs)) as S3. pose proof (unm3_in true _ Hd (fun _ => Hd')) as D3.
  edestruct (blendW_eq m true true 255 s (Px 0 0 0 0) ltac:(unfold byte; lia) Hs' Hd (fun _ => Hs) (fun _ => Hd')) as (_ & _ & Ht & r & g & b & _ & M & H).
  { destruct (overmax m) eqn:E; [|now apply mix16_ok]. destruct m; try discriminate E. apply add_fits; [exact S3|exact D3|].
    cbn [unm3 triple_in pr pg pb pa] in *. change (unm true (0 * 257) (0 * 257)) with 0 in *. lia. }
  cbn [unm3 pr pg pb pa] in H. destruct H as [H _]. rewrite H. clear H S3 D3. unfold premul_ok in Hs.
  set (t := pa s * 255 * 257 / 255) in *. assert (t = pa s * 257) as Et by (unfold t; lia). clearbody t. subst t.
  change (0 * 257) with 0.
  assert (w1 65535 (pa s * 257) 0 = 0 /\ w2 65535 (pa s * 257) 0 = pa s * 257 /\ w3 65535 (pa s * 257) 0 = 0) as (-> & -> & ->).
  { unfold w1, w2, w3. rewrite !Z.mul_0_r, Z.sub_0_r, Z.div_mul by lia. auto. }
  assert (wa 65535 (pa s * 257) 0 = pa s * 257) as ->.
  { unfold wa, w1, w2, w3. rewrite !Z.mul_0_r, Z.sub_0_r, Z.div_mul by lia. change (0 / 65535) with 0. lia. }
  destruct (Z.eqb_spec (pa s * 257) 0); [lia|]. cbn [orb].
  assert (forall x y c, 0 <= c <= pa s -> outW true 0 (pa s * 257) 0 x (unm true (pa s * 257) (c * 257)) y = c) as O.
  { intros x y c Hc. unfold unm, outW. destruct (Z.eqb_spec (pa s * 257) 0); [lia|].
    pose proof (Z.div_mod (c * 257 * 65535) (pa s * 257) ltac:(lia)) as E. pose proof (Z.mod_pos_bound (c * 257 * 65535) (pa s * 257) ltac:(lia)) as F.
    set (q := c * 257 * 65535 / (pa s * 257)) in *. clearbody q.
    replace (x * 0 + q * (pa s * 257) + y * 0) with (c * 257 * 65535 - (c * 257 * 65535) mod (pa s * 257)) by lia.
    destruct (Z.eq_dec c 0) as [-> |]; [change (0 * 257 * 65535) with 0; rewrite Z.mod_0_l by lia; reflexivity|].
    set (k := _ mod _) in *. clearbody k. clear E. lia. }
  rewrite !O by lia. f_equal. destruct s as [sr sg sb sa]. cbn [pr pg pb pa] in *. f_equal. lia.
Qed.

(** Normal with an opaque source replaces the pixel, in every byte path. *)
Lemma blendW_normal sp dp s d : pixel_ok s -> pixel_ok d -> pa s = 255 -> (dp = true -> premul_ok 255 d) ->
  blendW machine Normal sp dp 255 s d = Some s.
Proof.
  intros Hs Hd Hp Hdp. assert (sp = true -> premul_ok 255 s) as Hsp by (intros _; unfold premul_ok, pixel_ok in *; lia).
  edestruct (blendW_eq Normal sp dp 255 s d ltac:(unfold byte; lia) Hs Hd Hsp Hdp) as (_ & _ & Ht & r & g & b & M & _ & H).
  { apply mix16_ok; [reflexivity|now apply unm3_in|now apply unm3_in]. }
  cbn [unm3] in H, M. destruct H as [H _]. rewrite H. clear H. cbn in M. injection M as <- <- <-. rewrite Hp in *.
  change (255 * 255 * 257 / 255) with 65535. unfold pixel_ok in *.
  assert (forall c, 0 <= c <= 255 -> unm sp (255 * 257) (c * 257) = c * 257) as U.
  { intros c Hc. unfold unm. destruct sp; [|reflexivity]. change (255 * 257 =? 0) with false. cbv iota. change (255 * 257) with 65535. apply Z.div_mul. lia. }
  rewrite !U by lia. unfold wa, outW, w1, w2, w3. rewrite Z.sub_diag, Z.mul_0_l, !(Z.mul_comm 65535), !Z.div_mul by lia. change (0 / 65535) with 0.
  replace (pa d * 257 + (65535 - pa d * 257) + 0) with 65535 by lia. cbn [orb Z.eqb Pos.eqb]. change (65535 / 256) with 255.
  assert (forall c x, 0 <= c <= 255 -> (c * 257 * (pa d * 257) + c * 257 * (65535 - pa d * 257) + x * 0) / (if dp then 65535 else 65535) / 256 = c) as O.
  { intros c x Hc. replace (if dp then 65535 else 65535) with 65535 by (destruct dp; reflexivity).
    replace (c * 257 * (pa d * 257) + c * 257 * (65535 - pa d * 257) + x * 0) with (c * 257 * 65535) by lia. rewrite Z.div_mul by lia. lia. }
  rewrite !O by lia. destruct s; cbn in *; congruence.
Qed.

(** Transparent sources and zero opacity change nothing. *)
Lemma blendW_nothing m sp dp al s d : byte al -> pixel_ok s -> pa s = 0 \/ al = 0 -> blendW machine m sp dp al s d = Some d.
Proof.
  intros Ha Hs H. unfold blendW. unfold byte, pixel_ok in *.
  assert (mul machine (mul machine (pa s) 257) (mul machine al 257) / 65535 = 0) as ->.
  { destruct H as [-> | ->]; openar.
    - change (0 * 257) with 0. change (u32 0) with 0. rewrite Z.mul_0_l. reflexivity.
    - change (0 * 257) with 0. change (u32 0) with 0. rewrite Z.mul_0_r. reflexivity. }
  reflexivity.
Qed.
