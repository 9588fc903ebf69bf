(** Proofs about whole pixels. *)
From Verif Require Import Base BaseFacts MBlend PBlend PLum SBlend.

Definition triple_in (top : Z) (c : Z * Z * Z) : Prop :=
  let '(r, g, b) := c in 0 <= r <= top /\ 0 <= g <= top /\ 0 <= b <= top.

Lemma separable_eq m : is_separable m = separable m.
Proof. destruct m; reflexivity. Qed.

Lemma mix_sep n m s d : separable m = true -> triple_in (maxv n) s -> triple_in (maxv n) d ->
  exists c, mix machine n m s d = Some c /\ mix ideal n m s d = Some c /\ triple_in (chan_top n m) c.
Proof.
  intros Hm Hs Hd. destruct s as [[sr sg] sb], d as [[dr dg] db]. cbn [triple_in] in *.
  destruct (chan_ok n m sr dr Hm) as (r & R1 & R2 & R3); try (unfold in_width; lia).
  destruct (chan_ok n m sg dg Hm) as (g & G1 & G2 & G3); try (unfold in_width; lia).
  destruct (chan_ok n m sb db Hm) as (b & B1 & B2 & B3); try (unfold in_width; lia).
  exists (r, g, b). destruct m; try discriminate Hm; cbn [mix]; rewrite R1, R2, G1, G2, B1, B2; cbn [triple_in]; auto.
Qed.

Lemma triple_if {A} (c : bool) (P : A -> Prop) x y : P x -> P y -> P (if c then x else y).
Proof. destruct c; auto. Qed.

Lemma lumlt8_eq s d : triple_in 255 s -> triple_in 255 d -> lumlt machine W8 s d = lumlt ideal W8 s d.
Proof.
  destruct s as [[sr sg] sb], d as [[dr dg] db]. cbn [triple_in lumlt]. intros.
  destruct (lum8_eq sr sg sb) as (-> & -> & _); unfold byte; try lia.
  destruct (lum8_eq dr dg db) as (-> & -> & _); unfold byte; lia.
Qed.

Lemma setLum8_mix c l : triple_in 255 c -> triple_in 255 l ->
  exists c', setLum machine W8 c l = Some c' /\ setLum ideal W8 c l = Some c' /\ triple_in 255 c'.
Proof.
  destruct c as [[r g] b], l as [[lr lg] lb]. cbn [triple_in setLum]. intros.
  destruct (lum8_eq lr lg lb) as (-> & -> & Hl); unfold byte in *; try lia.
  destruct (setLum8_ok r g b (luma8 lr lg lb)) as (r' & g' & b' & E1 & E2 & H1 & H2 & H3 & _); unfold byte in *; try lia.
  exists (r', g', b'). rewrite E1, E2. split; [reflexivity|]. split; [reflexivity|]. cbn [triple_in]. lia.
Qed.

Lemma sat_eq n r g b : in_width n r -> in_width n g -> in_width n b ->
  sat machine r g b = Z.max r (Z.max g b) - Z.min r (Z.min g b) /\ sat ideal r g b = Z.max r (Z.max g b) - Z.min r (Z.min g b).
Proof.
  unfold in_width. intros. unfold sat. rewrite max3, min3. openar.
  assert (maxv n <= 65535) by (destruct n; cbn; lia). unwrap1 lia. auto.
Qed.

Lemma setSat3_mix n c st : triple_in (maxv n) c -> triple_in (maxv n) st ->
  exists c', setSat3 machine c st = Some c' /\ setSat3 ideal c st = Some c' /\ triple_in (maxv n) c'.
Proof.
  destruct c as [[r g] b], st as [[sr sg] sb]. cbn [triple_in setSat3]. intros.
  destruct (sat_eq n sr sg sb) as [-> ->]; unfold in_width; try lia.
  destruct (setSat_ok n r g b (Z.max sr (Z.max sg sb) - Z.min sr (Z.min sg sb))) as (r' & g' & b' & E1 & E2 & R); unfold in_width; try lia.
  exists (r', g', b'). split; [exact E1|]. split; [exact E2|]. unfold sat_result in R. cbv zeta in R. cbn [triple_in].
  destruct (Z.min r (Z.min g b) <? Z.max r (Z.max g b)); lia.
Qed.

Lemma mix8_ok m s d : triple_in 255 s -> triple_in 255 d ->
  exists c, mix machine W8 m s d = Some c /\ mix ideal W8 m s d = Some c /\ triple_in (chan_top W8 m) c.
Proof.
  intros Hs Hd. destruct (separable m) eqn:Hm; [now apply mix_sep|].
  destruct m; try discriminate Hm; cbn [mix]; unfold chan_top; cbn [overmax maxv].
  - rewrite lumlt8_eq by easy. eexists. split; [reflexivity|]. split; [reflexivity|]. now apply triple_if.
  - rewrite lumlt8_eq by easy. eexists. split; [reflexivity|]. split; [reflexivity|]. now apply triple_if.
  - destruct (setSat3_mix W8 s d Hs Hd) as (c & -> & -> & Hc). now apply setLum8_mix.
  - destruct (setSat3_mix W8 d s Hd Hs) as (c & -> & -> & Hc). now apply setLum8_mix.
  - now apply setLum8_mix.
  - now apply setLum8_mix.
Qed.

(** * Coverage *)
Lemma frac_sum3 n x y z : 0 < n -> 0 <= x -> 0 <= y -> 0 <= z -> (x / n + y / n + z / n) * n <= x + y + z.
Proof. intros. pose proof (Z.mul_div_le x n). pose proof (Z.mul_div_le y n). pose proof (Z.mul_div_le z n). lia. Qed.

(** The three weights and their sum. *)
Definition w1 (mx t da : Z) : Z := t * da / mx.
Definition w2 (mx t da : Z) : Z := t * (mx - da) / mx.
Definition w3 (mx t da : Z) : Z := (mx - t) * da / mx.
Definition wa (mx t da : Z) : Z := w1 mx t da + w2 mx t da + w3 mx t da.

Lemma weights_range mx t da : 0 < mx -> 0 <= t <= mx -> 0 <= da <= mx ->
  0 <= w1 mx t da /\ 0 <= w2 mx t da /\ 0 <= w3 mx t da /\ wa mx t da <= mx.
Proof.
  intros Hm Ht Hd. unfold wa, w1, w2, w3.
  assert (0 <= t * da /\ 0 <= t * (mx - da) /\ 0 <= (mx - t) * da) as (P1 & P2 & P3) by (repeat split; apply Z.mul_nonneg_nonneg; lia).
  pose proof (frac_sum3 mx _ _ _ Hm P1 P2 P3) as F.
  assert (t * da + t * (mx - da) + (mx - t) * da <= mx * mx) by nia.
  repeat split; try (apply Z.div_pos; lia).
  apply Z.mul_le_mono_pos_r with mx; lia.
Qed.

(** A weighted mean of channel values stays below their bound. *)
Lemma wsum_range a1 a2 a3 c sc dc top : 0 <= a1 -> 0 <= a2 -> 0 <= a3 ->
  0 <= c <= top -> 0 <= sc <= top -> 0 <= dc <= top -> 0 <= c * a1 + sc * a2 + dc * a3 <= top * (a1 + a2 + a3).
Proof. intros. split; nia. Qed.

Lemma shiftr23 p : 0 <= p <= 65025 -> Z.shiftr (p * 32897) 23 = p / 255.
Proof. intros. rewrite Z.shiftr_div_pow2 by lia. change (2 ^ 23) with 8388608. lia. Qed.

(** The 8 bit path in closed form. *)
Definition out8 (m : mode) (a1 a2 a3 c sc dc : Z) : Z :=
  let q := (c * a1 + sc * a2 + dc * a3) / (a1 + a2 + a3) in if overmax m then Z.min q 255 else q.

Definition px_rgb (p : px) : Z * Z * Z := (pr p, pg p, pb p).
Lemma blend8_eq m al s d : byte al -> pixel_ok s -> pixel_ok d ->
  let t := pa s * al / 255 in
  let a1 := w1 255 t (pa d) in let a2 := w2 255 t (pa d) in let a3 := w3 255 t (pa d) in
  byte t /\
  exists r g b, mix machine W8 m (px_rgb s) (px_rgb d) = Some (r, g, b) /\
    mix ideal W8 m (px_rgb s) (px_rgb d) = Some (r, g, b) /\ triple_in (chan_top W8 m) (r, g, b) /\
    let p := if (t =? 0) || (wa 255 t (pa d) =? 0) then d
             else Px (out8 m a1 a2 a3 r (pr s) (pr d)) (out8 m a1 a2 a3 g (pg s) (pg d))
                     (out8 m a1 a2 a3 b (pb s) (pb d)) (wa 255 t (pa d)) in
    blend8 machine m al s d = Some p /\ blend8 ideal m al s d = Some p /\ pixel_ok p.
Proof.
  intros Hal Hs Hd t a1 a2 a3. destruct s as [sr sg sb sa], d as [dr dg db da].
  unfold pixel_ok, px_rgb in *. cbn [pr pg pb pa] in *. unfold byte in *.
  assert (0 <= sa * al <= 65025) as Pt by nia.
  assert (0 <= t <= 255) as Ht by (unfold t; lia).
  split; [exact Ht|].
  destruct (mix8_ok m (sr, sg, sb) (dr, dg, db)) as ([[r g] b] & M1 & M2 & M3); [cbn; lia|cbn; lia|].
  exists r, g, b. split; [exact M1|]. split; [exact M2|]. split; [exact M3|].
  destruct (weights_range 255 t da) as (W1 & W2 & W3 & WA); try lia. fold a1 a2 a3 in W1, W2, W3.
  assert (Z.shiftr (mul machine sa (mul machine al 32897)) 23 = t /\ Z.shiftr (mul ideal sa (mul ideal al 32897)) 23 = t) as [T1 T2].
  { unfold t. rewrite <- shiftr23 by lia. openar. unwrap1 lia. unwrap1 nia. rewrite Z.mul_assoc. auto. }
  assert (forall x y, 0 <= x <= 255 -> 0 <= y <= 255 -> Z.shiftr (x * 32897 * y) 23 = x * y / 255) as SH.
  { intros x y Hx Hy. rewrite <- shiftr23 by nia. f_equal. lia. }
  unfold blend8. cbn [pr pg pb pa]. rewrite T1, T2, M1, M2.
  assert (mul machine t 32897 = t * 32897 /\ mul ideal t 32897 = t * 32897) as [-> ->] by (openar; unwrap1 lia; auto).
  replace (t * 32897 =? 0) with (t =? 0) by lia.
  assert (E1 : Z.shiftr (mul machine (t * 32897) da) 23 = a1 /\ Z.shiftr (mul ideal (t * 32897) da) 23 = a1).
  { openar. unwrap1 nia. rewrite SH by lia. auto. }
  assert (E2 : Z.shiftr (mul machine (t * 32897) (sub machine 255 da)) 23 = a2 /\ Z.shiftr (mul ideal (t * 32897) (sub ideal 255 da)) 23 = a2).
  { openar. unwrap1 lia. unwrap1 nia. rewrite SH by lia. auto. }
  assert (E3 : Z.shiftr (mul machine (sub machine 8388735 (t * 32897)) da) 23 = a3 /\ Z.shiftr (mul ideal (sub ideal 8388735 (t * 32897)) da) 23 = a3).
  { openar. unwrap1 lia. replace (8388735 - t * 32897) with ((255 - t) * 32897) by lia. unwrap1 nia. rewrite SH by lia. auto. }
  destruct E1 as [-> ->], E2 as [-> ->], E3 as [-> ->].
  assert (Ea : wa 255 t da = a1 + a2 + a3) by reflexivity. rewrite Ea in *.
  assert (add machine (add machine a1 a2) a3 = a1 + a2 + a3 /\ add ideal (add ideal a1 a2) a3 = a1 + a2 + a3) as [-> ->].
  { clearbody a1 a2 a3. openar. unwrap1 lia. unwrap1 lia. auto. }
  clear Ea SH T1 T2. clearbody a1 a2 a3 t.
  destruct (Z.eqb_spec t 0); cbn [orb]; [auto|]. destruct (Z.eqb_spec (a1 + a2 + a3) 0); [auto|].
  assert (O : forall c sc dc, 0 <= c <= chan_top W8 m -> 0 <= sc <= 255 -> 0 <= dc <= 255 ->
    0 <= out8 m a1 a2 a3 c sc dc <= 255 /\
    (let? q := udiv (wsum machine a1 a2 a3 c sc dc) (a1 + a2 + a3) in Some (w8 machine (if overmax m then clip W8 q else q))) = Some (out8 m a1 a2 a3 c sc dc) /\
    (let? q := udiv (wsum ideal a1 a2 a3 c sc dc) (a1 + a2 + a3) in Some (w8 ideal (if overmax m then clip W8 q else q))) = Some (out8 m a1 a2 a3 c sc dc)).
  { intros c sc dc Hc Hsc Hdc.
    assert (chan_top W8 m <= 510) by (unfold chan_top; destruct (overmax m); cbn; lia).
    assert (0 <= c * a1 <= 130050 /\ 0 <= sc * a2 <= 65025 /\ 0 <= dc * a3 <= 65025) as (B1 & B2 & B3) by (repeat split; nia).
    assert (wsum machine a1 a2 a3 c sc dc = c * a1 + sc * a2 + dc * a3 /\ wsum ideal a1 a2 a3 c sc dc = c * a1 + sc * a2 + dc * a3) as [-> ->].
    { unfold wsum. openar. repeat unwrap1 lia. auto. }
    rewrite udiv_pos by lia. unfold out8. set (S := c * a1 + sc * a2 + dc * a3) in *.
    assert (0 <= S / (a1 + a2 + a3)) by (apply Z.div_pos; lia).
    unfold chan_top in Hc. unfold clip. cbn [maxv] in *. destruct (overmax m).
    - set (q := S / (a1 + a2 + a3)) in *. clearbody q. openar. destruct (Z.ltb_spec q 255).
      + rewrite u8_small by lia. rewrite Z.min_l by lia. split; [lia|auto].
      + rewrite u8_small by lia. rewrite Z.min_r by lia. split; [lia|auto].
    - assert (S <= 255 * (a1 + a2 + a3)) by (unfold S; nia).
      assert (S / (a1 + a2 + a3) <= 255) by (apply Z.div_le_upper_bound; lia).
      set (q := S / (a1 + a2 + a3)) in *. clearbody q. openar. rewrite u8_small by lia. split; [lia|auto]. }
  cbn [triple_in] in M3.
  destruct (O r sr dr) as (Or & -> & ->); try lia. destruct (O g sg dg) as (Og & -> & ->); try lia.
  destruct (O b sb db) as (Ob & -> & ->); try lia.
  openar. rewrite u8_small by lia. cbn [pr pg pb pa]. split; [reflexivity|]. split; [reflexivity|]. lia.
Qed.
