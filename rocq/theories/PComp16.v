(** The paths that compute with 16 bits follow the compositing formula. *)
From Coq Require Import QArith.
From Verif Require Import Base BaseFacts MBlend SHsl PHsl16 SBlend SWide PLum PBlend PBlend2 PWide PFloat PWide2 POver PFormula16 PLum16.
Open Scope Z_scope.

Lemma chan_formula16 m s d : is_separable m = true -> 0 <= s <= 65535 -> 0 <= d <= 65535 ->
  exists c, chan machine W16 m s d = Some c /\ within_formula16 m s d c = true.
Proof.
  intros Hm Hs Hd. destruct (chan_ok W16 m s d) as (c & E1 & E2 & _); [now rewrite <- separable_eq|exact Hs|exact Hd|].
  pose proof (formulas16_ok m s d Hm Hs Hd) as F. unfold formula16_ok in F. rewrite E2 in F. eauto.
Qed.

Lemma mix_doc16 m s d c : triple_in 65535 s -> triple_in 65535 d -> triple_in 65535 c -> mix machine W16 m s d = Some c -> doc_colour16 m s d c.
Proof.
  intros Hs Hd Hc E. destruct s as [[sr sg] sb], d as [[dr dg] db], c as [[r g] b]. cbn [triple_in] in Hs, Hd, Hc.
  destruct (is_separable m) eqn:Sep.
  - assert (X : within_formula16 m sr dr r = true /\ within_formula16 m sg dg g = true /\ within_formula16 m sb db b = true).
    { destruct (chan_formula16 m sr dr Sep) as (r0 & E1 & F1); try lia. destruct (chan_formula16 m sg dg Sep) as (g0 & E2 & F2); try lia.
      destruct (chan_formula16 m sb db Sep) as (b0 & E3 & F3); try lia.
      assert (mix machine W16 m (sr, sg, sb) (dr, dg, db) = Some (r0, g0, b0)) as E'
        by (destruct m; try discriminate Sep; cbn [mix]; rewrite E1, E2, E3; reflexivity).
      rewrite E in E'. injection E' as -> -> ->. auto. }
    destruct m; try discriminate Sep; exact X.
  - destruct m; try discriminate Sep; cbn [doc_colour16] in *;
      try (split; [lia|]; match goal with |- match ?x with _ => _ end => destruct x eqn:Em; [|discriminate Em] end;
           destruct (mix_down _ (sr, sg, sb) (dr, dg, db) Hs Hd _ Em) as (v & Ev & Hv); rewrite E in Ev; injection Ev as <-; exact Hv);
      cbn [mix] in E.
    + rewrite lumlt16_eq in E by (cbn [triple_in]; lia). injection E as E. now rewrite <- E.
    + rewrite lumlt16_eq in E by (cbn [triple_in]; lia). injection E as E. now rewrite <- E.
Qed.

Lemma w_split16 t a : 0 <= t <= 65535 -> 0 <= a <= 65535 -> exists f1 f2 f3,
  t * a = 65535 * w1 65535 t a + f1 /\ t * (65535 - a) = 65535 * w2 65535 t a + f2 /\ (65535 - t) * a = 65535 * w3 65535 t a + f3 /\
  0 <= f1 < 65535 /\ 0 <= f2 < 65535 /\ 0 <= f3 < 65535 /\ (f1 + f2 = 0 /\ f3 = 0 \/ f1 + f2 = 65535 /\ f1 + f3 = 65535).
Proof.
  intros Ht Ha. exists (t * a mod 65535), (t * (65535 - a) mod 65535), ((65535 - t) * a mod 65535). unfold w1, w2, w3.
  assert (P1 : 0 <= t * a) by (apply Z.mul_nonneg_nonneg; lia). assert (P2 : 0 <= t * (65535 - a)) by (apply Z.mul_nonneg_nonneg; lia).
  assert (P3 : 0 <= (65535 - t) * a) by (apply Z.mul_nonneg_nonneg; lia).
  assert (M1 : (t * a + t * (65535 - a)) mod 65535 = 0) by (replace (t * a + t * (65535 - a)) with (t * 65535) by lia; apply Z.mod_mul; lia).
  assert (M2 : (t * a + (65535 - t) * a) mod 65535 = 0) by (replace (t * a + (65535 - t) * a) with (a * 65535) by lia; apply Z.mod_mul; lia).
  pose proof (floors _ _ 65535 ltac:(lia) M1 P1 P2) as F. pose proof (floors _ _ 65535 ltac:(lia) M2 P1 P3) as G. clear M1 M2.
  set (x := t * a) in *. set (y := t * (65535 - a)) in *. set (z := (65535 - t) * a) in *. clearbody x y z.
  pose proof (Z.mod_pos_bound x 65535 ltac:(lia)). pose proof (Z.mod_pos_bound y 65535 ltac:(lia)). pose proof (Z.mod_pos_bound z 65535 ltac:(lia)).
  split; [apply Z.div_mod; lia|]. split; [apply Z.div_mod; lia|]. split; [apply Z.div_mod; lia|].
  repeat (split; [assumption|]). lia.
Qed.

Lemma wa_union t a : 0 <= t <= 65535 -> 0 <= a <= 65535 -> union16 t a (wa 65535 t a).
Proof.
  intros Ht Ha. destruct (w_split16 t a Ht Ha) as (f1 & f2 & f3 & E1 & E2 & E3 & F1 & F2 & F3 & F).
  unfold union16, wa. replace (65535 * (t + a) - t * a) with (t * a + t * (65535 - a) + (65535 - t) * a) by ring. lia.
Qed.

Lemma comp16 t a s d b : 0 <= t <= 65535 -> 0 <= a <= 65535 -> 0 <= s <= 65535 -> 0 <= d <= 65535 -> 0 <= b <= 65535 ->
  let num := b * w1 65535 t a + s * w2 65535 t a + d * w3 65535 t a in
  65535 * num <= compositing16 t a s d b <= 65535 * num + 2 * 65535 * 65535.
Proof.
  intros Ht Ha Hs Hd Hb num. destruct (w_split16 t a Ht Ha) as (f1 & f2 & f3 & E1 & E2 & E3 & F1 & F2 & F3 & F).
  unfold compositing16. rewrite E1, E2, E3. unfold num. clear num.
  set (a1 := w1 65535 t a) in *. set (a2 := w2 65535 t a) in *. set (a3 := w3 65535 t a) in *. clearbody a1 a2 a3. clear E1 E2 E3.
  replace ((65535 * a2 + f2) * s + (65535 * a1 + f1) * b + (65535 * a3 + f3) * d) with (65535 * (b * a1 + s * a2 + d * a3) + (f1 * b + f2 * s + f3 * d)) by ring.
  assert (0 <= f1 * b <= f1 * 65535) by (split; [apply Z.mul_nonneg_nonneg; lia|apply Z.mul_le_mono_nonneg_l; lia]).
  assert (0 <= f2 * s <= f2 * 65535) by (split; [apply Z.mul_nonneg_nonneg; lia|apply Z.mul_le_mono_nonneg_l; lia]).
  assert (0 <= f3 * d <= f3 * 65535) by (split; [apply Z.mul_nonneg_nonneg; lia|apply Z.mul_le_mono_nonneg_l; lia]). lia.
Qed.

Lemma comp16_pre t a s d b : 0 <= t <= 65535 -> 0 <= a <= 65535 -> 0 <= s <= 65535 -> 0 <= d <= 65535 -> 0 <= b <= 65535 -> forall ao,
  composited16 true (compositing16 t a s d b) ao (outF (w1 65535 t a) (w2 65535 t a) (w3 65535 t a) b s d).
Proof.
  intros Ht Ha Hs Hd Hb ao. pose proof (comp16 t a s d b Ht Ha Hs Hd Hb) as C. cbv zeta in C. unfold composited16, outF.
  set (num := b * w1 65535 t a + s * w2 65535 t a + d * w3 65535 t a) in *. set (e := compositing16 t a s d b) in *. clearbody num e. lia.
Qed.
Lemma comp16_str t a s d b : 0 <= t <= 65535 -> 0 <= a <= 65535 -> 0 <= s <= 65535 -> 0 <= d <= 65535 -> 0 <= b <= 65535 -> wa 65535 t a <> 0 ->
  composited16 false (compositing16 t a s d b) (wa 65535 t a) ((b * w1 65535 t a + s * w2 65535 t a + d * w3 65535 t a) / wa 65535 t a).
Proof.
  intros Ht Ha Hs Hd Hb Hw. pose proof (comp16 t a s d b Ht Ha Hs Hd Hb) as C. cbv zeta in C. unfold composited16.
  destruct (weights_range 65535 t a) as (G1 & G2 & G3 & G); try lia.
  assert (0 < wa 65535 t a) by (unfold wa in *; lia).
  set (num := b * w1 65535 t a + s * w2 65535 t a + d * w3 65535 t a) in *. set (e := compositing16 t a s d b) in *. set (ao := wa 65535 t a) in *. clearbody num e ao.
  pose proof (Z.mul_div_le num ao ltac:(lia)). pose proof (Z.mul_succ_div_gt num ao ltac:(lia)).
  set (q := num / ao) in *. clearbody q. lia.
Qed.

Lemma straight_eq p a c : straight p a c = unm p (a * 257) (c * 257).
Proof.
  unfold straight, unm. destruct p; [|reflexivity]. destruct (Z.eqb_spec a 0) as [->|]; [reflexivity|].
  destruct (Z.eqb_spec (a * 257) 0); [lia|]. replace (c * 257 * 65535) with (c * 65535 * 257) by ring. now rewrite Z.div_mul_cancel_r by lia.
Qed.

Lemma wide_composited m sp dp alpha s d : m <> Add -> 0 <= alpha <= 255 -> pixel_ok s -> pixel_ok d ->
  (sp = true -> premul_ok 255 s) -> (dp = true -> premul_ok 255 d) ->
  let S c := straight sp (pa s) (c s) in let D c := straight dp (pa d) (c d) in
  exists r g b p, doc_colour16 m (S pr, S pg, S pb) (D pr, D pg, D pb) (r, g, b) /\ blendW machine m sp dp alpha s d = Some p /\
    let t := pa s * alpha * 257 / 255 in let a := pa d * 257 in
    (t = 0 -> p = d) /\
    (t <> 0 -> exists ao, union16 t a ao /\ pa p = ao / 256 /\
      forall c x, In (c, x) [(pr, r); (pg, g); (pb, b)] ->
        exists q, composited16 dp (compositing16 t a (S c) (D c) x) ao q /\ c p = q / 256).
Proof.
  intros Hm Ha Hs Hd Hsp Hdp S D. assert (Ho : overmax m = false) by (destruct m; try reflexivity; now destruct Hm).
  pose proof (unm3_in sp s Hs Hsp) as S3. pose proof (unm3_in dp d Hd Hdp) as D3.
  destruct (blendW_eq m sp dp alpha s d Ha Hs Hd Hsp Hdp (mix16_ok m _ _ Ho S3 D3)) as (_ & _ & Ht & r & g & b & M & T & E).
  cbv zeta in E, Ht. unfold unm3 in *. cbv zeta in E.
  assert (ES : forall c, unm sp (pa s * 257) (c s * 257) = S c) by (intros; symmetry; apply straight_eq).
  assert (ED : forall c, unm dp (pa d * 257) (c d * 257) = D c) by (intros; symmetry; apply straight_eq).
  rewrite !ES in *. rewrite !ED in *. clear ES ED. clearbody S D.
  exists r, g, b. eexists. split; [exact (mix_doc16 m _ _ _ S3 D3 T M)|]. split; [exact (proj1 E)|]. clear E M. cbv zeta.
  set (t := pa s * alpha * 257 / 255) in *. clearbody t. unfold pixel_ok in Hd. cbn [triple_in] in S3, D3, T.
  assert (Hda : 0 <= pa d * 257 <= 65535) by lia.
  split; [intros ->; reflexivity|]. intros Nt. destruct (Z.eqb_spec t 0); [easy|]. cbn [orb].
  pose proof (wa_union t (pa d * 257) Ht Hda) as U.
  assert (W : wa 65535 t (pa d * 257) <> 0).
  { intros W. assert (pa d = 0 \/ 1 <= pa d) as [Z|Z] by lia.
    - rewrite Z in W. unfold wa, w1, w2, w3 in W. rewrite Z.mul_0_l, !Z.mul_0_r, Z.sub_0_r, Z.div_mul in W by lia. change (0 / 65535) with 0 in W. lia.
    - rewrite W in U. unfold union16 in U. assert (t * (pa d * 257) <= t * 65535) by (apply Z.mul_le_mono_nonneg_l; lia). lia. }
  destruct (Z.eqb_spec (wa 65535 t (pa d * 257)) 0); [easy|]. cbn [pr pg pb pa].
  exists (wa 65535 t (pa d * 257)). split; [exact U|]. split; [reflexivity|].
  assert (O : forall sc dc x, 0 <= sc <= 65535 -> 0 <= dc <= 65535 -> 0 <= x <= 65535 ->
    exists q, composited16 dp (compositing16 t (pa d * 257) sc dc x) (wa 65535 t (pa d * 257)) q /\
      outW dp (w1 65535 t (pa d * 257)) (w2 65535 t (pa d * 257)) (w3 65535 t (pa d * 257)) x sc dc = q / 256).
  { intros sc dc x Hsc Hdc Hx. unfold outW. destruct dp; eexists; (split; [|reflexivity]).
    - apply comp16_pre; lia.
    - apply comp16_str; assumption || lia. }
  intros c x [X|[X|[X|[]]]]; injection X as <- <-; cbn [pr pg pb pa]; apply O; lia.
Qed.

Lemma fallback_composited m ma s d : m <> Add -> 0 <= ma <= 65535 -> premul_ok 65535 s -> premul_ok 65535 d ->
  let S c := if pa s =? 0 then 0 else c s * 65535 / pa s in let D c := if pa d =? 0 then 0 else c d * 65535 / pa d in
  let t := pa s * ma / 65535 in
  exists r g b o, doc_colour16 m (S pr, S pg, S pb) (D pr, D pg, D pb) (r, g, b) /\ blendF machine m ma s d = Some o /\
    match o with
    | None => t <= 1 /\ (ma = 0 \/ pa d <= 1)
    | Some p => union16 t (pa d) (pa p) /\
        forall c x, In (c, x) [(pr, r); (pg, g); (pb, b)] -> composited16 true (compositing16 t (pa d) (S c) (D c) x) (pa p) (c p)
    end.
Proof.
  intros Hm Ha Hs Hd S D t. assert (Ho : overmax m = false) by (destruct m; try reflexivity; now destruct Hm).
  pose proof (unm3_inF s Hs) as S3. pose proof (unm3_inF d Hd) as D3.
  destruct (blendF_eq m ma s d Ho Ha Hs Hd (mix16_ok m _ _ Ho S3 D3)) as (_ & _ & Ht & r & g & b & M & T & E).
  cbv zeta in E, Ht. fold t in E, Ht. unfold unm3 in *. cbv zeta in E. unfold unm in *. cbv iota in *.
  change (if pa s =? 0 then 0 else pr s * 65535 / pa s) with (S pr) in *. change (if pa s =? 0 then 0 else pg s * 65535 / pa s) with (S pg) in *.
  change (if pa s =? 0 then 0 else pb s * 65535 / pa s) with (S pb) in *. change (if pa d =? 0 then 0 else pr d * 65535 / pa d) with (D pr) in *.
  change (if pa d =? 0 then 0 else pg d * 65535 / pa d) with (D pg) in *. change (if pa d =? 0 then 0 else pb d * 65535 / pa d) with (D pb) in *.
  clearbody S D. exists r, g, b. eexists. split; [exact (mix_doc16 m _ _ _ S3 D3 T M)|]. split; [exact (proj1 E)|]. clear E M.
  unfold premul_ok in Hd, Hs. cbn [triple_in] in S3, D3, T. assert (Hda : 0 <= pa d <= 65535) by lia.
  assert (T0 : ma = 0 -> t = 0) by (intros ->; unfold t; rewrite Z.mul_0_r; reflexivity). clearbody t.
  pose proof (wa_union t (pa d) Ht Hda) as U.
  destruct (Z.eqb_spec ma 0) as [Z|Z]; cbn [orb]. { rewrite (T0 Z). lia. }
  destruct (Z.eqb_spec (wa 65535 t (pa d)) 0) as [W|W].
  { rewrite W in U. unfold union16 in U. assert (t <= 1 /\ pa d <= 1); [|lia].
    assert (t * pa d <= t * 65535) by (apply Z.mul_le_mono_nonneg_l; lia). assert (t * pa d <= 65535 * pa d) by (apply Z.mul_le_mono_nonneg_r; lia). lia. }
  cbn [pa]. split; [exact U|].
  intros c x [X|[X|[X|[]]]]; injection X as <- <-; cbn [pr pg pb pa]; apply comp16_pre; lia.
Qed.
