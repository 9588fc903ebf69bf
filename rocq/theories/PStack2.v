(** Proofs: a stack of layers over an opaque picture, from the bytes of the file to the pixels. *)
From Coq Require Import String QArith.
From Verif Require Import Base BaseFacts SUtil SConfig MRect MPicker MConfig MReader MLayer MApi SCompress SRecord SLayer XRecord PRecord3
  MSched MBlend MPorter SBlend PBlend PLum PBlend3 SPorter PPorter MWait MRender SRender MRenderAll SRenderAll MRenderPx PRenderPx
  MDraw MTile STile MLoad SLoad MPipe SPipe PPipe2 PPipe4 PPipe5 SSharp PSharp2 PSharp3 SGlass PGlass1 PGlass2 PGlass4 SOver POver PTop SStack PStack1.
Close Scope string_scope.
Open Scope Z_scope.

Definition in_range (c : colour) : Prop := let '(r, g, b) := c in (0 <= r <= 255 # 1 /\ 0 <= g <= 255 # 1 /\ 0 <= b <= 255 # 1)%Q.

Lemma stored_near s : pixel_ok s -> (pa s = 0 -> s = nothing) -> pa (stored s) = pa s /\
  (pr s - 1 <= pr (stored s) <= pr s /\ pg s - 1 <= pg (stored s) <= pg s /\ pb s - 1 <= pb (stored s) <= pb s) /\ (128 <= pa s -> stored s = s).
Proof.
  intros Hs H0. destruct (straight_copy s nothing Hs nothing_ok) as (p & X & Y1 & Y2 & Y3 & Y4). destruct (pdpx_eq Copy s nothing Hs nothing_ok) as [Z _].
  change (stored s) with (pdpx Copy s nothing) in *. rewrite X in Z. injection Z as <-. split; [exact Y1|]. split; [|intros; apply Y4; lia].
  destruct (Z.eq_dec (pa s) 0) as [E|E].
  - rewrite (Y2 E), (H0 E). cbn. lia.
  - apply Y3. unfold pixel_ok in Hs. lia.
Qed.
Lemma leaf_none l p v : leaf_value l p v -> pa v = 0 -> v = nothing.
Proof.
  unfold leaf_value. destruct (pt_in p (sl_rect l)); [|intros ->; reflexivity].
  intros (dr & dg & db & r & g & b & a & _ & _ & _ & _ & _ & _ & _ & ->). destruct (Z.eqb_spec a 0); [reflexivity|]. cbn. lia.
Qed.

(** A colour and an alpha that were multiplied with a mask in 16 bits and divided again *)
Lemma mask_alpha A m : 0 <= A <= 255 -> 0 <= m <= 255 ->
  let X := A * m in let a := A * 257 * (m * 257) / 65535 in
  -254 <= 255 * (a / 256) - X <= 254 /\ 255 * a <= 257 * X < 255 * a + 255.
Proof.
  intros HA Hm X a. assert (0 <= X <= 65025) by (unfold X; nia). assert (a = 257 * X / 255) as Ea.
  { unfold a, X. replace (A * 257 * (m * 257)) with (257 * (A * m) * 257) by ring. change 65535 with (255 * 257). rewrite Z.div_mul_cancel_r by lia. reflexivity. }
  rewrite Ea. lia.
Qed.
Lemma mask_colour_near c A m : 0 <= c <= 255 -> 0 <= A <= 255 -> 0 <= m <= 255 ->
  let X := A * m in let a := A * 257 * (m * 257) / 65535 in
  let c' := c * 257 * (A * 257) / 65535 * (m * 257) / 65535 * 65535 / a / 256 in
  256 <= a -> c' <= 255 -> Z.abs (c - c') * X <= X + 506.
Proof.
  intros Hc HA Hm X a c' Ha Hc'. destruct (mask_alpha A m HA Hm) as [_ Ba]. fold X a in Ba. assert (0 <= X <= 65025) as HX by (unfold X; nia).
  set (c1 := c * 257 * (A * 257) / 65535) in *. assert (c1 = 257 * (c * A) / 255) as E1.
  { unfold c1. replace (c * 257 * (A * 257)) with (257 * (c * A) * 257) by ring. change 65535 with (255 * 257). rewrite Z.div_mul_cancel_r by lia. reflexivity. }
  assert (255 * c1 <= 257 * (c * A) <= 255 * c1 + 254) as B1 by (rewrite E1; lia). clear E1. clearbody c1.
  set (c2 := c1 * (m * 257) / 65535) in *. assert (c2 = c1 * m / 255) as E2.
  { unfold c2. replace (c1 * (m * 257)) with (c1 * m * 257) by ring. change 65535 with (255 * 257). rewrite Z.div_mul_cancel_r by lia. reflexivity. }
  assert (255 * c2 <= c1 * m <= 255 * c2 + 254) as B2 by (rewrite E2; lia). clear E2. clearbody c2.
  assert (0 <= c1) as P1 by nia. assert (0 <= c2) as P2 by nia.
  set (q := c2 * 65535 / a) in *. assert (q * a <= c2 * 65535 < q * a + a) as Bq. { unfold q. pose proof (Z.div_mod (c2 * 65535) a ltac:(lia)). pose proof (Z.mod_pos_bound (c2 * 65535) a ltac:(lia)). nia. }
  assert (256 * c' <= q <= 256 * c' + 255) as Bc by (unfold c'; lia). clearbody q c' a.
  assert (0 <= c') as P3. { destruct (Z.lt_ge_cases c' 0); [|lia]. nia. }
  assert (255 * (c1 * m) <= 257 * (c * X) <= 255 * (c1 * m) + 254 * m) as B3 by (unfold X; nia).
  (* downwards *)
  assert ((c - c' - 1) * X <= 506) as Lo.
  { assert (256 * (c' + 1) * a > 65535 * c2) by nia. assert (256 * (c' + 1) * (257 * X) >= 256 * (c' + 1) * (255 * a)) by nia. nia. }
  (* upwards *)
  assert (c' <= c + 1) as Hi.
  { destruct (Z.le_gt_cases c' (c + 1)) as [?|Gt]; [assumption|exfalso]. assert (255 <= X) by lia.
    assert (256 * c' * a <= 65535 * c2) by nia. assert (255 * (255 * c2) <= 257 * (c * X)) by lia.
    assert (256 * c' * (255 * a) <= 257 * 257 * (c * X)) by lia. assert (256 * c' * (257 * X - 254) <= 66049 * (c * X)) by nia.
    assert (256 * (c + 2) * (257 * X - 254) <= 256 * c' * (257 * X - 254)) by nia.
    assert (c <= 253) by lia. nia. }
  destruct (Z.abs_spec (c - c')) as [[? ->]|[? ->]]; nia.
Qed.

Lemma pdmask_out m s : byte m -> pdmask DestOut (255 - m) s = pdmask DestIn m s.
Proof. intros Hm. unfold pdmask, textbook. cbn [pr pg pb pa frac_src frac_dest]. replace (65535 - (255 - m) * 257) with (m * 257) by lia. rewrite !Z.mul_0_r. reflexivity. Qed.

Lemma mask_near s m : pixel_ok s -> (pa s = 0 -> s = nothing) -> byte m ->
  let v := pdmask DestIn m (stored s) in let X := pa s * m in
  -254 <= 255 * pa v - X <= 254 /\ Z.abs (pr s - pr v) * X <= 65531 /\ Z.abs (pg s - pg v) * X <= 65531 /\ Z.abs (pb s - pb v) * X <= 65531.
Proof.
  intros Hs H0 Hm v X. destruct (stored_near s Hs H0) as (Sa & (S1 & S2 & S3) & Sb). pose proof (stored_ok s Hs) as Hst.
  destruct (pdmask_eq DestIn m (stored s) Hm Hst) as [_ Hv]. fold v in Hv. unfold byte in Hm.
  assert (Bs : 0 <= pa s <= 255 /\ 0 <= pr s <= 255 /\ 0 <= pg s <= 255 /\ 0 <= pb s <= 255) by (unfold pixel_ok, byte in Hs; lia).
  assert (Bt : 0 <= pr (stored s) <= 255 /\ 0 <= pg (stored s) <= 255 /\ 0 <= pb (stored s) <= 255) by (unfold pixel_ok, byte in Hst; lia).
  assert (Bv : 0 <= pa v <= 255 /\ 0 <= pr v <= 255 /\ 0 <= pg v <= 255 /\ 0 <= pb v <= 255) by (unfold pixel_ok, byte in Hv; lia). clear Hs Hst Hv.
  assert (HX : 0 <= X <= 65025) by (unfold X; nia).
  destruct (mask_alpha (pa s) m ltac:(lia) Hm) as [Al Ba]. cbv zeta in Al, Ba. fold X in Al, Ba. set (a := pa s * 257 * (m * 257) / 65535) in *.
  set (f := fun c => c * 257 * (pa s * 257) / 65535 * (m * 257) / 65535 * 65535 / a / 256).
  assert (Ev : v = if a =? 0 then nothing else Px (f (pr (stored s))) (f (pg (stored s))) (f (pb (stored s))) (a / 256)).
  { unfold v, pdmask, textbook, out16, unmulx, src16, premulx, wide. cbn [pr pg pb pa frac_src frac_dest]. rewrite Sa, !Z.mul_0_r, !Z.add_0_l. fold a.
    destruct (a =? 0); reflexivity. }
  assert (Ea : pa v = a / 256). { rewrite Ev. destruct (Z.eqb_spec a 0) as [-> |]; reflexivity. }
  split; [rewrite Ea; exact Al|].
  assert (Ch : forall c c1 c', 0 <= c <= 255 -> 0 <= c' <= 255 -> c - 1 <= c1 <= c -> (128 <= pa s -> c1 = c) -> 0 <= c1 <= 255 -> (256 <= a -> c' = f c1) -> Z.abs (c - c') * X <= 65531).
  { intros c c1 c' Hc Hc' Hcc Hcb Hc1 Hf. destruct (Z.lt_ge_cases a 256) as [Lt|Ge].
    - assert (X <= 254) by lia. assert (Z.abs (c - c') <= 255) by lia. nia.
    - specialize (Hf Ge). pose proof (mask_colour_near c1 (pa s) m Hc1 ltac:(lia) Hm) as N. cbv zeta in N. fold X a in N. change (c1 * 257 * (pa s * 257) / 65535 * (m * 257) / 65535 * 65535 / a / 256) with (f c1) in N.
      rewrite <- Hf in N. specialize (N Ge ltac:(lia)). destruct (Z.le_gt_cases 128 (pa s)) as [B|B].
      + rewrite (Hcb B) in N. lia.
      + assert (X <= 127 * 255) by (unfold X; nia). assert (Z.abs (c - c') <= 1 + Z.abs (c1 - c')) by lia. nia. }
  assert (St : 128 <= pa s -> pr (stored s) = pr s /\ pg (stored s) = pg s /\ pb (stored s) = pb s) by (intros B; now rewrite (Sb B)).
  assert (Big : 256 <= a -> a =? 0 = false) by lia.
  split; [|split].
  - apply (Ch _ (pr (stored s))); try tauto. intros G. rewrite Ev, (Big G). reflexivity.
  - apply (Ch _ (pg (stored s))); try tauto. intros G. rewrite Ev, (Big G). reflexivity.
  - apply (Ch _ (pb (stored s))); try tauto. intros G. rewrite Ev, (Big G). reflexivity.
Qed.

(** The picture of a layer behind its mask *)
Lemma seen_near A p l d s v x : pixel_ok s -> (pa s = 0 -> s = nothing) -> byte v -> has_mask l = true -> mask_at l p v -> masked A p l false d (stored s) x -> A p ->
  pixel_ok x /\ -254 <= 255 * pa x - pa s * v <= 254 /\ Z.abs (pr s - pr x) * (pa s * v) <= 65531 /\ Z.abs (pg s - pg x) * (pa s * v) <= 65531 /\ Z.abs (pb s - pb x) * (pa s * v) <= 65531.
Proof.
  intros Hs H0 Hv Hm Mv Mk Ap. unfold masked in Mk. rewrite Hm in Mk. destruct Mk as (m & s' & Mm & C & ->). assert (m = v) as -> by (eapply mask_only; eauto).
  assert (s' = pdmask DestIn v (stored s) \/ s' = stored s /\ v = 255) as [-> |[-> Hv']].
  { destruct C as [[_ ->]|[_ [[_ ->]|[Al ->]]]]; [now left|left; now apply pdmask_out|right; split; [reflexivity|]]. specialize (Al p Ap). eapply mask_only; eauto. }
  - split; [apply pdmask_eq; [exact Hv|now apply stored_ok]|]. now apply mask_near.
  - split; [now apply stored_ok|]. destruct (stored_near s Hs H0) as (Sa & (S1 & S2 & S3) & _). rewrite Sa. unfold pixel_ok, byte in Hs. subst v. nia.
Qed.

Lemma layer_close l m s v x d c k : gentle m = true -> is_byte (sl_opacity l) -> pixel_ok s -> (pa s = 0 -> s = nothing) -> pixel_ok d -> pa d = 255 ->
  in_range c -> close_to k d c -> byte v -> pixel_ok x ->
  (if has_mask l then -254 <= 255 * pa x - pa s * v <= 254 /\ Z.abs (pr s - pr x) * (pa s * v) <= 65531 /\ Z.abs (pg s - pg x) * (pa s * v) <= 65531 /\ Z.abs (pb s - pb x) * (pa s * v) <= 65531
   else v = 255 /\ x = stored s) ->
  let d' := blended m (sl_opacity l) x d in
  pixel_ok d' /\ pa d' = 255 /\ in_range (exact_layer l m s v c) /\ close_to (cost m + mask_cost l + k) d' (exact_layer l m s v c).
Proof.
  intros G Ho Hs Hn Hd Hp Hr Hc Hv Hst Nx d'.
  destruct (blend_composited m (sl_opacity l) x d (isb _ Ho) Hst Hd) as (r & g & b & p & Dc & Eb & _ & _ & _ & Bt). cbv zeta in Bt. specialize (Bt Hp).
  assert (pixel_ok d') as Hd'. { destruct (blend8_range m (sl_opacity l) x d (isb _ Ho) Hst Hd) as (c' & E' & _ & X). unfold d', blended. now rewrite E'. }
  assert (d' = p) as Ep by (unfold d', blended; now rewrite Eb). rewrite Bt in Ep. clear Bt Eb. split; [exact Hd'|]. split; [now rewrite Ep|].
  assert (within_formula m (pr x) (pr d) r = true /\ within_formula m (pg x) (pg d) g = true /\ within_formula m (pb x) (pb d) b = true) as (F1 & F2 & F3)
    by (destruct m; try discriminate G; exact Dc).
  destruct c as [[cr cg] cb]. cbn [exact_layer in_range close_to] in *. destruct Hr as (R1 & R2 & R3). destruct Hc as (C1 & C2 & C3).
  pose proof (isb _ Ho) as Ho'. unfold byte in Ho', Hv. unfold pixel_ok, byte in Hs, Hst, Hd.
  assert (0 <= exact_alpha l s v <= 1)%Q as Ht.
  { unfold exact_alpha. pose proof (unit_range (pa s) ltac:(lia)). pose proof (unit_range (sl_opacity l) Ho'). pose proof (unit_range v Hv).
    assert (0 <= SBlend.unit (pa s) * SBlend.unit v <= 1)%Q by (split; Lqa.nra). split; Lqa.nra. }
  split. { repeat split; apply (exact_range m _ _ _ G Ht); auto; lia. }
  rewrite Ep. cbn [pr pg pb]. unfold mask_cost. destruct (has_mask l).
  - destruct Nx as (N0 & N1 & N2 & N3).
    assert (exact_alpha l s v == (pa s * v # 65025) * SBlend.unit (sl_opacity l))%Q as Et by (unfold exact_alpha, SBlend.unit, Qeq; cbn; lia).
    assert (0 <= pa s * v <= 65025) as HX by nia. change (3 # 1)%Q with 3%Q.
    split; [|split].
    + apply (channel_masked m _ (pa x) (pa s * v) (sl_opacity l) (pr s) (pr x) (pr d) r cr k Et G); auto; lia.
    + apply (channel_masked m _ (pa x) (pa s * v) (sl_opacity l) (pg s) (pg x) (pg d) g cg k Et G); auto; lia.
    + apply (channel_masked m _ (pa x) (pa s * v) (sl_opacity l) (pb s) (pb x) (pb d) b cb k Et G); auto; lia.
  - destruct Nx as [-> ->]. destruct (stored_near s Hs Hn) as (Sa & (S1 & S2 & S3) & Sb). rewrite Sa.
    assert (exact_alpha l s 255 == SBlend.unit (pa s) * SBlend.unit (sl_opacity l))%Q as Et by (unfold exact_alpha, SBlend.unit, Qeq; cbn; lia).
    assert (forall u e, close (cost m + k) u e -> close (cost m + 0 + k) u e) as Z0 by (intros u e; unfold close; rewrite Qplus_0_r; auto).
    split; [|split]; apply Z0.
    + apply (channel_close m _ (pa s) (sl_opacity l) (pr s) (pr (stored s)) (pr d) r cr k Et G); auto; try lia. intros B. now rewrite (Sb B).
    + apply (channel_close m _ (pa s) (sl_opacity l) (pg s) (pg (stored s)) (pg d) g cg k Et G); auto; try lia. intros B. now rewrite (Sb B).
    + apply (channel_close m _ (pa s) (sl_opacity l) (pb s) (pb (stored s)) (pb d) b cb k Et G); auto; try lia. intros B. now rewrite (Sb B).
Qed.

Lemma laid_hidden A p sf l d : laid A p None sf nothing d -> sl_clip l = 0 -> hidden l = true -> laid A p None (sf ++ [SLeaf l]) nothing d.
Proof.
  intros L C H. inversion L as [? ? gs ? ? G Hp]; subst. econstructor; [apply grouped_top; [exact G|unfold clips; cbn [rec_of]; now rewrite C]|].
  eapply heaped_app; [exact Hp|]. econstructor; [|constructor]. cbn [within rec_of]. apply put_unseen. now left.
Qed.

(** What the mask leaves; constructively the square cannot be searched for a value that is not white. *)
Lemma masked_some (A : point -> Prop) p l d s : (forall q, A q -> exists v, mask_at l q v) -> A p -> ~ ~ exists x, masked A p l false d s x.
Proof.
  intros Ex Ap N. unfold masked in N. destruct (has_mask l); [|eauto]. destruct (Ex p Ap) as [m Hm]. destruct (Z.eq_dec (mask_colour l) 0) as [E|E].
  { apply N. eexists. exists m. eexists. split; [exact Hm|]. split; [left; split; [exact E|reflexivity]|reflexivity]. }
  assert (~ exists q m', A q /\ mask_at l q m' /\ m' <> 255) as No.
  { intros Y. apply N. eexists. exists m. eexists. split; [exact Hm|]. split; [right; split; [exact E|left; split; [exact Y|reflexivity]]|reflexivity]. }
  apply N. eexists. exists m. eexists. split; [exact Hm|]. split; [right; split; [exact E|right; split; [|reflexivity]]|reflexivity].
  intros q Hq. destruct (Ex q Hq) as [v Hv]. destruct (Z.eq_dec v 255) as [-> |V]; [exact Hv|]. exfalso. apply No. eauto.
Qed.
Lemma laid_masked A p sf l m s x d : laid A p None sf nothing d -> sl_clip l = 0 -> hidden l = false -> masked A p l false d (stored s) x ->
  leaf_mode l m -> leaf_value l p s -> pixel_ok x -> pixel_ok d -> laid A p None (sf ++ [SLeaf l]) nothing (blended m (sl_opacity l) x d).
Proof.
  intros L C H M Lm Lv Hx Hd. inversion L as [? ? gs ? ? G Hp]; subst. econstructor; [apply grouped_top; [exact G|unfold clips; cbn [rec_of]; now rewrite C]|].
  eapply heaped_app; [exact Hp|]. econstructor; [|constructor]. cbn [within rec_of]. destruct (Z.eq_dec (sl_opacity l) 0) as [O|O].
  - rewrite O, blended_op0 by auto. apply put_unseen. now right.
  - eapply put_over; [exact H|exact O|exact Lm| |].
    + econstructor; [exact Lv|exact M].
    + apply topped_alone. now left.
Qed.

(** The planes hold a value for every point of the rectangle. *)
Lemma sample (d : bytes) r p : zlen d = rdx r * rdy r -> pt_in p r = true -> exists v, nth_error d (Z.to_nat ((py p - ry0 r) * rdx r + (MRect.px p - rx0 r))) = Some v.
Proof.
  intros L I. unfold pt_in, rdx, rdy in *. destruct (nth_error d _) as [v|] eqn:E; [eauto|exfalso]. apply nth_error_None in E. unfold zlen in L.
  assert (rx0 r <= MRect.px p < rx1 r /\ ry0 r <= py p < ry1 r) as [B1 B2] by lia. nia.
Qed.
Lemma leaf_exists inflate large l p : slayer_valid inflate large 8 3 l -> glass_picture l -> exists s, leaf_value l p s.
Proof.
  intros V (_ & _ & (dr & Er & _) & (dg & Eg & _) & (db & Eb & _) & _). unfold leaf_value. destruct (pt_in p (sl_rect l)) eqn:I; [|eauto]. cbv zeta.
  destruct (sample dr (sl_rect l) p (chan_len _ _ _ _ _ _ V Er ltac:(lia) ltac:(lia)) I) as [r Hr].
  destruct (sample dg (sl_rect l) p (chan_len _ _ _ _ _ _ V Eg ltac:(lia) ltac:(lia)) I) as [g Hg].
  destruct (sample db (sl_rect l) p (chan_len _ _ _ _ _ _ V Eb ltac:(lia) ltac:(lia)) I) as [b Hb].
  assert (exists a, match chan_data l 8 (-1) with Some da => nth_error da (Z.to_nat ((py p - ry0 (sl_rect l)) * rdx (sl_rect l) + (MRect.px p - rx0 (sl_rect l)))) = Some a | None => a = 255 end) as [a Ha].
  { destruct (chan_data l 8 (-1)) as [da|] eqn:Ea; [|eauto]. exact (sample da (sl_rect l) p (chan_len _ _ _ _ _ _ V Ea ltac:(lia) ltac:(lia)) I). }
  eexists. exists dr, dg, db, r, g, b, a. repeat (split; [assumption|]). reflexivity.
Qed.
Lemma mask_exists inflate large l th p : slayer_valid inflate large 8 3 l -> glass_mask l th -> has_mask l = true -> exists v, mask_at l p v /\ byte v.
Proof.
  intros V G H. unfold has_mask in H. apply andb_prop in H. destruct H as [On _]. destruct (G On) as (_ & (d & Ed & Bd) & C01 & _). unfold mask_at.
  destruct (pt_in p (mask_rect l)) eqn:I.
  - pose proof (mask_len inflate large l d V Ed) as Ln. rewrite mask_rect_is in Ln. destruct (sample d (mask_rect l) p Ln I) as [v Hv]. exists v. split; [eauto|].
    unfold bytes_ok in Bd. rewrite Forall_forall in Bd. apply isb, Bd. eapply nth_error_In; eauto.
  - exists (mask_colour l). split; [reflexivity|]. unfold byte. lia.
Qed.
Lemma seen_byte inflate large l p v : slayer_valid inflate large 8 3 l -> glass_mask l false -> seen_at l p v -> byte v.
Proof.
  intros V G. unfold seen_at. destruct (has_mask l) eqn:H; [|intros ->; unfold byte; lia]. intros Mv. destruct (mask_exists inflate large l false p V G H) as (v' & Mv' & B).
  now rewrite (mask_only l p v v' Mv Mv').
Qed.

Lemma stack_close inflate large (A : point -> Prop) p ls c c' k : A p -> stacked p ls c c' k -> Forall gentle_layer ls -> Forall (fun l => glass_tree (SLeaf l)) ls -> Forall (slayer_valid inflate large 8 3) ls ->
  forall sf d k0, laid A p None sf nothing d -> pixel_ok d -> pa d = 255 -> in_range c -> close_to k0 d c ->
  ~ ~ exists d', laid A p None (sf ++ map SLeaf ls) nothing d' /\ pixel_ok d' /\ pa d' = 255 /\ close_to (k + k0) d' c'.
Proof.
  intros Ap. assert (forall k k' v e, (k == k')%Q -> close_to k v e -> close_to k' v e) as Mv.
  { intros k0 k1 v [[x y] z] E. unfold close_to, close. rewrite E. auto. }
  induction 1 as [c|l ls c c' k Hh _ IH|l ls m s v c c' k Hh Lm Lv Sv _ IH]; intros F1 F2 F3 sf d k0 L Hd Hp Hr Hc.
  - intros N. apply N. exists d. cbn [map]. rewrite app_nil_r. split; [exact L|]. split; [exact Hd|]. split; [exact Hp|]. eapply Mv; [|exact Hc]. ring.
  - apply Forall_cons_iff in F1, F2, F3. destruct F1 as [[Cl _] F1], F2 as [_ F2], F3 as [_ F3]. intros N. apply (IH F1 F2 F3 (sf ++ [SLeaf l]) d k0); auto using laid_hidden.
    intros (d' & L' & R). apply N. exists d'. rewrite <- app_assoc in L'. cbn [map]. auto.
  - apply Forall_cons_iff in F1, F2, F3. destruct F1 as [(Cl & G) F1], F2 as [Gl F2], F3 as [V F3]. specialize (G m Lm). inversion Gl as [? Ob Gm Gp|]; subst.
    assert (Hs : pixel_ok s) by (eapply leaf_ok; eauto). pose proof (leaf_none _ _ _ Lv) as H0. pose proof (seen_byte inflate large l p v V Gm Sv) as Bv. unfold seen_at in Sv.
    assert (~ ~ exists x, masked A p l false d (stored s) x) as Mx.
    { destruct (has_mask l) eqn:Hm; [apply masked_some; [|exact Ap]; intros q _; destruct (mask_exists inflate large l false q V Gm Hm) as (y & Y & _); eauto|].
      intros N. apply N. exists (stored s). unfold masked. rewrite Hm. reflexivity. }
    intros N. apply Mx. intros [x Mk].
    assert (pixel_ok x /\ (if has_mask l then -254 <= 255 * pa x - pa s * v <= 254 /\ Z.abs (pr s - pr x) * (pa s * v) <= 65531 /\ Z.abs (pg s - pg x) * (pa s * v) <= 65531 /\ Z.abs (pb s - pb x) * (pa s * v) <= 65531
      else v = 255 /\ x = stored s)) as [Hx Nx].
    { destruct (has_mask l) eqn:Hm; [eapply seen_near; eauto|]. unfold masked in Mk. rewrite Hm in Mk. subst x. split; [now apply stored_ok|auto]. }
    destruct (layer_close l m s v x d c k0 G Ob Hs H0 Hd Hp Hr Hc Bv Hx Nx) as (Hd1 & Hp1 & Hr1 & Hc1).
    apply (IH F1 F2 F3 (sf ++ [SLeaf l]) (blended m (sl_opacity l) x d) (cost m + mask_cost l + k0)%Q); auto.
    { eapply laid_masked; eauto. }
    intros (d' & L' & P1 & P2 & P3). apply N. exists d'. rewrite <- app_assoc in L'. cbn [map]. split; [exact L'|]. split; [exact P1|]. split; [exact P2|]. eapply Mv; [|exact P3]. ring.
Qed.

Lemma close_dec k x e : {close k x e} + {~ close k x e}.
Proof.
  unfold close. destruct (Qlt_le_dec (inject_Z x - e) (- k)) as [A|A]; [right; intros [B _]; exact (Qlt_not_le _ _ A B)|].
  destruct (Qlt_le_dec k (inject_Z x - e)) as [B|B]; [right; intros [_ C]; exact (Qlt_not_le _ _ B C)|left; auto].
Qed.
Lemma shown_dec k v c : {pa v = 255 /\ close_to k v c} + {~ (pa v = 255 /\ close_to k v c)}.
Proof.
  destruct c as [[r g] b]. unfold close_to. destruct (Z.eq_dec (pa v) 255); [|right; tauto]. destruct (close_dec k (pr v) r); [|right; tauto].
  destruct (close_dec k (pg v) g); [|right; tauto]. destruct (close_dec k (pb v) b); [left|right]; tauto.
Qed.

Lemma stack_shown inflate kind procs h rsv cmd res neg pl sf ls pad gmask bs tail rest cpus ts : (1 <= procs)%nat -> (1 <= cpus)%nat -> 0 < ts ->
  header_valid h -> h_mode h = 3 -> h_depth h = 8 -> zlen rsv = 6 -> zlen cmd < 4294967296 ->
  Forall rblock_valid res -> zlen (enc_rblocks res) < 4294967296 ->
  let large := h_version h =? 2 in
  section_valid inflate large neg 8 3 pl (flat_map sflatten (sf ++ map SLeaf ls)) pad gmask bs tail ->
  Forall stree_valid (sf ++ map SLeaf ls) -> glass_forest (sf ++ map SLeaf ls) ->
  Forall gentle_layer ls ->
  let enc := enc_config h rsv cmd res ++ enc_section large neg pl (flat_map sflatten (sf ++ map SLeaf ls)) pad gmask bs tail in
  exists f evs, Decode inflate kind procs newOptions (enc ++ rest) = (Ok (f, zlen enc, rest), evs) /\
    forall st, MWait.steps (lstep cpus ts) (lstart (map (fun e => playerOf (ev_layer e)) evs)) st -> lended st ->
    forall cpus' r' w0 w1, (1 <= cpus')%nat -> new w0 ->
    renderedPx ts (ldImages st) cpus' ts r' false (rootOf (ldCopied st) (f_layer f)) w0 w1 ->
    forall q p d c k, tileOf ts r' q -> in_tile ts q p -> 0 <= MRect.px p -> 0 <= py p ->
    laid (square ts q) p None sf nothing d -> pa d = 255 -> stacked p ls (levels d) c k ->
    exists u t v, w1 q = Some (u, t) /\ tile_at ts q t p = Some v /\ pa v = 255 /\ close_to k v c.
Proof.
  intros Hp Hc Ht Hh Hm Hdp Hr Hcm Hres Hrl large Sv Tv Gl Hls enc.
  destruct (glass_shown inflate kind procs h rsv cmd res neg pl (sf ++ map SLeaf ls) pad gmask bs tail rest cpus ts Hp Hc Ht Hh Hm Hdp Hr Hcm Hres Hrl Sv Tv Gl) as (f & evs & D & _ & K).
  exists f, evs. split; [exact D|]. intros st St Le cpus' r' w0 w1 Hc' Nw Rn q p d c k Hq Hi Hx Hy L Hop Sk.
  destruct (K st St Le cpus' r' w0 w1 Hc' Nw Rn q p Hq Hi Hx Hy) as (u & t & v & Ew & Un & Et).
  destruct Gl as [Gl _]. apply Forall_app in Gl. destruct Gl as [Gsf Gls]. rewrite Forall_map in Gls.
  assert (Hd : pixel_ok d). { destruct (all_ok (square ts q) p) as (_ & _ & _ & _ & X & _). apply (X None sf nothing d L Gsf I nothing_ok). }
  assert (in_range (levels d) /\ close_to 0 d (levels d)) as [Ir C0].
  { destruct Hd as (B1 & B2 & B3 & _). unfold levels, in_range, close_to, close. split.
    - repeat split; unfold Qle; cbn; lia.
    - repeat split; Lqa.lra. }
  assert (Forall (slayer_valid inflate large 8 3) ls) as Vl.
  { destruct Sv as [Sv _]. rewrite flat_map_app in Sv. apply Forall_app in Sv. destruct Sv as [_ Sv]. clear -Sv. induction ls as [|l ls IH]; [constructor|]. cbn [map flat_map sflatten app] in Sv.
    inversion Sv; subst. constructor; auto. }
  exists u, t, (stored (stored v)). split; [exact Ew|]. split; [exact Et|]. destruct (shown_dec k (stored (stored v)) c) as [Y|N]; [exact Y|exfalso].
  apply (stack_close inflate large (square ts q) p ls _ c k (conj Hi (conj Hx Hy)) Sk Hls Gls Vl sf d 0%Q L Hd Hop Ir C0). intros (d' & L' & Hd' & Hp' & C'). apply N.
  apply Un in L'. subst d'. rewrite !stored_same by (rewrite ?stored_same; auto; lia). split; [exact Hp'|].
  destruct c as [[x y] z]. unfold close_to, close in *. rewrite Qplus_0_r in C'. exact C'.
Qed.

Lemma stacked_cost p ls c c' k : stacked p ls c c' k -> (0 <= k <= (7 # 2) * inject_Z (zlen ls) + (3 # 1) * inject_Z (zlen (filter has_mask ls)))%Q.
Proof.
  assert (forall m, 0 <= cost m <= 7 # 2)%Q as Cm by (intros m; unfold cost; destruct (rounding_of m) as [[]|]; Lqa.lra).
  induction 1 as [c|l ls c c' k _ _ IH|l ls m s v c c' k _ _ _ _ _ IH].
  - cbn [filter]. change (zlen (@nil slayer)) with 0. change (inject_Z 0) with 0%Q. Lqa.lra.
  - cbn [filter]. destruct (has_mask l); rewrite !zlen_cons, !inject_Z_plus; change (inject_Z 1) with 1%Q; Lqa.lra.
  - specialize (Cm m). unfold mask_cost. cbn [filter]. destruct (has_mask l); rewrite !zlen_cons, !inject_Z_plus; change (inject_Z 1) with 1%Q; Lqa.lra.
Qed.

(** Everything has one exact colour at every point. *)
Lemma stacked_one inflate large p ls c : Forall (slayer_valid inflate large 8 3) ls -> Forall (fun l => glass_tree (SLeaf l)) ls ->
  exists c' k, stacked p ls c c' k /\ forall c'' k', stacked p ls c c'' k' -> c'' = c' /\ k' = k.
Proof.
  intros F. revert c. induction F as [|l ls V _ IH]; intros c G.
  { exists c, 0%Q. split; [constructor|]. intros c'' k' H. inversion H; auto. }
  apply Forall_cons_iff in G. destruct G as [Gl G]. inversion Gl as [? _ Gm Gp|]; subst. destruct (hidden l) eqn:Hh.
  { destruct (IH c G) as (c' & k & S & U). exists c', k. split; [now constructor|]. intros c'' k' H. inversion H; subst; [auto|congruence]. }
  destruct (leaf_exists inflate large l p V Gp) as [s Ls]. destruct (proj1 (proj2 Gp)) as [m Lm].
  assert (exists v, seen_at l p v) as [v Sv].
  { unfold seen_at. destruct (has_mask l) eqn:Hm; [|eauto]. destruct (mask_exists inflate large l false p V Gm Hm) as (v & Mv & _). eauto. }
  destruct (IH (exact_layer l m s v c) G) as (c' & k & S & U). exists c', (cost m + mask_cost l + k)%Q. split; [eapply stacked_over; eauto|].
  intros c'' k' H. inversion H as [|? ? ? ? ? X|? ? m' s' v' ? ? k'' _ Lm' Ls' Sv' S']; subst; [congruence|].
  assert (m' = m) as -> by (eapply leaf_mode_fun; eauto). assert (s' = s) as -> by (eapply leaf_only; eauto).
  assert (v' = v) as ->. { unfold seen_at in Sv, Sv'. destruct (has_mask l); [eapply mask_only; eauto|congruence]. }
  destruct (U _ _ S') as [-> ->]. auto.
Qed.
