(** Proofs: layers of one colour show this colour. *)
From Coq Require Import String.
From Verif Require Import Base BaseFacts SUtil SConfig MRect MPicker MConfig MReader MLayer MApi SCompress SRecord SLayer XRecord PRecord3 PRecord4
  MSched MBlend MPorter SBlend PBlend PLum PBlend3 PHsl SPorter PPorter SOver PBlend2 POver MWait MRender SRender MRenderAll SRenderAll MRenderPx PRenderPx
  MDraw MTile STile MLoad SLoad MPipe SPipe PPipe2 PPipe4 PPipe5 SSharp PSharp2 PSharp3 SGlass PGlass1 PGlass2 PGlass4 PTop PCover SFrame PFrame PGrey STidy STone PTone SBright PBright SOne.
Close Scope string_scope.
Open Scope Z_scope.

(** ** The modes *)
Lemma chan_even m c x : even m -> is_separable m = true -> byte c -> chan machine W8 m c c = Some x -> x = c.
Proof.
  intros T Hm Hc E. unfold byte in *. destruct (chan_ok W8 m c c) as (c' & E1 & E2 & R); [exact Hm|unfold in_width; cbn; lia|unfold in_width; cbn; lia|]. rewrite E in E1. injection E1 as <-. clear E.
  destruct m; try destruct T; try discriminate Hm; cbn [chan maxv] in E2; openar; change (halfv W8) with 128 in *; repeat match type of E2 with context [if ?b then _ else _] => destruct b eqn:? end; injection E2 as <-; lia.
Qed.
Lemma lifted r g b x : byte r -> byte g -> byte b -> byte (r - x) -> byte (g - x) -> byte (b - x) -> setLum8 machine (r - x) (g - x) (b - x) (lum8 machine r g b) = Some (r, g, b).
Proof.
  intros Hr Hg Hb Hr' Hg' Hb'. unfold setLum8. destruct (lum8_eq r g b Hr Hg Hb) as (-> & _ & Hy). destruct (lum8_eq _ _ _ Hr' Hg' Hb') as (-> & _ & Hy'). unfold byte in *.
  assert (Hx : isub machine (luma8 r g b) (luma8 (r - x) (g - x) (b - x)) = x).
  { assert (luma8 (r - x) (g - x) (b - x) = luma8 r g b - x) as -> by (unfold luma8; lia). openar. unwrap1 lia. lia. }
  rewrite Hx. assert (A : forall c, 0 <= c - x <= 255 -> 0 <= c <= 255 -> iadd machine (wi32 machine (c - x)) x = c) by (intros c H1 H2; openar; repeat unwrap1 lia; lia).
  rewrite !A by lia. unfold clipColor8. rewrite min3, max3. destruct (Z.ltb_spec (Z.min r (Z.min g b)) 0); [lia|]. destruct (Z.ltb_spec 255 (Z.max r (Z.max g b))); [lia|].
  rewrite !clamp8s_id by (unfold byte; auto; lia). reflexivity.
Qed.
Lemma sat_self mn md mx : 0 <= mn -> mn <= md <= mx -> mx <= 255 -> setSatMinMidMax machine mn md mx (mx - mn) = Some (0, md - mn, mx - mn).
Proof.
  intros H0 H1 H2. unfold setSatMinMidMax. destruct (Z.ltb_spec mn mx).
  - assert (0 <= (md - mn) * (mx - mn) <= 255 * 255) by nia. openar. repeat unwrap1 lia. rewrite udiv_pos by lia. now rewrite Z.div_mul by lia.
  - do 3 f_equal; lia.
Qed.
Lemma setSat_self r g b : byte r -> byte g -> byte b -> exists x, setSat machine r g b (sat machine r g b) = Some (r - x, g - x, b - x) /\ byte (r - x) /\ byte (g - x) /\ byte (b - x).
Proof.
  unfold byte. intros Hr Hg Hb. exists (Z.min r (Z.min g b)). split; [|lia].
  assert (sat machine r g b = Z.max r (Z.max g b) - Z.min r (Z.min g b)) as -> by (unfold sat; rewrite min3, max3; openar; unwrap1 lia; reflexivity).
  unfold setSat.
  Ltac selfcase mn md mx := replace (Z.max _ (Z.max _ _)) with mx by lia; replace (Z.min _ (Z.min _ _)) with mn by lia; rewrite (sat_self mn md mx) by lia; cbn; do 3 f_equal; lia.
  destruct (Z.leb_spec r g).
  - destruct (Z.leb_spec g b); [selfcase r g b|]. destruct (Z.leb_spec r b); [selfcase r b g|selfcase b r g].
  - destruct (Z.leb_spec r b); [selfcase g r b|]. destruct (Z.leb_spec g b); [selfcase g b r|selfcase b g r].
Qed.
Lemma hsl_self m r g b : m = Hue \/ m = Saturation \/ m = Color \/ m = Luminosity -> byte r -> byte g -> byte b -> mix machine W8 m (r, g, b) (r, g, b) = Some (r, g, b).
Proof.
  intros M Hr Hg Hb. assert (L0 : setLum8 machine r g b (lum8 machine r g b) = Some (r, g, b)).
  { pose proof (lifted r g b 0 Hr Hg Hb) as L. rewrite !Z.sub_0_r in L. auto. }
  destruct (setSat_self r g b Hr Hg Hb) as (x & Sx & B1 & B2 & B3). pose proof (lifted r g b x Hr Hg Hb B1 B2 B3) as L.
  destruct M as [-> |[-> |[-> | ->]]]; cbn [mix setLum setSat3]; rewrite ?Sx; assumption.
Qed.
Lemma mix_even m s d r g b : even m -> pixel_ok s -> px_rgb s = px_rgb d -> mix machine W8 m (px_rgb s) (px_rgb d) = Some (r, g, b) -> r = pr s /\ g = pg s /\ b = pb s.
Proof.
  intros T Hs Q M. rewrite <- Q in M. unfold pixel_ok in *. destruct (is_separable m) eqn:Sm.
  - assert (mix machine W8 m (px_rgb s) (px_rgb s) = (let? r := chan machine W8 m (pr s) (pr s) in let? g := chan machine W8 m (pg s) (pg s) in let? b := chan machine W8 m (pb s) (pb s) in Some (r, g, b))) as X
      by (destruct m; try discriminate Sm; reflexivity).
    rewrite X in M. destruct (chan machine W8 m (pr s) (pr s)) as [r0|] eqn:Er; [|discriminate]. destruct (chan machine W8 m (pg s) (pg s)) as [g0|] eqn:Eg; [|discriminate].
    destruct (chan machine W8 m (pb s) (pb s)) as [b0|] eqn:Eb; [|discriminate]. injection M as -> -> ->.
    apply (chan_even m) in Er; [|exact T|exact Sm|unfold byte in *; lia]. apply (chan_even m) in Eg; [|exact T|exact Sm|unfold byte in *; lia].
    apply (chan_even m) in Eb; [|exact T|exact Sm|unfold byte in *; lia]. lia.
  - unfold px_rgb in M. destruct m; try destruct T; try discriminate Sm;
      try (rewrite hsl_self in M; [injection M as <- <- <-; lia|solve [auto]|unfold byte in *; lia|unfold byte in *; lia|unfold byte in *; lia]);
      cbn [mix] in M; destruct (lumlt _ _ _ _); injection M as <- <- <-; lia.
Qed.
Lemma blended_tinted m op k s d : even m -> byte op -> pixel_ok k -> pixel_ok s -> pixel_ok d -> tinted k s -> tinted k d -> tinted k (blended m op s d).
Proof.
  intros T Ho Hk Hs Hd Ks Kd. destruct (blend8_eq m op s d Ho Hs Hd) as (Ht & r & g & b & M & _ & _ & E & _ & _). cbv zeta in E. unfold blended. rewrite E. clear E.
  destruct Ks as [Zs|Cs].
  { rewrite Zs. cbn. exact Kd. }
  set (t := pa s * op / 255) in *. clearbody t. destruct (Z.eqb_spec t 0); cbn [orb]; [exact Kd|].
  destruct (Z.eqb_spec (wa 255 t (pa d)) 0) as [|W]; [exact Kd|]. unfold pixel_ok, byte in *. destruct (weights_range 255 t (pa d)) as (W1 & W2 & W3 & _); try lia. unfold wa in W.
  right. cbn [pr pg pb]. unfold out8.
  assert (K : forall c sc dc kc, sc = kc -> (pa d = 0 \/ dc = kc /\ c = kc) -> 0 <= kc <= 255 ->
    (let q := (c * w1 255 t (pa d) + sc * w2 255 t (pa d) + dc * w3 255 t (pa d)) / (w1 255 t (pa d) + w2 255 t (pa d) + w3 255 t (pa d)) in if overmax m then Z.min q 255 else q) = kc).
  { intros c sc dc kc -> H Hkc. cbv zeta.
    replace (c * w1 255 t (pa d) + kc * w2 255 t (pa d) + dc * w3 255 t (pa d)) with (kc * (w1 255 t (pa d) + w2 255 t (pa d) + w3 255 t (pa d))).
    - rewrite Z.div_mul by exact W. destruct (overmax m); lia.
    - destruct H as [Z0|[-> ->]]; [|ring]. unfold w1, w3. rewrite Z0, !Z.mul_0_r, Z.div_0_l by lia. ring. }
  assert (Cd : pa d = 0 \/ pr d = pr k /\ pg d = pg k /\ pb d = pb k /\ r = pr k /\ g = pg k /\ b = pb k).
  { destruct Kd as [Zd|(D1 & D2 & D3)]; [now left|right]. destruct Cs as (S1 & S2 & S3). apply (mix_even m) in M; [lia|exact T|unfold pixel_ok, byte; lia|unfold px_rgb; congruence]. }
  repeat split; apply K; lia.
Qed.

(** ** Copies *)
Lemma stored_nothing : stored nothing = nothing. Proof. reflexivity. Qed.
Lemma stored_plain k : pixel_ok k -> pa k = 255 -> stored k = k.
Proof.
  intros Hk E. destruct k as [r g b a]. cbn [pa] in E. subst a. unfold pixel_ok, byte in Hk. cbn [pr pg pb pa] in Hk. unfold stored, pdpx, out16, unmulx, low8.
  cbn [textbook frac_src frac_dest src16 premulx wide pr pg pb pa nothing]. change (255 * 257) with 65535. rewrite !Z.mul_0_r, !Z.add_0_r, !Z.div_mul by lia. cbn [pr pg pb pa]. change (65535 =? 0) with false. cbn [pr pg pb pa].
  f_equal; lia.
Qed.
(** Storing a pixel lowers its colours by at most one level. *)
Lemma stored_low v : pixel_ok v -> pa v <> 0 -> pr v - 1 <= pr (stored v) <= pr v /\ pg v - 1 <= pg (stored v) <= pg v /\ pb v - 1 <= pb (stored v) <= pb v.
Proof.
  intros Hv N. pose proof (stored_dim v v Hv Hv ltac:(unfold dim; lia)) as (U1 & U2 & U3).
  assert (L : pr v - 1 <= pr (stored v) /\ pg v - 1 <= pg (stored v) /\ pb v - 1 <= pb (stored v)); [|lia]. clear U1 U2 U3. unfold pixel_ok, byte in Hv.
  destruct v as [r g b a]. cbn [pr pg pb pa] in *. unfold stored, pdpx, out16, unmulx, low8.
  cbn [textbook frac_src frac_dest src16 premulx wide pr pg pb pa nothing]. rewrite !Z.mul_0_r, !Z.add_0_r, !Z.div_mul by lia. cbn [pr pg pb pa]. replace (a * 257 =? 0) with false by lia. cbn [pr pg pb pa].
  assert (K : forall c, 0 <= c <= 255 -> c - 1 <= c * 257 * (a * 257) / 65535 * 65535 / (a * 257) / 256).
  { intros c Hc. apply Z.div_le_lower_bound; [lia|]. apply Z.div_le_lower_bound; [lia|]. pose proof (Z.mod_pos_bound (c * 257 * (a * 257)) 65535 ltac:(lia)). pose proof (Z.div_mod (c * 257 * (a * 257)) 65535 ltac:(lia)). nia. }
  repeat split; apply K; lia.
Qed.
Lemma masked_plain A p l k d s v : pixel_ok k -> pa k = 255 -> s = nothing \/ s = k -> hard_mask p l -> masked A p l false d s v -> v = nothing \/ v = k.
Proof.
  intros Hk E Ks Hm. unfold masked, hard_mask in *. destruct (has_mask l); [|now intros ->]. intros (m & s' & Ma & H & ->).
  assert (Cp : out16 true (textbook Copy (src16 true s) (src16 true nothing)) = nothing \/ out16 true (textbook Copy (src16 true s) (src16 true nothing)) = k).
  { change (out16 true (textbook Copy (src16 true s) (src16 true nothing))) with (stored s). destruct Ks as [-> | ->]; [now left|right; now apply stored_plain]. }
  destruct H as [[_ ->]|[_ [[_ ->]|[_ ->]]]]; [| |exact Ks]; unfold pdmask; (destruct (Hm eq_refl m Ma) as [-> | ->]).
  - left. rewrite textbook_in0. reflexivity.
  - rewrite textbook_in. exact Cp.
  - left. rewrite textbook_out0. reflexivity.
  - rewrite textbook_out. exact Cp.
Qed.
Lemma no_groups ts gs : layers_grouped ts gs -> Forall (fun t => clips t = false) ts -> forall t cs, In (t, cs) gs -> In t ts /\ cs = [].
Proof.
  induction 1 as [|t ts gs C L IH|t cs ts gs C F _ L IH]; intros Fa u us Hi.
  - destruct Hi.
  - apply Forall_cons_iff in Fa. destruct Fa as [Fa _]. congruence.
  - apply Forall_cons_iff in Fa. destruct Fa as [_ Fa]. destruct cs as [|x cs]; [|apply Forall_cons_iff in Fa; destruct Fa as [Fa _]; apply Forall_cons_iff in F; destruct F as [F _]; congruence].
    destruct Hi as [[= <- <-]|Hi]; [split; [now left|reflexivity]|]. destruct (IH Fa u us Hi). split; [now right|assumption].
Qed.
Lemma plainly_clips p k t : plainly p k t -> clips t = false.
Proof. now destruct 1. Qed.

(** ** Pictures *)
Lemma all_tinted A p k : pixel_ok k -> pa k = 255 -> let G t := glass_tree t /\ plainly p k t in
  (forall t op d v, image A p t op d v -> G t -> byte op -> pixel_ok d -> tinted k d -> tinted k v) /\
  (forall t cs op d d', put A p t cs op d d' -> G t -> cs = [] -> byte op -> pixel_ok d -> tinted k d -> tinted k d') /\
  (forall t cs v v', topped A p t cs v v' -> cs = [] -> pixel_ok v -> tinted k v -> tinted k v') /\
  (forall cs x y, clips_on A p cs x y -> True) /\
  (forall op ts d d', laid A p op ts d d' -> Forall G ts -> opB op -> pixel_ok d -> tinted k d -> tinted k d') /\
  (forall op gs d d', heaped A p op gs d d' -> (forall t cs, In (t, cs) gs -> G t /\ cs = []) -> opB op -> pixel_ok d -> tinted k d -> tinted k d').
Proof.
  intros Hk E G. destruct (all_ok A p) as (Ki & Kp & Kt & Kc & Kl & Kh).
  assert (FG : forall ts, Forall G ts -> Forall glass_tree ts) by (intros ts; apply Forall_impl; intros t [H _]; exact H).
  assert (CG : forall dv f c, G (SFolder dv f c) -> Forall G c).
  { intros dv f c [H1 H2]. inversion H1 as [|? ? ? m Of Fm Gm Gc _]; subst. inversion H2 as [|? ? ? m' Fm' Em Hn Cl Pc]; subst. apply Forall_forall; intros u Hu; split; [now apply (proj1 (Forall_forall _ _) Gc)|now apply (proj1 (Forall_forall _ _) Pc)]. }
  assert (D0 : tinted k nothing) by now left.
  apply (glass_ind A p (fun t op d v _ => G t -> byte op -> pixel_ok d -> tinted k d -> tinted k v)
    (fun t cs op d d' _ => G t -> cs = [] -> byte op -> pixel_ok d -> tinted k d -> tinted k d')
    (fun t cs v v' _ => cs = [] -> pixel_ok v -> tinted k v -> tinted k v') (fun cs x y _ => True)
    (fun op ts d d' _ => Forall G ts -> opB op -> pixel_ok d -> tinted k d -> tinted k d')
    (fun op gs d d' _ => (forall t cs, In (t, cs) gs -> G t /\ cs = []) -> opB op -> pixel_ok d -> tinted k d -> tinted k d')).
  - intros l op d s v Hl Hm [G1 G2] Ho Hd Kd. inversion G2 as [? m Lm Tm Hh Cl Hv|]; subst.
    assert (Ss : stored s = nothing \/ stored s = k) by (destruct (Hv s Hl) as [-> | ->]; [now left|right; now apply stored_plain]).
    destruct (masked_plain _ _ _ _ _ _ _ Hk E Ss Hh Hm) as [-> | ->]; [exact D0|right; auto].
  - intros dv f c m op d s v Hf L IH Hm Gf Ho Hd Kd. pose proof (CG _ _ _ Gf) as Gc. destruct Gf as [G1 G2]. inversion G2 as [|? ? ? m' Fm Tm Hn _ _]; subst.
    unfold masked in Hm. rewrite Hn in Hm. subst v. apply IH; [exact Gc|exact I|exact nothing_ok|exact D0].
  - intros dv f c op d s v Hf L IH Hm [G1 G2] Ho Hd Kd. inversion G2 as [|? ? ? m' Fm Tm Hn _ _]; subst. discriminate (folder_mode_fun _ _ _ Hf Fm).
  - auto.
  - intros t cs m op d v v' H O M Im IH1 Tp IH2 Gt Ec Ho Hd Kd. pose proof (Ki _ _ _ _ Im (proj1 Gt) Ho Hd) as Hv.
    apply blended_tinted; auto; [|subst cs; exact (Kt _ _ _ _ Tp ltac:(constructor) Hv)].
    destruct Gt as [_ Ct]. inversion Ct as [l m' Lm Tm _ _ _|? ? ? m' Fm Tm _ _ _]; subst; cbn [mode_of] in M.
    + now rewrite (leaf_mode_fun _ _ _ M Lm).
    + pose proof (folder_mode_fun _ _ _ M Fm) as [= ->]. exact Tm.
  - intros t cs op d v v' H O M T Im IH1 Tp IH2 [_ Ct] Ec Ho Hd Kd. exfalso. inversion Ct as [l m' Lm Tm _ _ _|? ? ? m' Fm Tm _ _ _]; subst; cbn [mode_of] in M; [destruct M|discriminate (folder_mode_fun _ _ _ M Fm)].
  - auto.
  - auto.
  - intros t cs v x N B C IH Ec. contradiction.
  - auto.
  - auto.
  - intros op ts gs d d' Lg H IH Gt. apply IH. intros t cs Hi.
    destruct (no_groups _ _ Lg ltac:(eapply Forall_impl; [|exact Gt]; intros u [_ Hu]; now apply plainly_clips in Hu) t cs Hi) as [Ht ->]. split; [|reflexivity]. exact (proj1 (Forall_forall _ _) Gt t Ht).
  - auto.
  - intros op t cs gs d1 d2 d3 P IH1 H IH2 Gg Ho Hd Kd. destruct (Gg t cs (or_introl eq_refl)) as [G1 ->]. pose proof (within_byte op _ Ho (glass_opacity t (proj1 G1))) as Hw.
    apply IH2; [intros u us Hu; apply Gg; now right|exact Ho|exact (Kp _ _ _ _ _ P (proj1 G1) ltac:(constructor) Hw Hd)|]. apply IH1; auto.
Qed.

(** ** From the bytes to the pixels *)
Lemma one_shown inflate kind procs h rsv cmd res neg pl sf pad gmask bs tail rest cpus ts k : (1 <= procs)%nat -> (1 <= cpus)%nat -> 0 < ts ->
  header_valid h -> h_mode h = 3 -> h_depth h = 8 -> zlen rsv = 6 -> zlen cmd < 4294967296 ->
  Forall rblock_valid res -> zlen (enc_rblocks res) < 4294967296 ->
  let large := h_version h =? 2 in
  section_valid inflate large neg 8 3 pl (flat_map sflatten sf) pad gmask bs tail ->
  Forall stree_valid sf -> glass_forest sf -> pixel_ok k -> pa k = 255 ->
  let enc := enc_config h rsv cmd res ++ enc_section large neg pl (flat_map sflatten sf) pad gmask bs tail in
  exists f evs, Decode inflate kind procs newOptions (enc ++ rest) = (Ok (f, zlen enc, rest), evs) /\
    (exists st, MWait.steps (lstep cpus ts) (lstart (map (fun e => playerOf (ev_layer e)) evs)) st /\ lended st) /\
    forall st, MWait.steps (lstep cpus ts) (lstart (map (fun e => playerOf (ev_layer e)) evs)) st -> lended st ->
    forall cpus' r' w0 w1, (1 <= cpus')%nat -> new w0 ->
    renderedPx ts (ldImages st) cpus' ts r' false (rootOf (ldCopied st) (f_layer f)) w0 w1 ->
    forall q p, tileOf ts r' q -> in_tile ts q p -> 0 <= MRect.px p -> 0 <= py p -> Forall (plainly p k) sf ->
    exists s t v, w1 q = Some (s, t) /\ tile_at ts q t p = Some v /\
      (pa v = 255 -> v = k) /\ (pa v <> 0 -> pr k - 2 <= pr v <= pr k /\ pg k - 2 <= pg v <= pg k /\ pb k - 2 <= pb v <= pb k).
Proof.
  intros Hpr Hc Ht Hh Hm Hd Hr Hcm Hres Hrl large Hs HV HG Hk Ek enc.
  destruct (glass_shown inflate kind procs h rsv cmd res neg pl sf pad gmask bs tail rest cpus ts Hpr Hc Ht Hh Hm Hd Hr Hcm Hres Hrl Hs HV HG) as (f & evs & ED & EX & K).
  exists f, evs. split; [exact ED|]. split; [exact EX|]. intros st S1 S2 cpus' r' w0 w1 C N R q p T I Px Py G.
  destruct (K st S1 S2 cpus' r' w0 w1 C N R q p T I Px Py) as (s & t & c & W & L & V). exists s, t, (stored (stored c)). split; [exact W|]. split; [exact V|].
  assert (Forall (fun t => glass_tree t /\ plainly p k t) sf) as GG by (apply Forall_forall; intros u Hu; split; [exact (proj1 (Forall_forall _ _) (proj1 HG) u Hu)|exact (proj1 (Forall_forall _ _) G u Hu)]).
  assert (laid (square ts q) p None sf nothing c) as Lc by now apply L.
  assert (pixel_ok c) as Hc'. { destruct (all_ok (square ts q) p) as (_ & _ & _ & _ & H & _). exact (H None sf nothing c Lc (proj1 HG) Logic.I nothing_ok). }
  assert (tinted k c) as Kc. { destruct (all_tinted (square ts q) p k Hk Ek) as (_ & _ & _ & _ & H & _). apply (H None sf nothing c Lc GG Logic.I nothing_ok). now left. }
  pose proof (stored_ok c Hc') as Hs1. pose proof (stored_alpha c Hc') as A1. pose proof (stored_alpha _ Hs1) as A2. split.
  - intros E. rewrite A2, A1 in E. destruct Kc as [Z0|(K1 & K2 & K3)]; [lia|]. rewrite !(stored_plain c Hc' E). clear - K1 K2 K3 E Ek. destruct c as [cr cg cb ca], k as [kr kg kb ka]. cbn [pr pg pb pa] in *. congruence.
  - intros E. rewrite A2, A1 in E. destruct Kc as [Z0|(K1 & K2 & K3)]; [contradiction|]. pose proof (stored_low c Hc' E) as L1. pose proof (stored_low (stored c) Hs1 ltac:(now rewrite A1)) as L2. lia.
Qed.
