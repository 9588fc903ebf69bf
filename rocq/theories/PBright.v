(** Proofs: the picture is not brighter than its layers. *)
From Coq Require Import String.
From Verif Require Import Base BaseFacts SUtil SConfig MRect MPicker MConfig MReader MLayer MApi SCompress SRecord SLayer XRecord PRecord3 PRecord4
  MSched MBlend MPorter SBlend PBlend PLum PBlend3 PHsl SPorter PPorter SOver PBlend2 POver MWait MRender SRender MRenderAll SRenderAll MRenderPx PRenderPx
  MDraw MTile STile MLoad SLoad MPipe SPipe PPipe2 PPipe4 PPipe5 SSharp PSharp2 PSharp3 SGlass PGlass1 PGlass2 PGlass4 PTop PCover SFrame PFrame PGrey STidy STone PTone SBright.
Close Scope string_scope.
Open Scope Z_scope.

(** ** The modes *)
Lemma chan_tame m s d c : tame m -> is_separable m = true -> byte s -> byte d -> chan machine W8 m s d = Some c -> c <= Z.max s d.
Proof.
  intros T Hm Hs Hd E. destruct m; try destruct T; try discriminate Hm;
    try (assert (tonedZ Darker d c) as K by (eapply (chan_tones Darker); [|exact Hs|exact Hd|exact E]; exact I); cbn [tonedZ] in K; lia); unfold byte in *.
  - cbn [chan] in E. injection E as <-. lia.
  - cbn [chan] in E. injection E as <-. destruct (Z.ltb_spec d s); lia.
  - destruct (chan_ok W8 PinLight s d) as (c' & E1 & E2 & R); [exact Hm|unfold in_width; cbn; lia|unfold in_width; cbn; lia|]. rewrite E in E1. injection E1 as <-. clear E.
    cbn [chan maxv] in E2. openar. repeat match type of E2 with context [if ?b then _ else _] => destruct b eqn:? end; injection E2 as <-; lia.
  - destruct (chan_ok W8 Difference s d) as (c' & E1 & E2 & R); [exact Hm|unfold in_width; cbn; lia|unfold in_width; cbn; lia|]. rewrite E in E1. injection E1 as <-. clear E.
    cbn [chan maxv] in E2. openar. repeat match type of E2 with context [if ?b then _ else _] => destruct b eqn:? end; injection E2 as <-; lia.
Qed.
Lemma mix_tame m k s d r g b : tame m -> pixel_ok s -> pixel_ok d -> dim k s -> dim k d -> mix machine W8 m (px_rgb s) (px_rgb d) = Some (r, g, b) -> r <= pr k /\ g <= pg k /\ b <= pb k.
Proof.
  intros T Hs Hd Ks Kd M. unfold dim in *. unfold pixel_ok in *. destruct (is_separable m) eqn:Sm.
  - assert (mix machine W8 m (px_rgb s) (px_rgb d) = (let? r := chan machine W8 m (pr s) (pr d) in let? g := chan machine W8 m (pg s) (pg d) in let? b := chan machine W8 m (pb s) (pb d) in Some (r, g, b))) as X
      by (destruct m; try discriminate Sm; reflexivity).
    rewrite X in M. destruct (chan machine W8 m (pr s) (pr d)) as [r0|] eqn:Er; [|discriminate]. destruct (chan machine W8 m (pg s) (pg d)) as [g0|] eqn:Eg; [|discriminate].
    destruct (chan machine W8 m (pb s) (pb d)) as [b0|] eqn:Eb; [|discriminate]. injection M as -> -> ->.
    apply (chan_tame m) in Er; [|exact T|exact Sm|unfold byte in *; lia|unfold byte in *; lia]. apply (chan_tame m) in Eg; [|exact T|exact Sm|unfold byte in *; lia|unfold byte in *; lia].
    apply (chan_tame m) in Eb; [|exact T|exact Sm|unfold byte in *; lia|unfold byte in *; lia]. lia.
  - unfold px_rgb in M. destruct m; try destruct T; try discriminate Sm; cbn [mix] in M; destruct (lumlt _ _ _ _); injection M as <- <- <-; lia.
Qed.
Lemma mean_le a1 a2 a3 c s d k : 0 <= a1 -> 0 <= a2 -> 0 <= a3 -> a1 + a2 + a3 <> 0 -> c <= k -> s <= k -> d <= k -> (c * a1 + s * a2 + d * a3) / (a1 + a2 + a3) <= k.
Proof. intros. apply Z.div_le_upper_bound; nia. Qed.
Lemma blended_dim m op k s d : tame m -> byte op -> pixel_ok s -> pixel_ok d -> dim k s -> dim k d -> dim k (blended m op s d).
Proof.
  intros T Ho Hs Hd Ks Kd. destruct (blend8_eq m op s d Ho Hs Hd) as (Ht & r & g & b & M & _ & _ & E & _ & _). cbv zeta in E. unfold blended. rewrite E.
  apply (mix_tame m k s d r g b T Hs Hd Ks Kd) in M. set (t := pa s * op / 255) in *. clearbody t. destruct (Z.eqb_spec t 0); cbn [orb]; [exact Kd|].
  destruct (Z.eqb_spec (wa 255 t (pa d)) 0) as [|W]; [exact Kd|]. unfold dim, pixel_ok, byte in *. destruct (weights_range 255 t (pa d)) as (W1 & W2 & W3 & _); try lia. unfold wa in W.
  cbn [pr pg pb]. unfold out8. destruct (overmax m); repeat split; try (etransitivity; [apply Z.le_min_l|]); apply mean_le; lia.
Qed.

(** ** Copies *)
Lemma out_dim k q : pixel_ok k -> (pa q <> 0 -> 0 < pa q /\ pr q * 65535 <= pr k * 257 * pa q /\ pg q * 65535 <= pg k * 257 * pa q /\ pb q * 65535 <= pb k * 257 * pa q) -> dim k (out16 true q).
Proof.
  unfold pixel_ok, byte. intros Hk H. unfold dim, out16, unmulx, low8. destruct (Z.eqb_spec (pa q) 0) as [E|E]; [cbn; lia|]. destruct (H E) as (P & R & G & B). cbn [pr pg pb].
  assert (forall x y, 0 <= y <= 255 -> x * 65535 <= y * 257 * pa q -> x * 65535 / pa q / 256 <= y) as L.
  { intros x y Hy Hx. assert (x * 65535 / pa q <= y * 257) by (apply Z.div_le_upper_bound; lia). assert (x * 65535 / pa q / 256 <= y * 257 / 256) by (apply Z.div_le_mono; lia). lia. }
  repeat split; apply L; lia.
Qed.
Lemma stored_dim k v : pixel_ok k -> pixel_ok v -> dim k v -> dim k (stored v).
Proof.
  intros Hk Hv Kv. unfold stored, pdpx. apply out_dim; [exact Hk|]. unfold pixel_ok, byte, dim in *. cbn [textbook frac_src frac_dest src16 premulx wide pr pg pb pa nothing].
  rewrite !Z.mul_0_r, !Z.add_0_r, !Z.div_mul by lia. intros N. split; [lia|].
  assert (forall c x, 0 <= c -> c <= x -> c * 257 * (pa v * 257) / 65535 * 65535 <= x * 257 * (pa v * 257)) as L.
  { intros c x Hc Hx. pose proof (Z.mul_div_le (c * 257 * (pa v * 257)) 65535 ltac:(lia)). nia. }
  repeat split; apply L; lia.
Qed.
Lemma clipped_dim k v x : pixel_ok k -> pixel_ok v -> pixel_ok x -> pa x = 255 -> dim k x -> dim k (pdpx DestIn v x).
Proof.
  intros Hk Hv Hx E Kx. unfold pdpx. apply out_dim; [exact Hk|]. unfold pixel_ok, byte, dim in *. cbn [textbook frac_src frac_dest src16 premulx wide pr pg pb pa]. rewrite E. change (255 * 257) with 65535.
  rewrite !Z.mul_0_r, !Z.add_0_l, !Z.div_mul, (Z.mul_comm 65535), Z.div_mul by lia. intros N. split; [lia|].
  assert (forall c y, 0 <= c -> c <= y -> c * 257 * (pa v * 257) / 65535 * 65535 <= y * 257 * (pa v * 257)) as L.
  { intros c y Hc Hy. pose proof (Z.mul_div_le (c * 257 * (pa v * 257)) 65535 ltac:(lia)). nia. }
  repeat split; apply L; lia.
Qed.
Lemma mask_dim k v q : pixel_ok k -> pixel_ok v -> dim k v -> (q = textbook Copy (src16 true v) (src16 true nothing) \/ q = nothing) -> dim k (out16 true q).
Proof. intros Hk Hv Kv [-> | ->]; [exact (stored_dim k v Hk Hv Kv)|]. apply out_dim; [exact Hk|]. intros []. reflexivity. Qed.
Lemma textbook_in v : textbook DestIn (Px 0 0 0 (255 * 257)) v = textbook Copy v (src16 true nothing).
Proof. destruct v as [r g b a]. unfold textbook. cbn [frac_src frac_dest pr pg pb pa]. f_equal; f_equal; lia. Qed.
Lemma textbook_in0 v : textbook DestIn (Px 0 0 0 (0 * 257)) v = nothing.
Proof. destruct v as [r g b a]. unfold textbook. cbn [frac_src frac_dest pr pg pb pa]. rewrite !Z.mul_0_l, !Z.mul_0_r. reflexivity. Qed.
Lemma textbook_out v : textbook DestOut (Px 0 0 0 ((255 - 255) * 257)) v = textbook Copy v (src16 true nothing).
Proof. destruct v as [r g b a]. unfold textbook. cbn [frac_src frac_dest pr pg pb pa]. f_equal; f_equal; lia. Qed.
Lemma textbook_out0 v : textbook DestOut (Px 0 0 0 ((255 - 0) * 257)) v = nothing.
Proof. destruct v as [r g b a]. unfold textbook. cbn [frac_src frac_dest pr pg pb pa]. change (65535 - (255 - 0) * 257) with 0. rewrite !Z.mul_0_l, !Z.mul_0_r. reflexivity. Qed.
Lemma masked_dim A p l k d s v : pixel_ok k -> pixel_ok s -> dim k s -> hard_mask p l -> masked A p l false d s v -> dim k v.
Proof.
  intros Hk Hs Ks Hm. unfold masked, hard_mask in *. destruct (has_mask l); [|now intros ->]. intros (m & s' & Ma & H & ->).
  destruct H as [[_ ->]|[_ [[_ ->]|[_ ->]]]]; [| |exact Ks]; unfold pdmask; apply (mask_dim k s _ Hk Hs Ks); (destruct (Hm eq_refl m Ma) as [-> | ->]; [right|left]).
  - apply textbook_in0.
  - apply textbook_in.
  - apply textbook_out0.
  - apply textbook_out.
Qed.

(** ** Pictures *)
Lemma all_dim A p k : pixel_ok k -> let G t := glass_tree t /\ calm p k t in
  (forall t op d v, image A p t op d v -> G t -> byte op -> pixel_ok d -> dim k d -> dim k v) /\
  (forall t cs op d d', put A p t cs op d d' -> G t -> Forall G cs -> byte op -> pixel_ok d -> dim k d -> dim k d') /\
  (forall t cs v v', topped A p t cs v v' -> Forall G cs -> pixel_ok v -> dim k v -> dim k v') /\
  (forall cs x y, clips_on A p cs x y -> Forall G cs -> pixel_ok x -> dim k x -> dim k y) /\
  (forall op ts d d', laid A p op ts d d' -> Forall G ts -> opB op -> pixel_ok d -> dim k d -> dim k d') /\
  (forall op gs d d', heaped A p op gs d d' -> (forall t cs, In (t, cs) gs -> G t /\ Forall G cs) -> opB op -> pixel_ok d -> dim k d -> dim k d').
Proof.
  intros Hk G. destruct (all_ok A p) as (Ki & Kp & Kt & Kc & Kl & Kh). destruct (all_full A p) as (_ & _ & _ & Fc & _ & _).
  assert (FG : forall ts, Forall G ts -> Forall glass_tree ts) by (intros ts; apply Forall_impl; intros t [H _]; exact H).
  assert (CG : forall dv f c, G (SFolder dv f c) -> Forall G c).
  { intros dv f c [H1 H2]. inversion H1 as [|? ? ? m Of Fm Gm Gc _]; subst. inversion H2; subst; (apply Forall_forall; intros u Hu; split; [now apply (proj1 (Forall_forall _ _) Gc)|]); match goal with H : Forall (calm p k) _ |- _ => now apply (proj1 (Forall_forall _ _) H) end. }
  assert (D0 : dim k nothing) by (unfold dim, pixel_ok, byte in *; cbn; lia).
  apply (glass_ind A p (fun t op d v _ => G t -> byte op -> pixel_ok d -> dim k d -> dim k v)
    (fun t cs op d d' _ => G t -> Forall G cs -> byte op -> pixel_ok d -> dim k d -> dim k d')
    (fun t cs v v' _ => Forall G cs -> pixel_ok v -> dim k v -> dim k v') (fun cs x y _ => Forall G cs -> pixel_ok x -> dim k x -> dim k y)
    (fun op ts d d' _ => Forall G ts -> opB op -> pixel_ok d -> dim k d -> dim k d')
    (fun op gs d d' _ => (forall t cs, In (t, cs) gs -> G t /\ Forall G cs) -> opB op -> pixel_ok d -> dim k d -> dim k d')).
  - intros l op d s v Hl Hm [G1 G2] Ho Hd Kd. inversion G1 as [? Hb Hg Hp|]; subst. inversion G2 as [? m Lm Tm Hh Hv| |]; subst. pose proof (leaf_ok l p s Hp Hl) as Hs.
    refine (masked_dim _ _ _ _ _ _ _ Hk (stored_ok s Hs) _ Hh Hm). apply stored_dim; [exact Hk|exact Hs|exact (Hv s Hl)].
  - intros dv f c m op d s v Hf L IH Hm Gf Ho Hd Kd. pose proof (CG _ _ _ Gf) as Gc. destruct Gf as [G1 G2]. inversion G2 as [|? ? ? m' Fm Tm Hh _|? ? ? Fn]; subst; [|discriminate (folder_mode_fun _ _ _ Hf Fn)].
    refine (masked_dim _ _ _ _ _ _ _ Hk _ _ Hh Hm); [exact (Kl _ _ _ _ L (FG _ Gc) I nothing_ok)|]. apply IH; [exact Gc|exact I|exact nothing_ok|exact D0].
  - intros dv f c op d s v Hf L IH Hm Gf Ho Hd Kd. pose proof (CG _ _ _ Gf) as Gc. destruct Gf as [G1 G2]. inversion G2 as [|? ? ? m' Fm _ _ _|? ? ? Fn Hn _]; subst; [discriminate (folder_mode_fun _ _ _ Hf Fm)|].
    unfold masked in Hm. rewrite Hn in Hm. subst v. apply IH; [exact Gc|exact Ho|now apply stored_ok|now apply stored_dim].
  - auto.
  - intros t cs m op d v v' H O M Im IH1 Tp IH2 Gt Gc Ho Hd Kd. pose proof (Ki _ _ _ _ Im (proj1 Gt) Ho Hd) as Hv. apply blended_dim; auto; [|exact (Kt _ _ _ _ Tp (FG _ Gc) Hv)].
    destruct Gt as [_ Ct]. inversion Ct as [l m' Lm Tm _ _|? ? ? m' Fm Tm _ _|? ? ? Fn]; subst; cbn [mode_of] in M.
    + now rewrite (leaf_mode_fun _ _ _ M Lm).
    + pose proof (folder_mode_fun _ _ _ M Fm) as [= ->]. exact Tm.
    + discriminate (folder_mode_fun _ _ _ M Fn).
  - intros t cs op d v v' H O M T Im IH1 Tp IH2 Gt Gc Ho Hd Kd. pose proof (Ki _ _ _ _ Im (proj1 Gt) Ho Hd) as Hv. apply stored_dim; [exact Hk|exact (Kt _ _ _ _ Tp (FG _ Gc) Hv)|]. auto.
  - auto.
  - auto.
  - intros t cs v x N B C IH Gc Hv Kv. pose proof (opaque_ok _ (stored_ok v Hv)) as Ho. apply clipped_dim; [exact Hk|exact Hv|exact (Kc _ _ _ C (FG _ Gc) Ho)|exact (Fc _ _ _ C (FG _ Gc) Ho eq_refl)|].
    apply IH; [exact Gc|exact Ho|]. exact (stored_dim k v Hk Hv Kv).
  - auto.
  - intros t cs x y z P IH1 C IH2 Gc Hx Kx. apply Forall_cons_iff in Gc. destruct Gc as [G1 G2]. pose proof (glass_opacity t (proj1 G1)) as Ho.
    apply IH2; [exact G2|exact (Kp _ _ _ _ _ P (proj1 G1) ltac:(constructor) Ho Hx)|]. apply IH1; auto.
  - intros op ts gs d d' Lg H IH Gt. apply IH. exact (grouped_all _ _ _ Lg Gt).
  - auto.
  - intros op t cs gs d1 d2 d3 P IH1 H IH2 Gg Ho Hd Kd. destruct (Gg t cs (or_introl eq_refl)) as [G1 G2]. pose proof (within_byte op _ Ho (glass_opacity t (proj1 G1))) as Hw.
    apply IH2; [intros u us Hu; apply Gg; now right|exact Ho|exact (Kp _ _ _ _ _ P (proj1 G1) (FG _ G2) Hw Hd)|]. apply IH1; auto.
Qed.

(** ** From the bytes to the pixels *)
Lemma bright_shown inflate kind procs h rsv cmd res neg pl sf pad gmask bs tail rest cpus ts k : (1 <= procs)%nat -> (1 <= cpus)%nat -> 0 < ts ->
  header_valid h -> h_mode h = 3 -> h_depth h = 8 -> zlen rsv = 6 -> zlen cmd < 4294967296 ->
  Forall rblock_valid res -> zlen (enc_rblocks res) < 4294967296 ->
  let large := h_version h =? 2 in
  section_valid inflate large neg 8 3 pl (flat_map sflatten sf) pad gmask bs tail ->
  Forall stree_valid sf -> glass_forest sf -> pixel_ok k ->
  let enc := enc_config h rsv cmd res ++ enc_section large neg pl (flat_map sflatten sf) pad gmask bs tail in
  exists f evs, Decode inflate kind procs newOptions (enc ++ rest) = (Ok (f, zlen enc, rest), evs) /\
    (exists st, MWait.steps (lstep cpus ts) (lstart (map (fun e => playerOf (ev_layer e)) evs)) st /\ lended st) /\
    forall st, MWait.steps (lstep cpus ts) (lstart (map (fun e => playerOf (ev_layer e)) evs)) st -> lended st ->
    forall cpus' r' w0 w1, (1 <= cpus')%nat -> new w0 ->
    renderedPx ts (ldImages st) cpus' ts r' false (rootOf (ldCopied st) (f_layer f)) w0 w1 ->
    forall q p, tileOf ts r' q -> in_tile ts q p -> 0 <= MRect.px p -> 0 <= py p -> Forall (calm p k) sf ->
    exists s t v, w1 q = Some (s, t) /\ tile_at ts q t p = Some v /\ dim k v.
Proof.
  intros Hpr Hc Ht Hh Hm Hd Hr Hcm Hres Hrl large Hs HV HG Hk enc.
  destruct (glass_shown inflate kind procs h rsv cmd res neg pl sf pad gmask bs tail rest cpus ts Hpr Hc Ht Hh Hm Hd Hr Hcm Hres Hrl Hs HV HG) as (f & evs & ED & EX & K).
  exists f, evs. split; [exact ED|]. split; [exact EX|]. intros st S1 S2 cpus' r' w0 w1 C N R q p T I Px Py G.
  destruct (K st S1 S2 cpus' r' w0 w1 C N R q p T I Px Py) as (s & t & c & W & L & V). exists s, t, (stored (stored c)). split; [exact W|]. split; [exact V|].
  assert (Forall (fun t => glass_tree t /\ calm p k t) sf) as GG by (apply Forall_forall; intros u Hu; split; [exact (proj1 (Forall_forall _ _) (proj1 HG) u Hu)|exact (proj1 (Forall_forall _ _) G u Hu)]).
  assert (laid (square ts q) p None sf nothing c) as Lc by now apply L.
  assert (pixel_ok c) as Hc'. { destruct (all_ok (square ts q) p) as (_ & _ & _ & _ & H & _). exact (H None sf nothing c Lc (proj1 HG) Logic.I nothing_ok). }
  assert (dim k c) as Kc. { destruct (all_dim (square ts q) p k Hk) as (_ & _ & _ & _ & H & _). apply (H None sf nothing c Lc GG Logic.I nothing_ok). unfold dim, pixel_ok, byte in *. cbn. lia. }
  apply stored_dim; [exact Hk|now apply stored_ok|now apply stored_dim].
Qed.
