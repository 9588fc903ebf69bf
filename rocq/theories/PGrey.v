(** Proofs: grey layers show a grey picture. *)
From Coq Require Import String.
From Verif Require Import Base BaseFacts SUtil SConfig MRect MPicker MConfig MReader MLayer MApi SCompress SRecord SLayer XRecord PRecord3 PRecord4
  MSched MBlend MPorter SBlend PLum SPorter PPorter MWait MRender SRender MRenderAll SRenderAll MRenderPx PRenderPx
  MDraw MTile STile MLoad SLoad MPipe SPipe PPipe2 PPipe4 PPipe5 SSharp PSharp2 PSharp3 SGlass PGlass1 PGlass2 PGlass4 PTop SFrame PFrame SGrey.
Close Scope string_scope.
Open Scope Z_scope.

(** ** The operators *)
Lemma clipColor8_grey ar x r g b : clipColor8 ar x x x = Some (r, g, b) -> r = g /\ g = b.
Proof.
  unfold clipColor8. set (lm := lum8s _ _ _ _). set (mn := minu x _). set (mx := maxu x _). cbv zeta.
  destruct (mn <? 0).
  - destruct (scale8 ar lm lm _ x) as [y|]; [|discriminate]. cbn [bind]. destruct (255 <? mx).
    + destruct (scale8 ar lm _ _ y) as [z|]; [|discriminate]. intros [= <- <- <-]. split; reflexivity.
    + intros [= <- <- <-]. split; reflexivity.
  - destruct (255 <? mx).
    + destruct (scale8 ar lm _ _ x) as [z|]; [|discriminate]. intros [= <- <- <-]. split; reflexivity.
    + intros [= <- <- <-]. split; reflexivity.
Qed.
Lemma setLum_grey ar x d r g b : setLum ar W8 (x, x, x) d = Some (r, g, b) -> r = g /\ g = b.
Proof. destruct d as [[dr dg] db]. cbn [setLum]. unfold setLum8. cbv zeta. apply clipColor8_grey. Qed.
Lemma setSat_grey ar x st : setSat3 ar (x, x, x) st = Some (0, 0, 0).
Proof. destruct st as [[a b] c]. unfold setSat3, setSat. rewrite Z.leb_refl. unfold setSatMinMidMax. now rewrite Z.ltb_irrefl. Qed.
Lemma mix_grey ar m x y r g b : mix ar W8 m (x, x, x) (y, y, y) = Some (r, g, b) -> r = g /\ g = b.
Proof.
  destruct m; cbn [mix];
    try (destruct (chan ar W8 _ x y) as [z|]; [|discriminate]; intros [= <- <- <-]; split; reflexivity);
    try (destruct (lumlt ar W8 _ _); intros [= <- <- <-]; split; reflexivity);
    try rewrite setSat_grey; apply setLum_grey.
Qed.
Lemma blended_grey m op s d : grey s -> grey d -> grey (blended m op s d).
Proof.
  destruct s as [sr sg sb sa], d as [dr dg db da]. unfold grey. cbn [pr pg pb]. intros [-> ->] [-> ->]. unfold blended. destruct (blend8 _ _ _ _ _) as [p|] eqn:E; [|split; reflexivity].
  unfold blend8 in E. cbn [pr pg pb pa] in E. cbv zeta in E. destruct (_ =? 0); [injection E as <-; split; reflexivity|]. destruct (_ =? 0); [injection E as <-; split; reflexivity|].
  destruct (mix _ _ _ _ _) as [[[r g] b]|] eqn:M; [|discriminate]. apply mix_grey in M. destruct M as [-> ->].
  destruct (udiv _ _) as [q|]; [|discriminate]. injection E as <-. split; reflexivity.
Qed.
Lemma out16_grey v : grey v -> grey (out16 true v).
Proof. destruct v as [r g b a]. unfold grey, out16, unmulx, low8. cbn [pr pg pb pa]. intros [-> ->]. destruct (a =? 0); split; reflexivity. Qed.
Lemma textbook_grey op s d : grey s -> grey d -> grey (textbook op s d).
Proof. destruct s, d. unfold grey, textbook. cbn. intros [-> ->] [-> ->]. split; reflexivity. Qed.
Lemma src16_grey v : grey v -> grey (src16 true v).
Proof. destruct v. unfold grey, src16, premulx, wide. cbn. intros [-> ->]. split; reflexivity. Qed.
Lemma pdpx_grey op s d : grey s -> grey d -> grey (pdpx op s d).
Proof. intros Hs Hd. apply out16_grey, textbook_grey; now apply src16_grey. Qed.
Lemma pdmask_grey op m d : grey d -> grey (pdmask op m d).
Proof. intros Hd. apply out16_grey, textbook_grey; [split; reflexivity|now apply src16_grey]. Qed.
Lemma nothing_grey : grey nothing. Proof. split; reflexivity. Qed.
Lemma stored_grey v : grey v -> grey (stored v). Proof. intros H. exact (pdpx_grey Copy v nothing H nothing_grey). Qed.
Lemma opaque_grey v : grey v -> grey (opaque v). Proof. exact (fun H => H). Qed.
Lemma masked_grey A p l th d s v : grey d -> grey s -> masked A p l th d s v -> grey v.
Proof.
  intros Hd Hs. unfold masked. destruct (has_mask l); [|now intros ->]. intros (m & s' & _ & H & ->).
  assert (grey s') by (destruct H as [[_ ->]|[_ [[_ ->]|[_ ->]]]]; [now apply pdmask_grey|now apply pdmask_grey|exact Hs]). destruct th; [now apply pdpx_grey|assumption].
Qed.

(** ** Pictures *)
Definition greyT (p : point) (t : stree) : Prop := forall l v, picture_in l t -> leaf_value l p v -> grey v.
Lemma grey_folder p dv f c : greyT p (SFolder dv f c) -> Forall (greyT p) c.
Proof. intros H. apply Forall_forall. intros t Ht l v Hl. apply (H l v). exact (pic_content l dv f c t Ht Hl). Qed.
Lemma grouped_all (P : stree -> Prop) ts gs : layers_grouped ts gs -> Forall P ts -> forall t cs, In (t, cs) gs -> P t /\ Forall P cs.
Proof.
  induction 1 as [|u ts gs E _ IH|u us ts gs E F N _ IH]; intros H t cs Hi; [destruct Hi| |].
  - apply Forall_cons_iff in H. apply IH; [apply H|exact Hi].
  - apply Forall_cons_iff in H. destruct H as [H1 H2]. apply Forall_app in H2. destruct H2 as [H2 H3]. destruct Hi as [[= <- <-]|Hi]; [split; assumption|now apply IH].
Qed.
Lemma all_grey A p :
  (forall t op d v, image A p t op d v -> greyT p t -> grey d -> grey v) /\
  (forall t cs op d d', put A p t cs op d d' -> greyT p t -> Forall (greyT p) cs -> grey d -> grey d') /\
  (forall t cs v v', topped A p t cs v v' -> Forall (greyT p) cs -> grey v -> grey v') /\
  (forall cs x y, clips_on A p cs x y -> Forall (greyT p) cs -> grey x -> grey y) /\
  (forall op ts d d', laid A p op ts d d' -> Forall (greyT p) ts -> grey d -> grey d') /\
  (forall op gs d d', heaped A p op gs d d' -> (forall t cs, In (t, cs) gs -> greyT p t /\ Forall (greyT p) cs) -> grey d -> grey d').
Proof.
  apply (glass_ind A p (fun t op d v _ => greyT p t -> grey d -> grey v) (fun t cs op d d' _ => greyT p t -> Forall (greyT p) cs -> grey d -> grey d')
    (fun t cs v v' _ => Forall (greyT p) cs -> grey v -> grey v') (fun cs x y _ => Forall (greyT p) cs -> grey x -> grey y)
    (fun op ts d d' _ => Forall (greyT p) ts -> grey d -> grey d') (fun op gs d d' _ => (forall t cs, In (t, cs) gs -> greyT p t /\ Forall (greyT p) cs) -> grey d -> grey d')).
  - intros l op d s v Hl Hm G Hd. refine (masked_grey _ _ _ _ _ _ _ Hd _ Hm). apply stored_grey. exact (G l s (pic_leaf l) Hl).
  - intros dv f c m op d s v Hf L IH Hm G Hd. refine (masked_grey _ _ _ _ _ _ _ Hd _ Hm). apply IH; [exact (grey_folder _ _ _ _ G)|exact nothing_grey].
  - intros dv f c op d s v Hf L IH Hm G Hd. refine (masked_grey _ _ _ _ _ _ _ Hd _ Hm). apply IH; [exact (grey_folder _ _ _ _ G)|now apply stored_grey].
  - auto.
  - intros t cs m op d v v' H O M Im IH1 Tp IH2 G Gc Hd. apply blended_grey; auto.
  - intros t cs op d v v' H O M T Im IH1 Tp IH2 G Gc Hd. apply stored_grey. auto.
  - auto.
  - auto.
  - intros t cs v x N B C IH Gc Hv. apply pdpx_grey; [exact Hv|]. apply IH; [exact Gc|]. apply opaque_grey. now apply stored_grey.
  - auto.
  - intros t cs x y z P IH1 C IH2 Gc Hx. apply Forall_cons_iff in Gc. destruct Gc as [G1 G2]. auto.
  - intros op ts gs d d' G H IH Gt Hd. apply IH; [|exact Hd]. exact (grouped_all _ _ _ G Gt).
  - auto.
  - intros op t cs gs d1 d2 d3 P IH1 H IH2 G Hd. destruct (G t cs (or_introl eq_refl)) as [G1 G2]. apply IH2; [intros u us Hu; apply G; now right|auto].
Qed.

(** ** From the bytes to the pixels *)
Lemma grey_shown inflate kind procs h rsv cmd res neg pl sf pad gmask bs tail rest cpus ts : (1 <= procs)%nat -> (1 <= cpus)%nat -> 0 < ts ->
  header_valid h -> h_mode h = 3 -> h_depth h = 8 -> zlen rsv = 6 -> zlen cmd < 4294967296 ->
  Forall rblock_valid res -> zlen (enc_rblocks res) < 4294967296 ->
  let large := h_version h =? 2 in
  section_valid inflate large neg 8 3 pl (flat_map sflatten sf) pad gmask bs tail ->
  Forall stree_valid sf -> glass_forest sf ->
  let enc := enc_config h rsv cmd res ++ enc_section large neg pl (flat_map sflatten sf) pad gmask bs tail in
  exists f evs, Decode inflate kind procs newOptions (enc ++ rest) = (Ok (f, zlen enc, rest), evs) /\
    (exists st, MWait.steps (lstep cpus ts) (lstart (map (fun e => playerOf (ev_layer e)) evs)) st /\ lended st) /\
    forall st, MWait.steps (lstep cpus ts) (lstart (map (fun e => playerOf (ev_layer e)) evs)) st -> lended st ->
    forall cpus' r' w0 w1, (1 <= cpus')%nat -> new w0 ->
    renderedPx ts (ldImages st) cpus' ts r' false (rootOf (ldCopied st) (f_layer f)) w0 w1 ->
    forall q p, tileOf ts r' q -> in_tile ts q p -> 0 <= MRect.px p -> 0 <= py p -> grey_at p sf ->
    exists s t v, w1 q = Some (s, t) /\ tile_at ts q t p = Some v /\ grey v.
Proof.
  intros Hpr Hc Ht Hh Hm Hd Hr Hcm Hres Hrl large Hs HV HG enc.
  destruct (glass_shown inflate kind procs h rsv cmd res neg pl sf pad gmask bs tail rest cpus ts Hpr Hc Ht Hh Hm Hd Hr Hcm Hres Hrl Hs HV HG) as (f & evs & ED & EX & K).
  exists f, evs. split; [exact ED|]. split; [exact EX|]. intros st S1 S2 cpus' r' w0 w1 C N R q p T I Px Py G.
  destruct (K st S1 S2 cpus' r' w0 w1 C N R q p T I Px Py) as (s & t & c & W & L & V). exists s, t, (stored (stored c)). split; [exact W|]. split; [exact V|].
  apply stored_grey, stored_grey. destruct (all_grey (square ts q) p) as (_ & _ & _ & _ & H & _). apply (H None sf nothing c); [now apply L| |exact nothing_grey].
  apply Forall_forall. intros u Hu l v. exact (G u l v Hu).
Qed.
