(** Files with layers of any transparency: from the bytes to the pixels. *)
From Coq Require Import String Permutation.
From Verif Require Import Base BaseFacts SUtil SConfig MRect MPicker MConfig MReader MLayer MApi SCompress SRecord SLayer PConfig2 PRecord4
  MSched PSched MBlend MPorter SBlend PLum MWait PWait MRender SRender PRender PRender2 MRenderAll SRenderAll PRenderAll MRenderPx PRenderPx
  MDraw MTile STile PTile MLoad SLoad PLoad STileRender PTileRender MPipe SPipe SClip PClip PPipe PPipe2 PPipe3 PPipe4 PPipe5 SSharp PSharp2 PSharp4
  SGlass PGlass PGlass1 PGlass2 PGlass3.
Close Scope string_scope.
Open Scope Z_scope.

Lemma glass_class : forall n sf, (list_sum (map ssize sf) <= n)%nat -> Forall stree_valid sf -> Forall glass_tree sf ->
  forall sl, In sl (flat_map sflatten sf) -> glass_picture sl \/ exists t, has_type sl t /\ t <> 0.
Proof.
  induction n as [|n IH]; intros sf Hsz HV HP sl H.
  { destruct sf as [|[l|d f c] sf]; cbn in Hsz; try lia. destruct H. }
  destruct sf as [|t sf]; [destruct H|]. inversion HV as [|? ? V1 V2]; subst. inversion HP as [|? ? P1 P2]; subst.
  assert (Hs1 : (ssize t + list_sum (map ssize sf) <= S n)%nat) by exact Hsz.
  cbn [flat_map] in H. apply in_app_or in H. destruct H as [H|H].
  - destruct t as [l|dv fo ct]; cbn [sflatten] in H.
    + destruct H as [<-|[]]. inversion P1 as [? _ _ Pl|]; subst. left. exact Pl.
    + inversion V1 as [|? ? ? ty Td Tf Hty Vc]; subst. inversion P1 as [|? ? ? fm _ Hfm _ Pc' _]; subst. cbn [ssize] in Hs1.
      destruct H as [<-|H]; [right; exists 3; split; [exact Td|lia]|]. apply in_app_or in H. destruct H as [H|[<-|[]]].
      * apply (IH ct); auto. lia.
      * right. exists ty. split; [exact Tf|lia].
  - apply (IH sf); auto. destruct t; cbn [ssize] in Hs1; lia.
Qed.

(** * Induction *)
Scheme image_ind2 := Induction for image Sort Prop
  with put_ind2 := Induction for put Sort Prop
  with topped_ind2 := Induction for topped Sort Prop
  with clips_on_ind2 := Induction for clips_on Sort Prop
  with laid_ind2 := Induction for laid Sort Prop
  with heaped_ind2 := Induction for heaped Sort Prop.
Combined Scheme glass_ind from image_ind2, put_ind2, topped_ind2, clips_on_ind2, laid_ind2, heaped_ind2.

Lemma touches_ext A A' : (forall p, A p <-> A' p) -> forall t op, touches A t op -> touches A' t op.
Proof.
  intros E. induction 1 as [l op q v H1 H2 H3 H4 H5|dv f c m op gs t cs H1 H2 H3 H4 H5 _ IH].
  - econstructor; eauto. now apply E.
  - econstructor; eauto.
Qed.
Lemma masked_ext A A' p l th d s v : (forall p, A p <-> A' p) -> masked A p l th d s v -> masked A' p l th d s v.
Proof.
  intros E. unfold masked. destruct (has_mask l); [|auto]. intros (m & s' & M & H & ->). exists m, s'. split; [exact M|]. split; [|reflexivity].
  destruct H as [H|[N H]]; [now left|right]. split; [exact N|]. destruct H as [[(q & m' & H1 & H2) H3]|[H1 H2]]; [left|right].
  - split; [exists q, m'; split; [now apply E|exact H2]|exact H3].
  - split; [|exact H2]. intros q Hq. apply H1. now apply E.
Qed.
Lemma all_ext A A' p : (forall p, A p <-> A' p) ->
  (forall t op d v, image A p t op d v -> image A' p t op d v) /\
  (forall t cs op d d', put A p t cs op d d' -> put A' p t cs op d d') /\
  (forall t cs v v', topped A p t cs v v' -> topped A' p t cs v v') /\
  (forall cs x y, clips_on A p cs x y -> clips_on A' p cs x y) /\
  (forall op ts d d', laid A p op ts d d' -> laid A' p op ts d d') /\
  (forall op gs d d', heaped A p op gs d d' -> heaped A' p op gs d d').
Proof.
  intros E. pose proof (fun l th d s v => masked_ext A A' p l th d s v E) as ME. pose proof (touches_ext A A' E) as TE.
  assert (E' : forall p, A' p <-> A p) by (intros p0; now rewrite E). pose proof (touches_ext A' A E') as TE'.
  apply (glass_ind A p (fun t op d v _ => image A' p t op d v) (fun t cs op d d' _ => put A' p t cs op d d')
    (fun t cs v v' _ => topped A' p t cs v v') (fun cs x y _ => clips_on A' p cs x y)
    (fun op ts d d' _ => laid A' p op ts d d') (fun op gs d d' _ => heaped A' p op gs d d')); intros; try (econstructor; eauto; fail).
Qed.
Lemma laid_ext A A' p : (forall p, A p <-> A' p) -> forall op ts d d', laid A p op ts d d' <-> laid A' p op ts d d'.
Proof. intros E op ts d d'. split; apply all_ext; [exact E|]. intros p0. now rewrite E. Qed.

Lemma glass_shown inflate kind procs h rsv cmd res neg pl sf pad gmask bs tail rest cpus ts : (1 <= procs)%nat -> (1 <= cpus)%nat -> 0 < ts ->
  header_valid h -> h_mode h = 3 -> h_depth h = 8 -> zlen rsv = 6 -> zlen cmd < 4294967296 ->
  Forall rblock_valid res -> zlen (enc_rblocks res) < 4294967296 ->
  let large := h_version h =? 2 in
  section_valid inflate large neg 8 3 pl (flat_map sflatten sf) pad gmask bs tail ->
  Forall stree_valid sf -> glass_forest sf ->
  let enc := enc_config h rsv cmd res ++ enc_section large neg pl (flat_map sflatten sf) pad gmask bs tail in
  exists f evs, Decode inflate kind procs newOptions (enc ++ rest) = (Ok (f, zlen enc, rest), evs) /\
    (exists st, MWait.steps (lstep cpus ts) (lstart (map (fun e => playerOf (ev_layer e)) evs)) st /\ lended st) /\
    forall st, MWait.steps (lstep cpus ts) (lstart (map (fun e => playerOf (ev_layer e)) evs)) st -> lended st ->
    forall cpus' r' w0 w1, (1 <= cpus')%nat -> new w0 ->
    renderedPx ts (ldImages st) cpus' ts r' false (rootOf (ldCopied st) (f_layer f)) w0 w1 ->
    forall q p, tileOf ts r' q -> in_tile ts q p -> 0 <= MRect.px p -> 0 <= py p ->
    exists s t c, w1 q = Some (s, t) /\ (forall c', laid (square ts q) p None sf nothing c' <-> c' = c) /\ tile_at ts q t p = Some (stored (stored c)).
Proof.
  intros Hpr Hc Ht Hh Hm Hd Hr Hcm Hres Hrl large Hs HV [HP HG] enc.
  destruct (decode_layers inflate kind procs newOptions h rsv cmd res 3 neg pl sf pad gmask bs tail rest Hpr Hh Hr Hcm Hres Hrl) as (f & evs & ED & _ & ET & _ & _ & _ & _ & full & Ee & Lf).
  - left. rewrite Hm, Hd. auto.
  - rewrite Hm. reflexivity.
  - reflexivity.
  - cbn [newOptions o_config_loaded config_of cfg_mode]. rewrite Hm. reflexivity.
  - rewrite Hd. exact Hs.
  - exact HV.
  - exists f, evs. split; [exact ED|]. rewrite Hm, Hd in *.
    assert (Eev : map (fun e => playerOf (ev_layer e)) evs = map playerOf full).
    { rewrite Ee. unfold section_events. cbn [newOptions o_skip_layer]. rewrite <- (map_map ev_layer playerOf). now rewrite events_layers. }
    rewrite Eev. pose proof (glass_class _ sf (le_n _) HV HP) as Hcl. pose proof (proj1 Hs) as Hvl. split.
    { apply loader_ends; [exact Hc|]. eapply class_all; eauto. intros sl Hin.
      destruct (Hcl sl Hin) as [(Ty & _ & (dr & Er & _) & (dg & Eg & _) & (db & Eb & _) & _)|X]; [left|now right]. repeat split; eauto. }
    intros st Hst Hend cpus' r' w0 w1 Hc' Hn HR q p Hq Hp Hx Hy.
    pose proof (tree_good inflate large cpus ts Hc Ht _ full st Lf Hvl Hst Hend Hcl _ sf 0%nat (f_layer f) (le_n _) HV HP (fun j sl E => E) ET) as G.
    destruct (list_shown cpus ts Hc st _ _ _ _ G HG) as (Pq & Wf & Cg & Bq & Nq & Cq & _).
    assert (Er : rootOf (ldCopied st) (f_layer f) = Lay (Lattr (-1) true 255 (str "norm"%string) false false false false) (withGroups (map (treeOf (ldCopied st)) (f_layer f))) []) by reflexivity.
    rewrite Er in HR. set (ks := withGroups (map (treeOf (ldCopied st)) (f_layer f))) in *.
    set (root := Lay _ ks []) in *. set (n := Z.to_nat (ts * ts)) in *.
    pose proof (rendered_at _ _ _ _ _ _ _ _ _ _ _ cpus' ts r' false root w0 w1 q Hc' Ht HR) as Eq. rewrite (proj2 (existsb_pt q _) (proj1 (tileOf_grid ts r' q Ht) Hq)) in Eq.
    destruct (Hn q) as [d0 Ed]. unfold start in Eq. rewrite Ed in Eq. cbn [option_map tent tileAct] in Eq.
    destruct (render_new (zeroPx n) MRenderPx.copyPx blendPx destInMPx destOutMPx destInPx destOverPx (clearPx n) removeAlphaPx (canvasTile (ldImages st) q) (hasCanvasOf (ldImages st)) (maskTile (ldImages st) q)
      root (Tst [] []) d0 false Wf) as (s' & Es).
    { cbn [latt lseq lkids root]. constructor; [|exact Nq]. intros X. apply Bq in X. lia. }
    { reflexivity. }
    { intros s _. reflexivity. }
    fold n in Eq. rewrite Es in Eq.
    pose proof (shown_glass n (canvasTile (ldImages st) q) (maskTile (ldImages st) q) (canvas_has inflate large cpus ts Hc Ht _ full st Lf Hvl Hst Hend Hcl q) (latt root) ks [] d0 (Pq q)) as [_ Hk].
    eexists s', _, (kidsG (canvasTile (ldImages st) q) (maskTile (ldImages st) q) (pos ts q p) None ks nothing). split; [exact Eq|]. split.
    + intros c'. destruct Hq as (i & j & Ei & Ej & _).
      assert (AS : forall p0, square ts q p0 <-> at_tile ts q p0).
      { intros p0. unfold square, at_tile. split; [|tauto]. intros X. split; [exists i; exact Ei|]. split; [exists j; exact Ej|exact X]. }
      rewrite (laid_ext (square ts q) (at_tile ts q) p AS). apply Cq. apply AS. unfold square. auto.
    + pose proof (tile_pos ts q p Ht Hp) as B. rewrite (tile_at_nth ts Ht _ _ _ Hp). apply Hk. unfold pos, n. lia.
Qed.

(** * Files in which the squares do not matter *)
Lemma grouped_parts ts gs : layers_grouped ts gs -> Forall steady_tree ts -> forall t cs, In (t, cs) gs -> steady_tree t /\ Forall steady_tree cs.
Proof.
  induction 1 as [|t ts gs E _ IH|t cs ts gs E F N _ IH]; intros H t' cs' Hin.
  - destruct Hin.
  - inversion H; subst. eauto.
  - inversion H as [|? ? H1 H2]; subst. apply Forall_app in H2. destruct H2 as [H2 H3]. destruct Hin as [[= <- <-]|Hin]; [auto|eauto].
Qed.
Lemma steady_masked A A' p l d s v : steady l -> masked A p l false d s v -> masked A' p l false d s v.
Proof.
  unfold steady, masked. destruct (has_mask l); [|auto]. intros E (m & s' & M & [H|[N _]] & ->); [|now rewrite E in N]. exists m, s'. auto.
Qed.
Lemma steady_mode t : steady_tree t -> ~ mode_of t None.
Proof. inversion 1; subst; cbn [mode_of]; auto. Qed.
Lemma steady_all A A' p :
  (forall t op d v, image A p t op d v -> steady_tree t -> image A' p t op d v) /\
  (forall t cs op d d', put A p t cs op d d' -> steady_tree t -> Forall steady_tree cs -> put A' p t cs op d d') /\
  (forall t cs v v', topped A p t cs v v' -> Forall steady_tree cs -> topped A' p t cs v v') /\
  (forall cs x y, clips_on A p cs x y -> Forall steady_tree cs -> clips_on A' p cs x y) /\
  (forall op ts d d', laid A p op ts d d' -> Forall steady_tree ts -> laid A' p op ts d d') /\
  (forall op gs d d', heaped A p op gs d d' -> (forall t cs, In (t, cs) gs -> steady_tree t /\ Forall steady_tree cs) -> heaped A' p op gs d d').
Proof.
  apply (glass_ind A p (fun t op d v _ => steady_tree t -> image A' p t op d v) (fun t cs op d d' _ => steady_tree t -> Forall steady_tree cs -> put A' p t cs op d d')
    (fun t cs v v' _ => Forall steady_tree cs -> topped A' p t cs v v') (fun cs x y _ => Forall steady_tree cs -> clips_on A' p cs x y)
    (fun op ts d d' _ => Forall steady_tree ts -> laid A' p op ts d d')
    (fun op gs d d' _ => (forall t cs, In (t, cs) gs -> steady_tree t /\ Forall steady_tree cs) -> heaped A' p op gs d d')).
  - intros l op d s v Hl Hm H. inversion H; subst. econstructor; [exact Hl|]. eapply steady_masked; eauto.
  - intros dv f c m op d s v Hf _ IH Hm H. inversion H; subst. eapply image_folder; [exact Hf|now apply IH|]. eapply steady_masked; eauto.
  - intros dv f c op d s v Hf _ _ _ H. exfalso. inversion H; subst. contradiction.
  - intros t cs op d U _ _. now apply put_unseen.
  - intros t cs m op d v v' U O Hm _ IH1 _ IH2 H H'. eapply put_over; eauto.
  - intros t cs op d v v' U O Hm To _ _ _ _ H. exfalso. exact (steady_mode t H Hm).
  - intros t cs op d Hm N H. exfalso. exact (steady_mode t H Hm).
  - intros t cs v X _. now constructor.
  - intros t cs v x N B _ IH H. constructor; auto.
  - intros x _. constructor.
  - intros t cs x y z _ IH1 _ IH2 H. inversion H; subst. econstructor; eauto.
  - intros op ts gs d d' G _ IH H. econstructor; [exact G|]. apply IH. eapply grouped_parts; eauto.
  - intros op d _. constructor.
  - intros op t cs gs d1 d2 d3 _ IH1 _ IH2 H. destruct (H t cs (or_introl eq_refl)) as [H1 H2]. econstructor; [now apply IH1|]. apply IH2. intros t' cs' X. apply H. now right.
Qed.
Lemma steady_laid A A' p op ts d d' : Forall steady_tree ts -> laid A p op ts d d' <-> laid A' p op ts d d'.
Proof. intros H. split; intros L; eapply steady_all; eauto. Qed.

Lemma glass_size_free inflate kind procs h rsv cmd res neg pl sf pad gmask bs tail rest : (1 <= procs)%nat ->
  header_valid h -> h_mode h = 3 -> h_depth h = 8 -> zlen rsv = 6 -> zlen cmd < 4294967296 ->
  Forall rblock_valid res -> zlen (enc_rblocks res) < 4294967296 ->
  let large := h_version h =? 2 in
  section_valid inflate large neg 8 3 pl (flat_map sflatten sf) pad gmask bs tail ->
  Forall stree_valid sf -> glass_forest sf -> Forall steady_tree sf ->
  let enc := enc_config h rsv cmd res ++ enc_section large neg pl (flat_map sflatten sf) pad gmask bs tail in
  exists f evs, Decode inflate kind procs newOptions (enc ++ rest) = (Ok (f, zlen enc, rest), evs) /\
    forall p v v', 0 <= MRect.px p -> 0 <= py p -> shownBy f evs p v -> shownBy f evs p v' -> v = v'.
Proof.
  intros Hp Hh Hm Hd Hr Hc Hres Hrl large Hs HV HS HT enc.
  destruct (glass_shown inflate kind procs h rsv cmd res neg pl sf pad gmask bs tail rest 1 1 Hp (le_n _) ltac:(lia) Hh Hm Hd Hr Hc Hres Hrl Hs HV HS) as (f & evs & ED & _).
  exists f, evs. split; [exact ED|].
  assert (One : forall p v, 0 <= MRect.px p -> 0 <= py p -> shownBy f evs p v -> exists c, (forall c', laid (fun _ => True) p None sf nothing c' <-> c' = c) /\ v = stored (stored c)).
  { intros p v Hx Hy (cpus & cpus' & ts & st & r & w0 & w1 & q & s & t & C & C' & T & St & L & N & R & Q & I & W & V).
    destruct (glass_shown inflate kind procs h rsv cmd res neg pl sf pad gmask bs tail rest cpus ts Hp C T Hh Hm Hd Hr Hc Hres Hrl Hs HV HS) as (f' & evs' & ED' & _ & Sh).
    rewrite ED in ED'. injection ED' as <- <-. destruct (Sh st St L cpus' r w0 w1 C' N R q p Q I Hx Hy) as (s' & t' & c & W' & U & V'). rewrite W in W'. injection W' as <- <-.
    exists c. split; [|congruence]. intros c'. rewrite <- (U c'). now apply steady_laid. }
  intros p v v' Hx Hy H H'. destruct (One p v Hx Hy H) as (c & U & ->), (One p v' Hx Hy H') as (c' & U' & ->). do 2 f_equal. apply U'. now apply U.
Qed.
