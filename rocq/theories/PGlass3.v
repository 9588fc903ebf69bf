(** The tree of a file with layers of any transparency, and what the renderer shows. *)
From Coq Require Import String Permutation.
From Verif Require Import Base BaseFacts SUtil SConfig MRect MPicker MConfig MReader MLayer MApi SCompress SRecord SLayer PConfig2 PRecord4
  MSched PSched MBlend MPorter SBlend PLum MWait PWait MRender SRender PRender PRender2 MRenderAll SRenderAll PRenderAll MRenderPx PRenderPx
  MDraw MTile STile PTile MLoad SLoad PLoad STileRender PTileRender MPipe SPipe SClip PClip PPipe PPipe2 PPipe3 PPipe5 SSharp PSharp2 PSharp3
  SGlass PGlass PGlass1 PGlass2.
Close Scope string_scope.
Open Scope Z_scope.

Lemma window_split flat i (a b : list slayer) : window flat i (a ++ b) -> window flat i a /\ window flat (i + length a) b.
Proof.
  intros W. split; intros j sl E.
  - apply W. rewrite nth_error_app1; [exact E|]. apply nth_error_Some. congruence.
  - replace (i + length a + j)%nat with (i + (length a + j))%nat by lia. apply W. rewrite nth_error_app2 by lia. now replace (length a + j - length a)%nat with j by lia.
Qed.
Lemma seq_at i l l' : layer_is false 3 8 3 (Z.of_nat i) l l' -> Z.to_nat (l_seq l') = i.
Proof. intros [(E & _) _]. rewrite E. lia. Qed.
Lemma Forall2_nil_iff {A B} (R : A -> B -> Prop) a b : Forall2 R a b -> (a = [] <-> b = []).
Proof. intros H. split; intros ->; now inversion H. Qed.

Section tree.
  Variables (inflate : bytes -> Z -> option (bytes * Z)) (large : bool) (cpus : nat) (ts : Z).
  Hypotheses (Hc : (1 <= cpus)%nat) (Ht : 0 < ts).
  Variables (flat : list slayer) (full : list lrec) (st : loader).
  Hypothesis Lf : layers_are false 3 8 3 0 flat full.
  Hypothesis Hv : Forall (slayer_valid inflate large 8 3) flat.
  Hypothesis Hs : MWait.steps (lstep cpus ts) (lstart (map playerOf full)) st.
  Hypothesis He : lended st.
  Hypothesis Hcl : forall sl, In sl flat -> glass_picture sl \/ exists t, has_type sl t /\ t <> 0.
  Notation cs := (ldCopied st).
  Notation ims := (ldImages st).
  Notation n := (Z.to_nat (ts * ts)).
  Notation A q := (at_tile ts q).
  Notation glassQ q := (glassL n (canvasTile ims q) (maskTile ims q)).
  Notation valQ q := (valG (canvasTile ims q) (maskTile ims q)).
  Notation compQ q := (compG (canvasTile ims q) (maskTile ims q)).
  Notation kidsQ q := (kidsG (canvasTile ims q) (maskTile ims q)).
  Notation clipsQ q := (clipsG (canvasTile ims q) (maskTile ims q)).
  Notation grpQ q := (grpG (canvasTile ims q) (maskTile ims q)).
  Notation wf := (lwf blendPx (hasCanvasOf ims)).

  Lemma folder_bare i sl t : nth_error flat i = Some sl -> has_type sl t -> t <> 0 -> exists m, m_get Z.eqb ims (Z.of_nat i) = Some (LI None m).
  Proof.
    intros E T N. destruct (rec_at cpus ts Hc Ht flat full st Lf Hs He i sl E) as (l & c & m & l1 & l2 & l' & L & G & C & _). pose proof (has_type_is _ _ _ _ (proj1 L) T) as Et.
    unfold canvasOf, hasImage in C. cbn [playerOf ptype] in C. rewrite Et in C. replace (t =? 0) with false in C by lia. destruct C as [-> _]. eauto.
  Qed.
  Lemma canvas_has q s t : canvasTile ims q s = Some t -> exists f, has n t f.
  Proof.
    unfold canvasTile. destruct (m_get Z.eqb ims s) as [[[m|] k]|] eqn:G; try discriminate. intros E.
    destruct (inv_end cpus ts _ (seqs_nodup _ _ Lf) st Hs He) as (_ & B & _). destruct (B _ _ G) as (i & l0 & Ei & Es).
    assert (Hi : (i < length flat)%nat).
    { rewrite <- (layers_are_length _ _ _ _ _ _ _ Lf). rewrite <- (map_length playerOf). apply nth_error_Some. congruence. }
    destruct (nth_error flat i) as [sl|] eqn:Ef; [|apply nth_error_None in Ef; lia].
    destruct (rec_at cpus ts Hc Ht flat full st Lf Hs He i sl Ef) as (l & c & m' & l1 & l2 & l' & L & G' & C & _).
    assert (s = Z.of_nat i) as ->.
    { destruct (layers_are_nth _ _ _ _ _ _ _ _ _ Lf Ef) as (l3 & E3 & L3). rewrite (map_nth_error playerOf i full E3) in Ei. injection Ei as <-.
      rewrite <- Es. exact (proj1 (proj1 L3)). }
    rewrite G in G'. injection G' as <- <-. pose proof (nth_error_In _ _ Ef) as Hin. destruct (Hcl sl Hin) as [Pl|(ty & T & N)].
    - pose proof Hv as Hv'. rewrite Forall_forall in Hv'. destruct (leaf_glass inflate large cpus ts Hc Ht _ _ _ _ _ Pl (Hv' sl Hin) L C) as [Al _]. exact (Al q t E).
    - destruct (folder_bare i sl ty Ef T N) as (m2 & G2). congruence.
  Qed.

  Record good (t : stree) (k : MRender.layer) : Prop := Good {
    g_glass : forall q, glassQ q k;
    g_wf : wf k;
    g_grp : lgroup k = [];
    g_clip : lclipping (latt k) = clips t;
    g_vis : lvis (latt k) = negb (hidden (rec_of t));
    g_op : lopa (latt k) = sl_opacity (rec_of t);
    g_mode : forall m, mode_of t m <-> modeIs (latt k) m;
    g_has : exists m, mode_of t m;
    g_bce : lbce (latt k) = blends_group (rec_of t);
    g_touch : forall q p, A q p -> forall op, touches (A q) t op <-> touchL (canvasTile ims q) k op = true;
    g_img : forall q p, A q p -> forall op d v, image (A q) p t op d v <-> v = valQ q (pos ts q p) k op d }.

  (** ** A layer with its group *)
  Lemma val_group q i k kcs op d : lgroup k = [] -> valQ q i (Lay (latt k) (lkids k) kcs) op d = grpQ q i (latt k) kcs (valQ q i k op d).
  Proof. intros E. rewrite <- (seqs_eta k E) at 4. now rewrite !valG_eq. Qed.
  Lemma touch_group q k kcs op : lgroup k = [] -> touchL (canvasTile ims q) (Lay (latt k) (lkids k) kcs) op = touchL (canvasTile ims q) k op.
  Proof. intros E. rewrite <- (seqs_eta k E) at 3. now rewrite !touchL_eq. Qed.
  Lemma put_gen t k cs0 kcs q p : good t k -> A q p -> (forall v v', topped (A q) p t cs0 v v' <-> v' = grpQ q (pos ts q p) (latt k) kcs v) ->
    forall op d d', put (A q) p t cs0 op d d' <-> d' = compQ q (pos ts q p) (Lay (latt k) (lkids k) kcs) op d.
  Proof.
    intros G Hp Tp op d d'. pose proof (g_img _ _ G q p Hp) as Im. pose proof (g_touch _ _ G q p Hp op) as To. unfold compG, putG. cbn [latt].
    rewrite (touch_group q k kcs op (g_grp _ _ G)), (val_group q _ k kcs op d (g_grp _ _ G)). unfold alive. rewrite (g_vis _ _ G).
    destruct (g_has _ _ G) as [m0 Hm0]. pose proof (proj1 (g_mode _ _ G m0) Hm0) as Mi. rewrite (mode_pt _ _ Mi). split.
    - inversion 1 as [? ? ? ? U|? ? m ? ? v v' U O Hm Hi Hc'|? ? ? ? v v' U O Hm Ho Hi Hc'|? ? ? ? Hm Ho]; subst.
      + destruct U as [U| ->]; [rewrite U; reflexivity|]. rewrite andb_false_r. reflexivity.
      + rewrite U. replace (op =? 0) with false by lia. cbn [negb andb]. apply Im in Hi. subst v. apply Tp in Hc'. subst v'. apply (g_mode _ _ G) in Hm. pose proof (mode_pt _ _ Hm) as X. rewrite (mode_pt _ _ Mi) in X. rewrite X.
        now rewrite (mode_B _ _ Hm).
      + rewrite U. replace (op =? 0) with false by lia. cbn [negb andb]. apply Im in Hi. subst v. apply Tp in Hc'. subst v'. apply (g_mode _ _ G) in Hm. pose proof (mode_pt _ _ Hm) as X. rewrite (mode_pt _ _ Mi) in X. rewrite X.
        apply To in Ho. now rewrite Ho.
      + apply (g_mode _ _ G) in Hm. pose proof (mode_pt _ _ Hm) as X. rewrite (mode_pt _ _ Mi) in X. rewrite X. destruct (touchL _ k op); [now destruct Ho; apply To|]. now destruct (_ && _).
    - intros ->. destruct (negb (hidden (rec_of t)) && negb (op =? 0)) eqn:Al.
      + apply andb_true_iff in Al. destruct Al as [U O]. apply negb_true_iff in U. apply negb_true_iff in O. assert (op <> 0) by lia. destruct m0 as [m|].
        * rewrite (mode_B _ _ Mi). eapply put_over; [exact U|assumption|exact Hm0|apply Im; reflexivity|now apply Tp].
        * destruct (touchL _ k op) eqn:Eo; [|apply put_away; [exact Hm0|]; rewrite To; congruence].
          eapply put_through; [exact U|assumption|exact Hm0|now apply To|apply Im; reflexivity|now apply Tp].
      + apply put_unseen. apply andb_false_iff in Al. destruct Al as [U|O]; [left; now apply negb_false_iff in U|right]. apply negb_false_iff in O. lia.
  Qed.
  Lemma topped_none q p t k : good t k -> forall v v', topped (A q) p t [] v v' <-> v' = grpQ q (pos ts q p) (latt k) [] v.
  Proof. intros G v v'. cbn [grpG]. split; [inversion 1; [reflexivity|congruence]|]. intros ->. constructor. now left. Qed.
  Lemma put_alone t k q p : good t k -> A q p -> forall op d d', put (A q) p t [] op d d' <-> d' = compQ q (pos ts q p) k op d.
  Proof. intros G Hp op d d'. rewrite (put_gen t k [] [] q p G Hp (topped_none q p t k G)). now rewrite (seqs_eta k (g_grp _ _ G)). Qed.
  Lemma clips_at q p : A q p -> forall cs0 kcs, Forall2 good cs0 kcs -> forall x y, clips_on (A q) p cs0 x y <-> y = clipsQ q (pos ts q p) kcs x.
  Proof.
    intros Hp. induction 1 as [|t k cs0 kcs G _ IH]; intros x y.
    - split; [inversion 1; reflexivity|]. intros ->. constructor.
    - unfold clipsG. cbn [fold_left]. split.
      + inversion 1 as [|? ? ? y1 ? H1 H2]; subst. apply (put_alone t k q p G Hp) in H1. subst y1. apply IH in H2. subst y. now rewrite (g_op _ _ G).
      + intros ->. econstructor; [apply (put_alone t k q p G Hp); reflexivity|]. apply IH. now rewrite (g_op _ _ G).
  Qed.
  Lemma topped_at t k cs0 kcs q p : good t k -> Forall2 good cs0 kcs -> A q p -> forall v v', topped (A q) p t cs0 v v' <-> v' = grpQ q (pos ts q p) (latt k) kcs v.
  Proof.
    intros G F Hp v v'. pose proof (clips_at q p Hp _ _ F) as Cl. pose proof (Forall2_nil_iff _ _ _ F) as Nl. unfold grpG. rewrite (g_bce _ _ G). split.
    - inversion 1 as [? ? ? X|? ? ? x N B X]; subst.
      + destruct X as [X|X]; [apply Nl in X; now rewrite X|]. rewrite X. now destruct kcs.
      + apply Cl in X. subst x. rewrite B. destruct kcs; [destruct N; now apply Nl|reflexivity].
    - intros ->. destruct kcs as [|k' kcs]; [constructor; left; now apply Nl|]. destruct (blends_group (rec_of t)) eqn:B; [|constructor; now right].
      constructor; [intros X; apply Nl in X; discriminate|exact B|now apply Cl].
  Qed.
  Lemma put_at t k cs0 kcs q p : good t k -> Forall2 good cs0 kcs -> A q p ->
    forall op d d', put (A q) p t cs0 op d d' <-> d' = compQ q (pos ts q p) (Lay (latt k) (lkids k) kcs) op d.
  Proof. intros G F Hp. apply put_gen; auto. now apply topped_at. Qed.

  (** ** Lists of layers *)
  Inductive matched : list (stree * list stree) -> list MRender.layer -> Prop :=
  | m_nil : matched [] []
  | m_alone t k gs ks : good t k -> lclipping (latt k) = true -> matched gs ks -> matched gs (Lay (latt k) (lkids k) [] :: ks)
  | m_base t k cs0 kcs gs ks : good t k -> Forall2 good cs0 kcs -> lclipping (latt k) = false -> matched gs ks ->
      matched ((t, cs0) :: gs) (Lay (latt k) (lkids k) kcs :: ks).
  Lemma good_clips cs0 kcs : Forall2 good cs0 kcs -> Forall (fun c => lclipping (latt c) = true) kcs -> Forall (fun c => clips c = true) cs0.
  Proof. induction 1 as [|t k cs0 kcs G _ IH]; intros H; [constructor|]. inversion H; subst. constructor; [now rewrite <- (g_clip _ _ G)|auto]. Qed.
  Lemma based_matched : forall ks ks', based ks ks' -> forall sf, Forall2 good sf ks ->
    exists gs, layers_grouped sf gs /\ matched gs ks' /\ match sf with t :: _ => clips t = false | [] => True end.
  Proof.
    induction 1 as [|k kcs ks ks' Ek Hk _ IH]; intros sf F.
    - inversion F; subst. exists []. repeat constructor.
    - inversion F as [|t k0 sf' ks0 G F']; subst. apply Forall2_app_inv_r in F'. destruct F' as (cs0 & sf2 & F1 & F2 & ->). destruct (IH sf2 F2) as (gs & Lg & Mt & Hd).
      exists ((t, cs0) :: gs). pose proof (g_clip _ _ G) as Et. rewrite Ek in Et. split; [|split; [|now symmetry]].
      + constructor; [now symmetry|eapply good_clips; eauto|exact Hd|exact Lg].
      + econstructor; eauto.
  Qed.
  Lemma grouped_matched : forall ks ks', grouped ks ks' -> forall sf, Forall2 good sf ks -> exists gs, layers_grouped sf gs /\ matched gs ks'.
  Proof.
    induction 1 as [|k ks ks' Ek _ IH|ks ks' B]; intros sf F.
    - inversion F; subst. exists []. repeat constructor.
    - inversion F as [|t k0 sf' ks0 G F']; subst. destruct (IH sf' F') as (gs & Lg & Mt). exists gs. split; [|econstructor; eauto]. constructor; [now rewrite <- (g_clip _ _ G)|exact Lg].
    - destruct (based_matched _ _ B _ F) as (gs & Lg & Mt & _). eauto.
  Qed.
  Lemma heaped_at q p : A q p -> forall gs ks, matched gs ks -> forall c d d', heaped (A q) p c gs d d' <-> d' = kidsQ q (pos ts q p) c ks d.
  Proof.
    intros Hp. induction 1 as [|t k gs ks G E M IH|t k cs0 kcs gs ks G F E M IH]; intros c d d'.
    - split; [inversion 1; reflexivity|intros ->; constructor].
    - unfold kidsG. cbn [fold_left]. unfold kidG at 2. cbn [latt]. rewrite E. now apply IH.
    - unfold kidsG. cbn [fold_left]. unfold kidG at 2. cbn [latt]. rewrite E, (g_op _ _ G).
      pose proof (put_at t k cs0 kcs q p G F Hp) as P. split.
      + inversion 1 as [|? ? ? ? ? d2 ? H1 H2]; subst. apply P in H1. subst d2. now apply IH.
      + intros ->. econstructor; [apply P; reflexivity|]. now apply IH.
  Qed.
  Lemma touch_at q p c : A q p -> forall gs ks, matched gs ks ->
    (exists t cs0, In (t, cs0) gs /\ touches (A q) t (within c (sl_opacity (rec_of t)))) <-> existsb (touchK (canvasTile ims q) c) ks = true.
  Proof.
    intros Hp. induction 1 as [|t k gs ks G E M IH|t k cs0 kcs gs ks G F E M IH].
    - split; [intros (t & cs0 & [] & _)|discriminate].
    - cbn [existsb]. unfold touchK at 1. cbn [latt]. rewrite E. exact IH.
    - cbn [existsb]. unfold touchK at 1. cbn [latt]. rewrite E, (g_op _ _ G), (touch_group q k kcs _ (g_grp _ _ G)). cbn [negb andb].
      rewrite orb_true_iff, <- IH, <- (g_touch _ _ G q p Hp). split.
      + intros (t' & cs' & [[= <- <-]|H] & To); [now left|right; eauto].
      + intros [To|(t' & cs' & H & To)]; [exists t, cs0; split; [now left|exact To]|exists t', cs'; split; [now right|exact To]].
  Qed.
  Lemma good_list_glass cs0 kcs : Forall2 good cs0 kcs -> (forall q, Forall (glassQ q) kcs) /\ Forall wf kcs /\ Forall (fun k => lgroup k = []) kcs.
  Proof.
    induction 1 as [|t k cs0 kcs G _ (I1 & I2 & I3)]; [repeat constructor|]. split; [|split].
    - intros q. constructor; [apply (g_glass _ _ G)|apply I1].
    - constructor; [apply (g_wf _ _ G)|exact I2].
    - constructor; [apply (g_grp _ _ G)|exact I3].
  Qed.
  Definition groupsOK (gs : list (stree * list stree)) : Prop := forall t cs0, In (t, cs0) gs -> cs0 = [] \/ blends_group (rec_of t) = true \/ ~ mode_of t None.
  Lemma matched_ok gs ks : matched gs ks -> groupsOK gs -> (forall q, Forall (glassQ q) ks) /\ Forall wf ks /\ forall k, In k ks -> lclipping (latt k) = true -> lgroup k = [].
  Proof.
    induction 1 as [|t k gs ks G E M IH|t k cs0 kcs gs ks G F E M IH]; intros GO.
    - split; [constructor|]. split; [constructor|intros ? []].
    - destruct (IH GO) as (I1 & I2 & I3). rewrite (seqs_eta k (g_grp _ _ G)). split; [intros q; constructor; [apply (g_glass _ _ G)|apply I1]|]. split; [constructor; [apply (g_wf _ _ G)|exact I2]|].
      intros k' [<-|H]; [intros _; exact (g_grp _ _ G)|now apply I3].
    - assert (GO' : groupsOK gs) by (intros t' c' H; apply (GO t' c'); now right). destruct (IH GO') as (I1 & I2 & I3). destruct (good_list_glass _ _ F) as (F1 & F2 & F3).
      assert (Hb : modeOK blendPx (latt k) kcs).
      { pose proof (g_wf _ _ G) as Wk. rewrite <- (seqs_eta k (g_grp _ _ G)) in Wk. inversion Wk as [? ? ? W1 _ _ _ _ _]; subst. unfold modeOK in *.
        destruct (isPT (latt k)) eqn:Ep; [|exact W1]. destruct (GO t cs0 (or_introl eq_refl)) as [->|[B|N]].
        - left. now inversion F.
        - right. now rewrite (g_bce _ _ G).
        - destruct (g_has _ _ G) as [[m|] Hm]; [|contradiction]. apply (g_mode _ _ G) in Hm. rewrite (mode_pt _ _ Hm) in Ep. discriminate. }
      split; [|split].
      + intros q. constructor; [|apply I1]. pose proof (g_glass _ _ G q) as Sk. rewrite <- (seqs_eta k (g_grp _ _ G)) in Sk. inversion Sk; subst. constructor; auto.
      + constructor; [|exact I2]. pose proof (g_wf _ _ G) as Wk. rewrite <- (seqs_eta k (g_grp _ _ G)) in Wk. inversion Wk as [? ? ? W1 W2 W3 W4 W5 W6]; subst. constructor; auto.
        rewrite Forall_forall in F3. exact F3.
      + intros k' [<-|H]; [cbn [latt]; congruence|now apply I3].
  Qed.

  (** ** The tree *)
  Definition good_list (i : nat) (m : nat) (sf : list stree) (ks : list MRender.layer) : Prop :=
    Forall2 good sf ks /\ (forall s, In s (flat_map seqs ks) -> Z.of_nat i <= s < Z.of_nat (i + m)) /\ NoDup (flat_map seqs ks).
  Lemma good_nil i m : good_list i m [] [].
  Proof. split; [constructor|]. split; [intros s []|constructor]. Qed.
  Lemma good_cons i m m' t sf k ks : good t k -> (forall s, In s (seqs k) -> Z.of_nat i <= s < Z.of_nat (i + m)) -> NoDup (seqs k) ->
    good_list (i + m) m' sf ks -> good_list i (m + m') (t :: sf) (k :: ks).
  Proof.
    intros G B N (F & B' & N'). split; [constructor; auto|]. split.
    - intros s H. cbn [flat_map] in H. apply in_app_or in H. destruct H as [H|H]; [apply B in H|apply B' in H]; lia.
    - cbn [flat_map]. apply NoDup_app'; auto. intros s H H'. apply B in H. apply B' in H'. lia.
  Qed.
  (** What the layers of a list become in the tree *)
  Lemma list_shown i m sf ks : good_list i m sf ks -> glass_groups sf ->
    (forall q, Forall (glassQ q) (withGroups ks)) /\ Forall wf (withGroups ks) /\ (forall k, In k (withGroups ks) -> lclipping (latt k) = true -> lgroup k = []) /\
    (forall s, In s (flat_map seqs (withGroups ks)) -> Z.of_nat i <= s < Z.of_nat (i + m)) /\ NoDup (flat_map seqs (withGroups ks)) /\
    (forall q p, A q p -> forall c d d', laid (A q) p c sf d d' <-> d' = kidsQ q (pos ts q p) c (withGroups ks) d) /\
    (forall q p, A q p -> forall c, (exists gs t cs0, layers_grouped sf gs /\ In (t, cs0) gs /\ touches (A q) t (within c (sl_opacity (rec_of t)))) <->
       existsb (touchK (canvasTile ims q) c) (withGroups ks) = true).
  Proof.
    intros (F & B & N) GO. pose proof (withGroups_grouped ks) as Gr. destruct (grouped_matched _ _ Gr _ F) as (gs & Lg & Mt).
    assert (GO' : groupsOK gs) by (intros t cs0 H; exact (GO gs t cs0 Lg H)). destruct (matched_ok _ _ Mt GO') as (M1 & M2 & M3).
    assert (Gn : Forall (fun k => lgroup k = []) ks) by (eapply good_list_glass; exact F). pose proof (grouped_seqs _ _ Gr Gn) as Pm.
    split; [exact M1|]. split; [exact M2|]. split; [exact M3|]. split; [intros s H; apply B; eapply Permutation_in; [exact Pm|exact H]|].
    split; [eapply Permutation_NoDup; [apply Permutation_sym; exact Pm|exact N]|]. split.
    - intros q p Hp c d d'. rewrite <- (heaped_at q p Hp gs _ Mt c d d'). split.
      + inversion 1 as [? ? gs' ? ? Lg' St]; subst. now rewrite (lg_fun _ _ Lg _ Lg').
      + intros St. econstructor; eauto.
    - intros q p Hp c. rewrite <- (touch_at q p c Hp gs _ Mt). split.
      + intros (gs' & t & cs0 & Lg' & H). rewrite <- (lg_fun _ _ Lg _ Lg') in H. eauto.
      + intros (t & cs0 & H). eauto.
  Qed.

  (** The attributes of a layer *)
  Lemma attr_at i sl r through : nth_error flat i = Some sl -> glass_mask sl through -> slayer_valid inflate large 8 3 sl -> layer_is false 3 8 3 (Z.of_nat i) sl r ->
    exists l0 l1 c m l' men, layer_is false 3 8 3 (Z.of_nat i) sl l0 /\ canvasOf cpus ts (playerOf l0) l1 c /\ m_get Z.eqb ims (Z.of_nat i) = Some (LI c m) /\
      nth_error cs i = Some l' /\
      let a := Lattr (Z.of_nat i) (negb (hidden sl)) (sl_opacity sl) (blendModeOf r) (negb (sl_clip sl =? 0)) (blends_group sl) men (mask_colour sl =? 255) in
      buildAttr r l' = a /\ (forall q, maskFits n (maskTile ims q) a) /\
      (isPT a = through -> forall q p, A q p -> forall d s v, masked (A q) p sl through d s v <-> v = maskG (maskTile ims q) a (pos ts q p) d s).
  Proof.
    intros E Sm V L. destruct (rec_at cpus ts Hc Ht flat full st Lf Hs He i sl E) as (l & c & m & l1 & l2 & l' & L0 & G & C & M & E' & S' & R').
    destruct (mask_glass inflate large cpus ts Hc Ht (Z.of_nat i) sl l l1 l2 l' c m V L0 C M S' R' through Sm) as [M1 M2].
    destruct (mask_facts cpus ts (Z.of_nat i) sl l l1 l2 l' c m L0 C M S' R') as (Ec & _).
    exists l, l1, c, m, l', (maskEnabled l'). split; [exact L0|]. split; [exact C|]. split; [exact G|]. split; [exact E'|]. cbv zeta.
    assert (Eb : buildAttr r l' = Lattr (Z.of_nat i) (negb (hidden sl)) (sl_opacity sl) (blendModeOf r) (negb (sl_clip sl =? 0)) (blends_group sl) (maskEnabled l') (mask_colour sl =? 255)).
    { pose proof (hidden_visible _ _ _ (proj1 L)) as Vi. destruct L as [(_ & _ & _ & Eo & Ecl & _ & _ & _ & _ & Eg & _) _]. unfold buildAttr, attrsOf. rewrite Vi, Eo, Ecl, Eg, Ec.
      f_equal. rewrite S'. cbn [setMaskRect setRect playerOf pseq]. exact (proj1 (proj1 L0)). }
    split; [exact Eb|]. set (a := Lattr _ _ _ _ _ _ _ _).
    assert (Em : forall q, maskTile ims q (Z.of_nat i) = mTile m q) by (intros q; unfold maskTile, mTile; rewrite G; now destruct m). split.
    - intros q Hm t. cbn [lseq a]. rewrite Em. now apply M1.
    - intros Ip q p Hp d s v. rewrite (M2 q p Hp d s v). unfold seenG, maskG. rewrite Ip. cbn [lmen lmdc lseq a]. now rewrite Em, Ec.
  Qed.
  Lemma cell_at q p i c m : m_get Z.eqb ims (Z.of_nat i) = Some (LI c m) -> cellG (canvasTile ims q) (Z.of_nat i) (pos ts q p) = cellPx ts c q p.
  Proof. intros G. unfold cellG, cellPx, cTile, canvasTile. rewrite G. now destruct c. Qed.

  Lemma tree_good : forall k sf i ls, (list_sum (map ssize sf) <= k)%nat -> Forall stree_valid sf -> Forall glass_tree sf -> window flat i (flat_map sflatten sf) ->
    trees_are false 3 8 3 (Z.of_nat i) sf ls -> good_list i (length (flat_map sflatten sf)) sf (map (treeOf cs) ls).
  Proof.
    induction k as [|k IH]; intros sf i ls Hsz HV HP HW HT.
    { destruct sf as [|[l|d f c] sf]; cbn in Hsz; try lia. inversion HT; subst. apply good_nil. }
    destruct sf as [|t sf]; [inversion HT; subst; apply good_nil|].
    inversion HT as [|? ? ? l ls' T1 T2]; subst. clear HT. pose proof (Forall_inv HV) as V1. pose proof (Forall_inv_tail HV) as V2. pose proof (Forall_inv HP) as P1. pose proof (Forall_inv_tail HP) as P2.
    cbn [flat_map] in *. apply window_split in HW. destruct HW as [W1 W2]. rewrite app_length. cbn [map].
    assert (Hs1 : (ssize t + list_sum (map ssize sf) <= S k)%nat) by exact Hsz.
    assert (Hs2 : (list_sum (map ssize sf) <= k)%nat) by (destruct t; cbn [ssize] in Hs1; lia).
    assert (G2 : good_list (i + length (sflatten t)) (length (flat_map sflatten sf)) sf (map (treeOf cs) ls')).
    { apply IH; auto. replace (Z.of_nat (i + length (sflatten t))) with (Z.of_nat i + zlen (sflatten t)) by (unfold zlen; lia). exact T2. }
    pose proof Hv as Hv'. rewrite Forall_forall in Hv'. destruct t as [sl|dv fo ct].
    - (* a picture *)
      inversion T1 as [? ? r L|]; subst. inversion P1 as [? Po Pn Pl|]; subst. cbn [sflatten length] in *.
      pose proof (W1 0%nat sl eq_refl) as Ef. rewrite Nat.add_0_r in Ef. pose proof (Hv' sl (nth_error_In _ _ Ef)) as Vl.
      destruct (attr_at i sl r false Ef Pn Vl L) as (l0 & l1 & c & m & l' & men & L0 & C & G & E' & Ea & Mg & Ms). set (a := Lattr _ _ _ _ _ _ _ _) in *.
      pose proof Pl as (Ty & (m0 & Hm0) & _). pose proof (leaf_not_pt _ _ _ _ (proj1 L) Ty Hm0) as NP. pose proof (leaf_bm _ _ _ (proj1 L) Ty) as BM.
      destruct (leaf_glass inflate large cpus ts Hc Ht _ sl l0 l1 c Pl Vl L0 C) as (_ & Lv & Lt).
      assert (Etree : treeOf cs (Layer r []) = Lay a [] []).
      { cbn [treeOf map]. rewrite (seq_at _ _ _ L), E', Ea. reflexivity. }
      assert (IP : isPT a = false) by exact NP. pose proof (proj1 (BM m0) Hm0) as Hg. specialize (Ms IP).
      assert (MO : modeOK blendPx a []) by (unfold modeOK; rewrite IP; unfold blendPx; cbn [lbm a]; rewrite Hg; discriminate).
      rewrite Etree. apply good_cons; [| | |exact G2].
      + constructor; cbn [lgroup latt rec_of].
        * intros q. constructor; [unfold is_byte in Po; unfold byte; cbn [lopa a]; lia|apply Mg|exact MO|congruence|constructor|constructor].
        * constructor; [exact MO|congruence|intros ? []|intros ? []|constructor|constructor].
        * reflexivity.
        * reflexivity.
        * reflexivity.
        * reflexivity.
        * intros [mm|]; cbn [mode_of modeIs]; [apply BM|]. split; [intros []|]. cbn [lbm a]. intros X. rewrite X in NP. discriminate.
        * exists (Some m0). exact Hm0.
        * reflexivity.
        * intros q p Hp op. rewrite touchL_eq. cbn [SRender.isNil]. unfold alive. cbn [lvis lseq a].
          assert (Ec : (match canvasTile ims q (Z.of_nat i) with Some _ => true | None => false end = true) <-> cTile c q <> None).
          { unfold canvasTile, cTile. rewrite G. destruct c as [m1|]; [destruct (m_get pt_eqb m1 q)|]; split; intros X; congruence. }
          rewrite !andb_true_iff, !negb_true_iff, Ec, <- (Lt q p Hp), Z.eqb_neq. split.
          -- inversion 1 as [? ? q0 v0 U O H1 H2 H3|]; subst. split; [auto|]. exists q0, v0. auto.
          -- intros ((U & O) & (q0 & v0 & H1 & H2 & H3)). econstructor; eauto.
        * intros q p Hp op d v. rewrite valG_eq. unfold preG. rewrite IP. cbn [lseq a]. rewrite (cell_at q p i c m G). cbn [grpG].
          split.
          -- inversion 1 as [? ? ? s ? Hl Hm| |]; subst. apply (Lv q p Hp) in Hl. subst s. now apply (Ms q p Hp) in Hm.
          -- intros X. econstructor; [apply (Lv q p Hp); reflexivity|]. now apply (Ms q p Hp).
      + intros s [<-|[]]. cbn [lseq a]. lia.
      + constructor; [intros []|constructor].
    - (* a folder *)
      inversion T1 as [|? ? ? ? r lc T3 L]; subst. inversion P1 as [|? ? ? fm Po Hfm Pn Pc' Gk]; subst. inversion V1 as [|? ? ? ty Td Tf Hty Vc]; subst. cbn [sflatten] in *.
      cbn [ssize] in Hs1. set (N := length (flat_map sflatten ct)) in *.
      assert (Wc : window flat (S i) (flat_map sflatten ct) /\ nth_error flat (S i + N) = Some fo).
      { change (dv :: flat_map sflatten ct ++ [fo]) with ([dv] ++ (flat_map sflatten ct ++ [fo])) in W1. apply window_split in W1. destruct W1 as [_ W1].
        cbn [length] in W1. apply window_split in W1. destruct W1 as [W1 W3]. split; [now replace (S i) with (i + 1)%nat by lia|].
        specialize (W3 0%nat fo eq_refl). replace (S i + N)%nat with (i + 1 + length (flat_map sflatten ct) + 0)%nat by (unfold N; lia). exact W3. }
      destruct Wc as [Wc Ef].
      assert (Gc : good_list (S i) N ct (map (treeOf cs) lc)).
      { apply IH; auto; [lia|]. replace (Z.of_nat (S i)) with (Z.of_nat i + 1) by lia. exact T3. }
      replace (Z.of_nat i + 1 + zlen (flat_map sflatten ct)) with (Z.of_nat (S i + N)) in L by (unfold N, zlen; lia).
      pose proof (Hv' fo (nth_error_In _ _ Ef)) as Vl.
      destruct (attr_at (S i + N) fo r _ Ef Pn Vl L) as (l0 & l1 & c & m & l' & men & L0 & C & G & E' & Ea & Mg & Ms). set (a := Lattr _ _ _ _ _ _ _ _) in *.
      destruct (folder_bare (S i + N) fo ty Ef Tf ltac:(lia)) as (m2 & G'). rewrite G in G'. injection G' as -> <-.
      pose proof (folder_bm_mode _ _ _ _ _ (proj1 L) Tf Hty Hfm) as BM.
      set (ks := withGroups (map (treeOf cs) lc)) in *.
      assert (Etree : treeOf cs (Layer r lc) = Lay a ks []).
      { cbn [treeOf]. rewrite (seq_at _ _ _ L), E', Ea. reflexivity. }
      rewrite Etree. destruct (list_shown _ _ _ _ Gc Gk) as (Sq & Wf & Cg & Bq & Nq & Cq & Tq). fold ks in Sq, Wf, Cg, Bq, Nq, Cq, Tq.
      assert (Hmode : forall mm, mode_of (SFolder dv fo ct) mm <-> modeIs a mm) by (intros mm; exact (BM mm)).
      pose proof (proj1 (Hmode fm) Hfm) as Ma. pose proof (mode_pt _ _ Ma) as Ip. specialize (Ms ltac:(rewrite Ip; now destruct fm)).
      assert (NC : forall q, canvasTile ims q (Z.of_nat (S i + N)) = None) by (intros q; unfold canvasTile; now rewrite G).
      assert (MO : modeOK blendPx a []).
      { unfold modeOK. destruct (isPT a) eqn:X; [now left|]. destruct fm as [mm|]; [|congruence]. cbn [modeIs] in Ma. unfold blendPx. rewrite Ma. discriminate. }
      apply good_cons; [| | |exact G2].
      + constructor; cbn [lgroup latt rec_of].
        * intros q. constructor; [unfold is_byte in Po; unfold byte; cbn [lopa a]; lia|apply Mg|exact MO|intros _ _; apply NC|apply Sq|constructor].
        * constructor; [exact MO| |exact Cg|intros ? []|exact Wf|constructor]. intros _. cbn [lseq a]. unfold hasCanvasOf. now rewrite G.
        * reflexivity.
        * reflexivity.
        * reflexivity.
        * reflexivity.
        * exact Hmode.
        * exists fm. exact Hfm.
        * reflexivity.
        * intros q p Hp op.
          assert (Ec : touchL (canvasTile ims q) (Lay a ks []) op = alive a op && existsb (touchK (canvasTile ims q) (opIn a op)) ks).
          { rewrite touchL_eq. f_equal. destruct ks; [|reflexivity]. cbn [SRender.isNil existsb lseq a]. now rewrite NC. }
          rewrite Ec. unfold alive. cbn [lvis a]. rewrite !andb_true_iff, !negb_true_iff, Z.eqb_neq, <- (Tq q p Hp (opIn a op)).
          assert (In' : forall mm, folder_mode fo mm -> inside mm op = opIn a op).
          { intros mm Hmm. apply (Hmode mm) in Hmm. unfold opIn. rewrite (mode_pt _ _ Hmm). now destruct mm. }
          split.
          -- inversion 1 as [|? ? ? mm ? gs t cs0 U O Hmm Lg Hin To]; subst. split; [auto|]. exists gs, t, cs0. rewrite <- (In' mm Hmm). auto.
          -- intros ((U & O) & (gs & t & cs0 & Lg & Hin & To)). rewrite <- (In' fm Hfm) in To. econstructor; eauto.
        * intros q p Hp op d v. specialize (Ms q p Hp). specialize (Cq q p Hp). rewrite valG_eq. cbn [grpG].
          assert (Epre : preG (canvasTile ims q) (maskTile ims q) (pos ts q p) a ks op d =
                         if isPT a then kidsQ q (pos ts q p) (Some op) ks (stored d) else kidsQ q (pos ts q p) None ks nothing).
          { unfold preG. destruct (isPT a); [reflexivity|]. destruct ks; [|reflexivity]. unfold cellG. cbn [lseq a]. rewrite NC. exact stored_nothing. }
          rewrite Epre, Ip. split.
          -- inversion 1 as [|? ? ? mm ? ? s ? Hm Hp' Hb|? ? ? ? ? s ? Hm Hp' Hb]; subst; apply (Hmode) in Hm; apply mode_pt in Hm; rewrite Ip in Hm; apply Cq in Hp'; subst s; destruct fm; try discriminate; now apply Ms.
          -- intros X. destruct fm as [mm|].
             ++ eapply image_folder; [exact Hfm|apply Cq; reflexivity|now apply Ms].
             ++ eapply image_through; [exact Hfm|apply Cq; reflexivity|now apply Ms].
      + cbn [length]. rewrite app_length. cbn [length]. fold N. intros s. cbn [seqs lseq a flat_map]. rewrite app_nil_r. intros [<-|H]; [lia|]. apply Bq in H. lia.
      + cbn [seqs lseq a flat_map]. rewrite app_nil_r. constructor; [|exact Nq]. intros H. apply Bq in H. lia.
  Qed.
End tree.
