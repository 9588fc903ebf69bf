(** The tree of a file with sharp layers, and what the renderer shows. *)
From Coq Require Import String Permutation.
From Verif Require Import Base BaseFacts SUtil SConfig MRect MPicker MConfig MReader MLayer MApi SCompress SRecord SLayer PConfig2 PRecord4
  MSched PSched MBlend MPorter SBlend MWait PWait MRender SRender PRender PRender2 MRenderAll SRenderAll PRenderAll MRenderPx PRenderPx
  MDraw MTile STile PTile MLoad SLoad PLoad STileRender PTileRender MPipe SPipe SClip PClip PPipe PPipe2 PPipe3 PPipe5 SSharp PSharp PSharp2.
Close Scope string_scope.
Open Scope Z_scope.

(** * Groups of the specification *)
Lemma lg_exists : forall n ts, (length ts <= n)%nat -> exists gs, layers_grouped ts gs.
Proof.
  induction n as [|n IH]; intros ts Hn.
  - destruct ts; [exists []; constructor|cbn in Hn; lia].
  - destruct ts as [|t ts]; [exists []; constructor|]. cbn [length] in Hn. destruct (clips t) eqn:E.
    + destruct (IH ts ltac:(lia)) as [gs H]. exists gs. now constructor.
    + assert (Sp : forall ts, exists cs ts', ts = cs ++ ts' /\ Forall (fun c => clips c = true) cs /\ match ts' with t' :: _ => clips t' = false | [] => True end).
      { clear. induction ts as [|t ts (cs & ts' & -> & H & N)]; [exists [], []; auto|]. destruct (clips t) eqn:E; [exists (t :: cs), ts'; auto|exists [], (t :: cs ++ ts'); auto]. }
      destruct (Sp ts) as (cs & ts' & -> & H & N). rewrite app_length in Hn. destruct (IH ts' ltac:(lia)) as [gs G]. exists ((t, cs) :: gs). now constructor.
Qed.
Lemma run_fun (cs cs' ts ts' : list stree) : Forall (fun c => clips c = true) cs -> Forall (fun c => clips c = true) cs' ->
  match ts with t' :: _ => clips t' = false | [] => True end -> match ts' with t' :: _ => clips t' = false | [] => True end ->
  cs ++ ts = cs' ++ ts' -> cs = cs' /\ ts = ts'.
Proof.
  intros H. revert cs'. induction H as [|c cs Hc _ IH]; intros cs' H' N N' E; destruct H' as [|c' cs' Hc' H']; cbn [app] in E.
  - auto.
  - subst ts. congruence.
  - subst ts'. congruence.
  - injection E as -> E. destruct (IH cs' H' N N' E) as [-> ->]. auto.
Qed.
Lemma lg_fun ts gs : layers_grouped ts gs -> forall gs', layers_grouped ts gs' -> gs = gs'.
Proof.
  induction 1 as [|t ts gs E _ IH|t cs ts gs E Hcs N _ IH]; intros gs' H'; inversion H' as [|t' ts1 gs1 E1 H1|t' cs1 ts1 gs1 E1 Hcs1 N1 H1]; subst; try congruence; auto.
  destruct (run_fun _ _ _ _ Hcs1 Hcs N1 N) as [-> ->]; [assumption|]. f_equal. auto.
Qed.

Lemma seqs_eta k : lgroup k = [] -> Lay (latt k) (lkids k) [] = k.
Proof. destruct k as [a ks cs]. cbn. now intros ->. Qed.

Section tree.
  Variables (inflate : bytes -> Z -> option (bytes * Z)) (large : bool) (cpus : nat) (ts : Z).
  Hypotheses (Hc : (1 <= cpus)%nat) (Ht : 0 < ts).
  Variables (flat : list slayer) (full : list lrec) (st : loader).
  Hypothesis Lf : layers_are false 3 8 3 0 flat full.
  Hypothesis Hv : Forall (slayer_valid inflate large 8 3) flat.
  Hypothesis Hs : MWait.steps (lstep cpus ts) (lstart (map playerOf full)) st.
  Hypothesis He : lended st.
  Hypothesis Hcl : forall sl, In sl flat -> picture_ok sl \/ exists t, has_type sl t /\ t <> 0.
  Notation cs := (ldCopied st).
  Notation ims := (ldImages st).
  Notation n := (Z.to_nat (ts * ts)).
  Notation sharpQ q := (sharpL n (canvasTile ims q) (maskTile ims q)).
  Notation bodyQ q := (bodyC (canvasTile ims q) (maskTile ims q)).
  Notation compQ q := (compC (canvasTile ims q) (maskTile ims q)).
  Notation kidsQ q := (kidsC (canvasTile ims q) (maskTile ims q)).
  Notation grpQ q := (grpC (canvasTile ims q) (maskTile ims q)).
  Notation wf := (lwf blendPx (hasCanvasOf ims)).

  Definition modeIs (a : lattr) (m : option mode) : Prop :=
    match m with Some m => m_get list_eqb blendModes (lbm a) = Some m | None => lbm a = passThrough end.
  Lemma mode_pt a m : modeIs a m -> isPT a = match m with None => true | Some _ => false end.
  Proof.
    unfold modeIs, isPT. destruct m as [m|]; [intros H; apply key_get in H; now apply key_not_pass in H|intros ->; reflexivity].
  Qed.
  Lemma mode_B a m : modeIs a (Some m) -> modeB a = m.
  Proof. unfold modeIs, modeB. now intros ->. Qed.

  Record good (t : stree) (k : MRender.layer) : Prop := Good {
    g_sharp : forall q, sharpQ q k;
    g_wf : wf k;
    g_grp : lgroup k = [];
    g_clip : lclipping (latt k) = clips t;
    g_drawn : drawn (latt k) = negb (unseen (rec_of t));
    g_mode : forall m, mode_of t m <-> modeIs (latt k) m;
    g_has : exists m, mode_of t m;
    g_bce : lbce (latt k) = blends_group (rec_of t);
    g_pic : forall q p, at_tile ts q p -> forall d s, picture p t d s <-> s = bodyQ q (pos ts q p) k d }.

  (** ** A layer with its group *)
  Lemma body_group q i k kcs d : lgroup k = [] -> bodyQ q i (Lay (latt k) (lkids k) kcs) d = grpQ q i kcs (bodyQ q i k d).
  Proof.
    intros E. rewrite <- (seqs_eta k E) at 3. rewrite !bodyC_eq. destruct (maskedC _ _ _ _ _) as [c|]; reflexivity.
  Qed.
  Lemma placed_gen t k cs0 kcs q p : good t k -> (cs0 = [] \/ ~ mode_of t None) -> at_tile ts q p ->
    (forall s s', clipped p cs0 s s' <-> s' = grpQ q (pos ts q p) kcs s) -> (cs0 = [] -> kcs = []) ->
    forall d c, placed p t cs0 d c <-> c = compQ q (pos ts q p) (Lay (latt k) (lkids k) kcs) d.
  Proof.
    intros G N A Cl Nil d c. pose proof (g_pic _ _ G q p A) as P. unfold compC, putC. cbn [latt]. rewrite (g_drawn _ _ G). rewrite (body_group q _ k kcs d (g_grp _ _ G)).
    destruct (g_has _ _ G) as [m0 Hm0]. pose proof (proj1 (g_mode _ _ G m0) Hm0) as Mi. rewrite (mode_pt _ _ Mi). split.
    - inversion 1 as [? ? ? U|? ? ? U Hm Hp|? ? m ? s s' U Hm Hp Hcp]; subst; rewrite U; cbn [negb]; [reflexivity| |].
      + apply (g_mode _ _ G) in Hm. apply mode_pt in Hm. rewrite (mode_pt _ _ Mi) in Hm. rewrite Hm. apply P in Hp. subst c. rewrite (Nil eq_refl).
        destruct (bodyQ q (pos ts q p) k d); reflexivity.
      + apply (g_mode _ _ G) in Hm. apply P in Hp. subst s. apply Cl in Hcp. subst s'. pose proof (mode_pt _ _ Hm) as X. rewrite (mode_pt _ _ Mi) in X. rewrite X. now rewrite (mode_B _ _ Hm).
    - intros ->. destruct (unseen (rec_of t)) eqn:U; cbn [negb]; [now constructor|]. destruct m0 as [m|].
      + rewrite (mode_B _ _ Mi). eapply placed_over; [exact U|exact Hm0|apply P; reflexivity|now apply Cl].
      + destruct N as [->|N]; [|contradiction]. rewrite (Nil eq_refl). replace (grpQ q (pos ts q p) [] (bodyQ q (pos ts q p) k d)) with (bodyQ q (pos ts q p) k d).
        * apply placed_through; [exact U|exact Hm0|now apply P].
        * now destruct (bodyQ q (pos ts q p) k d).
  Qed.
  Lemma clipped_none p cs0 s s' : cs0 = [] -> (clipped p cs0 s s' <-> s' = s).
  Proof. intros ->. split; [inversion 1; reflexivity|]. intros ->. destruct s; constructor. Qed.
  Lemma placed_alone t k q p : good t k -> at_tile ts q p -> forall d c, placed p t [] d c <-> c = compQ q (pos ts q p) k d.
  Proof.
    intros G A d c. rewrite (placed_gen t k [] [] q p G); [now rewrite (seqs_eta k (g_grp _ _ G))|now left|exact A| |reflexivity].
    intros s s'. rewrite clipped_none by reflexivity. now destruct s.
  Qed.
  Lemma clipped_at q p : at_tile ts q p -> forall cs0 kcs, Forall2 good cs0 kcs -> forall s s', clipped p cs0 s s' <-> s' = grpQ q (pos ts q p) kcs s.
  Proof.
    intros A. induction 1 as [|t k cs0 kcs G _ IH]; intros s s'.
    - rewrite clipped_none by reflexivity. now destruct s.
    - destruct s as [c|].
      + unfold grpC, clipsC. cbn [fold_left]. destruct (compC_some (canvasTile ims q) (maskTile ims q) (pos ts q p) k c) as (c1 & E1). split.
        * inversion 1 as [| |? ? ? s1 ? H1 H2]; subst. apply (placed_alone t k q p G A) in H1. rewrite E1 in H1. subst s1. apply IH in H2. subst s'. rewrite E1. reflexivity.
        * intros ->. econstructor; [apply (placed_alone t k q p G A); reflexivity|]. apply IH. rewrite E1. reflexivity.
      + cbn [grpC]. split; [inversion 1; reflexivity|]. intros ->. constructor.
  Qed.
  Lemma placed_at t k cs0 kcs q p : good t k -> Forall2 good cs0 kcs -> (cs0 = [] \/ ~ mode_of t None) -> at_tile ts q p ->
    forall d c, placed p t cs0 d c <-> c = compQ q (pos ts q p) (Lay (latt k) (lkids k) kcs) d.
  Proof.
    intros G F N A. apply placed_gen; auto; [now apply clipped_at|]. intros ->. inversion F. reflexivity.
  Qed.

  (** ** Lists of layers *)
  Inductive matched : list (stree * list stree) -> list MRender.layer -> Prop :=
  | m_nil : matched [] []
  | m_alone t k gs ks : good t k -> lclipping (latt k) = true -> matched gs ks -> matched gs (Lay (latt k) (lkids k) [] :: ks)
  | m_base t k cs0 kcs gs ks : good t k -> Forall2 good cs0 kcs -> lclipping (latt k) = false -> matched gs ks ->
      matched ((t, cs0) :: gs) (Lay (latt k) (lkids k) kcs :: ks).
  Lemma good_clips cs0 kcs : Forall2 good cs0 kcs -> Forall (fun c => lclipping (latt c) = true) kcs -> Forall (fun c => clips c = true) cs0.
  Proof. induction 1 as [|t k cs0 kcs G _ IH]; intros H; [constructor|]. inversion H; subst. constructor; [now rewrite <- (g_clip _ _ G)|auto]. Qed.
  Lemma based_matched : forall ks ks', based ks ks' -> forall sf, Forall2 good sf ks ->
    exists gs, layers_grouped sf gs /\ matched gs ks' /\ match sf with t :: _ => clips t = false | [] => True end.
  Proof.
    induction 1 as [|k kcs ks ks' Ek Hk _ IH]; intros sf F.
    - inversion F; subst. exists []. repeat constructor.
    - inversion F as [|t k0 sf' ks0 G F']; subst. apply Forall2_app_inv_r in F'. destruct F' as (cs0 & sf2 & F1 & F2 & ->). destruct (IH sf2 F2) as (gs & Lg & Mt & Hd).
      exists ((t, cs0) :: gs). pose proof (g_clip _ _ G) as Et. rewrite Ek in Et. split; [|split; [|now symmetry]].
      + constructor; [now symmetry|eapply good_clips; eauto|exact Hd|exact Lg].
      + econstructor; eauto.
  Qed.
  Lemma grouped_matched : forall ks ks', grouped ks ks' -> forall sf, Forall2 good sf ks -> exists gs, layers_grouped sf gs /\ matched gs ks'.
  Proof.
    induction 1 as [|k ks ks' Ek _ IH|ks ks' B]; intros sf F.
    - inversion F; subst. exists []. repeat constructor.
    - inversion F as [|t k0 sf' ks0 G F']; subst. destruct (IH sf' F') as (gs & Lg & Mt). exists gs. split; [|econstructor; eauto]. constructor; [now rewrite <- (g_clip _ _ G)|exact Lg].
    - destruct (based_matched _ _ B _ F) as (gs & Lg & Mt & _). eauto.
  Qed.
  Definition groupsOK (gs : list (stree * list stree)) : Prop := forall t cs0, In (t, cs0) gs -> cs0 = [] \/ (blends_group (rec_of t) = true /\ ~ mode_of t None).
  Lemma stacked_at q p : at_tile ts q p -> forall gs ks, matched gs ks -> groupsOK gs -> forall d c, stacked p gs d c <-> c = kidsQ q (pos ts q p) ks d.
  Proof.
    intros A. induction 1 as [|t k gs ks G E M IH|t k cs0 kcs gs ks G F E M IH]; intros GO d c.
    - split; [inversion 1; reflexivity|intros ->; constructor].
    - unfold kidsC. cbn [fold_left]. unfold kidC at 2. cbn [latt]. rewrite E. now apply IH.
    - unfold kidsC. cbn [fold_left]. unfold kidC at 2. cbn [latt]. rewrite E. assert (GO' : groupsOK gs) by (intros t' c' H; apply (GO t' c'); now right).
      assert (Pl : cs0 = [] \/ ~ mode_of t None) by (destruct (GO t cs0 (or_introl eq_refl)) as [X|[_ X]]; auto).
      pose proof (placed_at t k cs0 kcs q p G F Pl A) as P. split.
      + inversion 1 as [|? ? ? ? d2 ? H1 H2]; subst. apply P in H1. subst d2. now apply (IH GO').
      + intros ->. econstructor; [apply P; reflexivity|]. now apply (IH GO').
  Qed.
  Lemma good_list_sharp cs0 kcs : Forall2 good cs0 kcs -> (forall q, Forall (sharpQ q) kcs) /\ Forall wf kcs /\ Forall (fun k => lgroup k = []) kcs.
  Proof.
    induction 1 as [|t k cs0 kcs G _ (I1 & I2 & I3)]; [repeat constructor|]. split; [|split].
    - intros q. constructor; [apply (g_sharp _ _ G)|apply I1].
    - constructor; [apply (g_wf _ _ G)|exact I2].
    - constructor; [apply (g_grp _ _ G)|exact I3].
  Qed.
  Lemma matched_ok gs ks : matched gs ks -> groupsOK gs -> (forall q, Forall (sharpQ q) ks) /\ Forall wf ks /\ forall k, In k ks -> lclipping (latt k) = true -> lgroup k = [].
  Proof.
    induction 1 as [|t k gs ks G E M IH|t k cs0 kcs gs ks G F E M IH]; intros GO.
    - split; [constructor|]. split; [constructor|intros ? []].
    - destruct (IH GO) as (I1 & I2 & I3). rewrite (seqs_eta k (g_grp _ _ G)). split; [intros q; constructor; [apply (g_sharp _ _ G)|apply I1]|]. split; [constructor; [apply (g_wf _ _ G)|exact I2]|].
      intros k' [<-|H]; [intros _; exact (g_grp _ _ G)|now apply I3].
    - assert (GO' : groupsOK gs) by (intros t' c' H; apply (GO t' c'); now right). destruct (IH GO') as (I1 & I2 & I3). destruct (good_list_sharp _ _ F) as (F1 & F2 & F3).
      assert (Hb : kcs <> [] -> isPT (latt k) = false /\ lbce (latt k) = true).
      { intros X. destruct (GO t cs0 (or_introl eq_refl)) as [->|[B N]]; [inversion F; subst; contradiction|]. split; [|now rewrite (g_bce _ _ G)].
        destruct (g_has _ _ G) as [[m|] Hm]; [|contradiction]. apply (g_mode _ _ G) in Hm. exact (mode_pt _ _ Hm). }
      split; [|split].
      + intros q. constructor; [|apply I1]. pose proof (g_sharp _ _ G q) as Sk. rewrite <- (seqs_eta k (g_grp _ _ G)) in Sk. inversion Sk; subst. constructor; auto.
      + constructor; [|exact I2]. pose proof (g_wf _ _ G) as Wk. rewrite <- (seqs_eta k (g_grp _ _ G)) in Wk. inversion Wk as [? ? ? W1 W2 W3 W4 W5 W6]; subst. constructor; auto.
        * unfold modeOK in *. destruct (isPT (latt k)) eqn:Ep; [|exact W1]. destruct kcs as [|k' kcs]; [now left|]. destruct Hb as [X _]; [discriminate|congruence].
        * rewrite Forall_forall in F3. exact F3.
      + intros k' [<-|H]; [cbn [latt]; congruence|now apply I3].
  Qed.

  (** ** SeqIDs *)
  Lemma seqs_split k kcs : lgroup k = [] -> Permutation (seqs (Lay (latt k) (lkids k) kcs)) (seqs k ++ flat_map seqs kcs).
  Proof. destruct k as [a ks c0]. cbn [latt lkids lgroup]. intros ->. cbn [seqs flat_map]. rewrite app_nil_r. apply Permutation_refl. Qed.
  Lemma based_seqs ks ks' : based ks ks' -> Forall (fun k => lgroup k = []) ks -> Permutation (flat_map seqs ks') (flat_map seqs ks).
  Proof.
    induction 1 as [|k kcs ks ks' Ek Hk _ IH]; intros H; [apply Permutation_refl|]. inversion H as [|? ? H1 H2]; subst. apply Forall_app in H2. destruct H2 as [H2 H3].
    cbn [flat_map]. rewrite flat_map_app. rewrite app_assoc. apply Permutation_app; [now apply seqs_split|now apply IH].
  Qed.
  Lemma grouped_seqs ks ks' : grouped ks ks' -> Forall (fun k => lgroup k = []) ks -> Permutation (flat_map seqs ks') (flat_map seqs ks).
  Proof.
    induction 1 as [|k ks ks' Ek _ IH|ks ks' B]; intros H; [apply Permutation_refl| |now apply based_seqs]. inversion H as [|? ? H1 H2]; subst. cbn [flat_map].
    rewrite (seqs_eta k H1). apply Permutation_app; [apply Permutation_refl|now apply IH].
  Qed.

  (** ** The tree *)
  Definition good_list (i : nat) (m : nat) (sf : list stree) (ks : list MRender.layer) : Prop :=
    Forall2 good sf ks /\ (forall s, In s (flat_map seqs ks) -> Z.of_nat i <= s < Z.of_nat (i + m)) /\ NoDup (flat_map seqs ks).
  Lemma good_nil i m : good_list i m [] [].
  Proof. split; [constructor|]. split; [intros s []|constructor]. Qed.
  Lemma good_cons i m m' t sf k ks : good t k -> (forall s, In s (seqs k) -> Z.of_nat i <= s < Z.of_nat (i + m)) -> NoDup (seqs k) ->
    good_list (i + m) m' sf ks -> good_list i (m + m') (t :: sf) (k :: ks).
  Proof.
    intros G B N (F & B' & N'). split; [constructor; auto|]. split.
    - intros s H. cbn [flat_map] in H. apply in_app_or in H. destruct H as [H|H]; [apply B in H|apply B' in H]; lia.
    - cbn [flat_map]. apply NoDup_app'; auto. intros s H H'. apply B in H. apply B' in H'. lia.
  Qed.
  (** What the layers of a list become in the tree *)
  Lemma list_shown i m sf ks : good_list i m sf ks -> groups_ok sf ->
    (forall q, Forall (sharpQ q) (withGroups ks)) /\ Forall wf (withGroups ks) /\ (forall k, In k (withGroups ks) -> lclipping (latt k) = true -> lgroup k = []) /\
    (forall s, In s (flat_map seqs (withGroups ks)) -> Z.of_nat i <= s < Z.of_nat (i + m)) /\ NoDup (flat_map seqs (withGroups ks)) /\
    forall q p, at_tile ts q p -> forall d c, painted p sf d c <-> c = kidsQ q (pos ts q p) (withGroups ks) d.
  Proof.
    intros (F & B & N) GO. pose proof (withGroups_grouped ks) as Gr. destruct (grouped_matched _ _ Gr _ F) as (gs & Lg & Mt).
    assert (GO' : groupsOK gs) by (intros t cs0 H; exact (GO gs t cs0 Lg H)). destruct (matched_ok _ _ Mt GO') as (M1 & M2 & M3).
    assert (Gn : Forall (fun k => lgroup k = []) ks) by (eapply good_list_sharp; exact F). pose proof (grouped_seqs _ _ Gr Gn) as Pm.
    split; [exact M1|]. split; [exact M2|]. split; [exact M3|]. split; [intros s H; apply B; eapply Permutation_in; [exact Pm|exact H]|].
    split; [eapply Permutation_NoDup; [apply Permutation_sym; exact Pm|exact N]|]. intros q p A d c. rewrite <- (stacked_at q p A gs _ Mt GO' d c). split.
    - inversion 1 as [? gs' ? ? Lg' St]; subst. now rewrite (lg_fun _ _ Lg _ Lg').
    - intros St. econstructor; eauto.
  Qed.

  (** The attributes of a layer *)
  Lemma attr_at i sl r : nth_error flat i = Some sl -> sharp sl -> slayer_valid inflate large 8 3 sl -> layer_is false 3 8 3 (Z.of_nat i) sl r ->
    exists l0 l1 c m l' men, layer_is false 3 8 3 (Z.of_nat i) sl l0 /\ canvasOf cpus ts (playerOf l0) l1 c /\ m_get Z.eqb ims (Z.of_nat i) = Some (LI c m) /\
      nth_error cs i = Some l' /\
      let a := Lattr (Z.of_nat i) (negb (hidden sl)) (sl_opacity sl) (blendModeOf r) (negb (sl_clip sl =? 0)) (blends_group sl) men (mask_colour sl =? 255) in
      buildAttr r l' = a /\ (forall q, maskGood n (maskTile ims q) a) /\
      forall q p, at_tile ts q p -> forall b, mask_shows sl p b <-> b = maskC (maskTile ims q) a (pos ts q p).
  Proof.
    intros E [_ Sm] V L. destruct (rec_at cpus ts Hc Ht flat full st Lf Hs He i sl E) as (l & c & m & l1 & l2 & l' & L0 & G & C & M & E' & S' & R').
    destruct (mask_seen inflate large cpus ts Hc Ht (Z.of_nat i) sl l l1 l2 l' c m V L0 C M S' R' Sm) as [M1 M2].
    destruct (mask_facts cpus ts (Z.of_nat i) sl l l1 l2 l' c m L0 C M S' R') as (Ec & _).
    exists l, l1, c, m, l', (maskEnabled l'). split; [exact L0|]. split; [exact C|]. split; [exact G|]. split; [exact E'|]. cbv zeta.
    assert (Eb : buildAttr r l' = Lattr (Z.of_nat i) (negb (hidden sl)) (sl_opacity sl) (blendModeOf r) (negb (sl_clip sl =? 0)) (blends_group sl) (maskEnabled l') (mask_colour sl =? 255)).
    { pose proof (hidden_visible _ _ _ (proj1 L)) as Vi. destruct L as [(_ & _ & _ & Eo & Ecl & _ & _ & _ & _ & Eg & _) _]. unfold buildAttr, attrsOf. rewrite Vi, Eo, Ecl, Eg, Ec.
      f_equal. rewrite S'. cbn [setMaskRect setRect playerOf pseq]. exact (proj1 (proj1 L0)). }
    split; [exact Eb|]. unfold maskGood, maskC. cbn [lmen lmdc lseq].
    assert (Em : forall q, maskTile ims q (Z.of_nat i) = mTile m q) by (intros q; unfold maskTile, mTile; rewrite G; now destruct m). split.
    - intros q Hm t. rewrite Em. now apply M1.
    - intros q p A b. rewrite (M2 q p A b). unfold seenMask. now rewrite Em, Ec.
  Qed.
  Lemma mask_only sl p b b' : mask_shows sl p b -> mask_shows sl p b' -> b = b'.
  Proof.
    unfold mask_shows. destruct (mask_on sl); [|congruence]. intros (v & H & ->) (v' & H' & ->). f_equal. unfold mask_at in *. destruct (pt_in _ _); [|congruence].
    destruct H as (d & E & N), H' as (d' & E' & N'). congruence.
  Qed.

  Lemma tree_good : forall k sf i ls, (list_sum (map ssize sf) <= k)%nat -> Forall stree_valid sf -> Forall sharp_tree sf -> window flat i (flat_map sflatten sf) ->
    trees_are false 3 8 3 (Z.of_nat i) sf ls -> good_list i (length (flat_map sflatten sf)) sf (map (treeOf cs) ls).
  Proof.
    induction k as [|k IH]; intros sf i ls Hsz HV HP HW HT.
    { destruct sf as [|[l|d f c] sf]; cbn in Hsz; try lia. inversion HT; subst. apply good_nil. }
    destruct sf as [|t sf]; [inversion HT; subst; apply good_nil|].
    inversion HT as [|? ? ? l ls' T1 T2]; subst. clear HT. pose proof (Forall_inv HV) as V1. pose proof (Forall_inv_tail HV) as V2. pose proof (Forall_inv HP) as P1. pose proof (Forall_inv_tail HP) as P2.
    cbn [flat_map] in *. apply (window_app cpus Hc flat Hcl) in HW. destruct HW as [W1 W2]. rewrite app_length. cbn [map].
    assert (Hs1 : (ssize t + list_sum (map ssize sf) <= S k)%nat) by exact Hsz.
    assert (Hs2 : (list_sum (map ssize sf) <= k)%nat) by (destruct t; cbn [ssize] in Hs1; lia).
    assert (G2 : good_list (i + length (sflatten t)) (length (flat_map sflatten sf)) sf (map (treeOf cs) ls')).
    { apply IH; auto. replace (Z.of_nat (i + length (sflatten t))) with (Z.of_nat i + zlen (sflatten t)) by (unfold zlen; lia). exact T2. }
    pose proof Hv as Hv'. rewrite Forall_forall in Hv'. destruct t as [sl|dv fo ct].
    - (* a picture *)
      inversion T1 as [? ? r L|]; subst. inversion P1 as [? Pn Pl|]; subst. cbn [sflatten length] in *.
      pose proof (W1 0%nat sl eq_refl) as Ef. rewrite Nat.add_0_r in Ef. pose proof (Hv' sl (nth_error_In _ _ Ef)) as Vl.
      destruct (attr_at i sl r Ef Pn Vl L) as (l0 & l1 & c & m & l' & men & L0 & C & G & E' & Ea & Mg & Ms). set (a := Lattr _ _ _ _ _ _ _ _) in *.
      pose proof Pl as (Ty & (m0 & Hm0) & _). pose proof (leaf_not_pt _ _ _ _ (proj1 L) Ty Hm0) as NP. pose proof (leaf_bm _ _ _ (proj1 L) Ty) as BM.
      assert (Etree : treeOf cs (Layer r []) = Lay a [] []).
      { cbn [treeOf map]. rewrite (nth_copy cpus Hc flat Hcl _ _ _ L), E', Ea. reflexivity. }
      assert (IP : isPT a = false) by exact NP. pose proof (proj1 (BM m0) Hm0) as Hg.
      rewrite Etree. apply good_cons; [| | |exact G2].
      + constructor; cbn [lgroup latt rec_of].
        * intros q. constructor; [exact (proj1 Pn)|apply Mg|intros _; cbn [lbm a]; congruence|congruence|intros X; congruence|constructor|constructor].
        * constructor; [|congruence|intros ? []|intros ? []|constructor|constructor]. unfold modeOK. rewrite IP. unfold blendPx. cbn [lbm a]. rewrite Hg. discriminate.
        * reflexivity.
        * reflexivity.
        * unfold drawn, unseen. cbn [lvis lopa a]. now rewrite negb_orb.
        * intros [mm|]; cbn [mode_of modeIs]; [apply BM|]. split; [intros []|]. cbn [lbm a]. intros X. rewrite X in NP. discriminate.
        * exists (Some m0). exact Hm0.
        * reflexivity.
        * intros q p A d v. pose proof A as (D1 & D2 & Hq & Hx & Hy).
          pose proof (leaf_at inflate large cpus ts Hc Ht _ sl l0 l1 c q p Pl Vl L0 C D1 D2 Hq Hx Hy) as X. specialize (Ms q p A).
          rewrite bodyC_eq. unfold maskedC, preC. rewrite IP. cbn [lseq a]. rewrite (cell_canvas cpus ts Hc Ht st q p i c m G Hq).
          replace (grpQ q (pos ts q p) []) with (fun s : option px => match s with Some c => Some c | None => None end) by reflexivity. cbv beta.
          set (mc := maskC (maskTile ims q) a (pos ts q p)) in *. set (cp := canvasPx ts c q p) in *. split.
          -- inversion 1 as [? ? s b Hl Hb| |]; subst. apply X in Hl. subst s. apply Ms in Hb. subst b. destruct mc; [now destruct cp|reflexivity].
          -- intros ->. replace (match (if mc then cp else None) with Some c0 => Some c0 | None => None end) with (if mc then cp else None) by (destruct mc; [now destruct cp|reflexivity]).
             constructor; [now apply X|now apply Ms].
      + intros s [<-|[]]. cbn [lseq a]. lia.
      + constructor; [intros []|constructor].
    - (* a folder *)
      inversion T1 as [|? ? ? ? r lc T3 L]; subst. inversion P1 as [|? ? ? fm Pn Hfm Pc' Gk]; subst. inversion V1 as [|? ? ? ty Td Tf Hty Vc]; subst. cbn [sflatten] in *.
      cbn [ssize] in Hs1. set (N := length (flat_map sflatten ct)) in *.
      assert (Wc : window flat (S i) (flat_map sflatten ct) /\ nth_error flat (S i + N) = Some fo).
      { change (dv :: flat_map sflatten ct ++ [fo]) with ([dv] ++ (flat_map sflatten ct ++ [fo])) in W1. apply (window_app cpus Hc flat Hcl) in W1. destruct W1 as [_ W1].
        cbn [length] in W1. apply (window_app cpus Hc flat Hcl) in W1. destruct W1 as [W1 W3]. split; [now replace (S i) with (i + 1)%nat by lia|].
        specialize (W3 0%nat fo eq_refl). replace (S i + N)%nat with (i + 1 + length (flat_map sflatten ct) + 0)%nat by (unfold N; lia). exact W3. }
      destruct Wc as [Wc Ef].
      assert (Gc : good_list (S i) N ct (map (treeOf cs) lc)).
      { apply IH; auto; [lia|]. replace (Z.of_nat (S i)) with (Z.of_nat i + 1) by lia. exact T3. }
      replace (Z.of_nat i + 1 + zlen (flat_map sflatten ct)) with (Z.of_nat (S i + N)) in L by (unfold N, zlen; lia).
      pose proof (Hv' fo (nth_error_In _ _ Ef)) as Vl.
      destruct (attr_at (S i + N) fo r Ef Pn Vl L) as (l0 & l1 & c & m & l' & men & L0 & C & G & E' & Ea & Mg & Ms). set (a := Lattr _ _ _ _ _ _ _ _) in *.
      destruct (no_canvas cpus ts Hc Ht flat full st Lf Hs He Hcl (S i + N) fo ty Ef Tf ltac:(lia)) as (m2 & G'). rewrite G in G'. injection G' as -> <-.
      pose proof (folder_bm_mode _ _ _ _ _ (proj1 L) Tf Hty Hfm) as BM.
      set (ks := withGroups (map (treeOf cs) lc)) in *.
      assert (Etree : treeOf cs (Layer r lc) = Lay a ks []).
      { cbn [treeOf]. rewrite (nth_copy cpus Hc flat Hcl _ _ _ L), E', Ea. reflexivity. }
      rewrite Etree. destruct (list_shown _ _ _ _ Gc Gk) as (Sq & Wf & Cg & Bq & Nq & Cq). fold ks in Sq, Wf, Cg, Bq, Nq, Cq.
      assert (Hmode : forall mm, mode_of (SFolder dv fo ct) mm <-> modeIs a mm) by (intros mm; exact (BM mm)).
      pose proof (proj1 (Hmode fm) Hfm) as Ma. pose proof (mode_pt _ _ Ma) as Ip.
      apply good_cons; [| | |exact G2].
      + constructor; cbn [lgroup latt rec_of].
        * intros q. constructor; [exact (proj1 Pn)|apply Mg| | |intros X; congruence|apply Sq|constructor].
          -- intros X. destruct fm as [mm|]; [|congruence]. cbn [modeIs] in Ma. congruence.
          -- intros _ _. cbn [lseq a]. unfold canvasTile. now rewrite G.
        * constructor; [| |exact Cg|intros ? []|exact Wf|constructor].
          -- unfold modeOK. destruct (isPT a) eqn:X; [now left|]. destruct fm as [mm|]; [|congruence]. cbn [modeIs] in Ma. unfold blendPx. rewrite Ma. discriminate.
          -- intros _. cbn [lseq a]. unfold hasCanvasOf. now rewrite G.
        * reflexivity.
        * reflexivity.
        * unfold drawn, unseen. cbn [lvis lopa a]. now rewrite negb_orb.
        * exact Hmode.
        * exists fm. exact Hfm.
        * reflexivity.
        * intros q p A d v. specialize (Ms q p A). specialize (Cq q p A). rewrite bodyC_eq. unfold maskedC.
          assert (Epre : preC (canvasTile ims q) (maskTile ims q) (pos ts q p) a ks d = kidsQ q (pos ts q p) ks (if isPT a then d else None)).
          { unfold preC. destruct (isPT a); [reflexivity|]. destruct ks; [|reflexivity]. unfold cellOf, canvasTile. cbn [lseq a]. rewrite G. reflexivity. }
          rewrite Epre. replace (grpQ q (pos ts q p) []) with (fun s : option px => match s with Some c => Some c | None => None end) by reflexivity. cbv beta.
          set (mc := maskC (maskTile ims q) a (pos ts q p)) in *. rewrite Ip. split.
          -- inversion 1 as [|? ? ? mm ? s b Hm Hp Hb|? ? ? ? s b Hm Hp Hb]; subst; apply (Hmode) in Hm; apply mode_pt in Hm; rewrite Ip in Hm; rewrite Hm; apply Ms in Hb; subst b; apply Cq in Hp; subst s.
             ++ destruct mc; [|reflexivity]. now destruct (kidsQ q (pos ts q p) ks None).
             ++ rewrite el_kids. destruct mc; [|now destruct d]. now destruct (kidsQ q (pos ts q p) ks d).
          -- intros ->. destruct fm as [mm|].
             ++ replace (match (if mc then kidsQ q (pos ts q p) ks None else None) with Some c => Some c | None => None end) with (if mc then kidsQ q (pos ts q p) ks None else None)
                  by (destruct mc; [now destruct (kidsQ q (pos ts q p) ks None)|reflexivity]).
                eapply picture_folder; [exact Hfm|now apply Cq|now apply Ms].
             ++ rewrite el_kids. replace (match (if mc then kidsQ q (pos ts q p) ks d else d) with Some c => Some c | None => None end) with (if mc then kidsQ q (pos ts q p) ks d else d)
                  by (destruct mc; [now destruct (kidsQ q (pos ts q p) ks d)|now destruct d]).
                apply picture_through; [exact Hfm|now apply Cq|now apply Ms].
      + cbn [length]. rewrite app_length. cbn [length]. fold N. intros s. cbn [seqs lseq a flat_map]. rewrite app_nil_r. intros [<-|H]; [lia|]. apply Bq in H. lia.
      + cbn [seqs lseq a flat_map]. rewrite app_nil_r. constructor; [|exact Nq]. intros H. apply Bq in H. lia.
  Qed.
End tree.

Lemma sharp_class : forall n sf, (list_sum (map ssize sf) <= n)%nat -> Forall stree_valid sf -> Forall sharp_tree sf ->
  forall sl, In sl (flat_map sflatten sf) -> picture_ok sl \/ exists t, has_type sl t /\ t <> 0.
Proof.
  induction n as [|n IH]; intros sf Hsz HV HP sl H.
  { destruct sf as [|[l|d f c] sf]; cbn in Hsz; try lia. destruct H. }
  destruct sf as [|t sf]; [destruct H|]. inversion HV as [|? ? V1 V2]; subst. inversion HP as [|? ? P1 P2]; subst.
  assert (Hs1 : (ssize t + list_sum (map ssize sf) <= S n)%nat) by exact Hsz.
  cbn [flat_map] in H. apply in_app_or in H. destruct H as [H|H].
  - destruct t as [l|dv fo ct]; cbn [sflatten] in H.
    + destruct H as [<-|[]]. inversion P1 as [? _ Pl|]; subst. left. exact Pl.
    + inversion V1 as [|? ? ? ty Td Tf Hty Vc]; subst. inversion P1 as [|? ? ? fm Pn Hfm Pc' _]; subst. cbn [ssize] in Hs1.
      destruct H as [<-|H]; [right; exists 3; split; [exact Td|lia]|]. apply in_app_or in H. destruct H as [H|[<-|[]]].
      * apply (IH ct); auto. lia.
      * right. exists ty. split; [exact Tf|lia].
  - apply (IH sf); auto. destruct t; cbn [ssize] in Hs1; lia.
Qed.

Lemma sharp_shown inflate kind procs h rsv cmd res neg pl sf pad gmask bs tail rest cpus ts : (1 <= procs)%nat -> (1 <= cpus)%nat -> 0 < ts ->
  header_valid h -> h_mode h = 3 -> h_depth h = 8 -> zlen rsv = 6 -> zlen cmd < 4294967296 ->
  Forall rblock_valid res -> zlen (enc_rblocks res) < 4294967296 ->
  let large := h_version h =? 2 in
  section_valid inflate large neg 8 3 pl (flat_map sflatten sf) pad gmask bs tail ->
  Forall stree_valid sf -> sharp_forest sf ->
  let enc := enc_config h rsv cmd res ++ enc_section large neg pl (flat_map sflatten sf) pad gmask bs tail in
  exists f evs, Decode inflate kind procs newOptions (enc ++ rest) = (Ok (f, zlen enc, rest), evs) /\
    (exists st, MWait.steps (lstep cpus ts) (lstart (map (fun e => playerOf (ev_layer e)) evs)) st /\ lended st) /\
    forall st, MWait.steps (lstep cpus ts) (lstart (map (fun e => playerOf (ev_layer e)) evs)) st -> lended st ->
    forall cpus' r' w0 w1, (1 <= cpus')%nat -> new w0 ->
    renderedPx ts (ldImages st) cpus' ts r' false (rootOf (ldCopied st) (f_layer f)) w0 w1 ->
    forall q p, tileOf ts r' q -> in_tile ts q p -> 0 <= MRect.px p -> 0 <= py p ->
    exists s t c, w1 q = Some (s, t) /\ (forall c', painted p sf None c' <-> c' = c) /\ tile_at ts q t p = Some (shown_as c).
Proof.
  intros Hpr Hc Ht Hh Hm Hd Hr Hcm Hres Hrl large Hs HV [HP HG] enc.
  destruct (decode_layers inflate kind procs newOptions h rsv cmd res 3 neg pl sf pad gmask bs tail rest Hpr Hh Hr Hcm Hres Hrl) as (f & evs & ED & _ & ET & _ & _ & _ & _ & full & Ee & Lf).
  - left. rewrite Hm, Hd. auto.
  - rewrite Hm. reflexivity.
  - reflexivity.
  - cbn [newOptions o_config_loaded config_of cfg_mode]. rewrite Hm. reflexivity.
  - rewrite Hd. exact Hs.
  - exact HV.
  - exists f, evs. split; [exact ED|]. rewrite Hm, Hd in *.
    assert (Eev : map (fun e => playerOf (ev_layer e)) evs = map playerOf full).
    { rewrite Ee. unfold section_events. cbn [newOptions o_skip_layer]. rewrite <- (map_map ev_layer playerOf). now rewrite events_layers. }
    rewrite Eev. pose proof (sharp_class _ sf (le_n _) HV HP) as Hcl. pose proof (proj1 Hs) as Hvl. split.
    { apply loader_ends; [exact Hc|]. eapply all_loadable; eauto. }
    intros st Hst Hend cpus' r' w0 w1 Hc' Hn HR q p Hq Hp Hx Hy.
    pose proof (tree_good inflate large cpus ts Hc Ht _ full st Lf Hvl Hst Hend Hcl _ sf 0%nat (f_layer f) (le_n _) HV HP (fun j sl E => E) ET) as G.
    destruct (list_shown ts st _ _ _ _ G HG) as (Pq & Wf & Cg & Bq & Nq & Cq).
    assert (Er : rootOf (ldCopied st) (f_layer f) = Lay (Lattr (-1) true 255 (str "norm"%string) false false false false) (withGroups (map (treeOf (ldCopied st)) (f_layer f))) []) by reflexivity.
    rewrite Er in HR. set (ks := withGroups (map (treeOf (ldCopied st)) (f_layer f))) in *.
    set (root := Lay _ ks []) in *. set (n := Z.to_nat (ts * ts)) in *.
    pose proof (fun q0 => shown_sharp n (canvasTile (ldImages st) q0) (maskTile (ldImages st) q0) (canvas_good inflate cpus ts Hc Ht _ full st Lf Hst Hend Hcl q0)) as SP.
    assert (OT : okTree blendPx (hasCanvasOf (ldImages st)) root).
    { split.
      - constructor; [unfold modeOK; change (isPT _) with false; unfold blendPx|intros _|exact Cg|intros ? []|exact Wf|constructor].
        + replace (m_get list_eqb blendModes _) with (Some Normal) by reflexivity. discriminate.
        + cbn [lseq]. unfold hasCanvasOf. destruct (m_get Z.eqb (ldImages st) (-1)) as [li|] eqn:E; [|reflexivity]. exfalso.
          destruct (inv_end cpus ts _ (seqs_nodup _ _ Lf) st Hst Hend) as (_ & B & _). destruct (B _ _ E) as (i & l0 & Ei & Es).
          apply nth_error_In in Ei. apply in_map_iff in Ei. destruct Ei as (l1 & <- & Hl). pose proof (proj2 (layers_are_seqs _ _ _ _ _ _ _ Lf) l1 Hl) as X. cbn [playerOf pseq] in Es. lia.
      - cbn [latt lseq lkids root]. constructor; [|exact Nq]. intros X. apply Bq in X. lia. }
    assert (OD : okDraw (zeroPx n) MRenderPx.copyPx blendPx destInMPx destOutMPx destInPx destOverPx (clearPx n) removeAlphaPx (canvasTile (ldImages st)) (maskTile (ldImages st)) root).
    { intros q0. exact (proj1 (SP q0 (latt root) ks [] [] (Pq q0))). }
    assert (CN : forall q0 s, hasCanvasOf (ldImages st) s = false -> canvasTile (ldImages st) q0 s = None).
    { intros q0 s0. unfold hasCanvasOf, canvasTile. destruct (m_get Z.eqb (ldImages st) s0) as [[[m|] k]|]; [discriminate|reflexivity|reflexivity]. }
    destruct (history_fresh (zeroPx n) MRenderPx.copyPx blendPx destInMPx destOutMPx destInPx destOverPx (clearPx n) removeAlphaPx (canvasTile (ldImages st)) (hasCanvasOf (ldImages st)) (maskTile (ldImages st))
      CN ts r' true (fun _ => True) root w0 w0 r' cpus' cpus' w1 w1 q Ht) as (s & s' & t & E1 & _ & Es);
      [now apply H_new|exact OD|exact Hn|exact Hc'|exact Hc'|reflexivity|now apply tileOf_grid|exact HR|exact HR|].
    exists s, t, (kidsC (canvasTile (ldImages st) q) (maskTile (ldImages st) q) (pos ts q p) ks None). split; [exact E1|]. split.
    + intros c'. apply Cq. destruct Hq as (i & j & Ei & Ej & _). split; [exists i; exact Ei|]. split; [exists j; exact Ej|]. auto.
    + destruct (SP q (latt root) ks [] [] (Pq q)) as [_ [_ Hk]]. pose proof (tile_pos ts q p Ht Hp) as B.
      destruct (Hk (pos ts q p)) as [Hi _]; [unfold pos, n; lia|]. unfold tile_at, idx. replace (_ <? 0) with false by lia. rewrite (Es []). exact Hi.
Qed.
