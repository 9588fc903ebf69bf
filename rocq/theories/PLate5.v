(** Sessions of a renderer. *)
From Verif Require Import Base BaseFacts MRect MSched MDraw MTile STile PTile MRender SRender SRenderLate PRender PRender2 PRender3 PRender4 PRender5 MRenderAll SRenderAll PRenderAll
  MRenderLate PLate1 PLate2 PLate3 PLate4.

Section session.
  Context {img msk : Type}.
  Variable zero : img.
  Variable copyT : img -> img.
  Variable blendOf : bytes -> option (Z -> img -> img -> img).
  Variable destInM destOutM : msk -> img -> img.
  Variable destInT destOverT : img -> img -> img.
  Variable clearT removeAlpha : img -> img.
  Variable canvas : point -> Z -> option img.
  Variable hasCanvas : Z -> bool.
  Variable mask : point -> Z -> option msk.
  Hypothesis canvas_nil : forall q s, hasCanvas s = false -> canvas q s = None.
  Notation world := (world img).
  Notation rt q := (renderTile zero copyT blendOf destInM destOutM destInT destOverT clearT removeAlpha (canvas q) (mask q)).
  Notation tileAct := (tileAct zero copyT blendOf destInM destOutM destInT destOverT clearT removeAlpha canvas mask).
  Notation rendered := (rendered zero copyT blendOf destInM destOutM destInT destOverT clearT removeAlpha canvas mask).
  Notation aborted := (aborted zero copyT blendOf destInM destOutM destInT destOverT clearT removeAlpha canvas mask).
  Notation okTree := (okTree blendOf hasCanvas).
  Notation okFirm := (okFirm zero copyT blendOf destInM destOutM destInT destOverT clearT removeAlpha canvas mask).
  Notation session := (session zero copyT blendOf destInM destOutM destInT destOverT clearT removeAlpha canvas hasCanvas mask).
  Notation late q := (late zero copyT blendOf destInM destOutM destInT destOverT clearT removeAlpha (canvas q) hasCanvas (mask q)).
  Notation ent st s := (m_get Z.eqb (tent st) s).

  Lemma stable_free q l b b' op op' : isPT (latt l) = false -> op <> 0 ->
    stable zero copyT blendOf destInM destOutM destInT destOverT clearT removeAlpha (canvas q) (mask q) l b op ->
    stable zero copyT blendOf destInM destOutM destInT destOverT clearT removeAlpha (canvas q) (mask q) l b' op'.
  Proof.
    destruct l as [a ks cs]. cbn [latt]. intros N O. rewrite !stable_eq. intros H Ev. destruct H as [H1 H2].
    { apply Z.eqb_neq in O. rewrite O. rewrite orb_false_r. apply orb_false_iff in Ev. apply Ev. }
    replace (kidOp a op') with (kidOp a op) by (unfold kidOp, alphaOf; now rewrite N).
    replace (startBuf zero copyT a b') with (startBuf zero copyT a b) by (unfold startBuf; now rewrite N).
    split; [exact H1|]. intros m. rewrite (pre_free _ _ _ _ _ _ _ _ _ _ _ (Lay a ks cs) b' b op' op N). apply H2.
  Qed.
  (** Positions, as a list of layers *)
  Fixpoint subs (l : layer) : list layer :=
    match l with Lay a ks cs => l :: flat_map (fun k => match k with Lay _ _ cc => subs k ++ flat_map subs cc end) ks end.
  Lemma layerAt_subs p : forall l t, layerAt l p = Some t -> In t (subs l).
  Proof.
    induction p as [|s p IH]; intros l t; [intros [= <-]; destruct l; now left|]. rewrite layerAt_cons. destruct (child l s) as [c|] eqn:Ec; [|discriminate].
    intros E. apply IH in E. unfold child in Ec. destruct (nth_error (lkids l) (fst s)) as [k|] eqn:Ek; [|discriminate]. apply nth_error_In in Ek.
    destruct l as [a ks cs]. cbn [lkids] in Ek. cbn [subs]. right. apply in_flat_map. exists k. split; [exact Ek|]. destruct k as [b kk cc]. apply in_app_iff.
    destruct (snd s); [right; apply nth_error_In in Ec; apply in_flat_map; eauto|injection Ec as <-; now left].
  Qed.

  (** The SeqIDs of the layers that are to be announced *)
  Definition pends (root : layer) (pend : list (list step)) (s : Z) : bool :=
    existsb (fun p => match layerAt root p with Some t => lseq (latt t) =? s | None => false end) pend.
  Lemma pends_in root pend s : pends root pend s = true <-> exists p t, In p pend /\ layerAt root p = Some t /\ lseq (latt t) = s.
  Proof.
    unfold pends. rewrite existsb_exists. split.
    - intros (p & I & H). destruct (layerAt root p) as [t|] eqn:E; [|discriminate]. apply Z.eqb_eq in H. eauto.
    - intros (p & t & I & E & H). exists p. split; [exact I|]. rewrite E. now apply Z.eqb_eq.
  Qed.
  Lemma late_more q P P' root st : okTree root -> (forall s, P s = true -> P' s = true) -> late q P root st -> late q P' root st.
  Proof.
    intros [W N] PP. apply (change_late zero copyT blendOf destInM destOutM destInT destOverT clearT removeAlpha (canvas q) hasCanvas (mask q) (canvas_nil q) P P' [] root root st PP); auto.
    - intros p t [].
    - apply changed_refl.
    - intros p t t' E E'. rewrite E in E'. injection E' as <-. congruence.
  Qed.
  Lemma firm_exact : (forall i, copyT i = i) -> forall root, okFirm root.
  Proof.
    intros C root. split; [intros q; now apply stable_exact|]. intros q p t _ _.
    assert (A : forall l b op, stable zero copyT blendOf destInM destOutM destInT destOverT clearT removeAlpha (canvas q) (mask q) l b op); [|apply A].
    induction l as [a ks cs Hk Hc] using layer_rec'. intros b op. rewrite stable_eq. intros _. split.
    - generalize (startBuf zero copyT a b). clear Hc. induction Hk as [|k ks H _ IH]; intros buf; [exact I|]. split; [intros _; apply H|apply IH].
    - intros m _. split; [|intros _; apply C]. intros _. generalize (removeAlpha (copyT m)). clear Hk.
      induction Hc as [|k ks0 H _ IH]; intros x; [exact I|]. split; [apply H|apply IH].
  Qed.
  Definition lateAt (root : layer) (pend : list (list step)) (q : point) (x : local img) : Prop :=
    exists st d, x = Some (st, d) /\ late q (pends root pend) root st.
  Lemma start_late root pend w q : lateAt root pend q (w q) -> lateAt root pend q (start w q).
  Proof.
    intros (st & d & E & J). exists (Tst (tent st) []), d. unfold start. rewrite E. split; [reflexivity|].
    eapply late_fewer; [|exact J]. intros s. now left.
  Qed.
  Lemma undo_late root pend w q : lateAt root pend q (w q) -> lateAt root pend q (undo w q).
  Proof.
    intros (st & d & E & J). exists (revert st), d. unfold undo. rewrite E. split; [reflexivity|].
    eapply late_fewer; [|exact J]. intros s. unfold revert. cbn [tent]. rewrite m_get_dels. destruct (existsb _ _); auto.
  Qed.
  Lemma tile_late dO root pend q x : okTree root -> okFirm root -> lateAt root pend q x -> lateAt root pend q (tileAct dO root q x).
  Proof.
    intros [W N] [S F] (st & d & -> & J). cbn [MRenderAll.tileAct]. destruct (rt q dO root st d) as [[st1 d1]|] eqn:E.
    - exists st1, d1. split; [reflexivity|]. eapply render_late; [apply canvas_nil|exact W|exact N|apply S| |exact J|exact E]. intros p t b op Et Pt. apply stable_free with (b := zero) (op := 255); [exact Pt|lia|]. now apply (F q p).
    - exfalso. revert E. apply renderTile_some. exact (lwf_modes_kids blendOf hasCanvas _ W).
  Qed.
  Lemma changed_seq ps root root' p t : changed ps root root' -> layerAt root p = Some t -> exists t', layerAt root' p = Some t' /\ lseq (latt t') = lseq (latt t).
  Proof.
    intros H E. specialize (H p). rewrite E in H. destruct (layerAt root' p) as [t'|]; [|destruct H]. exists t'. split; [reflexivity|].
    destruct H as [[H _] _]. exact H.
  Qed.
  Lemma session_late ts root pend w : 0 < ts -> session ts okSwitch okTree okFirm root pend w -> okTree root /\ forall q, lateAt root pend q (w q).
  Proof.
    intros Ht. induction 1 as [root w N O|root pend w w' _ [O IH] D _|root pend w root' ps _ [O IH] CH OC O'|root pend w p _ [O IH]|root pend w cpus r dO w' _ [O IH] Hc S R
      |root pend w cpus r dO w' _ [O IH] Hc S R|root pend w _ [O IH]|root pend w q0 dO _ [O IH] S|root pend w _ [O IH]]; (split; [assumption|]); intros q.
    - destruct (N q) as [d E]. exists (Tst [] []), d. split; [exact E|]. apply late_fresh.
    - destruct (IH q) as (st & d & E & J). destruct (D q st d E) as [d' E']. exists st, d'. auto.
    - destruct (IH q) as (st & d & E & J). exists st, d. split; [exact E|]. destruct O as [W N], O' as [W' N'].
      eapply change_late; [apply canvas_nil| | |exact CH|exact OC|exact W|exact W'|exact N|exact N'|exact J].
      + intros s. rewrite !pends_in. intros (p & t & I & Et & Es). destruct (changed_seq _ _ _ _ _ CH Et) as (t' & Et' & Es'). exists p, t'.
        split; [apply in_app_iff; now right|]. split; [exact Et'|congruence].
      + intros p t I Et. apply pends_in. exists p, t. split; [apply in_app_iff; now left|auto].
    - destruct (IH q) as (st & d & E & J). unfold dirtied. rewrite E. cbn [option_map]. do 2 eexists. split; [reflexivity|].
      destruct (layerAt root p) as [t|] eqn:Et.
      + eapply late_more; [exact O| |destruct O as [W N]; eapply announce_late; [exact W|exact N|exact Et|exact J]].
        intros s. cbn beta. rewrite andb_true_iff, !pends_in. intros [(p' & t' & I & E' & Es) Ns]. exists p', t'. split; [|auto].
        unfold without. apply filter_In. split; [exact I|]. destruct (posDec p p') as [<-|]; [|reflexivity].
        rewrite Et in E'. injection E' as <-. rewrite Es, Z.eqb_refl in Ns. discriminate.
      + unfold setDirty. rewrite Et. eapply late_more; [exact O| |exact J]. intros s. rewrite !pends_in. intros (p' & t' & I & E' & Es). exists p', t'. split; [|auto].
        unfold without. apply filter_In. split; [exact I|]. destruct (posDec p p') as [<-|]; [|reflexivity]. congruence.
    - rewrite (rendered_at _ _ _ _ _ _ _ _ _ _ _ _ _ _ _ _ _ _ q Hc Ht R). destruct (existsb _ _); [apply tile_late; auto|]; apply start_late, IH.
    - destruct (aborted_at _ _ _ _ _ _ _ _ _ _ _ _ _ _ _ _ _ _ q Hc Ht R) as [-> | ->].
      + apply undo_late. apply start_late, IH.
      + apply (undo_late root pend (fun q => tileAct dO root q (start w q))). apply tile_late; auto. apply start_late, IH.
    - apply start_late, IH.
    - unfold act. cbn [fst snd]. destruct (pt_eqb_spec q q0) as [->|]; [|apply IH]. apply tile_late; auto.
    - apply undo_late, IH.
  Qed.
  Lemma session_fresh ts root w w0 r cpus cpus' w1 w2 q : 0 < ts ->
    session ts okSwitch okTree okFirm root [] w -> okDraw zero copyT blendOf destInM destOutM destInT destOverT clearT removeAlpha canvas mask root -> new w0 -> (1 <= cpus)%nat -> (1 <= cpus')%nat ->
    (forall d d', clearT d = clearT d') -> In q (gridPoints ts (gridStart ts (rx0 r)) (rx1 r) (gridStart ts (ry0 r)) (ry1 r)) ->
    rendered cpus ts r false root w w1 -> rendered cpus' ts r false root w0 w2 ->
    exists st1 st2 d, w1 q = Some (st1, d) /\ w2 q = Some (st2, d) /\
      forall d0, d = shown zero copyT blendOf destInM destOutM destInT destOverT clearT removeAlpha (canvas q) (mask q) root d0.
  Proof.
    intros Ht HH S N H1 H2 C Hg R1 R2. destruct (session_late _ _ _ _ Ht HH) as [[W ND] V].
    destruct (start_late _ _ _ _ (V q)) as (st & d & E & J). apply late_none in J. destruct (N q) as [d0 E0].
    rewrite (rendered_at _ _ _ _ _ _ _ _ _ _ _ _ _ _ _ _ _ _ q H1 Ht R1), (rendered_at _ _ _ _ _ _ _ _ _ _ _ _ _ _ _ _ _ _ q H2 Ht R2). apply existsb_pt in Hg. rewrite Hg, E.
    unfold start. rewrite E0. cbn [option_map MRenderAll.tileAct tent].
    destruct (render_fresh zero copyT blendOf destInM destOutM destInT destOverT clearT removeAlpha (canvas q) hasCanvas (mask q) root st d W ND (S q) J) as (s1 & s2 & d' & F1 & F2 & _ & Es).
    pose proof (proj1 (same_tile zero copyT blendOf destInM destOutM destInT destOverT clearT removeAlpha canvas mask false root q (Tst [] []) (Tst [] []) d d0 (fun s => eq_refl) C)) as X.
    unfold fresh in F2. rewrite F1. rewrite F2 in X. cbn [simO] in X. destruct (rt q false root (Tst [] []) d0) as [[s3 d3]|]; [|contradiction].
    destruct X as [_ <-]. exists s1, s3, d'. split; [reflexivity|]. split; [reflexivity|]. intros d1. rewrite Es. unfold shown. cbn zeta. now rewrite (C d d1).
  Qed.
End session.
