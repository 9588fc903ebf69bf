(** Changes of layers that are announced late: changes that are not announced yet. *)
From Verif Require Import Base BaseFacts MRender SRender SRenderLate PRender PRender2 PRender3 PRender4 PRender5 PLate1 PLate2.

Section render.
  Context {img msk : Type}.
  Variable zero : img.
  Variable copyT : img -> img.
  Variable blendOf : bytes -> option (Z -> img -> img -> img).
  Variable destInM destOutM : msk -> img -> img.
  Variable destInT destOverT : img -> img -> img.
  Variable clearT removeAlpha : img -> img.
  Variable canvas : Z -> option img.
  Variable hasCanvas : Z -> bool.
  Variable mask : Z -> option msk.
  Variable canvas_nil : forall s, hasCanvas s = false -> canvas s = None.

  Notation tstate := (tstate img).
  Notation startBuf := (startBuf zero copyT).
  Notation inArea := (inArea canvas hasCanvas).
  Notation drawLayer := (drawLayer zero copyT blendOf destInM destOutM destInT destOverT clearT removeAlpha canvas mask).
  Notation drawTop := (drawTop zero copyT blendOf destInM destOutM destInT destOverT clearT removeAlpha canvas mask).
  Notation updateTile := (updateTile zero copyT blendOf destInM destOutM destInT destOverT clearT removeAlpha canvas mask).
  Notation renderTile := (renderTile zero copyT blendOf destInM destOutM destInT destOverT clearT removeAlpha canvas mask).
  Notation clips := (clips zero copyT blendOf destInM destOutM destInT destOverT clearT removeAlpha canvas mask).
  Notation draws := (draws zero copyT blendOf destInM destOutM destInT destOverT clearT removeAlpha canvas mask).
  Notation finish := (finish zero copyT blendOf destInM destOutM destInT destOverT clearT removeAlpha canvas mask).
  Notation body := (body zero copyT blendOf destInM destOutM destInT destOverT clearT removeAlpha canvas mask).
  Notation pre := (pre zero copyT blendOf destInM destOutM destInT destOverT clearT removeAlpha canvas mask).
  Notation kidP := (kidP zero copyT blendOf destInM destOutM destInT destOverT clearT removeAlpha canvas mask).
  Notation drawsP := (drawsP zero copyT blendOf destInM destOutM destInT destOverT clearT removeAlpha canvas mask).
  Notation clipP := (clipP zero copyT blendOf destInM destOutM destInT destOverT clearT removeAlpha canvas mask).
  Notation clipsP := (clipsP zero copyT blendOf destInM destOutM destInT destOverT clearT removeAlpha canvas mask).
  Notation grp := (grp zero copyT blendOf destInM destOutM destInT destOverT clearT removeAlpha canvas mask).
  Notation stable := (stable zero copyT blendOf destInM destOutM destInT destOverT clearT removeAlpha canvas mask).
  Notation stableKs := (stableKs zero copyT blendOf destInM destOutM destInT destOverT clearT removeAlpha canvas mask).
  Notation stableCs := (stableCs zero copyT blendOf destInM destOutM destInT destOverT clearT removeAlpha canvas mask).
  Notation stableRoot := (stableRoot zero copyT blendOf destInM destOutM destInT destOverT clearT removeAlpha canvas mask).
  Notation inv := (inv zero copyT blendOf destInM destOutM destInT destOverT clearT removeAlpha canvas hasCanvas mask).
  Notation kidInv := (kidInv zero copyT blendOf destInM destOutM destInT destOverT clearT removeAlpha canvas hasCanvas mask).
  Notation invKs := (invKs zero copyT blendOf destInM destOutM destInT destOverT clearT removeAlpha canvas hasCanvas mask).
  Notation invCs := (invCs zero copyT blendOf destInM destOutM destInT destOverT clearT removeAlpha canvas hasCanvas mask).
  Notation invDs := (invDs zero copyT blendOf destInM destOutM destInT destOverT clearT removeAlpha canvas hasCanvas mask).
  Notation invNs := (invNs zero copyT blendOf destInM destOutM destInT destOverT clearT removeAlpha canvas hasCanvas mask).
  Notation entryOK := (entryOK zero copyT blendOf destInM destOutM destInT destOverT clearT removeAlpha canvas hasCanvas mask).
  Notation kidsOK := (kidsOK zero copyT blendOf destInM destOutM destInT destOverT clearT removeAlpha canvas hasCanvas mask).
  Notation groupOK := (groupOK zero copyT blendOf destInM destOutM destInT destOverT clearT removeAlpha canvas hasCanvas mask).
  Notation invRoot := (invRoot zero copyT blendOf destInM destOutM destInT destOverT clearT removeAlpha canvas hasCanvas mask).
  Notation someInv := (someInv zero copyT blendOf destInM destOutM destInT destOverT clearT removeAlpha canvas hasCanvas mask).
  Notation someKid := (someKid zero copyT blendOf destInM destOutM destInT destOverT clearT removeAlpha canvas hasCanvas mask).
  Notation allInv := (allInv zero copyT blendOf destInM destOutM destInT destOverT clearT removeAlpha canvas hasCanvas mask).
  Notation allKid := (allKid zero copyT blendOf destInM destOutM destInT destOverT clearT removeAlpha canvas hasCanvas mask).
  Notation maskT := (maskT destInM destOutM destOverT clearT mask).
  Notation putTile := (putTile copyT blendOf).
  Notation putT := (putT copyT blendOf).
  Notation dr1 := (dr1 copyT blendOf).
  Notation modeOK := (modeOK blendOf).
  Notation lwf := (lwf blendOf hasCanvas).
  Notation ent st s := (m_get Z.eqb (tent st) s).
  Notation pot := (pot canvas hasCanvas).
  Notation tnt := (tnt canvas hasCanvas).
  Notation lev := (lev canvas hasCanvas).
  Notation fl := (fl canvas hasCanvas).
  Notation below := (below canvas hasCanvas).
  Notation HD := (HD canvas hasCanvas).
  Notation Droot := (Droot canvas hasCanvas).
  Notation WK := (WK zero copyT blendOf destInM destOutM destInT destOverT clearT removeAlpha canvas hasCanvas mask).
  Notation WC := (WC zero copyT blendOf destInM destOutM destInT destOverT clearT removeAlpha canvas hasCanvas mask).
  Notation WS := (WS zero copyT blendOf destInM destOutM destInT destOverT clearT removeAlpha canvas hasCanvas mask).
  Notation hasK := (hasK zero copyT blendOf destInM destOutM destInT destOverT clearT removeAlpha canvas hasCanvas mask).
  Notation hasC := (hasC zero copyT blendOf destInM destOutM destInT destOverT clearT removeAlpha canvas hasCanvas mask).
  Notation late := (late zero copyT blendOf destInM destOutM destInT destOverT clearT removeAlpha canvas hasCanvas mask).
  Notation firmB := (firmB zero copyT blendOf destInM destOutM destInT destOverT clearT removeAlpha canvas mask).
  Notation hit := (hit canvas hasCanvas).
  Notation loud := (loud canvas hasCanvas).
  Notation Dset := (Dset canvas hasCanvas).
  Notation Dk := (Dk canvas hasCanvas).
  Notation kidT := (kidT canvas hasCanvas).
  Notation J := (J canvas hasCanvas).
  Notation JKs := (JKs canvas hasCanvas).

  (** * Positions that are announced with effect are in doubt *)
  Lemma inArea_pot P l : inArea l = true -> pot P l = true.
  Proof.
    induction l as [l IH] using layer_kids. unfold MRender.inArea. rewrite pot_eq. destruct (hasCanvas (lseq (latt l))); [auto|].
    destruct (lkids l) as [|k0 ks0] eqn:E; [discriminate|]. rewrite areaRec_eq, E. intros H. apply existsb_exists in H. destruct H as (k & I & H).
    apply existsb_exists. exists k. split; [exact I|]. unfold areaKid in H. unfold potKid, alive. apply andb_true_iff in H. destruct H as [H A].
    apply andb_true_iff in H. destruct H as [H C]. rewrite C, H, (proj1 (IH k I) A). reflexivity.
  Qed.
  Definition marked (P : Z -> bool) (ps : list (list step)) (l : layer) : Prop :=
    forall p t, In p ps -> layerAt l p = Some t -> P (lseq (latt t)) = true.
  Lemma hit_tnt P p : forall l t, layerAt l p = Some t -> P (lseq (latt t)) = true -> hit l p = true ->
    tnt P l = true /\ (p <> [] -> lev P l = true).
  Proof.
    induction p as [|s p IH]; intros l t E Pt H.
    - injection E as <-. split; [|congruence]. unfold PRender5.hit in H. cbn [layerAt dirty snd] in H. rewrite andb_true_r in H.
      rewrite tnt_eq, Pt, (inArea_pot P l H). reflexivity.
    - assert (L : lev P l = true); [|split; [now apply lev_tnt|auto]].
      unfold PRender5.hit in H. rewrite layerAt_cons in E. rewrite layerAt_cons, dirty_cons in H. destruct (child l s) as [c|] eqn:Ec; [|discriminate].
      rewrite E in H. apply andb_true_iff in H. destruct H as [A H]. destruct (dirty false c p) as [d up] eqn:Ed. destruct up; [|discriminate]. cbv zeta in H.
      assert (Hc : hit c p = true). { unfold PRender5.hit. rewrite E, A, Ed. reflexivity. }
      destruct (IH c t E Pt Hc) as [T _]. unfold child in Ec. destruct (nth_error (lkids l) (fst s)) as [k|] eqn:Ek; [|discriminate].
      apply nth_error_In in Ek. destruct (snd s) as [j|] eqn:Es.
      + apply nth_error_In in Ec. destruct (lclipping (latt k)) eqn:El; [discriminate|]. apply (lev_in canvas hasCanvas P l k Ek). eapply kidT_member; eassumption.
      + injection Ec as ->. destruct (lclipping (latt c)) eqn:El; [discriminate|]. apply (lev_in canvas hasCanvas P l c Ek). now apply kidT_tnt.
  Qed.
  Lemma loud_tnt P ps l : marked P ps l -> loud ps l = true -> tnt P l = true.
  Proof.
    intros M H. apply existsb_exists in H. destruct H as (p & I & H). destruct (hit_inv canvas hasCanvas _ _ H) as (t & E & _).
    eapply hit_tnt; [exact E| |exact H]. eapply M; eassumption.
  Qed.
  Lemma loud_lev P ps l : marked P ps l -> loud (tail ps) l = true -> lev P l = true.
  Proof.
    intros M H. apply existsb_exists in H. destruct H as (p & I & H). destruct (hit_inv canvas hasCanvas _ _ H) as (t & E & _). apply filter_In in I. destruct I as [I N].
    eapply hit_tnt; [exact E| |exact H|intros ->; discriminate]. eapply M; eassumption.
  Qed.

  (** * Entries for layers outside the area *)
  Inductive AE (st1 st2 : tstate) : layer -> Prop :=
  | AEI l : (ent st2 (lseq (latt l)) = ent st1 (lseq (latt l)) \/ ent st2 (lseq (latt l)) = None \/
             (ent st2 (lseq (latt l)) = Some None /\ inArea l = false)) ->
      (forall k, In k (lkids l) -> lclipping (latt k) = true -> absent k st2) ->
      (forall k, In k (lkids l) -> lclipping (latt k) = false -> AE st1 st2 k) ->
      (forall c, In c (lgroup l) -> AE st1 st2 c) -> AE st1 st2 l.
  Lemma invKs_impl f st1 st2 ks : (forall k c, In k ks -> kidInv c k st1 -> kidInv c k st2) -> forall buf, invKs f ks buf st1 -> invKs f ks buf st2.
  Proof.
    induction ks as [|k ks IH]; intros H buf; [auto|]. intros [H1 H2]. split; [apply H; [now left|exact H1]|]. apply IH; [|exact H2]. intros k0 c0 I0. apply H. now right.
  Qed.
  Lemma invCs_impl st1 st2 cs : (forall k c, In k cs -> inv c k st1 -> inv c k st2) -> forall x, invCs cs x st1 -> invCs cs x st2.
  Proof.
    induction cs as [|k ks IH]; intros H x; [auto|]. intros [H1 H2]. split; [apply H; [now left|exact H1]|]. apply IH; [|exact H2]. intros k0 c0 I0. apply H. now right.
  Qed.
  Lemma add_empty st1 st2 l : lwf l -> AE st1 st2 l -> forall c, inv c l st1 -> inv c l st2.
  Proof.
    induction l as [l Ik Ic] using layer_both. intros W H c. inversion H as [l0 H1 H2 H3 H4]; subst l0. rewrite !inv_eq. intros (A1 & A2 & A3).
    assert (K : forall k c, In k (lkids l) -> kidInv c k st1 -> kidInv c k st2).
    { intros k c0 I. unfold PRender2.kidInv. destruct (lclipping (latt k)) eqn:C; [intros _; now apply H2|]. apply Ik; auto. exact (lwf_in_kids _ _ _ _ W I). }
    assert (G : forall k c, In k (lgroup l) -> inv c k st1 -> inv c k st2).
    { intros k c0 I. apply Ic; auto. exact (lwf_in_group _ _ _ _ W I). }
    assert (N : invNs (lgroup l) st1 -> invNs (lgroup l) st2).
    { unfold PRender2.invNs. rewrite !Forall_forall. intros X k I. auto. }
    split; [|split].
    - destruct A1 as [A1|A1]; [now left|right]. destruct H1 as [-> |[-> |[-> HA]]]; [exact A1|exact I|].
      destruct (inner zero (latt l) c) as [[b op]|]; [|now split]. rewrite (body_none zero copyT blendOf destInM destOutM destInT destOverT clearT removeAlpha canvas hasCanvas mask canvas_nil l W HA). reflexivity.
    - unfold PRender2.kidsOK in *. destruct (inner zero (latt l) c) as [[b op]|]; [revert A2; now apply invKs_impl|].
      unfold PRender2.invDs in *. rewrite Forall_forall in *. auto.
    - unfold PRender2.groupOK in *. destruct (inner zero (latt l) c) as [[b op]|]; [|auto]. destruct (if lbce (latt l) then _ else _); [|auto]. revert A3. now apply invCs_impl.
  Qed.

  Lemma okSwitch_child l l' s c c' : okSwitch l l' -> child l s = Some c -> child l' s = Some c' -> okSwitch c c'.
  Proof. intros H E E' p t t' L L'. apply (H (s :: p)); rewrite layerAt_cons; [now rewrite E|now rewrite E']. Qed.

  Section change.
  Variable P P' : Z -> bool.
  Hypothesis PP : forall s, P s = true -> P' s = true.
  (** The same layer before and after the change *)
  Definition rel (l l' : layer) : Prop := lwf l /\ lwf l' /\ okSwitch l l' /\ exists ps, changed ps l l' /\ marked P' ps l'.
  Lemma marked_child ps l s c : marked P' ps l -> child l s = Some c -> marked P' (PRender5.below s ps) c.
  Proof. intros M E p t I L. apply in_below in I. apply (M _ _ I). now rewrite layerAt_cons, E. Qed.
  Lemma Forall2_in {A B} (R : A -> B -> Prop) u v : Forall2 R u v -> (forall x, In x u -> exists y, In y v /\ R x y) /\ (forall y, In y v -> exists x, In x u /\ R x y).
  Proof.
    induction 1 as [|x y u v H _ [I1 I2]]; [split; intros x []|]. split.
    - intros z [<-|I]; [exists y; split; [now left|exact H]|]. destruct (I1 z I) as (w & J' & K). exists w. split; [now right|exact K].
    - intros z [<-|I]; [exists x; split; [now left|exact H]|]. destruct (I2 z I) as (w & J' & K). exists w. split; [now right|exact K].
  Qed.
  Definition relS (c c' : layer) : Prop := rel c c' /\ seqs c' = seqs c /\ lgroup c = [] /\ lgroup c' = [].
  Definition relK (k k' : layer) : Prop := rel k k' /\ seqs k' = seqs k /\ Forall2 relS (lgroup k) (lgroup k').
  Lemma relS_K c c' : relS c c' -> relK c c'.
  Proof. intros (H1 & H2 & H3 & H4). split; [exact H1|]. split; [exact H2|]. rewrite H3, H4. constructor. Qed.
  Lemma rel_kids l l' : rel l l' -> Forall2 relK (lkids l) (lkids l').
  Proof.
    intros (W & W' & O & ps & H & M). apply Forall2_index. intros i. pose proof (changed_kid _ _ _ i H) as C.
    destruct (nth_error (lkids l) i) as [k|] eqn:E1, (nth_error (lkids l') i) as [k'|] eqn:E2; try exact C.
    pose proof (nth_error_In _ _ E1) as I1. pose proof (nth_error_In _ _ E2) as I2.
    assert (X : child l (i, None) = Some k) by (unfold child; cbn [fst snd]; now rewrite E1).
    assert (X' : child l' (i, None) = Some k') by (unfold child; cbn [fst snd]; now rewrite E2).
    pose proof (lwf_in_kids _ _ _ k W I1) as Wk. pose proof (lwf_in_kids _ _ _ k' W' I2) as Wk'. split; [|split].
    - split; [exact Wk|]. split; [exact Wk'|]. split; [eapply okSwitch_child; eassumption|]. eexists. split; [exact C|]. now apply marked_child with (l := l').
    - exact (seqs_kid blendOf hasCanvas _ _ _ i k k' H W W' E1 E2).
    - apply Forall2_index. intros j. pose proof (changed_member _ _ _ i k k' j H E1 E2) as Cm.
      destruct (nth_error (lgroup k) j) as [c|] eqn:E3, (nth_error (lgroup k') j) as [c'|] eqn:E4; try exact Cm.
      pose proof (nth_error_In _ _ E3) as I3. pose proof (nth_error_In _ _ E4) as I4.
      pose proof (lwf_in_group _ _ _ c Wk I3) as Wc. pose proof (lwf_in_group _ _ _ c' Wk' I4) as Wc'.
      pose proof (lwf_group_nil _ _ _ c Wk I3) as N. pose proof (lwf_group_nil _ _ _ c' Wk' I4) as N'.
      assert (Y : child l (i, Some j) = Some c) by (unfold child; cbn [fst snd]; now rewrite E1).
      assert (Y' : child l' (i, Some j) = Some c') by (unfold child; cbn [fst snd]; now rewrite E2).
      split; [|split; [|now split]].
      + split; [exact Wc|]. split; [exact Wc'|]. split; [eapply okSwitch_child; eassumption|].
        eexists. split; [exact Cm|]. now apply marked_child with (l := l').
      + apply (seqs_changed blendOf hasCanvas c _ _ Cm Wc Wc'). now rewrite N, N'.
  Qed.
  Lemma rel_here l l' : rel l l' -> lseq (latt l') = lseq (latt l) /\ lclipping (latt l') = lclipping (latt l) /\
    (latt l' = latt l \/ P' (lseq (latt l')) = true).
  Proof.
    intros (_ & _ & _ & ps & H & M). destruct (changed_here _ _ _ H) as [[E1 E2] E3]. split; [exact E1|]. split; [exact E2|].
    destruct E3 as [E|E]; [now left|right]. exact (M [] l' E eq_refl).
  Qed.
  Lemma rel_switch l l' : rel l l' -> isPT (latt l) = true -> isPT (latt l') = false ->
    (forall k, In k (lkids l') -> isPT (latt k) = false) /\ (forall c, In c (lgroup l') -> isPT (latt c) = false).
  Proof. intros (_ & _ & O & _) A B. exact (O [] l l' eq_refl eq_refl A B). Qed.

  (** * What was in doubt stays in doubt *)
  Lemma pot_mono l : forall l', rel l l' -> pot P l = true -> pot P' l' = true.
  Proof.
    induction l as [l IH] using layer_kids. intros l' R. rewrite !pot_eq. destruct (rel_here _ _ R) as (-> & _). destruct (hasCanvas (lseq (latt l))); [auto|].
    intros H. apply existsb_exists in H. destruct H as (k & I & H). destruct (proj1 (Forall2_in _ _ _ (rel_kids _ _ R)) k I) as (k' & I' & Rk & _).
    destruct (rel_here _ _ Rk) as (E1 & E2 & E3). apply existsb_exists. exists k'. split; [exact I'|]. unfold potKid in *. rewrite E2.
    apply andb_true_iff in H. destruct H as [H Hp]. apply andb_true_iff in H. destruct H as [-> H]. rewrite (proj1 (IH k I) k' Rk Hp), andb_true_r. cbn [andb].
    destruct E3 as [E3|E3]; [|rewrite E3; apply orb_true_r]. rewrite E3. apply orb_true_iff in H. destruct H as [->|H]; [reflexivity|]. rewrite (PP _ H). apply orb_true_r.
  Qed.
  Lemma tnt_mono l : forall l', rel l l' -> tnt P l = true -> tnt P' l' = true.
  Proof.
    induction l as [l IH] using layer_kids. intros l' R. rewrite !tnt_eq. intros H. apply orb_true_iff in H. apply orb_true_iff. destruct H as [H|H].
    - left. apply andb_true_iff in H. destruct H as [H1 H2]. rewrite (pot_mono l l' R H2). destruct (rel_here _ _ R) as (-> & _). now rewrite (PP _ H1).
    - right. apply existsb_exists in H. destruct H as (k & I & H). destruct (proj1 (Forall2_in _ _ _ (rel_kids _ _ R)) k I) as (k' & I' & Rk & Es & Rc).
      destruct (rel_here _ _ Rk) as (_ & E2 & _). apply existsb_exists. exists k'. split; [exact I'|]. unfold PLate1.kidT in *. rewrite E2.
      apply andb_true_iff in H. destruct H as [-> H]. cbn [andb]. apply orb_true_iff in H. apply orb_true_iff. destruct H as [H|H]; [left; now apply (proj1 (IH k I))|right].
      apply existsb_exists in H. destruct H as (c & Ic & H). destruct (proj1 (Forall2_in _ _ _ Rc) c Ic) as (c' & Ic' & Rcc & _).
      apply existsb_exists. exists c'. split; [exact Ic'|]. now apply (proj2 (IH k I) c Ic).
  Qed.
  Lemma grp_mono cs cs' : Forall2 relS cs cs' -> existsb (tnt P) cs = true -> existsb (tnt P') cs' = true.
  Proof.
    intros R H. apply existsb_exists in H. destruct H as (c & Ic & H). destruct (proj1 (Forall2_in _ _ _ R) c Ic) as (c' & Ic' & Rcc & _).
    apply existsb_exists. exists c'. split; [exact Ic'|]. now apply (tnt_mono c).
  Qed.
  Lemma lev_mono l l' : rel l l' -> lev P l = true -> lev P' l' = true.
  Proof.
    intros R H. apply existsb_exists in H. destruct H as (k & I & H). destruct (proj1 (Forall2_in _ _ _ (rel_kids _ _ R)) k I) as (k' & I' & Rk & Es & Rc).
    apply (lev_in canvas hasCanvas P' l' k' I'). unfold PLate1.kidT in *. destruct (rel_here _ _ Rk) as (_ & -> & _). apply andb_true_iff in H. destruct H as [-> H]. cbn [andb].
    apply orb_true_iff in H. apply orb_true_iff. destruct H as [H|H]; [left; now apply (tnt_mono k)|right; now apply (grp_mono (lgroup k))].
  Qed.
  Lemma J_mono st l : forall l', relK l l' -> J P st l -> J P' st l'.
  Proof.
    induction l as [l Ik Ic] using layer_both. intros l' (R & Es & Rg) H. inversion H as [l0 H1 H2 H3 H4]; subst l0.
    pose proof (rel_kids _ _ R) as RK. destruct (rel_here _ _ R) as (E1 & E2 & _). constructor.
    - rewrite E1. intros x Hx. apply H1 in Hx. apply orb_true_iff in Hx. apply orb_true_iff. destruct Hx as [Hx|Hx]; [left; now apply (pot_mono l)|right; now apply (tnt_mono l)].
    - intros k' I' C. destruct (proj2 (Forall2_in _ _ _ RK) k' I') as (k & I & Rk & Esk & Rc). destruct (rel_here _ _ Rk) as (_ & E & _). rewrite E in C.
      specialize (H2 k I C). intros s Hs. rewrite Esk in Hs. now apply H2.
    - intros k' I' C. destruct (proj2 (Forall2_in _ _ _ RK) k' I') as (k & I & Rk). destruct (rel_here _ _ (proj1 Rk)) as (_ & E & _). rewrite E in C.
      apply (Ik k I); auto.
    - intros c' I'. destruct (proj2 (Forall2_in _ _ _ Rg) c' I') as (c & I & Rc). apply (Ic c I); [now apply relS_K|auto].
  Qed.
  Lemma JKs_mono st ks ks' : Forall2 relK ks ks' -> JKs P st ks -> JKs P' st ks'.
  Proof.
    intros R H k' I'. destruct (proj2 (Forall2_in _ _ _ R) k' I') as (k & I & Rk). destruct (rel_here _ _ (proj1 Rk)) as (_ & E & _). destruct (H k I) as [H1 H2].
    rewrite E. split; intros C.
    - specialize (H1 C). intros s Hs. rewrite (proj1 (proj2 Rk)) in Hs. now apply H1.
    - apply (J_mono st k); auto.
  Qed.

  (** * Layers below which nothing is in doubt draw the same *)
  Lemma quietS st c c' : relS c c' -> tnt P' c' = false -> WC st c c'.
  Proof.
    intros ((W & W' & _ & ps & H & M) & _ & N & N') T. apply (quietB zero copyT blendOf destInM destOutM destInT destOverT clearT removeAlpha canvas hasCanvas mask canvas_nil st c ps c' H W W').
    - destruct (loud ps c') eqn:L; [|reflexivity]. rewrite (loud_tnt _ _ _ M L) in T. discriminate.
    - rewrite N, N'. constructor.
  Qed.
  Lemma quietK st k k' : relK k k' -> tnt P' k' = false -> existsb (tnt P') (lgroup k') = false -> WK st k k' /\ WC st k k'.
  Proof.
    intros ((W & W' & _ & ps & H & M) & _ & G) T T2. apply (quietB zero copyT blendOf destInM destOutM destInT destOverT clearT removeAlpha canvas hasCanvas mask canvas_nil st k ps k' H W W').
    - destruct (loud ps k') eqn:L; [|reflexivity]. rewrite (loud_tnt _ _ _ M L) in T. discriminate.
    - clear - G T2 canvas_nil. induction G as [|c c' u v R _ IH]; [constructor|]. cbn [existsb] in T2. apply orb_false_iff in T2. destruct T2 as [T1 T2].
      constructor; [|auto]. split; [apply R|]. now apply quietS.
  Qed.
  Lemma quietKs st l l' : rel l l' -> lev P' l' = false -> Forall2 (WK st) (lkids l) (lkids l').
  Proof.
    intros (W & W' & _ & ps & H & M) T. apply (quiet_kidsB zero copyT blendOf destInM destOutM destInT destOverT clearT removeAlpha canvas hasCanvas mask canvas_nil st ps l l' H W W').
    destruct (loud (tail ps) l') eqn:L; [|reflexivity]. rewrite (loud_lev _ _ _ M L) in T. discriminate.
  Qed.

  (** * The caches after a change, without what is in doubt *)
  Section again.
  Variables st st' : tstate.
  Hypothesis less : forall s, ent st' s = ent st s \/ ent st' s = None.
  Definition gone (D : list Z) : Prop := forall s, In s D -> ent st' s = None.
  Lemma lessB S : fewer S st st'. Proof. intros s _. apply less. Qed.
  Lemma has_nonPT l : isPT (latt l) = false -> someInv l st -> allInv l st'.
  Proof.
    intros N [c H] c'. apply (inv_nonPT zero copyT blendOf destInM destOutM destInT destOverT clearT removeAlpha canvas hasCanvas mask _ _ c c' N).
    revert H. apply inv_fewer, lessB.
  Qed.
  Definition againP (l : layer) : Prop := forall l', relK l l' -> gone (Dk P' true l') ->
    (WK st l l' /\ WC st l l' -> someInv l' st) -> someInv l st -> allInv l' st'.
  Lemma again_kid k k' : againP k -> relK k k' -> (lclipping (latt k') = false -> gone (Dk P' true k')) -> hasK st k -> allKid k' st'.
  Proof.
    intros IH R G H c. destruct (rel_here _ _ (proj1 R)) as (_ & Ec & _). unfold PRender2.kidInv. destruct (lclipping (latt k')) eqn:C.
    - apply hasK_some in H. unfold PRender3.someKid in H. rewrite <- Ec in H.
      apply (absent_fewer _ st st' (lessB _)). intros s Hs. rewrite (proj1 (proj2 R)) in Hs. now apply H.
    - revert c. apply (IH k' R (G eq_refl)).
      + intros [Q _]. pose proof (WK_has zero copyT blendOf destInM destOutM destInT destOverT clearT removeAlpha canvas hasCanvas mask st _ _ Q H) as H'. apply hasK_some in H'. unfold PRender3.someKid in H'. now rewrite C in H'.
      + apply hasK_some in H. unfold PRender3.someKid in H. now rewrite <- Ec in H.
  Qed.
  Lemma gone_kid g l k : gone (Dset P' g l) -> In k (lkids l) -> lclipping (latt k) = false -> gone (Dk P' (PLate1.below canvas hasCanvas P' g l) k).
  Proof. intros G I C s Hs. apply G. apply in_Dset. right. exists k. auto. Qed.
  Lemma again_kids l l' : (forall k, In k (lkids l) -> againP k) -> rel l l' -> (forall k', In k' (lkids l') -> lclipping (latt k') = false -> gone (Dk P' true k')) ->
    Forall (hasK st) (lkids l) -> Forall (fun k => allKid k st') (lkids l').
  Proof.
    intros IH R G H. apply Forall_forall. intros k' I'. destruct (proj2 (Forall2_in _ _ _ (rel_kids _ _ R)) k' I') as (k & I & Rk).
    apply (again_kid k); auto. rewrite Forall_forall in H. auto.
  Qed.
  Lemma quiet_has2 l l' : Forall2 (WK st) (lkids l) (lkids l') -> Forall (hasK st) (lkids l) -> Forall (hasK st) (lkids l').
  Proof. induction 1 as [|k k' u v K _ IH]; [auto|]. intros F. inversion F; subst. constructor; [eapply WK_has; eassumption|auto]. Qed.
  Lemma again l : againP l.
  Proof.
    induction l as [l Ik Ic] using layer_both. intros l' R G Q HS. pose proof R as (R1 & Es & Rg). destruct (fl P' true l') eqn:F.
    - destruct HS as [c0 H0]. rewrite inv_eq in H0. destruct H0 as (_ & H2 & H3). intros c. rewrite inv_eq.
      assert (Gl : gone (Dset P' true l')). { intros s Hs. apply G. apply in_Dk. now left. }
      split; [|split].
      + right. rewrite Gl; [exact I|]. apply in_Dset. left. auto.
      + pose proof (kidsOK_has zero copyT blendOf destInM destOutM destInT destOverT clearT removeAlpha canvas hasCanvas mask st _ _ H2) as HK. destruct (PLate1.below canvas hasCanvas P' true l') eqn:B.
        * apply kidsOK_all. apply (again_kids l); auto. intros k' I' C. rewrite <- B. now apply gone_kid.
        * unfold PLate1.below in B. apply orb_false_iff in B. destruct B as [B EP]. cbn [andb] in EP.
          pose proof (quietKs st _ _ R1 B) as Qk. destruct (isPT (latt l)) eqn:EP0.
          -- apply kidsOK_all. pose proof (quiet_has2 _ _ Qk HK) as HK'. rewrite Forall_forall in *. intros k' I' y.
             pose proof (proj1 (rel_switch _ _ R1 EP0 EP) k' I') as NP. specialize (HK' k' I'). apply hasK_some in HK'.
             unfold PRender3.someKid, PRender2.kidInv in *. destruct (lclipping (latt k')); [revert HK'; apply absent_fewer, lessB|]. now apply has_nonPT.
          -- unfold PRender2.inner in *. rewrite EP. rewrite EP0 in H2. unfold PRender2.kidsOK in *.
             replace (kidOp (latt l') 0) with (kidOp (latt l) 0) by (unfold kidOp, alphaOf; now rewrite EP, EP0).
             replace (startBuf (latt l') zero) with (startBuf (latt l) zero) by (unfold SRender.startBuf; now rewrite EP, EP0).
             apply (invKs_W2 zero copyT blendOf destInM destOutM destInT destOverT clearT removeAlpha canvas hasCanvas mask st _ _ _ (kidOp_0 _ 0) Qk) in H2. revert H2. apply invKs_fewer; [apply all_keep|apply lessB].
      + apply groupOK_all. pose proof (groupOK_has zero copyT blendOf destInM destOutM destInT destOverT clearT removeAlpha canvas hasCanvas mask st _ _ H3) as HG. rewrite Forall_forall in *. intros c' I'.
        destruct (proj2 (Forall2_in _ _ _ Rg) c' I') as (d & Id & Rd). apply (Ic d Id c' (relS_K _ _ Rd)).
        * intros s Hs. apply G. apply in_Dk. right. exists c'. split; [exact I'|]. rewrite F. apply in_Dk in Hs. destruct Hs as [Hs|(e & Ie & _)]; [exact Hs|].
          destruct Rd as (_ & _ & _ & N). rewrite N in Ie. destruct Ie.
        * intros [_ Q']. specialize (HG d Id). apply (WC_has zero copyT blendOf destInM destOutM destInT destOverT clearT removeAlpha canvas hasCanvas mask st _ _ Q') in HG. now apply hasC_some in HG.
        * specialize (HG d Id). now apply hasC_some in HG.
    - unfold PLate1.fl in F. apply orb_false_iff in F. destruct F as [F F3]. apply orb_false_iff in F. destruct F as [F1 F2]. cbn [andb] in F3.
      apply has_nonPT; [exact F3|]. apply Q. now apply quietK.
  Qed.
  Lemma again_root root root' : rel root root' -> gone (Droot P' root') -> invRoot root st -> invRoot root' st'.
  Proof.
    intros R G [I1 I2]. unfold PRender2.invRoot. destruct (rel_here _ _ R) as (Es & _). destruct (lev P' root') eqn:L.
    - split; [rewrite G; [exact I|]|].
      + apply in_Droot. left. split; [now apply lev_tnt|reflexivity].
      + apply invKs_all. apply (again_kids root); [intros; apply again|exact R| |eapply invKs_has; [|exact I2]; reflexivity].
        intros k' I' C s Hs. apply G. apply in_Droot. right. rewrite L. exists k'. auto.
    - pose proof (quietKs st _ _ R L) as Q. rewrite Es. split.
      + destruct (less (lseq (latt root))) as [-> | ->]; [|exact I]. rewrite (drawsP_W2 zero copyT blendOf destInM destOutM destInT destOverT clearT removeAlpha canvas hasCanvas mask st idOp _ _ eq_refl Q). exact I1.
      + apply (invKs_W2 zero copyT blendOf destInM destOutM destInT destOverT clearT removeAlpha canvas hasCanvas mask st idOp _ _ eq_refl Q) in I2. revert I2. apply invKs_fewer; [apply all_keep|apply lessB].
  Qed.
  End again.
  (** * What is no longer in doubt was empty *)
  Section forget.
  Variables D D' : list Z.
  Variables st st1 st2 : tstate.
  Hypothesis in1 : forall s, ~ In s D -> ~ In s D' -> ent st1 s = ent st s.
  Hypothesis in2 : forall s, In s D' -> ent st2 s = None.
  Hypothesis in3 : forall s, ~ In s D' -> ent st2 s = ent st s.
  Lemma sub2 S : fewer S st st2.
  Proof. intros s _. destruct (in_dec Z.eq_dec s D') as [X|X]; [right; auto|left; auto]. Qed.
  Lemma dropped g g' l l' : relK l l' -> (g = true -> g' = true \/ isPT (latt l') = false) -> fl P g l = true -> fl P' g' l' = false ->
    pot P' l' = false /\ tnt P' l' = false /\ isPT (latt l) = true /\ isPT (latt l') = false.
  Proof.
    intros (R & _ & Rg) Hg F F'. unfold PLate1.fl in *. apply orb_false_iff in F'. destruct F' as [F' F3]. apply orb_false_iff in F'. destruct F' as [F1 F2].
    apply orb_true_iff in F. destruct F as [F|F]; [apply orb_true_iff in F; destruct F as [F|F]|].
    - rewrite (tnt_mono _ _ R F) in F1. discriminate.
    - rewrite (grp_mono _ _ Rg F) in F2. discriminate.
    - apply andb_true_iff in F. destruct F as [-> F]. assert (N : isPT (latt l') = false).
      { destruct (Hg eq_refl) as [-> |X]; [exact F3|exact X]. }
      assert (Pt : P' (lseq (latt l')) = true). { destruct (rel_here _ _ R) as (_ & _ & [E|E]); [rewrite E in N; congruence|exact E]. }
      split; [|split; [exact F1|now split]]. rewrite tnt_eq, Pt in F1. apply orb_false_iff in F1. apply F1.
  Qed.
  Lemma forget l : forall l' g g', relK l l' -> NoDup (seqs l) -> HD P D g l -> HD P' D' g' l' -> (g = true -> g' = true \/ isPT (latt l') = false) ->
    J P' st l' -> AE st1 st2 l'.
  Proof.
    induction l as [l Ik Ic] using layer_both. intros l' g g' R HN H H' Hg HJ. pose proof R as (R1 & Es & Rg). inversion HJ as [l0 J1 J2 J3 J4]; subst l0.
    assert (HN' : NoDup (seqs l')) by now rewrite Es. destruct (rel_here _ _ R1) as (E1 & E2 & _).
    pose proof (HD_self _ _ _ _ _ _ HN H) as S. pose proof (HD_self _ _ _ _ _ _ HN' H') as S'. rewrite <- E1 in S. constructor.
    - destruct (in_dec Z.eq_dec (lseq (latt l')) D') as [X|X]; [right; left; now apply in2|]. rewrite in3 by exact X.
      destruct (in_dec Z.eq_dec (lseq (latt l')) D) as [Y|Y]; [|left; symmetry; now apply in1]. right.
      assert (F' : fl P' g' l' = false). { destruct (fl P' g' l'); [|reflexivity]. destruct X. now apply S'. }
      apply S in Y. destruct (dropped g g' l l' R Hg Y F') as (D1 & D2 & _ & _). destruct (ent st (lseq (latt l'))) as [[x|]|] eqn:Ee; [|right|now left].
      + specialize (J1 x eq_refl). rewrite D1, D2 in J1. discriminate.
      + split; [reflexivity|]. destruct (inArea l') eqn:A; [|reflexivity]. rewrite (inArea_pot P' _ A) in D1. discriminate.
    - intros k' I' C. apply (absent_fewer k' st st2); [apply sub2|auto].
    - intros k' I' C. destruct (proj2 (Forall2_in _ _ _ (rel_kids _ _ R1)) k' I') as (k & I & Rk). destruct (rel_here _ _ (proj1 Rk)) as (_ & Ec & _).
      apply (Ik k I k' (PLate1.below canvas hasCanvas P g l) (PLate1.below canvas hasCanvas P' g' l') Rk).
      + exact (NoDup_kid _ _ (NoDup_own _ HN) I).
      + apply HD_kid; auto. now rewrite <- Ec.
      + now apply HD_kid.
      + unfold PLate1.below. intros B. apply orb_true_iff in B. destruct B as [B|B]; [left; rewrite (lev_mono _ _ R1 B); reflexivity|].
        apply andb_true_iff in B. destruct B as [-> B]. destruct (isPT (latt l')) eqn:EP; [|right; exact (proj1 (rel_switch _ _ R1 B EP) k' I')].
        destruct (Hg eq_refl) as [-> |X]; [left; apply orb_true_r|discriminate].
      + auto.
    - intros c' I'. destruct (proj2 (Forall2_in _ _ _ Rg) c' I') as (c & I & Rc). pose proof Rc as (_ & _ & N & N').
      apply (Ic c I c' (fl P g l) (fl P' g' l') (relS_K _ _ Rc)).
      + exact (NoDup_member _ _ HN I).
      + now apply HD_member.
      + now apply HD_member.
      + intros F. destruct (fl P' g' l') eqn:F'; [now left|right]. destruct (dropped g g' l l' R Hg F F') as (_ & _ & B & B').
        exact (proj2 (rel_switch _ _ R1 B B') c' I').
      + auto.
  Qed.
  End forget.

  Lemma change_late' root root' st : rel root root' -> NoDup (own root) -> NoDup (own root') -> late P root st -> late P' root' st.
  Proof.
    intros R HN HN' [I HJ]. pose proof (JKs_mono st _ _ (rel_kids _ _ R) HJ) as HJ'. split; [|exact HJ'].
    set (D := Droot P root) in *. set (D' := Droot P' root').
    assert (less : forall s, ent (clean D' (clean D st)) s = ent (clean D st) s \/ ent (clean D' (clean D st)) s = None).
    { intros s. rewrite (ent_clean D'). destruct (existsb _ _); auto. }
    assert (G : gone (clean D' (clean D st)) D'). { intros s Hs. now apply clean_in. }
    pose proof (again_root _ _ less root root' R G I) as [A1 A2]. destruct (rel_here _ _ R) as (E1 & _). unfold PRender2.invRoot. split.
    - rewrite (ent_clean D'). destruct (existsb (Z.eqb (lseq (latt root'))) D') eqn:X; [exact Logic.I|].
      rewrite (ent_clean D'), X in A1. rewrite (ent_clean D) in A1. destruct (existsb (Z.eqb (lseq (latt root'))) D) eqn:Y; [exfalso|exact A1].
      apply existsb_In in Y. rewrite E1 in Y. apply Droot_self in Y; [|exact HN]. apply (tnt_mono _ _ R) in Y. apply not_true_iff_false in X. apply X.
      apply existsb_In. now apply Droot_self.
    - revert A2. apply invKs_impl. intros k' c I' H. destruct (proj2 (Forall2_in _ _ _ (rel_kids _ _ R)) k' I') as (k & Ik & Rk).
      destruct (rel_here _ _ (proj1 Rk)) as (_ & Ec & _). destruct (HJ' k' I') as [J1 J2]. unfold PRender2.kidInv in *. destruct (lclipping (latt k')) eqn:C.
      + apply (absent_fewer k' st); [|auto]. intros s _. rewrite ent_clean. destruct (existsb _ _); auto.
      + revert H. apply add_empty; [apply Rk|]. apply (forget D D' st _ _) with (l := k) (g := lev P root) (g' := lev P' root').
        * intros s N N'. rewrite !clean_out; auto.
        * intros s Hs. now apply clean_in.
        * intros s Hs. now apply clean_out.
        * exact Rk.
        * exact (NoDup_kid _ _ HN Ik).
        * apply HD_top; auto.
        * apply HD_top; auto.
        * intros L. left. exact (lev_mono _ _ R L).
        * auto.
  Qed.
  End change.
  Lemma change_late P P' ps root root' st : (forall s, P s = true -> P' s = true) -> marked P' ps root' -> changed ps root root' -> okSwitch root root' ->
    lwf root -> lwf root' -> NoDup (own root) -> NoDup (own root') -> late P root st -> late P' root' st.
  Proof. intros PP M H O W W' N N'. apply change_late'; auto. split; [exact W|]. split; [exact W'|]. split; [exact O|]. eauto. Qed.
End render.
