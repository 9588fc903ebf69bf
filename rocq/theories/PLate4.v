(** Changes of layers that are announced late: announcing a change. *)
From Verif Require Import Base BaseFacts MRender SRender PRender PRender2 PRender3 PRender4 PRender5 PLate1 PLate2 PLate3.

Section render.
  Context {img msk : Type}.
  Variable zero : img.
  Variable copyT : img -> img.
  Variable blendOf : bytes -> option (Z -> img -> img -> img).
  Variable destInM destOutM : msk -> img -> img.
  Variable destInT destOverT : img -> img -> img.
  Variable clearT removeAlpha : img -> img.
  Variable canvas : Z -> option img.
  Variable hasCanvas : Z -> bool.
  Variable mask : Z -> option msk.
  Variable canvas_nil : forall s, hasCanvas s = false -> canvas s = None.

  Notation tstate := (tstate img).
  Notation startBuf := (startBuf zero copyT).
  Notation inArea := (inArea canvas hasCanvas).
  Notation drawLayer := (drawLayer zero copyT blendOf destInM destOutM destInT destOverT clearT removeAlpha canvas mask).
  Notation drawTop := (drawTop zero copyT blendOf destInM destOutM destInT destOverT clearT removeAlpha canvas mask).
  Notation updateTile := (updateTile zero copyT blendOf destInM destOutM destInT destOverT clearT removeAlpha canvas mask).
  Notation renderTile := (renderTile zero copyT blendOf destInM destOutM destInT destOverT clearT removeAlpha canvas mask).
  Notation clips := (clips zero copyT blendOf destInM destOutM destInT destOverT clearT removeAlpha canvas mask).
  Notation draws := (draws zero copyT blendOf destInM destOutM destInT destOverT clearT removeAlpha canvas mask).
  Notation finish := (finish zero copyT blendOf destInM destOutM destInT destOverT clearT removeAlpha canvas mask).
  Notation body := (body zero copyT blendOf destInM destOutM destInT destOverT clearT removeAlpha canvas mask).
  Notation pre := (pre zero copyT blendOf destInM destOutM destInT destOverT clearT removeAlpha canvas mask).
  Notation kidP := (kidP zero copyT blendOf destInM destOutM destInT destOverT clearT removeAlpha canvas mask).
  Notation drawsP := (drawsP zero copyT blendOf destInM destOutM destInT destOverT clearT removeAlpha canvas mask).
  Notation clipP := (clipP zero copyT blendOf destInM destOutM destInT destOverT clearT removeAlpha canvas mask).
  Notation clipsP := (clipsP zero copyT blendOf destInM destOutM destInT destOverT clearT removeAlpha canvas mask).
  Notation grp := (grp zero copyT blendOf destInM destOutM destInT destOverT clearT removeAlpha canvas mask).
  Notation stable := (stable zero copyT blendOf destInM destOutM destInT destOverT clearT removeAlpha canvas mask).
  Notation stableKs := (stableKs zero copyT blendOf destInM destOutM destInT destOverT clearT removeAlpha canvas mask).
  Notation stableCs := (stableCs zero copyT blendOf destInM destOutM destInT destOverT clearT removeAlpha canvas mask).
  Notation stableRoot := (stableRoot zero copyT blendOf destInM destOutM destInT destOverT clearT removeAlpha canvas mask).
  Notation inv := (inv zero copyT blendOf destInM destOutM destInT destOverT clearT removeAlpha canvas hasCanvas mask).
  Notation kidInv := (kidInv zero copyT blendOf destInM destOutM destInT destOverT clearT removeAlpha canvas hasCanvas mask).
  Notation invKs := (invKs zero copyT blendOf destInM destOutM destInT destOverT clearT removeAlpha canvas hasCanvas mask).
  Notation invCs := (invCs zero copyT blendOf destInM destOutM destInT destOverT clearT removeAlpha canvas hasCanvas mask).
  Notation invDs := (invDs zero copyT blendOf destInM destOutM destInT destOverT clearT removeAlpha canvas hasCanvas mask).
  Notation invNs := (invNs zero copyT blendOf destInM destOutM destInT destOverT clearT removeAlpha canvas hasCanvas mask).
  Notation entryOK := (entryOK zero copyT blendOf destInM destOutM destInT destOverT clearT removeAlpha canvas hasCanvas mask).
  Notation kidsOK := (kidsOK zero copyT blendOf destInM destOutM destInT destOverT clearT removeAlpha canvas hasCanvas mask).
  Notation groupOK := (groupOK zero copyT blendOf destInM destOutM destInT destOverT clearT removeAlpha canvas hasCanvas mask).
  Notation invRoot := (invRoot zero copyT blendOf destInM destOutM destInT destOverT clearT removeAlpha canvas hasCanvas mask).
  Notation someInv := (someInv zero copyT blendOf destInM destOutM destInT destOverT clearT removeAlpha canvas hasCanvas mask).
  Notation someKid := (someKid zero copyT blendOf destInM destOutM destInT destOverT clearT removeAlpha canvas hasCanvas mask).
  Notation allInv := (allInv zero copyT blendOf destInM destOutM destInT destOverT clearT removeAlpha canvas hasCanvas mask).
  Notation allKid := (allKid zero copyT blendOf destInM destOutM destInT destOverT clearT removeAlpha canvas hasCanvas mask).
  Notation maskT := (maskT destInM destOutM destOverT clearT mask).
  Notation putTile := (putTile copyT blendOf).
  Notation putT := (putT copyT blendOf).
  Notation dr1 := (dr1 copyT blendOf).
  Notation modeOK := (modeOK blendOf).
  Notation lwf := (lwf blendOf hasCanvas).
  Notation ent st s := (m_get Z.eqb (tent st) s).
  Notation pot := (pot canvas hasCanvas).
  Notation tnt := (tnt canvas hasCanvas).
  Notation lev := (lev canvas hasCanvas).
  Notation fl := (fl canvas hasCanvas).
  Notation below := (below canvas hasCanvas).
  Notation HD := (HD canvas hasCanvas).
  Notation Droot := (Droot canvas hasCanvas).
  Notation WK := (WK zero copyT blendOf destInM destOutM destInT destOverT clearT removeAlpha canvas hasCanvas mask).
  Notation WC := (WC zero copyT blendOf destInM destOutM destInT destOverT clearT removeAlpha canvas hasCanvas mask).
  Notation WS := (WS zero copyT blendOf destInM destOutM destInT destOverT clearT removeAlpha canvas hasCanvas mask).
  Notation hasK := (hasK zero copyT blendOf destInM destOutM destInT destOverT clearT removeAlpha canvas hasCanvas mask).
  Notation hasC := (hasC zero copyT blendOf destInM destOutM destInT destOverT clearT removeAlpha canvas hasCanvas mask).
  Notation late := (late zero copyT blendOf destInM destOutM destInT destOverT clearT removeAlpha canvas hasCanvas mask).
  Notation firmB := (firmB zero copyT blendOf destInM destOutM destInT destOverT clearT removeAlpha canvas mask).
  Notation hit := (hit canvas hasCanvas).
  Notation loud := (loud canvas hasCanvas).
  Notation Dset := (Dset canvas hasCanvas).
  Notation Dk := (Dk canvas hasCanvas).
  Notation kidT := (kidT canvas hasCanvas).
  Notation J := (J canvas hasCanvas).
  Notation JKs := (JKs canvas hasCanvas).

  Notation Dks := (Dks canvas hasCanvas).
  Notation bel := (PLate1.below canvas hasCanvas).

  (** * Drawing the area or having something in doubt *)
  Lemma pot_area P l : pot P l = true -> inArea l = true \/ lev P l = true.
  Proof.
    induction l as [l IH] using layer_kids. rewrite pot_eq. unfold MRender.inArea. destruct (hasCanvas (lseq (latt l))) eqn:Hc; [now left|].
    intros H. apply existsb_exists in H. destruct H as (k & I & H). unfold potKid in H. apply andb_true_iff in H. destruct H as [H Hp].
    apply andb_true_iff in H. destruct H as [C H]. apply negb_true_iff in C.
    destruct (P (lseq (latt k))) eqn:Pk.
    - right. apply (lev_in canvas hasCanvas P l k I). apply kidT_tnt; [exact C|]. rewrite tnt_eq, Pk, Hp. reflexivity.
    - rewrite orb_false_r in H. destruct (proj1 (IH k I) Hp) as [A|A].
      + left. destruct (lkids l) as [|k0 ks0] eqn:E; [destruct I|]. rewrite areaRec_eq, E. apply existsb_exists. exists k. split; [exact I|].
        unfold areaKid, alive in *. rewrite C, A. now rewrite H.
      + right. apply (lev_in canvas hasCanvas P l k I). apply kidT_tnt; [exact C|]. now apply lev_tnt.
  Qed.

  (** * Layers in doubt only because of their backdrop *)
  Lemma fl_true P k : fl P false k = true -> fl P true k = true.
  Proof. unfold PLate1.fl. cbn [andb]. rewrite orb_false_r. intros ->. reflexivity. Qed.
  Lemma below_true P k : bel P false k = true -> bel P true k = true.
  Proof. unfold PLate1.below. cbn [andb]. rewrite orb_false_r. intros ->. reflexivity. Qed.
  Lemma Dset_true P l : forall s, In s (Dset P false l) -> In s (Dset P true l).
  Proof.
    induction l as [l IH] using layer_kids. intros s. rewrite !in_Dset. intros [[F ->]|(k & I & C & H)]; [left; split; [now apply fl_true|reflexivity]|right].
    exists k. split; [exact I|]. split; [exact C|]. destruct (bel P false l) eqn:B; [now rewrite (below_true _ _ B)|]. destruct (bel P true l); [|exact H].
    rewrite in_Dk in *. destruct H as [H|(c & Ic & H)]; [left; now apply (proj1 (IH k I))|right]. exists c. split; [exact Ic|].
    destruct (fl P false k) eqn:F; [now rewrite (fl_true _ _ F)|]. destruct (fl P true k); [|exact H]. now apply (proj2 (IH k I) c Ic).
  Qed.
  Lemma Dset_up P g l s : In s (Dset P false l) -> In s (Dset P g l).
  Proof. destruct g; [apply Dset_true|auto]. Qed.
  Lemma Dk_up P g k s : In s (Dk P false k) -> In s (Dk P g k).
  Proof.
    destruct g; [|auto]. rewrite !in_Dk. intros [H|(c & Ic & H)]; [left; now apply Dset_true|right]. exists c. split; [exact Ic|].
    destruct (fl P false k) eqn:F; [now rewrite (fl_true _ _ F)|]. now apply Dset_up.
  Qed.
  Definition sibs (k : layer) : list Z := (if isPT (latt k) then dirtyPT k else []) ++ flat_map (fun c => if isPT (latt c) then dirtyPT c else []) (lgroup k).
  Lemma sibs_in l k s : In k (lkids l) -> In s (sibs k) -> In s (dirtySibs l).
  Proof. intros I H. unfold dirtySibs. apply in_flat_map. exists k. auto. Qed.
  Lemma dirtyPT_kid l k s : In k (lkids l) -> In s (sibs k) -> In s (dirtyPT l).
  Proof.
    destruct l as [a ks cs]. cbn [lkids dirtyPT]. intros I H. right. apply in_flat_map. exists k. split; [exact I|]. destruct k as [b kk cc]. exact H.
  Qed.
  Definition dropP P (l : layer) : Prop := forall s, In s (Dset P true l) -> In s (Dset P false l) \/ (isPT (latt l) = true /\ In s (dirtyPT l)).
  Lemma drop_member P f f' c s : dropP P c -> In s (Dset P f c) -> In s (Dset P f' c) \/ (f = true /\ f' = false /\ isPT (latt c) = true /\ In s (dirtyPT c)).
  Proof.
    intros H Hs. destruct f; [|left; now apply Dset_up]. destruct f'; [now left|]. destruct (H s Hs) as [X|X]; [now left|right]. tauto.
  Qed.
  Lemma drop_kid' P k : dropP P k -> (forall c, In c (lgroup k) -> dropP P c) -> forall s, In s (Dk P true k) -> In s (Dk P false k) \/ In s (sibs k).
  Proof.
    intros H HC s. rewrite !in_Dk. intros [Hs|(c & Ic & Hs)].
    - destruct (H s Hs) as [X|[X Y]]; [left; now left|right]. apply in_app_iff. left. now rewrite X.
    - destruct (drop_member P _ (fl P false k) c s (HC c Ic) Hs) as [X|(_ & _ & X & Y)]; [left; right; eauto|right].
      apply in_app_iff. right. apply in_flat_map. exists c. split; [exact Ic|]. now rewrite X.
  Qed.
  Lemma drop P l : dropP P l.
  Proof.
    induction l as [l IH] using layer_kids. intros s. rewrite !in_Dset. intros [[F ->]|(k & I & C & H)].
    - unfold PLate1.fl in *. cbn [andb] in *. rewrite orb_false_r. destruct (tnt P l || existsb (tnt P) (lgroup l)); [left; left; auto|].
      right. cbn [orb] in F. split; [exact F|apply dirtyPT_self].
    - unfold PLate1.below in *. cbn [andb] in *. rewrite orb_false_r. destruct (lev P l); [left; right; eauto|]. cbn [orb] in *.
      destruct (isPT (latt l)); [|left; right; eauto].
      destruct (drop_kid' P k (proj1 (IH k I)) (proj2 (IH k I)) s H) as [X|X]; [left; right; eauto|right]. split; [reflexivity|]. eapply dirtyPT_kid; eassumption.
  Qed.
  Lemma drop_kid P k s : In s (Dk P true k) -> In s (Dk P false k) \/ In s (sibs k).
  Proof. apply drop_kid'; [apply drop|]. intros c _. apply drop. Qed.

  (** * Layers without the announced one *)
  Lemma Dset_agree P P2 l : agreeK P P2 l -> forall g s, In s (Dset P g l) -> In s (Dset P2 g l).
  Proof.
    induction l as [l IH] using layer_kids. intros A g s. rewrite !in_Dset. intros [[F ->]|(k & I & C & H)].
    - left. split; [|reflexivity]. now rewrite <- (fl_agree _ _ P P2).
    - right. exists k. split; [exact I|]. split; [exact C|]. unfold PLate1.below in *. rewrite <- (lev_agree _ _ P P2) by now apply agreeK_own.
      assert (Ak : agreeK P P2 k) by (eapply agree_kidK; [apply agreeK_own, A|exact I]).
      rewrite in_Dk in *. rewrite <- (fl_agree _ _ P P2) by exact Ak. destruct H as [H|(c & Ic & H)]; [left; now apply (proj1 (IH k I))|right].
      exists c. split; [exact Ic|]. apply (proj2 (IH k I) c Ic); [|exact H]. intros z Hz. apply Ak. eapply seqs_member_in; eassumption.
  Qed.
  Lemma Dk_agree P P2 k : agreeK P P2 k -> forall g s, In s (Dk P g k) -> In s (Dk P2 g k).
  Proof.
    intros A g s. rewrite !in_Dk, <- (fl_agree _ _ P P2) by exact A. intros [H|(c & Ic & H)]; [left; eapply Dset_agree; eassumption|right].
    exists c. split; [exact Ic|]. eapply Dset_agree; [|exact H]. intros z Hz. apply A. eapply seqs_member_in; eassumption.
  Qed.
  Lemma J_agree P P2 st l : agreeK P P2 l -> J P st l -> J P2 st l.
  Proof.
    induction l as [l Ik Ic] using layer_both. intros A H. inversion H as [l0 H1 H2 H3 H4]; subst l0. constructor.
    - intros x Hx. rewrite <- (pot_agree _ _ P P2), <- (tnt_agree _ _ P P2) by now apply agreeK_own. eauto.
    - exact H2.
    - intros k I C. apply Ik; auto. eapply agree_kidK; [apply agreeK_own, A|exact I].
    - intros c I. apply Ic; auto. intros z Hz. apply A. eapply seqs_member_in; eassumption.
  Qed.

  (** * What an announcement deletes *)
  Definition X (l : layer) (p : list step) (s : Z) : Prop := exists t, layerAt l p = Some t /\ inArea t = true /\ In s (fst (dirty false l p)).
  Lemma X_self l p : hit l p = true -> X l p (lseq (latt l)).
  Proof. intros H. destruct (hit_inv canvas hasCanvas _ _ H) as (t & E & A & U). exists t. split; [exact E|]. split; [exact A|]. now apply dirty_self. Qed.
  Lemma X_down l s c q z : child l s = Some c -> X c q z -> X l (s :: q) z.
  Proof.
    intros Ec (t & E & A & H). exists t. rewrite layerAt_cons, Ec. split; [exact E|]. split; [exact A|]. rewrite dirty_cons, Ec.
    destruct (dirty false c q) as [d up]. cbn [fst] in H. destruct up; [|exact H]. cbv zeta.
    assert (H' : In z (match snd s with Some _ => match nth_error (lkids l) (fst s) with Some k => d ++ [lseq (latt k)] | None => d end | None => d end)).
    { destruct (snd s); [|exact H]. destruct (nth_error (lkids l) (fst s)); [apply in_app_iff; now left|exact H]. }
    destruct (_ || _); cbn [fst]; [exact H'|]. apply in_app_iff. now left.
  Qed.
  Lemma hit_kid l i k q : nth_error (lkids l) i = Some k -> lclipping (latt k) = false -> hit k q = true -> hit l ((i, None) :: q) = true.
  Proof.
    intros E C. assert (Ec : child l (i, None) = Some k) by (unfold child; cbn [fst snd]; now rewrite E).
    unfold PRender5.hit. rewrite layerAt_cons, dirty_cons, Ec. destruct (layerAt k q) as [t|]; [|discriminate]. destruct (dirty false k q) as [d up].
    cbn [snd]. rewrite !andb_true_iff. intros [-> ->]. split; [reflexivity|]. rewrite C. reflexivity.
  Qed.
  Lemma hit_member l i j k c q : nth_error (lkids l) i = Some k -> nth_error (lgroup k) j = Some c -> lclipping (latt k) = false -> hit c q = true ->
    hit l ((i, Some j) :: q) = true /\ X l ((i, Some j) :: q) (lseq (latt k)).
  Proof.
    intros E E2 C. assert (Ec : child l (i, Some j) = Some c) by (unfold child; cbn [fst snd]; now rewrite E).
    unfold X, PRender5.hit. rewrite layerAt_cons, dirty_cons, Ec. destruct (layerAt c q) as [t|]; [|discriminate]. destruct (dirty false c q) as [d up].
    cbn [fst snd]. rewrite !andb_true_iff, E, C. intros [A ->]. cbn [orb fst snd]. split; [now split|]. exists t. split; [reflexivity|]. split; [exact A|].
    rewrite !in_app_iff. left. right. now left.
  Qed.
  Lemma X_sibs l s q z : hit l (s :: q) = true -> In z (dirtySibs l) -> X l (s :: q) z.
  Proof.
    intros H Hz. destruct (hit_inv canvas hasCanvas _ _ H) as (t & E & A & U). exists t. split; [exact E|]. split; [exact A|]. revert U. rewrite dirty_cons.
    destruct (child l s) as [c|]; [|discriminate]. destruct (dirty false c q) as [d up]. destruct up; [|discriminate]. cbv zeta. destruct (_ || _); [discriminate|].
    intros _. cbn [fst]. rewrite !in_app_iff. tauto.
  Qed.
  Lemma at_below l s q t : layerAt l (s :: q) = Some t -> In (lseq (latt t)) (flat_map seqs (lkids l)).
  Proof.
    revert l s. induction q as [|s' q IH]; intros l s; rewrite layerAt_cons; destruct (child l s) as [c|] eqn:Ec; try discriminate; intros E;
      unfold child in Ec; destruct (nth_error (lkids l) (fst s)) as [k|] eqn:Ek; try discriminate; apply nth_error_In in Ek; apply in_flat_map; exists k; (split; [exact Ek|]).
    - injection E as <-. destruct (snd s); [apply nth_error_In in Ec; eapply seqs_member_in; [exact Ec|apply seqs_self]|injection Ec as ->; apply seqs_self].
    - apply IH in E. assert (O : In (lseq (latt t)) (seqs c)). { apply own_seqs. right. exact E. }
      destruct (snd s); [apply nth_error_In in Ec; eapply seqs_member_in; eassumption|injection Ec as ->; exact O].
  Qed.
  Lemma at_own l p t : layerAt l p = Some t -> In (lseq (latt t)) (own l).
  Proof. destruct p as [|s q]; [intros E; injection E as <-; now left|]. intros E. right. now apply at_below in E. Qed.

  Section announce.
  Variable P : Z -> bool.
  Variable s0 : Z.
  Definition P2 (s : Z) : bool := P s && negb (s =? s0).
  Lemma P2_other s : s <> s0 -> P s = P2 s.
  Proof. intros H. unfold P2. apply Z.eqb_neq in H. rewrite H. now rewrite andb_true_r. Qed.
  Lemma not_agree l : ~ In s0 (own l) -> agree P P2 l.
  Proof. intros N s Hs. apply P2_other. intros ->. auto. Qed.
  Lemma not_agreeK l : ~ In s0 (seqs l) -> agreeK P P2 l.
  Proof. intros N s Hs. apply P2_other. intros ->. auto. Qed.

  (** The children of a layer, when the announced layer is at [p] below it *)
  Definition kidOK (l : layer) (p : list step) (k : layer) : Prop :=
    (potKid canvas hasCanvas P k = true -> potKid canvas hasCanvas P2 k = true \/ kidT P2 k = true \/ hit l p = true) /\
    (kidT P k = true -> kidT P2 k = true \/ hit l p = true) /\
    (lclipping (latt k) = false -> forall b s, In s (Dk P b k) -> In s (Dk P2 b k) \/ X l p s).
  Lemma kidOK_agree l p k : agreeK P P2 k -> kidOK l p k.
  Proof.
    intros A. split; [|split].
    - intros H. left. revert H. unfold potKid. rewrite (pot_agree _ _ P P2) by now apply agreeK_own. rewrite (A (lseq (latt k))) by apply seqs_self. auto.
    - rewrite (kidT_agree _ _ P P2) by exact A. auto.
    - intros _ b s H. left. eapply Dk_agree; eassumption.
  Qed.
  Definition mainP (l : layer) (p : list step) : Prop :=
    (tnt P l = true -> tnt P2 l = true \/ hit l p = true) /\
    (pot P l = true -> pot P2 l = true \/ tnt P2 l = true \/ hit l p = true) /\
    (forall g k s, In k (lkids l) -> lclipping (latt k) = false -> In s (Dk P (bel P g l) k) -> In s (Dk P2 (bel P2 g l) k) \/ X l p s).
  Lemma level_up l p : P (lseq (latt l)) = P2 (lseq (latt l)) -> (forall k, In k (lkids l) -> kidOK l p k) ->
    (hit l p = true -> forall z, In z (dirtySibs l) -> X l p z) -> mainP l p.
  Proof.
    intros El H HX.
    assert (L : lev P l = true -> lev P2 l = true \/ hit l p = true).
    { intros T. apply existsb_exists in T. destruct T as (k & I & T). destruct (proj1 (proj2 (H k I)) T) as [Y|Y]; [left|now right]. exact (lev_in canvas hasCanvas P2 l k I Y). }
    assert (B : pot P l = true -> pot P2 l = true \/ tnt P2 l = true \/ hit l p = true).
    { rewrite !pot_eq. destruct (hasCanvas _); [now left|]. intros T. apply existsb_exists in T. destruct T as (k & I & T).
      destruct (proj1 (H k I) T) as [Y|[Y|Y]]; [left; apply existsb_exists; eauto|right; left|auto]. apply lev_tnt. exact (lev_in canvas hasCanvas P2 l k I Y). }
    split; [|split; [exact B|]].
    - rewrite tnt_eq. intros T. apply orb_true_iff in T. destruct T as [T|T].
      + apply andb_true_iff in T. destruct T as [T1 T2]. destruct (B T2) as [Y|Y]; [left|exact Y]. rewrite tnt_eq, <- El, T1, Y. reflexivity.
      + destruct (L T) as [Y|Y]; [left; now apply lev_tnt|now right].
    - intros g k s I C Hs. assert (Hs' : In s (Dk P2 (bel P g l) k) \/ X l p s) by (apply (proj2 (proj2 (H k I))); assumption).
      destruct Hs' as [Hs'|Y]; [|now right]. unfold PLate1.below in *. destruct (lev P l || g && isPT (latt l)) eqn:F.
      + destruct (lev P2 l || g && isPT (latt l)) eqn:F2; [now left|]. apply orb_false_iff in F2. destruct F2 as [F2 F3]. rewrite F3, orb_false_r in F.
        destruct (L F) as [Y|Y]; [congruence|]. apply drop_kid in Hs'. destruct Hs' as [Z|Z]; [now left|right]. apply (HX Y). eapply sibs_in; eassumption.
      + left. now apply Dk_up.
  Qed.
  (** A layer with its clipping group *)
  Lemma main_Dk l p b s : mainP l p -> (forall c, In c (lgroup l) -> agreeK P P2 c) ->
    In s (Dk P b l) -> In s (Dk P2 b l) \/ X l p s \/ (hit l p = true /\ In s (sibs l)).
  Proof.
    intros (A & _ & C) G H. rewrite in_Dk in *.
    assert (F : fl P b l = true -> fl P2 b l = true \/ hit l p = true).
    { unfold PLate1.fl. intros F. apply orb_true_iff in F. destruct F as [F|F]; [|left; rewrite F; apply orb_true_r]. apply orb_true_iff in F. destruct F as [F|F].
      - destruct (A F) as [-> |Y]; [now left|now right].
      - left. assert (E : existsb (tnt P2) (lgroup l) = true); [|rewrite E, orb_true_r; reflexivity]. rewrite <- F. symmetry. apply existsb_ext_in. intros c I.
        apply tnt_agree. apply agreeK_own. auto. }
    destruct H as [H|(c & Ic & H)].
    - rewrite in_Dset in H. destruct H as [[H ->]|(k & I & Ck & H)].
      + destruct (F H) as [Y|Y]; [left; left; apply in_Dset; now left|right; left]. now apply X_self.
      + destruct (C b k s I Ck H) as [Y|Y]; [left; left; apply in_Dset; right; eauto|auto].
    - assert (H' : In s (Dset P2 (fl P b l) c)) by (eapply Dset_agree; [exact (G c Ic)|exact H]).
      destruct (drop_member P2 _ (fl P2 b l) c s (drop P2 c) H') as [Y|(Y1 & Y2 & Y3 & Y4)]; [left; right; eauto|].
      destruct (F Y1) as [Z|Z]; [congruence|]. right. right. split; [exact Z|]. apply in_app_iff. right. apply in_flat_map. exists c. split; [exact Ic|]. now rewrite Y3.
  Qed.
  Lemma main p : forall l t, NoDup (own l) -> lwf l -> layerAt l p = Some t -> lseq (latt t) = s0 -> mainP l p.
  Proof.
    induction p as [|s q IH]; intros l t HN W E Et.
    - injection E as <-.
      assert (K : forall k, In k (lkids l) -> agreeK P P2 k).
      { intros k I. apply not_agreeK. intros Hs. rewrite <- Et in Hs. apply NoDup_cons_iff in HN. apply (proj1 HN). apply in_flat_map. eauto. }
      assert (Ep : pot P l = pot P2 l).
      { rewrite !pot_eq. destruct (hasCanvas _); [reflexivity|]. apply existsb_ext_in. intros k I. unfold potKid. rewrite (pot_agree _ _ P P2) by (apply agreeK_own; auto).
        rewrite (K k I (lseq (latt k))) by apply seqs_self. reflexivity. }
      assert (El : lev P l = lev P2 l). { apply existsb_ext_in. intros k I. apply kidT_agree. auto. }
      split; [|split].
      + rewrite !tnt_eq. intros T. apply orb_true_iff in T. destruct T as [T|T]; [|left; rewrite <- El, T; apply orb_true_r].
        apply andb_true_iff in T. destruct T as [_ T]. rewrite Ep in T. destruct (pot_area _ _ T) as [Y|Y]; [right|left; rewrite Y; apply orb_true_r].
        unfold PRender5.hit. cbn [layerAt dirty snd]. now rewrite Y.
      + rewrite Ep. auto.
      + intros g k z I C H. left. unfold PLate1.below in *. rewrite <- El. eapply Dk_agree; [apply K, I|exact H].
    - pose proof (at_below _ _ _ _ E) as Hb. rewrite Et in Hb. pose proof HN as HN0. apply NoDup_cons_iff in HN0. destruct HN0 as [N1 N2].
      rewrite layerAt_cons in E. destruct (child l s) as [c|] eqn:Ec; [|discriminate]. destruct s as [i o].
      pose proof Ec as Ec'. unfold child in Ec. cbn [fst snd] in Ec. destruct (nth_error (lkids l) i) as [k|] eqn:Ek; [|discriminate]. pose proof (nth_error_In _ _ Ek) as I.
      pose proof (lwf_in_kids _ _ _ _ W I) as Wk. pose proof (NoDup_kid _ _ HN I) as HNk.
      apply level_up; [apply P2_other; intros Q; apply N1; rewrite Q; exact Hb| |intros Hh z Hz; now apply X_sibs].
      intros k' I'. destruct (in_dec Z.eq_dec s0 (seqs k')) as [Q|Q]; [|apply kidOK_agree; now apply not_agreeK].
      assert (Q0 : In s0 (seqs k)).
      { rewrite <- Et. pose proof (at_own _ _ _ E) as O. destruct o as [j|]; [apply nth_error_In in Ec; eapply seqs_member_in; [exact Ec|now apply own_seqs]|].
        injection Ec as ->. now apply own_seqs. }
      assert (k' = k) as -> by (eapply flat_map_once; eassumption). clear I' Q. destruct o as [j|].
      + pose proof (nth_error_In _ _ Ec) as Ic. pose proof (lwf_in_group _ _ _ _ Wk Ic) as Wc. pose proof (lwf_group_nil _ _ _ _ Wk Ic) as Nc.
        pose proof (NoDup_member _ _ HNk Ic) as HNc. pose proof (IH c t (NoDup_own _ HNc) Wc E Et) as M.
        assert (Oc : In s0 (seqs c)). { rewrite <- Et. apply own_seqs. exact (at_own _ _ _ E). }
        rewrite seqs_own in HNk. assert (Ak : agree P P2 k).
        { apply not_agree. intros Z. apply (NoDup_app_disj _ _ s0 HNk Z). apply in_flat_map. eauto. }
        pose proof (NoDup_app_r _ _ HNk) as HNg.
        assert (Other : forall c', In c' (lgroup k) -> c' = c \/ agreeK P P2 c').
        { intros c' I'. destruct (in_dec Z.eq_dec s0 (seqs c')) as [Z|Z]; [left; eapply flat_map_once; eassumption|right; now apply not_agreeK]. }
        assert (Gr : existsb (tnt P) (lgroup k) = true -> existsb (tnt P2) (lgroup k) = true \/ hit c q = true).
        { intros T. apply existsb_exists in T. destruct T as (c' & I' & T). destruct (Other c' I') as [-> |A].
          - destruct (proj1 M T) as [Y|Y]; [left; apply existsb_exists; eauto|now right].
          - left. apply existsb_exists. exists c'. split; [exact I'|]. rewrite <- T. symmetry. apply tnt_agree. now apply agreeK_own. }
        split; [|split].
        * intros H. left. revert H. unfold potKid. rewrite (pot_agree _ _ P P2) by exact Ak. rewrite (Ak (lseq (latt k))) by now left. auto.
        * unfold PLate1.kidT. rewrite !andb_true_iff, !orb_true_iff. rewrite (tnt_agree _ _ P P2 k Ak). intros [C [T|T]]; [tauto|].
          destruct (Gr T) as [Y|Y]; [tauto|right]. apply negb_true_iff in C. exact (proj1 (hit_member _ _ _ _ _ _ Ek Ec C Y)).
        * intros C b z H.
          assert (F : fl P b k = true -> fl P2 b k = true \/ hit c q = true).
          { unfold PLate1.fl. rewrite (tnt_agree _ _ P P2 k Ak). rewrite !orb_true_iff. intros [[T|T]|T]; [tauto| |tauto]. destruct (Gr T); tauto. }
          assert (Sb : forall c' y, In c' (lgroup k) -> isPT (latt c') = true -> In y (dirtyPT c') -> hit c q = true -> X l ((i, Some j) :: q) y).
          { intros c' y I' Pt Hy Hh. destruct (hit_member _ _ _ _ _ _ Ek Ec C Hh) as [Hl _]. apply (X_sibs _ _ _ _ Hl). apply (sibs_in l k _ I).
            apply in_app_iff. right. apply in_flat_map. exists c'. split; [exact I'|]. now rewrite Pt. }
          rewrite in_Dk in *. destruct H as [H|(c' & I' & H)].
          -- rewrite in_Dset in H. destruct H as [[H ->]|(kk & Ikk & Ckk & H)].
             ++ destruct (F H) as [Y|Y]; [left; left; apply in_Dset; now left|right]. exact (proj2 (hit_member _ _ _ _ _ _ Ek Ec C Y)).
             ++ left. left. apply in_Dset. right. exists kk. split; [exact Ikk|]. split; [exact Ckk|]. unfold PLate1.below in *. rewrite <- (lev_agree _ _ P P2) by exact Ak.
                eapply Dk_agree; [|exact H]. eapply agree_kidK; eassumption.
          -- assert (H' : In z (Dset P2 (fl P b k) c') \/ X l ((i, Some j) :: q) z).
             { destruct (Other c' I') as [-> |A]; [|left; eapply Dset_agree; eassumption].
               assert (Hd : In z (Dk P (fl P b k) c)) by (apply in_Dk; now left).
               destruct (main_Dk c q _ z M ltac:(rewrite Nc; intros ? []) Hd) as [Y|[Y|[Y1 Y2]]].
               - left. apply in_Dk in Y. destruct Y as [Y|(d & Id & _)]; [exact Y|]. rewrite Nc in Id. destruct Id.
               - right. eapply X_down; eassumption.
               - right. unfold sibs in Y2. rewrite Nc in Y2. cbn [flat_map] in Y2. rewrite app_nil_r in Y2. destruct (isPT (latt c)) eqn:Pt; [|destruct Y2].
                 exact (Sb c z Ic Pt Y2 Y1). }
             destruct H' as [H'|H']; [|now right].
             destruct (drop_member P2 _ (fl P2 b k) c' z (drop P2 c') H') as [Y|(Y1 & Y2 & Y3 & Y4)]; [left; right; eauto|].
             destruct (F Y1) as [Z|Z]; [congruence|right]. exact (Sb c' z I' Y3 Y4 Z).
      + injection Ec as ->. rename c into k. pose proof (IH k t (NoDup_own _ HNk) Wk E Et) as M.
        pose proof (at_own _ _ _ E) as Ok. rewrite Et in Ok. pose proof HNk as HNk'. rewrite seqs_own in HNk'.
        assert (Ag : forall c, In c (lgroup k) -> agreeK P P2 c).
        { intros c Ic. apply not_agreeK. intros Z. apply (NoDup_app_disj _ _ s0 HNk' Ok). apply in_flat_map. eauto. }
        assert (Gr : existsb (tnt P) (lgroup k) = existsb (tnt P2) (lgroup k)).
        { apply existsb_ext_in. intros c Ic. apply tnt_agree. apply agreeK_own. auto. }
        destruct (lclipping (latt k)) eqn:C.
        { split; [|split]; [unfold potKid; rewrite C; discriminate|unfold PLate1.kidT; rewrite C; discriminate|congruence]. }
        pose proof (hit_kid _ _ _ q Ek C) as Hl.
        assert (T2 : tnt P2 k = true -> kidT P2 k = true) by (apply kidT_tnt; exact C).
        split; [|split].
        * unfold potKid. rewrite !andb_true_iff. intros [[_ H] Hp]. destruct (proj1 (proj2 M) Hp) as [Y|[Y|Y]]; [|right; left; auto|auto].
          rewrite C, Y. destruct (alive (latt k) || P2 (lseq (latt k))) eqn:O; [left; auto|]. right. apply orb_false_iff in O. destruct O as [O1 O2]. rewrite O1 in H. cbn [orb] in H.
          destruct (Z.eq_dec (lseq (latt k)) s0) as [Es|Es]; [|rewrite (P2_other _ Es) in H; congruence].
          destruct (pot_area _ _ Y) as [A|A]; [right|left; apply T2; now apply lev_tnt]. apply Hl. destruct q as [|s' q].
          -- unfold PRender5.hit. cbn [layerAt dirty snd]. now rewrite A.
          -- exfalso. apply at_below in E. rewrite Et, <- Es in E. apply NoDup_own in HNk. apply NoDup_cons_iff in HNk. tauto.
        * unfold PLate1.kidT in *. rewrite C in *. cbn [negb andb] in *. rewrite <- Gr, !orb_true_iff in *. intros [T|T]; [|tauto]. destruct (proj1 M T); tauto.
        * intros _ b z H. destruct (main_Dk k q b z M Ag H) as [Y|[Y|[Y1 Y2]]]; [now left|right; eapply X_down; eassumption|right].
          apply (X_sibs _ _ _ _ (Hl Y1)). eapply sibs_in; eassumption.
  Qed.

  (** * The entries that are left *)
  Section left.
  Variables st st2 : tstate.
  Hypothesis less : forall s, ent st2 s = ent st s \/ ent st2 s = None.
  Lemma lessA S : fewer S st st2. Proof. intros s _. apply less. Qed.
  Lemma J_agree2 l : agreeK P P2 l -> J P st l -> J P2 st2 l.
  Proof. intros A H. apply (J_fewer canvas hasCanvas P2 l st st2 (lessA _)). now apply (J_agree P). Qed.
  Lemma J_entry l p : mainP l p -> (forall s, X l p s -> ent st2 s = None) ->
    (forall x, ent st (lseq (latt l)) = Some (Some x) -> pot P l || tnt P l = true) ->
    forall x, ent st2 (lseq (latt l)) = Some (Some x) -> pot P2 l || tnt P2 l = true.
  Proof.
    intros (A & B & _) G H x Hx. destruct (less (lseq (latt l))) as [E|E]; [|congruence]. pose proof Hx as Hx0. rewrite E in Hx. apply H in Hx. apply orb_true_iff. apply orb_true_iff in Hx.
    assert (N : hit l p = true -> False). { intros Hh. apply X_self in Hh. apply G in Hh. congruence. }
    destruct Hx as [Hx|Hx]; [destruct (B Hx) as [?|[?|?]]|destruct (A Hx)]; tauto.
  Qed.
  Lemma J_kids p : forall l t, NoDup (own l) -> lwf l -> layerAt l p = Some t -> lseq (latt t) = s0 -> (forall s, X l p s -> ent st2 s = None) ->
    JKs P st (lkids l) -> JKs P2 st2 (lkids l).
  Proof.
    assert (Build : forall k q t, NoDup (seqs k) -> lwf k -> layerAt k q = Some t -> lseq (latt t) = s0 -> (forall s, X k q s -> ent st2 s = None) ->
      (JKs P st (lkids k) -> JKs P2 st2 (lkids k)) -> J P st k -> J P2 st2 k).
    { intros k q t HNk Wk E Et G HK HJ. inversion HJ as [l0 H1 H2 H3 H4]; subst l0.
      assert (K : JKs P2 st2 (lkids k)). { apply HK. intros k' I'. split; [apply H2|apply H3]; exact I'. }
      pose proof (at_own _ _ _ E) as Ok. rewrite Et in Ok. pose proof HNk as HNk'. rewrite seqs_own in HNk'. constructor.
      - apply (J_entry k q (main q k t (NoDup_own _ HNk) Wk E Et) G H1).
      - intros k' I'. apply (K k' I').
      - intros k' I'. apply (K k' I').
      - intros c Ic. apply J_agree2; [|auto]. apply not_agreeK. intros Z. apply (NoDup_app_disj _ _ s0 HNk' Ok). apply in_flat_map. eauto. }
    induction p as [|s q IH]; intros l t HN W E Et G HJ k' I'.
    - assert (A : agreeK P P2 k').
      { apply not_agreeK. injection E as <-. intros Hs. rewrite <- Et in Hs. apply NoDup_cons_iff in HN. apply (proj1 HN). apply in_flat_map. eauto. }
      destruct (HJ k' I') as [J1 J2]. split; intros C; [eapply absent_fewer; [apply lessA|auto]|apply J_agree2; auto].
    - destruct (HJ k' I') as [J1 J2]. split; intros C; [eapply absent_fewer; [apply lessA|auto]|]. specialize (J2 C).
      destruct (in_dec Z.eq_dec s0 (seqs k')) as [Q|Q]; [|apply J_agree2; [now apply not_agreeK|exact J2]].
      pose proof HN as HN0. apply NoDup_cons_iff in HN0. destruct HN0 as [N1 N2].
      rewrite layerAt_cons in E. destruct (child l s) as [c|] eqn:Ec; [|discriminate]. destruct s as [i o].
      pose proof Ec as Ec'. unfold child in Ec. cbn [fst snd] in Ec. destruct (nth_error (lkids l) i) as [k|] eqn:Ek; [|discriminate]. pose proof (nth_error_In _ _ Ek) as I.
      pose proof (lwf_in_kids _ _ _ _ W I) as Wk. pose proof (NoDup_kid _ _ HN I) as HNk.
      assert (Q0 : In s0 (seqs k)).
      { rewrite <- Et. pose proof (at_own _ _ _ E) as O. destruct o as [j|]; [apply nth_error_In in Ec; eapply seqs_member_in; [exact Ec|now apply own_seqs]|].
        injection Ec as ->. now apply own_seqs. }
      assert (k' = k) as -> by (eapply flat_map_once; eassumption). clear I' Q. destruct o as [j|].
      + pose proof (nth_error_In _ _ Ec) as Ic. pose proof (lwf_in_group _ _ _ _ Wk Ic) as Wc.
        pose proof (NoDup_member _ _ HNk Ic) as HNc.
        assert (Oc : In s0 (seqs c)). { rewrite <- Et. apply own_seqs. exact (at_own _ _ _ E). }
        rewrite seqs_own in HNk. assert (Ak : agree P P2 k).
        { apply not_agree. intros Z. apply (NoDup_app_disj _ _ s0 HNk Z). apply in_flat_map. eauto. }
        pose proof (NoDup_app_r _ _ HNk) as HNg. inversion J2 as [l0 H1 H2 H3 H4]; subst l0. constructor.
        * intros x Hx. destruct (less (lseq (latt k))) as [Ex|Ex]; [|congruence]. rewrite Ex in Hx.
          rewrite <- (pot_agree _ _ P P2), <- (tnt_agree _ _ P P2) by exact Ak. eauto.
        * intros kk Ikk Ckk. eapply absent_fewer; [apply lessA|auto].
        * intros kk Ikk Ckk. apply J_agree2; [|auto]. eapply agree_kidK; eassumption.
        * intros c' I'. destruct (in_dec Z.eq_dec s0 (seqs c')) as [Z|Z]; [|apply J_agree2; [now apply not_agreeK|auto]].
          assert (c' = c) as -> by (eapply flat_map_once; eassumption). assert (Gc : forall z, X c q z -> ent st2 z = None).
          { intros z Hz. apply G. eapply X_down; eassumption. }
          apply (Build c q t HNc Wc E Et Gc); [|auto]. exact (IH c t (NoDup_own _ HNc) Wc E Et Gc).
      + injection Ec as ->. rename c into k. assert (Gc : forall z, X k q z -> ent st2 z = None). { intros z Hz. apply G. eapply X_down; eassumption. }
        apply (Build k q t HNk Wk E Et Gc); [|exact J2]. exact (IH k t (NoDup_own _ HNk) Wk E Et Gc).
  Qed.
  End left.

  Lemma announce_late' root p t st : lwf root -> NoDup (own root) -> layerAt root p = Some t -> lseq (latt t) = s0 -> late P root st ->
    late P2 root (setDirty canvas hasCanvas false root p st).
  Proof.
    intros W HN E Et [HI HJ]. set (st2 := setDirty canvas hasCanvas false root p st).
    assert (F : forall s, ent st2 s = if inArea t && existsb (Z.eqb s) (fst (dirty false root p)) then None else ent st s).
    { intros s. unfold st2, setDirty. rewrite E. destruct (inArea t); [|reflexivity]. cbn [tent]. rewrite m_get_dels. reflexivity. }
    assert (F1 : forall s, ent st2 s = ent st s \/ ent st2 s = None). { intros s. rewrite F. destruct (_ && _); auto. }
    assert (F2 : forall s, X root p s -> ent st2 s = None).
    { intros s (t' & E' & A & Hs). rewrite F. rewrite E in E'. injection E' as <-. rewrite A. apply existsb_In in Hs. now rewrite Hs. }
    pose proof (main p root t HN W E Et) as M. destruct M as (A & _ & C).
    assert (DD : forall s, In s (Droot P root) -> In s (Droot P2 root) \/ X root p s).
    { intros s. rewrite !in_Droot. intros [[T ->]|(k & I & Ck & H)].
      - destruct (A T) as [Y|Y]; [left; now left|right]. now apply X_self.
      - destruct (C false k s I Ck) as [Y|Y]; [unfold PLate1.below; now rewrite orb_false_r| |now right].
        left. right. exists k. unfold PLate1.below in Y. cbn [andb] in Y. rewrite orb_false_r in Y. auto. }
    split; [|exact (J_kids st st2 F1 p root t HN W E Et F2 HJ)].
    assert (L : forall s, ent (clean (Droot P2 root) st2) s = ent (clean (Droot P root) st) s \/ ent (clean (Droot P2 root) st2) s = None).
    { intros s. destruct (in_dec Z.eq_dec s (Droot P2 root)) as [Y|Y]; [right; now apply clean_in|]. rewrite (clean_out (Droot P2 root)) by exact Y.
      destruct (in_dec Z.eq_dec s (Droot P root)) as [Q|Q].
      - right. destruct (DD s Q) as [?|Q2]; [tauto|auto].
      - rewrite clean_out by exact Q. apply F1. }
    destruct HI as [I1 I2]. split.
    - destruct (L (lseq (latt root))) as [-> | ->]; [exact I1|exact I].
    - revert I2. apply invKs_fewer; [apply all_keep|]. intros s _. apply L.
  Qed.
  End announce.
  Lemma announce_late P root p t st : lwf root -> NoDup (own root) -> layerAt root p = Some t -> late P root st ->
    late (fun s => P s && negb (s =? lseq (latt t))) root (setDirty canvas hasCanvas false root p st).
  Proof. intros W HN E H. exact (announce_late' P (lseq (latt t)) root p t st W HN E eq_refl H). Qed.
End render.
