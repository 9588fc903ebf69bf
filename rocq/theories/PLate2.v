(** Changes of layers that are announced late: rendering while changes are pending. *)
From Verif Require Import Base BaseFacts MRender SRender PRender PRender2 PRender3 PRender4 PLate1.

Section render.
  Context {img msk : Type}.
  Variable zero : img.
  Variable copyT : img -> img.
  Variable blendOf : bytes -> option (Z -> img -> img -> img).
  Variable destInM destOutM : msk -> img -> img.
  Variable destInT destOverT : img -> img -> img.
  Variable clearT removeAlpha : img -> img.
  Variable canvas : Z -> option img.
  Variable hasCanvas : Z -> bool.
  Variable mask : Z -> option msk.
  Variable canvas_nil : forall s, hasCanvas s = false -> canvas s = None.

  Notation tstate := (tstate img).
  Notation startBuf := (startBuf zero copyT).
  Notation inArea := (inArea canvas hasCanvas).
  Notation drawLayer := (drawLayer zero copyT blendOf destInM destOutM destInT destOverT clearT removeAlpha canvas mask).
  Notation drawTop := (drawTop zero copyT blendOf destInM destOutM destInT destOverT clearT removeAlpha canvas mask).
  Notation updateTile := (updateTile zero copyT blendOf destInM destOutM destInT destOverT clearT removeAlpha canvas mask).
  Notation renderTile := (renderTile zero copyT blendOf destInM destOutM destInT destOverT clearT removeAlpha canvas mask).
  Notation clips := (clips zero copyT blendOf destInM destOutM destInT destOverT clearT removeAlpha canvas mask).
  Notation draws := (draws zero copyT blendOf destInM destOutM destInT destOverT clearT removeAlpha canvas mask).
  Notation finish := (finish zero copyT blendOf destInM destOutM destInT destOverT clearT removeAlpha canvas mask).
  Notation body := (body zero copyT blendOf destInM destOutM destInT destOverT clearT removeAlpha canvas mask).
  Notation pre := (pre zero copyT blendOf destInM destOutM destInT destOverT clearT removeAlpha canvas mask).
  Notation kidP := (kidP zero copyT blendOf destInM destOutM destInT destOverT clearT removeAlpha canvas mask).
  Notation drawsP := (drawsP zero copyT blendOf destInM destOutM destInT destOverT clearT removeAlpha canvas mask).
  Notation clipP := (clipP zero copyT blendOf destInM destOutM destInT destOverT clearT removeAlpha canvas mask).
  Notation clipsP := (clipsP zero copyT blendOf destInM destOutM destInT destOverT clearT removeAlpha canvas mask).
  Notation grp := (grp zero copyT blendOf destInM destOutM destInT destOverT clearT removeAlpha canvas mask).
  Notation stable := (stable zero copyT blendOf destInM destOutM destInT destOverT clearT removeAlpha canvas mask).
  Notation stableKs := (stableKs zero copyT blendOf destInM destOutM destInT destOverT clearT removeAlpha canvas mask).
  Notation stableCs := (stableCs zero copyT blendOf destInM destOutM destInT destOverT clearT removeAlpha canvas mask).
  Notation stableRoot := (stableRoot zero copyT blendOf destInM destOutM destInT destOverT clearT removeAlpha canvas mask).
  Notation inv := (inv zero copyT blendOf destInM destOutM destInT destOverT clearT removeAlpha canvas hasCanvas mask).
  Notation kidInv := (kidInv zero copyT blendOf destInM destOutM destInT destOverT clearT removeAlpha canvas hasCanvas mask).
  Notation invKs := (invKs zero copyT blendOf destInM destOutM destInT destOverT clearT removeAlpha canvas hasCanvas mask).
  Notation invCs := (invCs zero copyT blendOf destInM destOutM destInT destOverT clearT removeAlpha canvas hasCanvas mask).
  Notation invDs := (invDs zero copyT blendOf destInM destOutM destInT destOverT clearT removeAlpha canvas hasCanvas mask).
  Notation invNs := (invNs zero copyT blendOf destInM destOutM destInT destOverT clearT removeAlpha canvas hasCanvas mask).
  Notation entryOK := (entryOK zero copyT blendOf destInM destOutM destInT destOverT clearT removeAlpha canvas hasCanvas mask).
  Notation kidsOK := (kidsOK zero copyT blendOf destInM destOutM destInT destOverT clearT removeAlpha canvas hasCanvas mask).
  Notation groupOK := (groupOK zero copyT blendOf destInM destOutM destInT destOverT clearT removeAlpha canvas hasCanvas mask).
  Notation invRoot := (invRoot zero copyT blendOf destInM destOutM destInT destOverT clearT removeAlpha canvas hasCanvas mask).
  Notation someInv := (someInv zero copyT blendOf destInM destOutM destInT destOverT clearT removeAlpha canvas hasCanvas mask).
  Notation someKid := (someKid zero copyT blendOf destInM destOutM destInT destOverT clearT removeAlpha canvas hasCanvas mask).
  Notation allInv := (allInv zero copyT blendOf destInM destOutM destInT destOverT clearT removeAlpha canvas hasCanvas mask).
  Notation allKid := (allKid zero copyT blendOf destInM destOutM destInT destOverT clearT removeAlpha canvas hasCanvas mask).
  Notation maskT := (maskT destInM destOutM destOverT clearT mask).
  Notation putTile := (putTile copyT blendOf).
  Notation putT := (putT copyT blendOf).
  Notation dr1 := (dr1 copyT blendOf).
  Notation modeOK := (modeOK blendOf).
  Notation lwf := (lwf blendOf hasCanvas).
  Notation ent st s := (m_get Z.eqb (tent st) s).
  Notation pot := (pot canvas hasCanvas).
  Notation tnt := (tnt canvas hasCanvas).
  Notation lev := (lev canvas hasCanvas).
  Notation fl := (fl canvas hasCanvas).
  Notation below := (below canvas hasCanvas).
  Notation HD := (HD canvas hasCanvas).
  Notation Droot := (Droot canvas hasCanvas).

  (** The buffers of all layers that are not pass-through survive being stored, whatever is
      drawn below them *)
  Definition firmB (l : layer) : Prop := forall p t b op, layerAt l p = Some t -> isPT (latt t) = false -> stable t b op.
  Definition firmK (l : layer) : Prop := firmB l /\ forall c, In c (lgroup l) -> firmB c.
  Lemma firm_kid l k : firmB l -> In k (lkids l) -> firmK k.
  Proof.
    intros H I. apply In_nth_error in I. destruct I as [i E]. split.
    - intros p t b op L. apply (H ((i, None) :: p)). rewrite layerAt_cons. unfold child. cbn [fst snd]. now rewrite E.
    - intros c Ic. apply In_nth_error in Ic. destruct Ic as [j Ec]. intros p t b op L. apply (H ((i, Some j) :: p)). rewrite layerAt_cons. unfold child. cbn [fst snd]. now rewrite E, Ec.
  Qed.

  Section one.
  Variable P : Z -> bool.
  Variable D : list Z.
  (** The state without the entries in doubt *)
  Definition clean (st : tstate) : tstate := Tst (fold_left (m_del Z.eqb) D (tent st)) (tlog st).
  Lemma ent_clean st s : ent (clean st) s = if existsb (Z.eqb s) D then None else ent st s.
  Proof. unfold clean. cbn [tent]. apply m_get_dels. Qed.
  Lemma clean_in st s : In s D -> ent (clean st) s = None.
  Proof. intros H. rewrite ent_clean. apply existsb_In in H. now rewrite H. Qed.
  Lemma clean_out st s : ~ In s D -> ent (clean st) s = ent st s.
  Proof. intros H. rewrite ent_clean. destruct (existsb _ _) eqn:E; [|reflexivity]. apply existsb_In in E. contradiction. Qed.
  Lemma clean_same S st st' : (forall s, In s S -> ent st' s = ent st s) -> fewer S (clean st) (clean st').
  Proof. intros H s Hs. left. rewrite !ent_clean, H by exact Hs. reflexivity. Qed.

  (** An image is cached only for layers that are or were in the area; layers that are
      never drawn have no entries *)
  Inductive J (st : tstate) : layer -> Prop :=
  | JI l : (forall x, ent st (lseq (latt l)) = Some (Some x) -> pot P l || tnt P l = true) ->
      (forall k, In k (lkids l) -> lclipping (latt k) = true -> absent k st) ->
      (forall k, In k (lkids l) -> lclipping (latt k) = false -> J st k) ->
      (forall c, In c (lgroup l) -> J st c) -> J st l.
  Lemma J_fewer l : forall st st', fewer (seqs l) st st' -> J st l -> J st' l.
  Proof.
    induction l as [l Ik Ic] using layer_both. intros st st' F H. inversion H as [l0 H1 H2 H3 H4]; subst l0. constructor.
    - intros x. destruct (F _ (seqs_self l)) as [-> | ->]; [apply H1|discriminate].
    - intros k I E. apply (absent_fewer k st); [|auto]. eapply fewer_incl; [|exact F]. intros s Hs. apply own_seqs. eapply seqs_kid_in; eassumption.
    - intros k I E. apply (Ik k I st); [|auto]. eapply fewer_incl; [|exact F]. intros s Hs. apply own_seqs. eapply seqs_kid_in; eassumption.
    - intros c I. apply (Ic c I st); [|auto]. eapply fewer_incl; [|exact F]. intros s Hs. eapply seqs_member_in; eassumption.
  Qed.
  Definition JKs (st : tstate) (ks : list layer) : Prop :=
    forall k, In k ks -> (lclipping (latt k) = true -> absent k st) /\ (lclipping (latt k) = false -> J st k).
  Lemma JKs_fewer ks st st' : fewer (flat_map seqs ks) st st' -> JKs st ks -> JKs st' ks.
  Proof.
    intros F H k I. destruct (H k I) as [H1 H2]. assert (F' : fewer (seqs k) st st').
    { eapply fewer_incl; [|exact F]. intros s Hs. apply in_flat_map. eauto. }
    split; intros E; [eapply absent_fewer; eauto|eapply J_fewer; eauto].
  Qed.
  Lemma JCs_fewer cs st st' : fewer (flat_map seqs cs) st st' -> (forall c, In c cs -> J st c) -> forall c, In c cs -> J st' c.
  Proof. intros F H c I. apply (J_fewer c st); [|auto]. eapply fewer_incl; [|exact F]. intros s Hs. apply in_flat_map. eauto. Qed.

  (** * Where the backdrop may be wrong the caches do not depend on it *)
  Lemma recon l : forall st, lwf l -> NoDup (seqs l) -> HD P D true l -> someInv l (clean st) -> allInv l (clean st).
  Proof.
    induction l as [l Ik Ic] using layer_both. intros st W N H [c0 HI]. destruct (isPT (latt l)) eqn:E.
    - assert (F : fl P true l = true) by (unfold PLate1.fl; rewrite E; apply orb_true_r).
      assert (B : below P true l = true) by (unfold PLate1.below; rewrite E; apply orb_true_r).
      rewrite inv_eq in HI. destruct HI as (_ & H2 & H3). intros c. rewrite inv_eq. split; [|split].
      + right. rewrite clean_in; [exact I|]. now apply (HD_self canvas hasCanvas P D true l N H).
      + apply kidsOK_all. apply kidsOK_some in H2. rewrite Forall_forall in *. intros k Ikk d. specialize (H2 k Ikk).
        unfold PRender3.someKid, PRender2.kidInv in *. destruct (lclipping (latt k)) eqn:Ec; [exact H2|].
        apply (Ik k Ikk); [eapply lwf_in_kids; eassumption|eapply NoDup_kid; [apply NoDup_own; exact N|exact Ikk]| |exact H2].
        rewrite <- B. now apply HD_kid.
      + apply groupOK_all. apply groupOK_some in H3. rewrite Forall_forall in *. intros k Ikk.
        apply (Ic k Ikk); [eapply lwf_in_group; eassumption|eapply NoDup_member; eassumption| |now apply H3].
        rewrite <- F. apply HD_member; auto. eapply lwf_group_nil; eassumption.
    - intros c. revert HI. now apply inv_nonPT.
  Qed.
  Lemma recon_kid k st : lwf k -> NoDup (seqs k) -> (lclipping (latt k) = false -> HD P D true k) -> someKid k (clean st) -> allKid k (clean st).
  Proof.
    intros W N H HI c. unfold PRender3.someKid, PRender2.kidInv in *. destruct (lclipping (latt k)); [exact HI|]. now apply recon; auto.
  Qed.

  (** * Drawing one layer *)
  Definition Lspec (l : layer) : Prop := forall g st b op force, lwf l -> NoDup (seqs l) -> HD P D g l -> J st l -> firmK l ->
    (isPT (latt l) = true -> g = true \/ stable l b op) -> inv (Some (b, op)) l (clean st) -> (lclipping (latt l) = true -> force = true) ->
    exists st' b' dr, drawLayer st b l op force = Some (st', b', dr) /\
      (fl P g l = false -> b' = fst (dr1 (latt l) (body l b op) b op) /\ isDrew dr = snd (dr1 (latt l) (body l b op) b op)) /\
      (isDrew dr = true -> pot P l || tnt P l = true /\ negb (lvis (latt l)) || (op =? 0) = false) /\
      inv (Some (b, op)) l (clean st') /\ J st' l /\ (forall s, ~ In s (seqs l) -> ent st' s = ent st s).

  Definition drawn (ks : list layer) : Prop :=
    exists k, In k ks /\ lclipping (latt k) = false /\ alive (latt k) = true /\ pot P k || tnt P k = true.
  Lemma drawn_cons k ks : drawn ks -> drawn (k :: ks).
  Proof. intros (x & I & H). exists x. split; [now right|exact H]. Qed.
  Lemma drawn_here f k ks op : sees0 f -> op = f (lopa (latt k)) -> lclipping (latt k) = false ->
    pot P k || tnt P k = true /\ negb (lvis (latt k)) || (op =? 0) = false -> drawn (k :: ks).
  Proof.
    intros Hf -> E [H1 H2]. exists k. split; [now left|]. split; [exact E|]. split; [|exact H1]. unfold alive.
    apply orb_false_iff in H2. destruct H2 as [H2 H3]. apply negb_false_iff in H2. rewrite H2. cbn [andb].
    destruct (lopa (latt k) =? 0) eqn:E0; [|reflexivity]. apply Z.eqb_eq in E0. rewrite E0, Hf in H3. discriminate.
  Qed.
  Lemma defer st buf k op : lclipping (latt k) = true -> exists dr, drawLayer st buf k op false = Some (st, buf, dr) /\ isDrew dr = false.
  Proof. destruct k as [a ks0 cs0]. intros Ec. rewrite drawLayer_eq. cbn [latt] in *. rewrite Ec. cbn [negb andb]. destruct (negb (lvis a) || _); eauto. Qed.

  Section loops.
  Variable f : Z -> Z.
  Hypothesis Hf : sees0 f.
  Variable F : list layer -> tstate -> img -> bool -> option (tstate * img * bool).
  Hypothesis F0 : forall st buf drew, F [] st buf drew = Some (st, buf, drew).
  Hypothesis F1 : forall k ks st buf drew, F (k :: ks) st buf drew =
       match drawLayer st buf k (f (lopa (latt k))) false with Some (st, buf, dr) => F ks st buf (drew || isDrew dr) | None => None end.
  Lemma draws_right ks : Forall Lspec ks -> Forall lwf ks -> NoDup (flat_map seqs ks) ->
    (forall k, In k ks -> firmK k /\ (lclipping (latt k) = false -> HD P D false k /\ fl P false k = false)) ->
    forall st buf drew, JKs st ks -> invKs f ks buf (clean st) -> stableKs f ks buf ->
    exists st', F ks st buf drew = Some (st', fst (drawsP f ks buf drew), snd (drawsP f ks buf drew)) /\
      (snd (drawsP f ks buf drew) = true -> drew = true \/ drawn ks) /\
      invKs f ks buf (clean st') /\ JKs st' ks /\ (forall s, ~ In s (flat_map seqs ks) -> ent st' s = ent st s).
  Proof.
    intros HR HW HN HH. induction HR as [|k ks Hk HR IH]; intros st buf drew HJ HI HS.
    - exists st. rewrite F0. cbn. split; [reflexivity|]. auto.
    - inversion HW as [|? ? Wk Wks]; subst. cbn [flat_map] in HN. cbn [PRender2.invKs SRender.stableKs SRender.drawsP] in *. destruct HI as [I1 I2]. destruct HS as [S1 S2].
      assert (HH' : forall k, In k ks -> firmK k /\ (lclipping (latt k) = false -> HD P D false k /\ fl P false k = false)) by (intros x Hx; apply HH; now right).
      destruct (HH k (or_introl eq_refl)) as [Fk Hk'].
      destruct (HJ k (or_introl eq_refl)) as [J1 J2].
      assert (HJ' : JKs st ks) by (intros x Hx; apply HJ; now right).
      rewrite F1. unfold PRender2.kidInv in I1. unfold SRender.kidP in *. cbn zeta in *. destruct (lclipping (latt k)) eqn:Ec.
      + destruct (defer st buf k (f (lopa (latt k))) Ec) as (dr & E & Ed). rewrite E, Ed. cbn [fst snd] in *.
        destruct (IH Wks (NoDup_app_r _ _ HN) HH' st buf (drew || false) HJ' I2 S2) as (st' & E' & Q & J' & JK & Fr).
        assert (Sk : forall s, In s (seqs k) -> ent st' s = ent st s) by (intros s Hs; apply Fr; intros I; exact (NoDup_app_disj _ _ s HN Hs I)).
        exists st'. split; [exact E'|]. split; [|split; [|split]].
        * intros X. destruct (Q X) as [Y|Y]; [rewrite orb_false_r in Y; auto|right; now apply drawn_cons].
        * split; [|exact J']. unfold PRender2.kidInv. rewrite Ec. revert I1. apply absent_fewer. now apply clean_same.
        * intros x [<-|Hx]; [|now apply JK]. rewrite Ec. split; [|discriminate]. intros _. apply (absent_fewer k st); [|now apply J1]. now apply fewer_same.
        * intros s Hs. apply Fr. intros I. apply Hs. apply in_app_iff. auto.
      + destruct (Hk' eq_refl) as [Hd Hfl].
        destruct (Hk false st buf (f (lopa (latt k))) false Wk (NoDup_app_l _ _ HN) Hd (J2 eq_refl) Fk) as (st1 & b1 & dr & E & X & Y & J1' & JK1 & Fr1); [auto|exact I1|congruence|].
        destruct (X Hfl) as [-> Ed]. rewrite E, Ed.
        assert (Sks : forall s, In s (flat_map seqs ks) -> ent st1 s = ent st s) by (intros s Hs; apply Fr1; intros I; exact (NoDup_app_disj _ _ s HN I Hs)).
        destruct (IH Wks (NoDup_app_r _ _ HN) HH' st1 (fst (dr1 (latt k) (body k buf (f (lopa (latt k)))) buf (f (lopa (latt k)))))
          (drew || snd (dr1 (latt k) (body k buf (f (lopa (latt k)))) buf (f (lopa (latt k)))))) as (st' & E' & Q & J' & JK & Fr).
        { revert HJ'. apply JKs_fewer. now apply fewer_same. }
        { revert I2. apply invKs_fewer; [apply all_keep|]. now apply clean_same. }
        { exact S2. }
        assert (Sk : forall s, In s (seqs k) -> ent st' s = ent st1 s) by (intros s Hs; apply Fr; intros I; exact (NoDup_app_disj _ _ s HN Hs I)).
        exists st'. split; [exact E'|]. split; [|split; [|split]].
        * intros Z. destruct (Q Z) as [Z'|Z']; [|right; now apply drawn_cons]. apply orb_true_iff in Z'. destruct Z' as [Z'|Z']; [now left|right].
          rewrite <- Ed in Z'. eapply drawn_here; [exact Hf|reflexivity|exact Ec|now apply Y].
        * split; [|exact J']. unfold PRender2.kidInv. rewrite Ec. revert J1'. apply inv_fewer. now apply clean_same.
        * intros x [<-|Hx]; [|now apply JK]. rewrite Ec. split; [discriminate|]. intros _. apply (J_fewer k st1); [|exact JK1]. now apply fewer_same.
        * intros s Hs. rewrite Fr, Fr1; [reflexivity| |]; intros I; apply Hs; apply in_app_iff; auto.
  Qed.
  Lemma draws_cov ks : Forall Lspec ks -> Forall lwf ks -> NoDup (flat_map seqs ks) ->
    (forall k, In k ks -> firmK k /\ (lclipping (latt k) = false -> HD P D true k)) ->
    forall st buf drew, JKs st ks -> Forall (fun k => allKid k (clean st)) ks ->
    exists st' buf' drew', F ks st buf drew = Some (st', buf', drew') /\
      (drew' = true -> drew = true \/ drawn ks) /\
      Forall (fun k => allKid k (clean st')) ks /\ JKs st' ks /\ (forall s, ~ In s (flat_map seqs ks) -> ent st' s = ent st s).
  Proof.
    intros HR HW HN HH. induction HR as [|k ks Hk HR IH]; intros st buf drew HJ HI.
    - exists st, buf, drew. rewrite F0. split; [reflexivity|]. auto.
    - inversion HW as [|? ? Wk Wks]; subst. cbn [flat_map] in HN. inversion HI as [|? ? I1 I2]; subst.
      assert (HH' : forall k, In k ks -> firmK k /\ (lclipping (latt k) = false -> HD P D true k)) by (intros x Hx; apply HH; now right).
      destruct (HH k (or_introl eq_refl)) as [Fk Hk'].
      destruct (HJ k (or_introl eq_refl)) as [J1 J2].
      assert (HJ' : JKs st ks) by (intros x Hx; apply HJ; now right).
      rewrite F1. destruct (lclipping (latt k)) eqn:Ec.
      + destruct (defer st buf k (f (lopa (latt k))) Ec) as (dr & E & Ed). rewrite E, Ed.
        destruct (IH Wks (NoDup_app_r _ _ HN) HH' st buf (drew || false) HJ' I2) as (st' & b' & d' & E' & Q & J' & JK & Fr).
        assert (Sk : forall s, In s (seqs k) -> ent st' s = ent st s) by (intros s Hs; apply Fr; intros I; exact (NoDup_app_disj _ _ s HN Hs I)).
        exists st', b', d'. split; [exact E'|]. split; [|split; [|split]].
        * intros X. destruct (Q X) as [Y|Y]; [rewrite orb_false_r in Y; auto|right; now apply drawn_cons].
        * constructor; [|exact J']. intros c. specialize (I1 c). unfold PRender2.kidInv in *. rewrite Ec in *. revert I1. apply absent_fewer. now apply clean_same.
        * intros x [<-|Hx]; [|now apply JK]. rewrite Ec. split; [|discriminate]. intros _. apply (absent_fewer k st); [|now apply J1]. now apply fewer_same.
        * intros s Hs. apply Fr. intros I. apply Hs. apply in_app_iff. auto.
      + pose proof (Hk' eq_refl) as Hd.
        destruct (Hk true st buf (f (lopa (latt k))) false Wk (NoDup_app_l _ _ HN) Hd (J2 eq_refl) Fk) as (st1 & b1 & dr & E & X & Y & J1' & JK1 & Fr1); [auto| |congruence|].
        { specialize (I1 (Some (buf, f (lopa (latt k))))). unfold PRender2.kidInv in I1. now rewrite Ec in I1. }
        rewrite E.
        assert (Sks : forall s, In s (flat_map seqs ks) -> ent st1 s = ent st s) by (intros s Hs; apply Fr1; intros I; exact (NoDup_app_disj _ _ s HN I Hs)).
        destruct (IH Wks (NoDup_app_r _ _ HN) HH' st1 b1 (drew || isDrew dr)) as (st' & b' & d' & E' & Q & J' & JK & Fr).
        { revert HJ'. apply JKs_fewer. now apply fewer_same. }
        { rewrite Forall_forall in *. intros k2 Hk2 c. specialize (I2 k2 Hk2 c). revert I2. apply kidInv_fewer; [apply inv_fewer|]. apply clean_same.
          intros s Hs. apply Sks. apply in_flat_map. eauto. }
        assert (Sk : forall s, In s (seqs k) -> ent st' s = ent st1 s) by (intros s Hs; apply Fr; intros I; exact (NoDup_app_disj _ _ s HN Hs I)).
        exists st', b', d'. split; [exact E'|]. split; [|split; [|split]].
        * intros Z. destruct (Q Z) as [Z'|Z']; [|right; now apply drawn_cons]. apply orb_true_iff in Z'. destruct Z' as [Z'|Z']; [now left|right].
          eapply drawn_here; [exact Hf|reflexivity|exact Ec|now apply Y].
        * constructor; [|exact J']. apply recon_kid; [exact Wk|eapply NoDup_app_l; exact HN|intros _; exact Hd|]. unfold PRender3.someKid. rewrite Ec. exists (Some (buf, f (lopa (latt k)))).
          revert J1'. apply inv_fewer. now apply clean_same.
        * intros x [<-|Hx]; [|now apply JK]. rewrite Ec. split; [discriminate|]. intros _. apply (J_fewer k st1); [|exact JK1]. now apply fewer_same.
        * intros s Hs. rewrite Fr, Fr1; [reflexivity| |]; intros I; apply Hs; apply in_app_iff; auto.
  Qed.
  End loops.

  Lemma clips_right cs : Forall Lspec cs -> Forall lwf cs -> NoDup (flat_map seqs cs) ->
    (forall c, In c cs -> firmK c /\ HD P D false c /\ fl P false c = false) -> forall st x, (forall c, In c cs -> J st c) ->
    invCs cs x (clean st) -> stableCs cs x ->
    exists st', clips cs st x = Some (st', clipsP cs x) /\ invCs cs x (clean st') /\ (forall c, In c cs -> J st' c) /\
      (forall s, ~ In s (flat_map seqs cs) -> ent st' s = ent st s).
  Proof.
    intros HR HW HN HH. induction HR as [|k ks Hk HR IH]; intros st x HJ HI HS.
    - exists st. cbn. split; [reflexivity|]. auto.
    - inversion HW as [|? ? Wk Wks]; subst. cbn [flat_map] in HN. cbn [PRender2.invCs SRender.stableCs SRender.clipsP] in *. destruct HI as [I1 I2]. destruct HS as [S1 S2]. rewrite clips_cons.
      destruct (HH k (or_introl eq_refl)) as (Fk & Hd & Hfl).
      destruct (Hk false st x (lopa (latt k)) true Wk (NoDup_app_l _ _ HN) Hd (HJ k (or_introl eq_refl)) Fk) as (st1 & b1 & dr & E & X & _ & J1 & JK1 & Fr1); [auto|exact I1|auto|].
      destruct (X Hfl) as [-> _]. rewrite E. fold (clipP k x).
      assert (Sks : forall s, In s (flat_map seqs ks) -> ent st1 s = ent st s) by (intros s Hs; apply Fr1; intros I; exact (NoDup_app_disj _ _ s HN I Hs)).
      destruct (IH Wks (NoDup_app_r _ _ HN) (fun c Ic => HH c (or_intror Ic)) st1 (clipP k x)) as (st' & E' & J' & JK & Fr).
      { apply (JCs_fewer ks st); [now apply fewer_same|]. intros c Ic. apply HJ. now right. }
      { revert I2. apply invCs_fewer; [apply all_keep|]. now apply clean_same. }
      { exact S2. }
      assert (Sk : forall s, In s (seqs k) -> ent st' s = ent st1 s) by (intros s Hs; apply Fr; intros I; exact (NoDup_app_disj _ _ s HN Hs I)).
      exists st'. split; [exact E'|]. split; [|split].
      + split; [|exact J']. revert J1. apply inv_fewer. now apply clean_same.
      + intros c [<-|Ic]; [|now apply JK]. apply (J_fewer k st1); [|exact JK1]. now apply fewer_same.
      + intros s Hs. rewrite Fr, Fr1; [reflexivity| |]; intros I; apply Hs; apply in_app_iff; auto.
  Qed.
  Lemma clips_cov cs : Forall Lspec cs -> Forall lwf cs -> NoDup (flat_map seqs cs) ->
    (forall c, In c cs -> firmK c /\ HD P D true c) -> forall st x, (forall c, In c cs -> J st c) ->
    Forall (fun c => allInv c (clean st)) cs ->
    exists st' x', clips cs st x = Some (st', x') /\ Forall (fun c => allInv c (clean st')) cs /\ (forall c, In c cs -> J st' c) /\
      (forall s, ~ In s (flat_map seqs cs) -> ent st' s = ent st s).
  Proof.
    intros HR HW HN HH. induction HR as [|k ks Hk HR IH]; intros st x HJ HI.
    - exists st, x. cbn. split; [reflexivity|]. auto.
    - inversion HW as [|? ? Wk Wks]; subst. cbn [flat_map] in HN. inversion HI as [|? ? I1 I2]; subst. rewrite clips_cons.
      destruct (HH k (or_introl eq_refl)) as (Fk & Hd).
      destruct (Hk true st x (lopa (latt k)) true Wk (NoDup_app_l _ _ HN) Hd (HJ k (or_introl eq_refl)) Fk) as (st1 & b1 & dr & E & X & _ & J1 & JK1 & Fr1); [auto|apply I1|auto|].
      rewrite E.
      assert (Sks : forall s, In s (flat_map seqs ks) -> ent st1 s = ent st s) by (intros s Hs; apply Fr1; intros I; exact (NoDup_app_disj _ _ s HN I Hs)).
      destruct (IH Wks (NoDup_app_r _ _ HN) (fun c Ic => HH c (or_intror Ic)) st1 b1) as (st' & x' & E' & J' & JK & Fr).
      { apply (JCs_fewer ks st); [now apply fewer_same|]. intros c Ic. apply HJ. now right. }
      { rewrite Forall_forall in *. intros k2 Hk2 c. specialize (I2 k2 Hk2 c). revert I2. apply inv_fewer. apply clean_same. intros s Hs. apply Sks. apply in_flat_map. eauto. }
      assert (Sk : forall s, In s (seqs k) -> ent st' s = ent st1 s) by (intros s Hs; apply Fr; intros I; exact (NoDup_app_disj _ _ s HN Hs I)).
      exists st', x'. split; [exact E'|]. split; [|split].
      + constructor; [|exact J']. apply recon; [exact Wk|eapply NoDup_app_l; exact HN|exact Hd|]. exists (Some (x, lopa (latt k))). revert J1. apply inv_fewer. now apply clean_same.
      + intros c [<-|Ic]; [|now apply JK]. apply (J_fewer k st1); [|exact JK1]. now apply fewer_same.
      + intros s Hs. rewrite Fr, Fr1; [reflexivity| |]; intros I; apply Hs; apply in_app_iff; auto.
  Qed.

  Definition groupIs (f : bool) (a : lattr) (cs : list layer) (m : img) (st : tstate) : Prop :=
    if f then Forall (fun c => allInv c (clean st)) cs
    else if lbce a then invCs cs (removeAlpha (copyT m)) (clean st) else invNs cs (clean st).
  Lemma fin a cs op b st buf cached (f : bool) : modeOK a cs -> Forall Lspec cs -> Forall lwf cs -> NoDup (flat_map seqs cs) ->
    (forall c, In c cs -> firmK c /\ HD P D f c /\ (f = false -> fl P false c = false)) -> (forall c, In c cs -> J st c) ->
    let m := maskT a b buf in
    groupIs f a cs m st -> (f = false -> lbce a = true -> stableCs cs (removeAlpha (copyT m))) ->
    exists st' x b', finish a cs op b st buf cached = Some (updateCache copyT DrDrew (lseq a) x cached st', b', DrDrew) /\
      (f = false -> x = grp a cs m /\ b' = putT a b x op) /\ groupIs f a cs m st' /\ (forall c, In c cs -> J st' c) /\
      (forall s, ~ In s (flat_map seqs cs) -> ent st' s = ent st s).
  Proof.
    intros HM HR HW HN HH HJ m HI HS. unfold PRender.finish. cbn zeta. rewrite applyMask_eq. fold m. unfold SRender.grp. destruct cs as [|c cs].
    - rewrite (putTile_ok copyT blendOf a [] b m op HM). exists st, m, (putT a b m op). split; [reflexivity|]. auto.
    - destruct (lbce a) eqn:Eb.
      + destruct f.
        * destruct (clips_cov (c :: cs) HR HW HN (fun c Ic => conj (proj1 (HH c Ic)) (proj1 (proj2 (HH c Ic)))) st (removeAlpha (copyT m)) HJ HI) as (st' & x & E & J' & JK & Fr).
          rewrite E, (putTile_ok copyT blendOf a (c :: cs) b _ op HM). do 3 eexists. split; [reflexivity|]. split; [discriminate|]. auto.
        * unfold groupIs in *. rewrite Eb in *.
          destruct (clips_right (c :: cs) HR HW HN) with (st := st) (x := removeAlpha (copyT m)) as (st' & E & J' & JK & Fr); auto.
          { intros x Hx. destruct (HH x Hx) as (X1 & X2 & X3). auto. }
          rewrite E, (putTile_ok copyT blendOf a (c :: cs) b _ op HM). do 3 eexists. split; [reflexivity|]. auto.
      + unfold SRender.modeOK in HM. unfold drawWithOpacity, SRender.putT, blendT. destruct (isPT a).
        * destruct HM; congruence.
        * destruct (blendOf (lbm a)); [|congruence]. exists st, m. eexists. split; [reflexivity|]. auto.
  Qed.

  Lemma draw_late l : Lspec l.
  Proof.
    induction l as [a ks cs Hk Hc] using layer_rec'. intros g st b op force HW HN HD0 HJ HFm HPT HI HF. cbn [latt] in *.
    inversion HW as [a0 ks0 cs0 HM HC HO HG HWk HWc]; subst a0 ks0 cs0.
    rewrite drawLayer_eq. set (l := Lay a ks cs) in *. unfold SRender.dr1. destruct (negb (lvis a) || (op =? 0)) eqn:Ev.
    { exists st, b, DrInvisible. cbn [fst snd isDrew]. split; [reflexivity|]. split; [auto|]. split; [discriminate|]. auto. }
    replace (lclipping a && negb force) with false by (destruct (lclipping a), force; auto; now rewrite HF in *).
    pose proof HI as HI0. unfold l in HI. rewrite inv_live in HI by exact Ev. fold l in HI. destruct HI as (I1 & I2 & I3).
    pose proof HJ as HJ0. inversion HJ as [l0 JE JO JK JC]; subst l0. cbn [latt lkids lgroup l] in JE, JO, JK, JC.
    destruct HFm as [HFb HFc].
    pose proof HN as HN0. rewrite seqs_own in HN. pose proof (NoDup_app_r _ _ HN) as HNc. cbn [lgroup l] in HNc.
    pose proof (NoDup_app_l _ _ HN) as HNk. apply NoDup_cons_iff in HNk. cbn [latt lkids l] in HNk. destruct HNk as [HNa HNk].
    pose proof (HD_self canvas hasCanvas P D g l HN0 HD0) as Hself. cbn [latt l] in Hself.
    set (f := fl P g l) in *. set (g1 := below P g l).
    assert (Hst : g1 = false -> stable l b op).
    { intros E. destruct (isPT a) eqn:EP; [|apply (HFb [] l b op eq_refl EP)]. destruct (HPT eq_refl) as [->|X]; [|exact X].
      unfold g1, PLate1.below in E. cbn [latt l] in E. rewrite EP, orb_true_r in E. discriminate. }
    assert (Hfg : f = false -> g1 = false).
    { unfold f, g1, PLate1.fl, PLate1.below. rewrite tnt_eq. intros E. apply orb_false_iff in E. destruct E as [E1 E2]. apply orb_false_iff in E1. destruct E1 as [E1 _].
      apply orb_false_iff in E1. destruct E1 as [_ ->]. exact E2. }
    assert (Hcs : forall c, In c cs -> firmK c /\ HD P D f c /\ (f = false -> fl P false c = false)).
    { intros c Ic. pose proof (HG c Ic) as Gc. split; [|split].
      - split; [exact (HFc c Ic)|]. rewrite Gc. intros x [].
      - exact (HD_member canvas hasCanvas P D g l c HN0 HD0 Ic Gc).
      - intros E. unfold f, PLate1.fl in E. apply orb_false_iff in E. destruct E as [E _]. apply orb_false_iff in E. destruct E as [_ E]. cbn [lgroup l] in E.
        unfold PLate1.fl. rewrite Gc. cbn [existsb orb andb]. rewrite !orb_false_r. destruct (tnt P c) eqn:Et; [|reflexivity].
        assert (existsb (tnt P) cs = true) by (apply existsb_exists; eauto). congruence. }
    assert (Hgc : forall st1, f = true -> groupOK (Some (b, op)) l (clean st1) -> Forall (fun c => allInv c (clean st1)) cs).
    { intros st1 E G. apply groupOK_some in G. rewrite Forall_forall in *. intros c Ic. apply recon; [now apply HWc| |rewrite <- E; apply Hcs; exact Ic|now apply G].
      exact (NoDup_member l c HN0 Ic). }
    assert (Hout : forall s, In s (flat_map seqs ks) \/ In s (flat_map seqs cs) -> s <> lseq a).
    { intros s [H|H] ->; [contradiction|]. apply (NoDup_app_disj _ _ (lseq a) HN); [now left|exact H]. }
    assert (Hkc : forall s, In s (flat_map seqs ks) -> ~ In s (flat_map seqs cs)).
    { intros s H1 H2. apply (NoDup_app_disj _ _ s HN); [now right|exact H2]. }
    destruct (isNil ks) eqn:En.
    - (* a leaf *)
      destruct ks; [|discriminate]. rewrite body_eq. unfold SRender.pre at 1 2. cbn [isNil latt lgroup l].
      unfold PRender2.groupOK in I3. cbn [latt lgroup SRender.pre isNil l] in I3.
      assert (Hp : canvas (lseq a) <> None -> pot P l = true).
      { intros E. rewrite pot_eq. cbn [latt l]. destruct (hasCanvas (lseq a)) eqn:Eh; [|now rewrite canvas_nil in E]. now destruct (canvas (lseq a)). }
      destruct (canvas (lseq a)) as [t|] eqn:Et.
      + cbn [option_map fst snd].
        destruct (fin a cs op b st (copyT t) false f HM Hc HWc HNc Hcs JC) as (st' & x & b' & E & X & G & JK' & Fr).
        { unfold groupIs. destruct f eqn:Ef; [|destruct (lbce a); exact I3]. apply Hgc; [reflexivity|]. unfold PRender2.groupOK. cbn [latt lgroup SRender.pre isNil l]. now rewrite Et. }
        { intros E Eb. specialize (Hst (Hfg E)). unfold l in Hst. rewrite stable_eq in Hst. destruct (Hst Ev) as [_ S2]. apply S2; [|exact Eb]. cbn [SRender.pre isNil]. now rewrite Et. }
        exists st', b', DrDrew. rewrite E. split; [reflexivity|]. split; [|split; [|split; [|split]]].
        * intros Ef. destruct (X Ef) as [-> ->]. auto.
        * intros _. split; [rewrite Hp by congruence; reflexivity|reflexivity].
        * unfold l. rewrite inv_live by exact Ev. split; [now left|]. split; [exact I|]. fold l.
          unfold groupIs in G. destruct f; [now apply groupOK_all|]. unfold PRender2.groupOK. cbn [latt lgroup SRender.pre isNil l]. rewrite Et. destruct (lbce a); exact G.
        * constructor; cbn [latt lkids lgroup l]; [intros y _; rewrite Hp by congruence; reflexivity|intros k []|intros k []|exact JK'].
        * intros s Hs. apply Fr. intros Y. apply Hs. cbn [seqs flat_map app l]. now right.
      + exists st, b, DrSkipped. cbn [option_map fst snd isDrew]. split; [reflexivity|]. split; [auto|]. split; [discriminate|]. auto.
    - destruct I1 as [I1|I1]; [cbn [lkids l] in I1; congruence|]. cbn [latt l] in I1.
      destruct (ent st (lseq a)) as [e|] eqn:Ee.
      + (* from the cache *)
        assert (X : f = false -> e = option_map copyT (body l b op) /\ forall x, body l b op = Some x -> copyT x = x).
        { intros Ef. assert (Nin : ~ In (lseq a) D) by (rewrite Hself, Ef; discriminate). rewrite (clean_out st _ Nin), Ee in I1. split; [exact I1|].
          intros x Eb. specialize (Hst (Hfg Ef)). unfold l in Hst. rewrite stable_eq in Hst. destruct (Hst Ev) as [_ S2]. fold l in S2.
          rewrite body_eq in Eb. cbn [latt lgroup l] in Eb. fold l in Eb. destruct (pre l b op) as [m|]; [|discriminate].
          cbn [option_map] in Eb. injection Eb as <-. now apply (S2 m eq_refl). }
        destruct e as [ci|].
        * rewrite (putTile_ok copyT blendOf a cs b ci op HM). exists st, (putT a b ci op), DrDrewFromCache. split; [reflexivity|]. split; [|split; [|auto]].
          -- intros Ef. destruct (X Ef) as [Eb Ec]. destruct (body l b op) as [x|]; [|discriminate]. cbn [option_map] in Eb. injection Eb as ->.
             rewrite (Ec x eq_refl). auto.
          -- intros _. split; [exact (JE ci eq_refl)|reflexivity].
        * exists st, b, DrDrewFromCacheInvisible. split; [reflexivity|]. split; [|split; [discriminate|auto]].
          intros Ef. destruct (X Ef) as [Eb _]. destruct (body l b op) as [x|]; [discriminate|]. auto.
      + (* not in the cache *)
        assert (HJk : JKs st ks) by (intros k Ik; split; intros Ek; [now apply JO|now apply JK]).
        assert (Hkd : forall k, In k ks -> lclipping (latt k) = false -> HD P D g1 k) by (intros k Ik Ek; exact (HD_kid canvas hasCanvas P D g l k HN0 HD0 Ik Ek)).
        assert (Hkf : forall k, In k ks -> firmK k) by (intros k Ik; exact (firm_kid l k HFb Ik)).
        assert (Kr : exists st1 buf drew, draws (alphaOf a op) ks st (startBuf a b) false = Some (st1, buf, drew) /\
            (g1 = false -> (buf, drew) = drawsP (kidOp a op) ks (startBuf a b) false) /\ (drew = true -> drawn ks) /\
            (if g1 then Forall (fun k => allKid k (clean st1)) ks else invKs (kidOp a op) ks (startBuf a b) (clean st1)) /\
            JKs st1 ks /\ (forall s, ~ In s (flat_map seqs ks) -> ent st1 s = ent st s)).
        { destruct g1 eqn:Eg.
          - destruct (draws_cov (kidOp a op) (kidOp_0 a op) (draws (alphaOf a op)) (fun _ _ _ => eq_refl) (fun _ _ _ _ _ => eq_refl) ks Hk HWk HNk) with (st := st) (buf := startBuf a b) (drew := false)
              as (st1 & buf & drew & E1 & Q & A1 & A2 & A3); auto.
            { apply invKs_some in I2. rewrite Forall_forall in *. intros k Ik. apply recon_kid; [now apply HWk|exact (NoDup_flat seqs ks k HNk Ik)|now apply Hkd|now apply I2]. }
            exists st1, buf, drew. split; [exact E1|]. split; [discriminate|]. split; [|auto]. intros E. destruct (Q E); [discriminate|assumption].
          - assert (S1 : stableKs (kidOp a op) ks (startBuf a b)).
            { specialize (Hst eq_refl). unfold l in Hst. rewrite stable_eq in Hst. apply (Hst Ev). }
            destruct (draws_right (kidOp a op) (kidOp_0 a op) (draws (alphaOf a op)) (fun _ _ _ => eq_refl) (fun _ _ _ _ _ => eq_refl) ks Hk HWk HNk) with (st := st) (buf := startBuf a b) (drew := false)
              as (st1 & E1 & Q & A1 & A2 & A3); auto.
            { intros k Ik. split; [now apply Hkf|]. intros Ek. split; [now apply Hkd|]. unfold PLate1.fl. cbn [andb]. rewrite orb_false_r.
              assert (Lv : lev P l = false) by (unfold g1, PLate1.below in Eg; apply orb_false_iff in Eg; apply Eg).
              destruct (tnt P k || existsb (tnt P) (lgroup k)) eqn:Et; [|reflexivity].
              assert (lev P l = true); [|congruence]. apply (lev_in canvas hasCanvas P l k Ik). unfold kidT. now rewrite Ek. }
            do 3 eexists. split; [exact E1|]. split; [|split; [|auto]].
            + intros _. now destruct (drawsP (kidOp a op) ks (startBuf a b) false).
            + intros E. destruct (Q E); [discriminate|assumption]. }
        destruct Kr as (st1 & buf & drew & E1 & KX & KD & KI & KJ & KF). rewrite E1.
        assert (Hpl : drawn ks -> pot P l || tnt P l = true).
        { intros (k & Ik & Ek & Ak & Hpk). apply orb_true_iff in Hpk. destruct Hpk as [Hpk|Hpk].
          - rewrite pot_eq. cbn [latt lkids l]. rewrite HC by (intros ->; discriminate). apply orb_true_iff. left. apply existsb_exists. exists k. split; [exact Ik|].
            unfold potKid. now rewrite Ek, Ak, Hpk.
          - apply orb_true_iff. right. apply lev_tnt. apply (lev_in canvas hasCanvas P l k Ik). now apply kidT_tnt. }
        assert (JC1 : forall c, In c cs -> J st1 c).
        { apply (JCs_fewer cs st); [|exact JC]. apply fewer_same. intros s Hs. apply KF. intros X. exact (Hkc s X Hs). }
        assert (G1 : groupOK (Some (b, op)) l (clean st1)).
        { revert I3. apply groupOK_fewer; [apply all_keep|]. cbn [lgroup l]. apply clean_same. intros s Hs. apply KF. intros X. exact (Hkc s X Hs). }
        (* putting the parts together *)
        assert (Asm : forall st2 e log, (forall s, In s (flat_map seqs ks) -> ent st2 s = ent st1 s) ->
            (f = false -> e = option_map copyT (body l b op)) -> groupOK (Some (b, op)) l (clean st2) ->
            inv (Some (b, op)) l (clean (Tst (m_set Z.eqb (tent st2) (lseq a) e) log))).
        { intros st2 e log Sk He G2. unfold l. rewrite inv_live by exact Ev. fold l. split; [|split].
          - right. cbn [latt l]. destruct f eqn:Ef.
            + rewrite clean_in; [exact I|]. now apply Hself.
            + rewrite clean_out by (rewrite Hself; discriminate). rewrite ent_set, Z.eqb_refl. now apply He.
          - assert (X : forall s, In s (flat_map seqs ks) -> ent (Tst (m_set Z.eqb (tent st2) (lseq a) e) log) s = ent st1 s).
            { intros s Hs. rewrite ent_set. destruct (Z.eqb_spec (lseq a) s) as [E|_]; [exfalso; apply (Hout s); auto|now apply Sk]. }
            destruct g1.
            + apply invKs_all. rewrite Forall_forall in *. intros k Ik c. specialize (KI k Ik c). revert KI. apply kidInv_fewer; [apply inv_fewer|]. apply clean_same.
              intros s Hs. apply X. apply in_flat_map. eauto.
            + revert KI. apply invKs_fewer; [apply all_keep|]. now apply clean_same.
          - revert G2. apply groupOK_fewer; [apply all_keep|]. cbn [lgroup l]. apply clean_same. intros s Hs. rewrite ent_set.
            destruct (Z.eqb_spec (lseq a) s) as [E|_]; [exfalso; apply (Hout s); auto|reflexivity]. }
        assert (AsmJ : forall st2 e log, (forall s, In s (flat_map seqs ks) -> ent st2 s = ent st1 s) ->
            (forall x, e = Some x -> pot P l || tnt P l = true) -> (forall c, In c cs -> J st2 c) ->
            J (Tst (m_set Z.eqb (tent st2) (lseq a) e) log) l).
        { intros st2 e log Sk He G2.
          assert (X : JKs (Tst (m_set Z.eqb (tent st2) (lseq a) e) log) ks).
          { revert KJ. apply JKs_fewer. apply fewer_same. intros s Hs. rewrite ent_set. destruct (Z.eqb_spec (lseq a) s) as [E|_]; [exfalso; apply (Hout s); auto|now apply Sk]. }
          constructor; cbn [latt lkids lgroup l].
          - intros x. rewrite ent_set, Z.eqb_refl. intros [= ->]. eauto.
          - intros k Ik Ek. now apply X.
          - intros k Ik Ek. now apply X.
          - apply (JCs_fewer cs st2); [|exact G2]. apply fewer_same. intros s Hs. rewrite ent_set.
            destruct (Z.eqb_spec (lseq a) s) as [E|_]; [exfalso; apply (Hout s); auto|reflexivity]. }
        assert (Pr : f = false -> pre l b op = if drew then Some (maskT a b buf) else None).
        { intros Ef. unfold SRender.pre, l. rewrite En. cbv zeta. rewrite <- (KX (Hfg Ef)). reflexivity. }
        destruct drew.
        * destruct (fin a cs op b st1 buf true f HM Hc HWc HNc Hcs JC1) as (st2 & x & b' & E & X & G & JK' & Fr).
          { unfold groupIs. destruct f eqn:Ef; [now apply Hgc|]. unfold PRender2.groupOK in G1. cbn [latt lgroup l] in G1. fold l in G1. rewrite Pr in G1 by reflexivity. destruct (lbce a); exact G1. }
          { intros Ef Eb. specialize (Hst (Hfg Ef)). unfold l in Hst. rewrite stable_eq in Hst. destruct (Hst Ev) as [_ S2]. apply S2; [|exact Eb]. fold l. now rewrite Pr. }
          assert (Sk : forall s, In s (flat_map seqs ks) -> ent st2 s = ent st1 s) by (intros s Hs; apply Fr; now apply Hkc).
          rewrite E. do 3 eexists. split; [reflexivity|]. split; [|split; [|split; [|split]]].
          -- intros Ef. destruct (X Ef) as [-> ->]. rewrite body_eq, (Pr Ef). auto.
          -- intros _. split; [now apply Hpl, KD|reflexivity].
          -- unfold updateCache. apply Asm; [exact Sk| |].
             ++ intros Ef. destruct (X Ef) as [-> _]. rewrite body_eq, (Pr Ef). reflexivity.
             ++ unfold groupIs in G. destruct f eqn:Ef; [now apply groupOK_all|]. unfold PRender2.groupOK. cbn [latt lgroup l]. fold l. rewrite Pr by reflexivity. destruct (lbce a); exact G.
          -- unfold updateCache. apply AsmJ; [exact Sk|intros; now apply Hpl, KD|exact JK'].
          -- intros s Hs. unfold updateCache. rewrite ent_set. rewrite seqs_own, in_app_iff in Hs. unfold own in Hs. cbn [In latt lkids lgroup l] in Hs.
             destruct (Z.eqb_spec (lseq a) s) as [Z|_]; [tauto|]. rewrite Fr, KF by tauto. reflexivity.
        * do 3 eexists. split; [reflexivity|]. split; [|split; [discriminate|split; [|split]]].
          -- intros Ef. rewrite body_eq, (Pr Ef). auto.
          -- unfold updateCache. apply Asm; [auto| |exact G1]. intros Ef. now rewrite body_eq, (Pr Ef).
          -- unfold updateCache. apply AsmJ; [auto|discriminate|exact JC1].
          -- intros s Hs. unfold updateCache. rewrite ent_set. rewrite seqs_own, in_app_iff in Hs. unfold own in Hs. cbn [In latt lkids lgroup l] in Hs.
             destruct (Z.eqb_spec (lseq a) s) as [Z|_]; [tauto|]. rewrite KF by tauto. reflexivity.
  Qed.
  End one.

  (** * The whole tree *)
  Definition late (P : Z -> bool) (root : layer) (st : tstate) : Prop :=
    invRoot root (clean (Droot P root) st) /\ JKs P st (lkids root).
  Lemma update_late P root st st' m : lwf root -> NoDup (own root) -> stableRoot root -> firmB root -> late P root st ->
    updateTile root st = Some (st', m) -> late P root st'.
  Proof.
    intros W N S FB [[R1 R2] HJ]. unfold MRender.updateTile. destruct (ent st (lseq (latt root))) as [e|] eqn:Ee.
    { intros [= <- <-]. split; [split|]; assumption. }
    pose proof (NoDup_cons_iff (lseq (latt root)) (flat_map seqs (lkids root))) as N'. apply N' in N as NN. destruct NN as [Na Nk]. clear N'.
    set (D := Droot P root) in *.
    assert (HWk : Forall lwf (lkids root)) by (inversion W; subst; assumption).
    assert (HR : Forall (Lspec P D) (lkids root)) by (apply Forall_forall; intros k _; apply draw_late).
    pose proof (HD_top canvas hasCanvas P root) as HT.
    assert (Hs : forall (e : option img) (log : list Z) (st1 : tstate) s, In s (flat_map seqs (lkids root)) -> ent (Tst (m_set Z.eqb (tent st1) (lseq (latt root)) e) log) s = ent st1 s).
    { intros e log st1 s Hs. rewrite ent_set. destruct (Z.eqb_spec (lseq (latt root)) s) as [E|_]; [exfalso; congruence|reflexivity]. }
    destruct (lev P root) eqn:Lv.
    - destruct (draws_cov P D idOp eq_refl drawTop (fun _ _ _ => eq_refl) (fun _ _ _ _ _ => eq_refl) (lkids root) HR HWk Nk) with (st := st) (buf := zero) (drew := false)
        as (st1 & buf & drew & E1 & _ & A1 & A2 & A3); auto.
      { intros k Ik. split; [now apply firm_kid with (l := root)|]. intros Ek. now apply HT. }
      { apply invKs_some in R2. rewrite Forall_forall in *. intros k Ik. apply recon_kid with (P := P); [now apply HWk|exact (NoDup_flat seqs _ k Nk Ik)|intros Ek; now apply HT|now apply R2]. }
      rewrite E1. assert (In (lseq (latt root)) D) by (apply Droot_self; [exact N|now apply lev_tnt]).
      assert (U : exists e log, updateCache copyT (if drew then DrDrew else DrInvisible) (lseq (latt root)) buf true st1 = Tst (m_set Z.eqb (tent st1) (lseq (latt root)) e) log).
      { destruct drew; eexists; eexists; reflexivity. }
      destruct U as (e & log & ->). intros [= <- <-]. split; [split|].
      + now rewrite clean_in.
      + apply invKs_all. rewrite Forall_forall in *. intros k Ik c. specialize (A1 k Ik c). revert A1. apply kidInv_fewer; [apply inv_fewer|]. apply clean_same.
        intros s Hx. apply Hs. apply in_flat_map. eauto.
      + revert A2. apply JKs_fewer, fewer_same, Hs.
    - destruct (draws_right P D idOp eq_refl drawTop (fun _ _ _ => eq_refl) (fun _ _ _ _ _ => eq_refl) (lkids root) HR HWk Nk) with (st := st) (buf := zero) (drew := false)
        as (st1 & E1 & _ & A1 & A2 & A3); auto.
      { intros k Ik. split; [now apply firm_kid with (l := root)|]. intros Ek. split; [now apply HT|]. unfold PLate1.fl. cbn [andb]. rewrite orb_false_r.
        destruct (tnt P k || existsb (tnt P) (lgroup k)) eqn:Et; [|reflexivity].
        assert (lev P root = true); [|congruence]. apply (lev_in canvas hasCanvas P root k Ik). unfold kidT. now rewrite Ek. }
      rewrite E1. set (r := drawsP idOp (lkids root) zero false) in *.
      assert (U : exists log, updateCache copyT (if snd r then DrDrew else DrInvisible) (lseq (latt root)) (fst r) true st1 =
        Tst (m_set Z.eqb (tent st1) (lseq (latt root)) (if snd r then Some (copyT (fst r)) else None)) log).
      { destruct (snd r); eexists; reflexivity. }
      destruct U as (log & ->). intros [= <- <-]. split; [split|].
      + rewrite ent_clean. destruct (existsb _ _); [exact I|]. rewrite ent_set, Z.eqb_refl. reflexivity.
      + revert A1. apply invKs_fewer; [apply all_keep|]. apply clean_same, Hs.
      + revert A2. apply JKs_fewer, fewer_same, Hs.
  Qed.
  Lemma render_late P diffOnly root st d st' d' : lwf root -> NoDup (own root) -> stableRoot root -> firmB root -> late P root st ->
    renderTile diffOnly root st d = Some (st', d') -> late P root st'.
  Proof.
    intros W N S FB L. unfold MRender.renderTile. destruct (updateTile root st) as [[st1 m]|] eqn:E; [|discriminate].
    pose proof (update_late P root st st1 m W N S FB L E) as L1. destruct (m || negb diffOnly).
    - destruct (paint copyT clearT root st1 d); [|discriminate]. intros [= <- <-]. exact L1.
    - intros [= <- <-]. exact L1.
  Qed.
  (** Entries that are deleted; the log *)
  Lemma late_fewer P root st st' : (forall s, ent st' s = ent st s \/ ent st' s = None) -> late P root st -> late P root st'.
  Proof.
    intros F [[R1 R2] HJ]. set (D := Droot P root) in *.
    assert (X : forall S, fewer S (clean D st) (clean D st')).
    { intros S s _. rewrite !ent_clean. destruct (existsb _ D); [auto|]. apply F. }
    split; [split|].
    - fold D. destruct (X [lseq (latt root)] _ (or_introl eq_refl)) as [-> | ->]; [exact R1|exact I].
    - revert R2. apply invKs_fewer; [apply all_keep|apply X].
    - revert HJ. apply JKs_fewer. intros s _. apply F.
  Qed.
  Lemma late_fresh P root : late P root (Tst [] []).
  Proof.
    split.
    - assert (X : forall s, ent (clean (Droot P root) (Tst [] [])) s = None) by (intros s; rewrite ent_clean; now destruct (existsb _ _)).
      eapply invRoot_ents; [|apply invRoot_fresh]. intros s. rewrite X. reflexivity.
    - assert (A : forall l, J P (Tst [] []) l).
      { induction l as [l Ik Ic] using layer_both. constructor; [discriminate|intros k _ _ s _; reflexivity|auto|auto]. }
      intros k _. split; intros _; [intros s _; reflexivity|apply A].
  Qed.
  Lemma late_none root st : late (fun _ => false) root st -> invRoot root st.
  Proof.
    intros [H _]. eapply invRoot_ents; [|exact H]. intros s. symmetry. apply clean_out. apply Droot_none.
  Qed.
End render.
