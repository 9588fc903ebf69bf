(** Proofs about the first render of a tile: no copy in a cache is used. *)
From Verif Require Import Base BaseFacts MRender SRender PRender PRender2.

Section render.
  Context {img msk : Type}.
  Variable zero : img.
  Variable copyT : img -> img.
  Variable blendOf : bytes -> option (Z -> img -> img -> img).
  Variable destInM destOutM : msk -> img -> img.
  Variable destInT destOverT : img -> img -> img.
  Variable clearT removeAlpha : img -> img.
  Variable canvas : Z -> option img.
  Variable hasCanvas : Z -> bool.
  Variable mask : Z -> option msk.

  Notation tstate := (tstate img).
  Notation drawLayer := (drawLayer zero copyT blendOf destInM destOutM destInT destOverT clearT removeAlpha canvas mask).
  Notation maskT := (maskT destInM destOutM destOverT clearT mask).
  Notation putTile := (putTile copyT blendOf).
  Notation drawTop := (drawTop zero copyT blendOf destInM destOutM destInT destOverT clearT removeAlpha canvas mask).
  Notation updateTile := (updateTile zero copyT blendOf destInM destOutM destInT destOverT clearT removeAlpha canvas mask).
  Notation clips := (clips zero copyT blendOf destInM destOutM destInT destOverT clearT removeAlpha canvas mask).
  Notation draws := (draws zero copyT blendOf destInM destOutM destInT destOverT clearT removeAlpha canvas mask).
  Notation finish := (finish zero copyT blendOf destInM destOutM destInT destOverT clearT removeAlpha canvas mask).
  Notation startBuf := (startBuf zero copyT).

  Notation body := (body zero copyT blendOf destInM destOutM destInT destOverT clearT removeAlpha canvas mask).
  Notation kidP := (kidP zero copyT blendOf destInM destOutM destInT destOverT clearT removeAlpha canvas mask).
  Notation drawsP := (drawsP zero copyT blendOf destInM destOutM destInT destOverT clearT removeAlpha canvas mask).
  Notation clipP := (clipP zero copyT blendOf destInM destOutM destInT destOverT clearT removeAlpha canvas mask).
  Notation clipsP := (clipsP zero copyT blendOf destInM destOutM destInT destOverT clearT removeAlpha canvas mask).
  Notation grp := (grp zero copyT blendOf destInM destOutM destInT destOverT clearT removeAlpha canvas mask).
  Notation blendT := (blendT blendOf).
  Notation putT := (putT copyT blendOf).
  Notation dr1 := (dr1 copyT blendOf).
  Notation modeOK := (modeOK blendOf).
  Notation lwf := (lwf blendOf hasCanvas).

  Notation renderTile := (renderTile zero copyT blendOf destInM destOutM destInT destOverT clearT removeAlpha canvas mask).
  Notation shown := (shown zero copyT blendOf destInM destOutM destInT destOverT clearT removeAlpha canvas mask).
  Notation ent st s := (m_get Z.eqb (tent st) s).

  (** A layer without entries in the cache: every buffer is drawn anew, so that nothing
      depends on what copies to the cache keep. *)
  Definition absent (l : layer) (st : tstate) : Prop := forall s, In s (seqs l) -> ent st s = None.
  Definition absents (ls : list layer) (st : tstate) : Prop := forall s, In s (flat_map seqs ls) -> ent st s = None.
  Definition Nspec (l : layer) : Prop := forall st b op force, lwf l -> NoDup (seqs l) -> absent l st ->
    (lclipping (latt l) = true -> force = true) ->
    exists st' dr, drawLayer st b l op force = Some (st', fst (dr1 (latt l) (body l b op) b op), dr) /\
      isDrew dr = snd (dr1 (latt l) (body l b op) b op) /\ (forall s, ~ In s (seqs l) -> ent st' s = ent st s).

  Lemma draws_new f ks : Forall Nspec ks -> Forall lwf ks -> NoDup (flat_map seqs ks) -> forall D,
    (forall st buf drew, D [] st buf drew = Some (st, buf, drew)) ->
    (forall k ks st buf drew, D (k :: ks) st buf drew =
       match drawLayer st buf k (f (lopa (latt k))) false with Some (st, buf, dr) => D ks st buf (drew || isDrew dr) | None => None end) ->
    forall st buf drew, absents ks st ->
    exists st', D ks st buf drew = Some (st', fst (drawsP f ks buf drew), snd (drawsP f ks buf drew)) /\
      (forall s, ~ In s (flat_map seqs ks) -> ent st' s = ent st s).
  Proof.
    intros HR HW HN D D0 D1. induction HR as [|k ks Hk HR IH]; intros st buf drew HI.
    - exists st. rewrite D0. cbn. auto.
    - inversion HW as [|? ? Wk Wks]; subst. cbn [flat_map] in HN. cbn [drawsP]. rewrite D1. unfold SRender.kidP. cbn zeta.
      assert (Ik : absent k st). { intros s Hs. apply HI. cbn [flat_map]. apply in_app_iff. now left. }
      assert (Is : absents ks st). { intros s Hs. apply HI. cbn [flat_map]. apply in_app_iff. now right. }
      destruct (lclipping (latt k)) eqn:Ec.
      + assert (E : exists dr, drawLayer st buf k (f (lopa (latt k))) false = Some (st, buf, dr) /\ isDrew dr = false).
        { destruct k as [a ks0 cs0]. rewrite drawLayer_eq. cbn [latt] in *. rewrite Ec. cbn [negb andb].
          destruct (negb (lvis a) || _); eauto. }
        destruct E as (dr & E & Ed). rewrite E, Ed. cbn [fst snd].
        destruct (IH Wks (NoDup_app_r _ _ HN) st buf (drew || false) Is) as (st' & E' & Fr).
        exists st'. split; [exact E'|]. intros s Hs. apply Fr. intros I. apply Hs. cbn [flat_map]. apply in_app_iff. auto.
      + destruct (Hk st buf (f (lopa (latt k))) false Wk (NoDup_app_l _ _ HN) Ik) as (st1 & dr & E & Ed & F1).
        { congruence. }
        rewrite E, Ed.
        assert (Is' : absents ks st1).
        { intros s Hs. rewrite F1; [now apply Is|]. intros I. exact (NoDup_app_disj _ _ s HN I Hs). }
        destruct (IH Wks (NoDup_app_r _ _ HN) st1 (fst (dr1 (latt k) (body k buf (f (lopa (latt k)))) buf (f (lopa (latt k)))))
          (drew || snd (dr1 (latt k) (body k buf (f (lopa (latt k)))) buf (f (lopa (latt k))))) Is') as (st' & E' & Fr).
        exists st'. split; [exact E'|]. intros s Hs. rewrite Fr, F1; [reflexivity| |]; intros I; apply Hs; cbn [flat_map]; apply in_app_iff; auto.
  Qed.

  Lemma clips_new cs : Forall Nspec cs -> Forall lwf cs -> NoDup (flat_map seqs cs) -> forall st x, absents cs st ->
    exists st', clips cs st x = Some (st', clipsP cs x) /\ (forall s, ~ In s (flat_map seqs cs) -> ent st' s = ent st s).
  Proof.
    intros HR HW HN. induction HR as [|k ks Hk HR IH]; intros st x HI.
    - exists st. cbn. auto.
    - inversion HW as [|? ? Wk Wks]; subst. cbn [flat_map] in HN. cbn [clipsP]. rewrite clips_cons.
      assert (Ik : absent k st). { intros s Hs. apply HI. cbn [flat_map]. apply in_app_iff. now left. }
      destruct (Hk st x (lopa (latt k)) true Wk (NoDup_app_l _ _ HN) Ik) as (st1 & dr & E & Ed & F1); [reflexivity|].
      rewrite E. fold (clipP k x).
      destruct (IH Wks (NoDup_app_r _ _ HN) st1 (clipP k x)) as (st' & E' & Fr).
      { intros s Hs. rewrite F1; [apply HI; cbn [flat_map]; apply in_app_iff; now right|]. intros I. exact (NoDup_app_disj _ _ s HN I Hs). }
      exists st'. split; [exact E'|]. intros s Hs. rewrite Fr, F1; [reflexivity| |]; intros I; apply Hs; cbn [flat_map]; apply in_app_iff; auto.
  Qed.

  Lemma finish_new a cs op b st buf cached : modeOK a cs -> Forall Nspec cs -> Forall lwf cs -> NoDup (flat_map seqs cs) -> absents cs st ->
    exists st', finish a cs op b st buf cached =
        Some (updateCache copyT DrDrew (lseq a) (grp a cs (maskT a b buf)) cached st', putT a b (grp a cs (maskT a b buf)) op, DrDrew) /\
      (forall s, ~ In s (flat_map seqs cs) -> ent st' s = ent st s).
  Proof.
    intros HM HR HW HN HI. unfold PRender.finish. cbn zeta. rewrite applyMask_eq. set (m := maskT a b buf). unfold SRender.grp. destruct cs as [|c cs].
    - exists st. rewrite (putTile_ok copyT blendOf a [] b m op HM). auto.
    - destruct (lbce a) eqn:Eb.
      + destruct (clips_new (c :: cs) HR HW HN st (removeAlpha (copyT m)) HI) as (st' & E & F).
        rewrite E, (putTile_ok copyT blendOf a (c :: cs) b _ op HM). exists st'. auto.
      + exists st. unfold SRender.modeOK in HM. unfold drawWithOpacity, SRender.putT, SRender.blendT. destruct (isPT a).
        * destruct HM; congruence.
        * destruct (blendOf (lbm a)); [|congruence]. auto.
  Qed.

  Lemma drawLayer_new l : Nspec l.
  Proof.
    induction l as [a ks cs Hk Hc] using layer_rec'. intros st b op force HW HN HI HF. cbn [latt] in *.
    inversion HW as [a0 ks0 cs0 HM HC HO HG HWk HWc]; subst a0 ks0 cs0.
    rewrite drawLayer_eq. unfold SRender.dr1. destruct (negb (lvis a) || (op =? 0)) eqn:Ev.
    { exists st, DrInvisible. repeat split; auto. }
    replace (lclipping a && negb force) with false by (destruct (lclipping a), force; auto; now rewrite HF in *).
    cbn [seqs] in HN. apply NoDup_cons_iff in HN. destruct HN as [HNa HN].
    pose proof (NoDup_app_l _ _ HN) as HNk. pose proof (NoDup_app_r _ _ HN) as HNc.
    assert (Ik : absents ks st). { intros s Hs. apply HI. cbn [seqs]. right. apply in_app_iff. now left. }
    assert (Ic : absents cs st). { intros s Hs. apply HI. cbn [seqs]. right. apply in_app_iff. now right. }
    assert (Ia : ent st (lseq a) = None). { apply HI. now left. }
    rewrite body_eq. cbn [latt lgroup]. unfold SRender.pre. destruct (isNil ks) eqn:En.
    - destruct (canvas (lseq a)) as [t|] eqn:Et.
      + cbn [option_map fst snd].
        destruct (finish_new a cs op b st (copyT t) false HM Hc HWc HNc Ic) as (st' & E & F).
        exists st', DrDrew. rewrite E. split; [reflexivity|]. split; [reflexivity|].
        intros s Hs. apply F. intros X. apply Hs. cbn [seqs]. right. apply in_app_iff. now right.
      + exists st, DrSkipped. cbn [option_map fst snd]. repeat split; auto.
    - rewrite Ia.
      destruct (draws_new (kidOp a op) ks Hk HWk HNk (draws (alphaOf a op))) with (st := st) (buf := startBuf a b) (drew := false) as (st1 & E1 & F1); [reflexivity| |exact Ik|].
      { intros k ks0 st0 buf0 drew0. rewrite draws_cons. reflexivity. }
      rewrite E1. cbn zeta. set (r := drawsP (kidOp a op) ks (startBuf a b) false) in *.
      destruct (snd r) eqn:Er.
      + cbn [option_map fst snd].
        destruct (finish_new a cs op b st1 (fst r) true HM Hc HWc HNc) as (st2 & E2 & F2).
        { intros s Hs. rewrite F1; [now apply Ic|]. intros X. exact (NoDup_app_disj _ _ s HN X Hs). }
        rewrite E2. eexists _, DrDrew. split; [reflexivity|]. split; [reflexivity|].
        unfold updateCache. intros s Hs. cbn [seqs] in Hs. rewrite ent_set. destruct (Z.eqb_spec (lseq a) s) as [<-|]; [destruct Hs; now left|].
        rewrite F2, F1; [reflexivity| |]; intros X; apply Hs; right; apply in_app_iff; auto.
      + cbn [option_map fst snd]. eexists _, DrInvisible. split; [reflexivity|]. split; [reflexivity|].
        unfold updateCache. intros s Hs. cbn [seqs] in Hs. rewrite ent_set. destruct (Z.eqb_spec (lseq a) s) as [<-|]; [destruct Hs; now left|].
        rewrite F1; [reflexivity|]. intros X; apply Hs; right; apply in_app_iff; auto.
  Qed.

  (** The first render of a tile *)
  Lemma render_new root st d diffOnly : Forall lwf (lkids root) -> NoDup (lseq (latt root) :: flat_map seqs (lkids root)) ->
    ent st (lseq (latt root)) = None -> absents (lkids root) st ->
    exists st', renderTile diffOnly root st d = Some (st', shown root d).
  Proof.
    intros HW HN Ir Ik. apply NoDup_cons_iff in HN. destruct HN as [HNa HN].
    unfold MRender.renderTile, MRender.updateTile. rewrite Ir.
    destruct (draws_new idOp (lkids root)) with (D := drawTop) (st := st) (buf := zero) (drew := false) as (st1 & E & F); auto.
    { apply Forall_forall. intros k _. apply drawLayer_new. }
    rewrite E. unfold SRender.shown. cbn zeta. set (r := drawsP idOp (lkids root) zero false) in *.
    cbn [orb]. unfold paint, updateCache. destruct (snd r); rewrite ent_set, Z.eqb_refl; eauto.
  Qed.
End render.
