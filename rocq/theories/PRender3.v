(** Proofs about one tile of the renderer: changes of layers that are announced keep the
    cache valid. *)
From Verif Require Import Base BaseFacts MRender PRender PRender2 SRender.

Lemma mapnth_split {A} (f : A -> A) ls : forall i x, nth_error ls i = Some x ->
  exists l1 l2, ls = l1 ++ x :: l2 /\ mapnth f i ls = l1 ++ f x :: l2 /\ length l1 = i.
Proof.
  induction ls as [|y ls IH]; intros [|i] x; cbn [nth_error mapnth]; try discriminate.
  - intros [= ->]. exists [], ls. auto.
  - intros H. destruct (IH i x H) as (l1 & l2 & -> & -> & L). exists (y :: l1), l2. cbn. auto.
Qed.
Lemma nth_error_mid {A} (l1 l2 : list A) x : nth_error (l1 ++ x :: l2) (length l1) = Some x.
Proof. rewrite nth_error_app2, Nat.sub_diag by lia. reflexivity. Qed.

Lemma latt_chg s p a l : latt (chg (s :: p) a l) = latt l.
Proof. destruct s as [i [j|]]; reflexivity. Qed.
Lemma lgroup_chg p a l : lgroup (chg p a l) = lgroup l.
Proof. destruct p as [|[i [j|]] p]; reflexivity. Qed.
Lemma child_chg_None i p a l k : nth_error (lkids l) i = Some k -> child (chg (@cons step (i, None) p) a l) (i, None) = Some (chg p a k).
Proof.
  intros H. destruct (mapnth_split (chg p a) _ _ _ H) as (l1 & l2 & E1 & E2 & L). unfold child. cbn [chg lkids fst snd].
  rewrite E2, <- L, nth_error_mid. reflexivity.
Qed.

Lemma layerAt_cons l s p : layerAt l (s :: p) = match child l s with Some c => layerAt c p | None => None end.
Proof. reflexivity. Qed.

(** The layer at the end of the path *)
Lemma layerAt_chg p a : forall l t, layerAt l p = Some t -> layerAt (chg p a l) p = Some (Lay a (lkids t) (lgroup t)).
Proof.
  induction p as [|[i o] p IH]; intros l t.
  - intros [= <-]. reflexivity.
  - rewrite !layerAt_cons. unfold child at 1. cbn [fst snd].
    destruct (nth_error (lkids l) i) as [k|] eqn:Ek; [|discriminate]. destruct o as [j|].
    + destruct (nth_error (lgroup k) j) as [c|] eqn:Ec; [|discriminate]. intros H.
      unfold child. cbn [chg lkids fst snd].
      destruct (mapnth_split (fun k => Lay (latt k) (lkids k) (mapnth (chg p a) j (lgroup k))) _ _ _ Ek) as (l1 & l2 & E1 & E2 & L).
      rewrite E2, <- L, nth_error_mid. cbn [lgroup].
      destruct (mapnth_split (chg p a) _ _ _ Ec) as (g1 & g2 & G1 & G2 & Lg). rewrite G2, <- Lg, nth_error_mid. now apply IH.
    + intros H. rewrite (child_chg_None i p a l k Ek). now apply IH.
Qed.
Lemma flat_map_mid {A B} (f : A -> list B) l1 x y l2 : f x = f y -> flat_map f (l1 ++ x :: l2) = flat_map f (l1 ++ y :: l2).
Proof. intros H. rewrite !flat_map_app. cbn [flat_map]. now rewrite H. Qed.
Lemma seqs_chg p a : forall l t, layerAt l p = Some t -> lseq a = lseq (latt t) -> seqs (chg p a l) = seqs l.
Proof.
  induction p as [|[i o] p IH]; intros [b ks cs] t.
  - intros [= <-]. cbn. now intros ->.
  - rewrite !layerAt_cons. unfold child. cbn [fst snd lkids].
    destruct (nth_error ks i) as [k|] eqn:Ek; [|discriminate]. destruct o as [j|].
    + destruct (nth_error (lgroup k) j) as [c|] eqn:Ec; [|discriminate]. intros H Ha. cbn [chg latt lkids lgroup seqs].
      destruct (mapnth_split (fun k => Lay (latt k) (lkids k) (mapnth (chg p a) j (lgroup k))) _ _ _ Ek) as (l1 & l2 & E1 & E2 & L).
      rewrite E2, E1. rewrite (flat_map_mid seqs l1 _ k); [reflexivity|].
      destruct k as [ak kk gk]. cbn [latt lkids lgroup seqs] in *.
      destruct (mapnth_split (chg p a) _ _ _ Ec) as (g1 & g2 & G1 & G2 & Lg). rewrite G2, G1.
      rewrite (flat_map_mid seqs g1 _ c); [reflexivity|]. eapply IH; eassumption.
    + intros H Ha. cbn [chg latt lkids lgroup seqs].
      destruct (mapnth_split (chg p a) _ _ _ Ek) as (l1 & l2 & E1 & E2 & L). rewrite E2, E1.
      rewrite (flat_map_mid seqs l1 _ k); [reflexivity|]. eapply IH; eassumption.
Qed.

Section render.
  Context {img msk : Type}.
  Variable zero : img.
  Variable copyT : img -> img.
  Variable blendOf : bytes -> option (Z -> img -> img -> img).
  Variable destInM destOutM : msk -> img -> img.
  Variable destInT destOverT : img -> img -> img.
  Variable clearT removeAlpha : img -> img.
  Variable canvas : Z -> option img.
  Variable hasCanvas : Z -> bool.
  Variable mask : Z -> option msk.
  Variable canvas_nil : forall s, hasCanvas s = false -> canvas s = None.

  Notation tstate := (tstate img).
  Notation startBuf := (startBuf zero copyT).
  Notation inArea := (inArea canvas hasCanvas).
  Notation areaRec := (areaRec canvas hasCanvas).
  Notation body := (body zero copyT blendOf destInM destOutM destInT destOverT clearT removeAlpha canvas mask).
  Notation pre := (pre zero copyT blendOf destInM destOutM destInT destOverT clearT removeAlpha canvas mask).
  Notation kidP := (kidP zero copyT blendOf destInM destOutM destInT destOverT clearT removeAlpha canvas mask).
  Notation drawsP := (drawsP zero copyT blendOf destInM destOutM destInT destOverT clearT removeAlpha canvas mask).
  Notation clipP := (clipP zero copyT blendOf destInM destOutM destInT destOverT clearT removeAlpha canvas mask).
  Notation clipsP := (clipsP zero copyT blendOf destInM destOutM destInT destOverT clearT removeAlpha canvas mask).
  Notation grp := (grp zero copyT blendOf destInM destOutM destInT destOverT clearT removeAlpha canvas mask).
  Notation inv := (inv zero copyT blendOf destInM destOutM destInT destOverT clearT removeAlpha canvas hasCanvas mask).
  Notation kidInv := (kidInv zero copyT blendOf destInM destOutM destInT destOverT clearT removeAlpha canvas hasCanvas mask).
  Notation invKs := (invKs zero copyT blendOf destInM destOutM destInT destOverT clearT removeAlpha canvas hasCanvas mask).
  Notation invCs := (invCs zero copyT blendOf destInM destOutM destInT destOverT clearT removeAlpha canvas hasCanvas mask).
  Notation invDs := (invDs zero copyT blendOf destInM destOutM destInT destOverT clearT removeAlpha canvas hasCanvas mask).
  Notation invNs := (invNs zero copyT blendOf destInM destOutM destInT destOverT clearT removeAlpha canvas hasCanvas mask).
  Notation entryOK := (entryOK zero copyT blendOf destInM destOutM destInT destOverT clearT removeAlpha canvas hasCanvas mask).
  Notation kidsOK := (kidsOK zero copyT blendOf destInM destOutM destInT destOverT clearT removeAlpha canvas hasCanvas mask).
  Notation groupOK := (groupOK zero copyT blendOf destInM destOutM destInT destOverT clearT removeAlpha canvas hasCanvas mask).
  Notation invRoot := (invRoot zero copyT blendOf destInM destOutM destInT destOverT clearT removeAlpha canvas hasCanvas mask).
  Notation inner := (inner zero).
  Notation ctx := (@ctx img).
  Notation lwf := (lwf blendOf hasCanvas).
  Notation ent st s := (m_get Z.eqb (tent st) s).

  (** * Layers that are not seen at the point *)
  Definition areaKid (k : layer) : bool :=
    lvis (latt k) && negb (lopa (latt k) =? 0) && negb (lclipping (latt k)) && inArea k.
  Lemma areaRec_eq l : areaRec l = existsb areaKid (lkids l).
  Proof. destruct l as [a ks cs]. reflexivity. Qed.
  Lemma inArea_leaf l : lkids l = [] -> inArea l = match canvas (lseq (latt l)) with Some _ => true | None => false end.
  Proof.
    intros E. unfold MRender.inArea. rewrite E. destruct (hasCanvas (lseq (latt l))) eqn:H; [reflexivity|]. now rewrite (canvas_nil _ H).
  Qed.
  Lemma inArea_folder l : lwf l -> lkids l <> [] -> inArea l = existsb areaKid (lkids l).
  Proof.
    intros W E. unfold MRender.inArea. inversion W as [a ks cs HM HC]; subst. cbn [latt lkids] in *. rewrite (HC E).
    destruct ks; [congruence|]. apply areaRec_eq.
  Qed.

  Lemma drawsP_none f ks : (forall k buf, In k ks -> kidP f k buf = (buf, false)) -> forall buf drew, drawsP f ks buf drew = (buf, drew).
  Proof.
    induction ks as [|k ks IH]; intros H buf drew; [reflexivity|]. cbn [SRender.drawsP].
    rewrite (H k buf) by now left. cbn [fst snd]. rewrite orb_false_r. apply IH. intros x b I. apply H. now right.
  Qed.
  Lemma pre_none l : lwf l -> inArea l = false -> forall b op, pre l b op = None.
  Proof.
    induction l as [a ks cs Hk Hc] using layer_rec'. intros W HA b op. unfold SRender.pre. destruct (isNil ks) eqn:En.
    - destruct ks; [|discriminate]. rewrite inArea_leaf in HA by reflexivity. cbn [latt] in HA. now destruct (canvas (lseq a)).
    - rewrite inArea_folder in HA by (auto; cbn; destruct ks; discriminate). cbn [lkids] in HA.
      rewrite drawsP_none; [reflexivity|]. intros k buf I. unfold SRender.kidP. destruct (lclipping (latt k)) eqn:Ec; [reflexivity|].
      unfold dr1. destruct (negb (lvis (latt k)) || _) eqn:Ev; [reflexivity|].
      assert (A : areaKid k = false).
      { destruct (areaKid k) eqn:E; [|reflexivity]. assert (existsb areaKid ks = true) by (apply existsb_exists; eauto). congruence. }
      assert (Wk : lwf k). { inversion W as [? ? ? ? ? ? ? Wk]; subst. rewrite Forall_forall in Wk. auto. }
      unfold areaKid in A. rewrite Ec in A.
      destruct (lvis (latt k)); [|discriminate]. cbn [negb orb] in Ev.
      destruct (lopa (latt k) =? 0) eqn:Eo.
      + apply Z.eqb_eq in Eo. rewrite Eo in Ev. unfold kidOp in Ev. cbn in Ev. discriminate.
      + cbn in A. rewrite body_eq, (proj1 (Forall_forall _ _) Hk k I Wk A). reflexivity.
  Qed.
  Lemma body_none l : lwf l -> inArea l = false -> forall b op, body l b op = None.
  Proof. intros W A b op. now rewrite body_eq, pre_none. Qed.

  (** The cache of such a layer is valid in every context *)
  Definition sees0 (f : Z -> Z) : Prop := f 0 = 0.
  Lemma kidOp_0 a op : sees0 (kidOp a op).
  Proof. reflexivity. Qed.

  (** A valid cache without its context *)
  Definition someInv (l : layer) (st : tstate) : Prop := exists c, inv c l st.
  Definition someKid (k : layer) (st : tstate) : Prop := if lclipping (latt k) then absent k st else someInv k st.
  Lemma kidInv_some c k st : kidInv c k st -> someKid k st.
  Proof. unfold PRender2.kidInv, someKid, someInv. destruct (lclipping (latt k)); eauto. Qed.
  Lemma invKs_some f ks : forall buf st, invKs f ks buf st -> Forall (fun k => someKid k st) ks.
  Proof. induction ks as [|k ks IH]; intros buf st; [constructor|]. intros [H1 H2]. constructor; [eapply kidInv_some; exact H1|eauto]. Qed.
  Lemma kidsOK_some c l st : kidsOK c l st -> Forall (fun k => someKid k st) (lkids l).
  Proof.
    unfold PRender2.kidsOK. destruct c as [[b op]|]; [apply invKs_some|]. unfold PRender2.invDs. apply Forall_impl. intros k. apply kidInv_some.
  Qed.
  Lemma invCs_some cs : forall x st, invCs cs x st -> Forall (fun c => someInv c st) cs.
  Proof. induction cs as [|k ks IH]; intros buf st; [constructor|]. intros [H1 H2]. constructor; [eexists; exact H1|eauto]. Qed.
  Lemma groupOK_some c l st : groupOK c l st -> Forall (fun c => someInv c st) (lgroup l).
  Proof.
    unfold PRender2.groupOK. assert (N : invNs (lgroup l) st -> Forall (fun c => someInv c st) (lgroup l)).
    { unfold PRender2.invNs. apply Forall_impl. intros k H. eexists; exact H. }
    destruct c as [[b op]|]; [|exact N]. destruct (if lbce (latt l) then _ else _); [apply invCs_some|exact N].
  Qed.
  (** ... and a cache that is valid in every context *)
  Definition allInv (l : layer) (st : tstate) : Prop := forall c, inv c l st.
  Definition allKid (k : layer) (st : tstate) : Prop := forall c, kidInv c k st.
  Lemma invKs_all f ks st : Forall (fun k => allKid k st) ks -> forall buf, invKs f ks buf st.
  Proof. induction 1 as [|k ks H _ IH]; intros buf; [exact I|]. split; [apply H|apply IH]. Qed.
  Lemma kidsOK_all l st : Forall (fun k => allKid k st) (lkids l) -> forall c, kidsOK c l st.
  Proof.
    intros H [[b op]|]; unfold PRender2.kidsOK; [now apply invKs_all|]. unfold PRender2.invDs. revert H. apply Forall_impl. intros k H. apply H.
  Qed.
  Lemma groupOK_all l st : Forall (fun c => allInv c st) (lgroup l) -> forall c, groupOK c l st.
  Proof.
    intros H. assert (N : invNs (lgroup l) st).
    { unfold PRender2.invNs. revert H. apply Forall_impl. intros k H. apply H. }
    assert (C : forall x, invCs (lgroup l) x st).
    { clear N. induction H as [|k ks H _ IH]; intros x; [exact I|]. split; [apply H|apply IH]. }
    intros [[b op]|]; unfold PRender2.groupOK; [|exact N]. destruct (if lbce (latt l) then _ else _); [apply C|exact N].
  Qed.

  Lemma inv_nonPT l st c c' : isPT (latt l) = false -> inv c l st -> inv c' l st.
  Proof. intros E. rewrite !inv_eq. unfold PRender2.inner. rewrite E. auto. Qed.

  (** A child that the parent does not draw has no context *)
  Lemma inert_kid k st f g buf buf' : sees0 f -> sees0 g -> areaKid k = false -> inArea k = true ->
    (kidInv (Some (buf, f (lopa (latt k)))) k st -> kidInv (Some (buf', g (lopa (latt k)))) k st) /\
    (kidInv (Some (buf, f (lopa (latt k)))) k st -> kidInv None k st) /\
    (kidInv None k st -> kidInv (Some (buf', g (lopa (latt k)))) k st).
  Proof.
    intros Hf Hg A I. unfold areaKid in A. rewrite I, andb_true_r in A. unfold PRender2.kidInv. destruct (lclipping (latt k)) eqn:Ec; [tauto|].
    cbn [negb] in A. rewrite andb_true_r in A.
    assert (N : isPT (latt k) = true -> forall b h, sees0 h -> inner (latt k) (Some (b, h (lopa (latt k)))) = None).
    { intros E b h H0. unfold PRender2.inner. rewrite E. destruct (lvis (latt k)); [|reflexivity]. cbn [andb] in *.
      destruct (lopa (latt k) =? 0) eqn:Eo; [|discriminate]. apply Z.eqb_eq in Eo. rewrite Eo, H0. reflexivity. }
    destruct (isPT (latt k)) eqn:E.
    - rewrite !inv_eq, !N by auto. replace (inner (latt k) None) with (@None (img * Z)) by (unfold PRender2.inner; now rewrite E). tauto.
    - repeat split; now apply inv_nonPT.
  Qed.

  Lemma unseen_kids f ks st : sees0 f -> existsb areaKid ks = false ->
    (forall k, In k ks -> inArea k = false -> forall c c', inv c k st -> inv c' k st) ->
    (forall buf g buf', sees0 g -> invKs f ks buf st -> invKs g ks buf' st) /\
    (forall buf, invKs f ks buf st -> invDs ks st) /\ (forall buf, invDs ks st -> invKs f ks buf st).
  Proof.
    intros Hf. unfold PRender2.invDs. induction ks as [|k ks IH]; cbn [existsb]; intros HA HI.
    - repeat split; auto.
    - apply orb_false_iff in HA. destruct HA as [A1 A2]. destruct (IH A2) as (J1 & J2 & J3); [intros x Hx; apply HI; now right|].
      assert (K : (forall buf g buf', sees0 g -> kidInv (Some (buf, f (lopa (latt k)))) k st -> kidInv (Some (buf', g (lopa (latt k)))) k st) /\
                  (forall buf, kidInv (Some (buf, f (lopa (latt k)))) k st -> kidInv None k st) /\
                  (forall buf', kidInv None k st -> kidInv (Some (buf', f (lopa (latt k)))) k st)).
      { destruct (inArea k) eqn:Ek.
        - split; [|split].
          + intros buf g buf' Hg. exact (proj1 (inert_kid k st f g buf buf' Hf Hg A1 Ek)).
          + intros buf. exact (proj1 (proj2 (inert_kid k st f f buf buf Hf Hf A1 Ek))).
          + intros buf. exact (proj2 (proj2 (inert_kid k st f f buf buf Hf Hf A1 Ek))).
        - unfold PRender2.kidInv. destruct (lclipping (latt k)); [tauto|].
          assert (X : forall c c', inv c k st -> inv c' k st) by (apply HI; [now left|exact Ek]).
          split; [|split]; intros; eapply X; eassumption. }
      destruct K as (K1 & K2 & K3). split; [|split].
      + intros buf g buf' Hg [H1 H2]. split; [eapply K1; eauto|eapply J1; eauto].
      + intros buf [H1 H2]. constructor; eauto.
      + intros buf H. apply Forall_cons_iff in H. split; [apply K3|apply J3]; tauto.
  Qed.

  Lemma inArea_attr a a' ks cs cs' : lseq a' = lseq a -> inArea (Lay a' ks cs') = inArea (Lay a ks cs).
  Proof. intros E. unfold MRender.inArea. cbn [latt lkids]. rewrite E. destruct ks; reflexivity. Qed.

  (** An unseen layer is valid in every context and with any attributes *)
  Lemma unseen_inv l : lwf l -> inArea l = false -> forall a' c c' st, lseq a' = lseq (latt l) -> lwf (Lay a' (lkids l) (lgroup l)) ->
    inv c l st -> inv c' (Lay a' (lkids l) (lgroup l)) st.
  Proof.
    induction l as [a ks cs Hk Hc] using layer_rec'. intros W HA a' c c' st Es W' H. cbn [latt lkids lgroup] in *.
    pose proof (inArea_attr a a' ks cs cs Es) as HA'. rewrite HA in HA'.
    rewrite inv_eq in *. destruct H as (H1 & H2 & H3). cbn [latt] in H1, H2, H3 |- *. split; [|split].
    - destruct H1 as [H1|H1]; [now left|right]. cbn [latt] in *. rewrite Es.
      destruct (ent st (lseq a)) as [e|]; [|exact I].
      assert (e = None).
      { destruct (inner a c) as [[b op]|]; [now rewrite (body_none _ W HA) in H1|tauto]. }
      subst e. destruct (inner a' c') as [[b op]|]; [now rewrite (body_none _ W' HA')|auto].
    - destruct ks as [|k ks]; [destruct (inner a' c') as [[b op]|]; [exact I|constructor]|].
      rewrite inArea_folder in HA by (auto; discriminate). cbn [lkids] in HA. set (kk := k :: ks) in *.
      assert (U : forall k, In k kk -> inArea k = false -> forall c c', inv c k st -> inv c' k st).
      { intros x Hx Ax d d' Hd. rewrite Forall_forall in Hk.
        assert (Wx : lwf x). { inversion W as [? ? ? ? ? ? ? Wk]; subst. rewrite Forall_forall in Wk. auto. }
        specialize (Hk x Hx Wx Ax (latt x) d d' st eq_refl). destruct x as [ax kx cx]. cbn [latt lkids lgroup] in Hk. auto. }
      unfold PRender2.kidsOK in *. cbn [latt lkids] in *.
      destruct (inner a c) as [[b op]|], (inner a' c') as [[b' op']|].
      + destruct (unseen_kids (kidOp a op) kk st (kidOp_0 a op) HA U) as (J & _ & _). eapply J; [apply kidOp_0|exact H2].
      + destruct (unseen_kids (kidOp a op) kk st (kidOp_0 a op) HA U) as (_ & J & _). eapply J; exact H2.
      + destruct (unseen_kids (kidOp a' op') kk st (kidOp_0 a' op') HA U) as (_ & _ & J). now apply J.
      + exact H2.
    - assert (N : invNs cs st).
      { unfold PRender2.groupOK in H3. cbn [latt lgroup] in H3. destruct (inner a c) as [[b op]|]; [|exact H3].
        rewrite (pre_none _ W HA) in H3. now destruct (lbce a). }
      unfold PRender2.groupOK. cbn [latt lgroup]. destruct (inner a' c') as [[b op]|]; [|exact N].
      rewrite (pre_none _ W' HA'). now destruct (lbce a').
  Qed.

  Lemma lwf_in_kids l k : lwf l -> In k (lkids l) -> lwf k.
  Proof. intros W I. inversion W as [? ? ? ? ? ? ? Wk]; subst. rewrite Forall_forall in Wk. auto. Qed.
  Lemma lwf_in_group l c : lwf l -> In c (lgroup l) -> lwf c.
  Proof. intros W I. inversion W as [? ? ? ? ? ? ? ? Wc]; subst. rewrite Forall_forall in Wc. auto. Qed.
  Lemma lwf_group_nil l c : lwf l -> In c (lgroup l) -> lgroup c = [].
  Proof. intros W I. inversion W as [? ? ? ? ? ? HG]; subst. auto. Qed.
  Lemma lwf_orphan l k : lwf l -> In k (lkids l) -> lclipping (latt k) = true -> lgroup k = [].
  Proof. intros W I. inversion W as [? ? ? ? ? HO]; subst. auto. Qed.
  Lemma lwf_layerAt p : forall l t, lwf l -> layerAt l p = Some t -> lwf t.
  Proof.
    induction p as [|s p IH]; intros l t W; [intros [= <-]; exact W|]. rewrite layerAt_cons.
    destruct (child l s) as [c|] eqn:Ec; [|discriminate]. apply IH. unfold child in Ec.
    destruct (nth_error (lkids l) (fst s)) as [k|] eqn:Ek; [|discriminate]. apply nth_error_In in Ek.
    destruct (snd s) as [j|]; [|injection Ec as <-; eapply lwf_in_kids; eassumption].
    apply nth_error_In in Ec. eapply lwf_in_group; [|exact Ec]. eapply lwf_in_kids; eassumption.
  Qed.

  (** * Changes that are not seen at the point *)
  Section quiet.
    Variable st : tstate.
    (** As children, as members of a group, and as layers [k'] is as good as [k] *)
    Definition WK (k k' : layer) : Prop :=
      seqs k' = seqs k /\ lclipping (latt k') = lclipping (latt k) /\
      (forall f buf, sees0 f -> kidP f k' buf = kidP f k buf) /\ areaKid k' = areaKid k /\
      (forall f buf, sees0 f -> kidInv (Some (buf, f (lopa (latt k)))) k st -> kidInv (Some (buf, f (lopa (latt k')))) k' st) /\
      (kidInv None k st -> kidInv None k' st).
    Definition WC (k k' : layer) : Prop :=
      (forall x, clipP k' x = clipP k x) /\
      (forall x, inv (Some (x, lopa (latt k))) k st -> inv (Some (x, lopa (latt k'))) k' st) /\ (inv None k st -> inv None k' st).
    Definition WS (l l' : layer) : Prop :=
      seqs l' = seqs l /\ latt l' = latt l /\ (forall b op, body l' b op = body l b op) /\ inArea l' = inArea l /\
      (forall c, inv c l st -> inv c l' st).
    Lemma absent_seqs l l' : seqs l' = seqs l -> absent l st -> absent l' st.
    Proof. intros E H s. rewrite E. apply H. Qed.
    Lemma WS_WK l l' : WS l l' -> WK l l'.
    Proof.
      intros (E1 & E2 & E3 & E4 & E5). unfold WK. rewrite E2. split; [exact E1|]. split; [reflexivity|]. split; [|split; [|split]].
      - intros f buf _. unfold SRender.kidP. rewrite E2, E3. reflexivity.
      - unfold areaKid. rewrite E2, E4. reflexivity.
      - intros f buf _. unfold PRender2.kidInv. rewrite E2. destruct (lclipping (latt l)); [now apply absent_seqs|apply E5].
      - unfold PRender2.kidInv. rewrite E2. destruct (lclipping (latt l)); [now apply absent_seqs|apply E5].
    Qed.
    Lemma WS_WC l l' : WS l l' -> WC l l'.
    Proof.
      intros (E1 & E2 & E3 & E4 & E5). unfold WC. rewrite E2. split; [|split; [intros x|]; apply E5].
      intros x. unfold SRender.clipP. rewrite E2, E3. reflexivity.
    Qed.
    Lemma WK_orphan k k' : seqs k' = seqs k -> lclipping (latt k') = true -> lclipping (latt k) = true -> WK k k'.
    Proof.
      intros E1 E2 E3. unfold WK, SRender.kidP, areaKid, PRender2.kidInv. rewrite E2, E3, !andb_false_r. split; [exact E1|].
      split; [reflexivity|]. split; [reflexivity|]. split; [reflexivity|]. split; [intros _ _ _|]; now apply absent_seqs.
    Qed.
    Lemma dr1_none a b op : @dr1 img copyT blendOf a None b op = (b, false).
    Proof. unfold dr1. now destruct (negb (lvis a) || (op =? 0)). Qed.
    Lemma W_unseen l a' : lwf l -> inArea l = false -> same_but (latt l) a' -> lwf (Lay a' (lkids l) (lgroup l)) ->
      WK l (Lay a' (lkids l) (lgroup l)) /\ WC l (Lay a' (lkids l) (lgroup l)).
    Proof.
      intros W HA [Es Ec] W'.
      assert (HA' : inArea (Lay a' (lkids l) (lgroup l)) = false).
      { rewrite <- HA. destruct l as [a ks cs]. now apply inArea_attr. }
      assert (Q : seqs (Lay a' (lkids l) (lgroup l)) = seqs l) by (destruct l as [a ks cs]; cbn in *; now rewrite Es).
      assert (X : forall c c', inv c l st -> inv c' (Lay a' (lkids l) (lgroup l)) st) by (intros c c'; now apply unseen_inv).
      split.
      - unfold WK. split; [exact Q|]. cbn [latt]. split; [exact Ec|]. split; [|split; [|split]].
        + intros f buf _. unfold SRender.kidP. rewrite !(body_none _ W' HA'), !(body_none _ W HA), !dr1_none.
          now destruct (lclipping _), (lclipping _).
        + unfold areaKid. rewrite HA, HA', !andb_false_r. reflexivity.
        + intros f buf _. unfold PRender2.kidInv. cbn [latt]. rewrite Ec. destruct (lclipping (latt l)); [now apply absent_seqs|apply X].
        + unfold PRender2.kidInv. cbn [latt]. rewrite Ec. destruct (lclipping (latt l)); [now apply absent_seqs|apply X].
      - unfold WC. split; [|split; [intros x|]; apply X].
        intros x. unfold SRender.clipP. rewrite !(body_none _ W' HA'), !(body_none _ W HA), !dr1_none. reflexivity.
    Qed.

    Lemma drawsP_W f l1 k k' l2 : sees0 f -> WK k k' -> forall buf drew, drawsP f (l1 ++ k' :: l2) buf drew = drawsP f (l1 ++ k :: l2) buf drew.
    Proof.
      intros Hf (_ & _ & H & _). induction l1 as [|x l1 IH]; intros buf drew; cbn [app SRender.drawsP]; [rewrite H by exact Hf; reflexivity|apply IH].
    Qed.
    Lemma invKs_W f l1 k k' l2 : sees0 f -> WK k k' -> forall buf, invKs f (l1 ++ k :: l2) buf st -> invKs f (l1 ++ k' :: l2) buf st.
    Proof.
      intros Hf (_ & _ & H1 & _ & H2 & _). induction l1 as [|x l1 IH]; intros buf; cbn [app PRender2.invKs].
      - rewrite H1 by exact Hf. intros [A B]. split; [now apply H2|exact B].
      - intros [A B]. split; [exact A|now apply IH].
    Qed.
    Lemma WS_kid a cs l1 k k' l2 : WK k k' -> WS (Lay a (l1 ++ k :: l2) cs) (Lay a (l1 ++ k' :: l2) cs).
    Proof.
      intros W. pose proof W as (W1 & W2 & W3 & W4 & W5 & W6).
      assert (N : forall x, isNil (l1 ++ x :: l2) = false) by (intros x; now destruct l1).
      assert (P : forall b op, pre (Lay a (l1 ++ k' :: l2) cs) b op = pre (Lay a (l1 ++ k :: l2) cs) b op).
      { intros b op. unfold SRender.pre. rewrite !N, (drawsP_W _ _ _ _ _ (kidOp_0 a op) W). reflexivity. }
      assert (B : forall b op, body (Lay a (l1 ++ k' :: l2) cs) b op = body (Lay a (l1 ++ k :: l2) cs) b op).
      { intros b op. rewrite !body_eq, P. reflexivity. }
      assert (A : inArea (Lay a (l1 ++ k' :: l2) cs) = inArea (Lay a (l1 ++ k :: l2) cs)).
      { unfold MRender.inArea. cbn [latt lkids]. destruct (hasCanvas (lseq a)); [reflexivity|]. rewrite !areaRec_eq. cbn [lkids].
        rewrite !existsb_app. cbn [existsb]. rewrite W4. now destruct l1. }
      unfold WS. split; [|split; [reflexivity|split; [exact B|split; [exact A|]]]].
      - cbn [seqs]. rewrite (flat_map_mid seqs l1 k' k l2 W1). reflexivity.
      - intros c. rewrite !inv_eq. cbn [latt]. intros (H1 & H2 & H3). split; [|split].
        + destruct H1 as [H1|H1]; [cbn [lkids] in H1; now rewrite N in H1|right]. cbn [latt] in *.
          destruct (ent st (lseq a)); [|exact I]. destruct (inner a c) as [[b op]|]; [now rewrite B|now rewrite A].
        + unfold PRender2.kidsOK in *. cbn [latt lkids] in *. destruct (inner a c) as [[b op]|].
          * eapply invKs_W; [apply kidOp_0|exact W|exact H2].
          * unfold PRender2.invDs in *. rewrite Forall_app, Forall_cons_iff in *. tauto.
        + unfold PRender2.groupOK in *. cbn [latt lgroup] in *. destruct (inner a c) as [[b op]|]; [|exact H3]. now rewrite P.
    Qed.
    Lemma clipsP_W g1 c c' g2 : WC c c' -> forall x, clipsP (g1 ++ c' :: g2) x = clipsP (g1 ++ c :: g2) x.
    Proof. intros (H & _). induction g1 as [|y g1 IH]; intros x; cbn [app SRender.clipsP]; [now rewrite H|apply IH]. Qed.
    Lemma invCs_W g1 c c' g2 : WC c c' -> forall x, invCs (g1 ++ c :: g2) x st -> invCs (g1 ++ c' :: g2) x st.
    Proof.
      intros (H1 & H2 & _). induction g1 as [|y g1 IH]; intros x; cbn [app PRender2.invCs].
      - rewrite H1. intros [A B]. split; [now apply H2|exact B].
      - intros [A B]. split; [exact A|now apply IH].
    Qed.
    Lemma WS_group a ks g1 c c' g2 : seqs c' = seqs c -> WC c c' -> WS (Lay a ks (g1 ++ c :: g2)) (Lay a ks (g1 ++ c' :: g2)).
    Proof.
      intros W0 W. pose proof W as (W1 & W2 & W3).
      assert (G : forall m, grp a (g1 ++ c' :: g2) m = grp a (g1 ++ c :: g2) m).
      { intros m. unfold SRender.grp. rewrite (clipsP_W _ _ _ _ W). now destruct g1. }
      assert (P : forall b op, pre (Lay a ks (g1 ++ c' :: g2)) b op = pre (Lay a ks (g1 ++ c :: g2)) b op) by reflexivity.
      assert (B : forall b op, body (Lay a ks (g1 ++ c' :: g2)) b op = body (Lay a ks (g1 ++ c :: g2)) b op).
      { intros b op. rewrite !body_eq, P. cbn [latt lgroup]. destruct (pre _ b op); [|reflexivity]. cbn [option_map]. now rewrite G. }
      assert (A : inArea (Lay a ks (g1 ++ c' :: g2)) = inArea (Lay a ks (g1 ++ c :: g2))).
      { now apply inArea_attr. }
      unfold WS. split; [|split; [reflexivity|split; [exact B|split; [exact A|]]]].
      - cbn [seqs]. rewrite (flat_map_mid seqs g1 c' c g2 W0). reflexivity.
      - intros d. rewrite !inv_eq. cbn [latt]. intros (H1 & H2 & H3). split; [|split].
        + destruct H1 as [H1|H1]; [now left|right]. cbn [latt] in *.
          destruct (ent st (lseq a)); [|exact I]. destruct (inner a d) as [[b op]|]; [now rewrite B|now rewrite A].
        + exact H2.
        + unfold PRender2.groupOK in *. cbn [latt lgroup] in *.
          assert (N : invNs (g1 ++ c :: g2) st -> invNs (g1 ++ c' :: g2) st).
          { unfold PRender2.invNs. rewrite !Forall_app, !Forall_cons_iff. tauto. }
          destruct (inner a d) as [[b op]|]; [|now apply N]. rewrite P. destruct (if lbce a then _ else _); [now apply (invCs_W g1 c c' g2)|now apply N].
    Qed.
  End quiet.

  (** * Changes that are seen *)
  Section loud.
    Variable st st' : tstate.
    Variable D : list Z.
    Hypothesis some_deleted : forall s, ent st' s = ent st s \/ ent st' s = None.
    Hypothesis deleted : forall s, In s D -> ent st' s = None.
    Lemma less S : fewer S st st'.
    Proof. intros s _. apply some_deleted. Qed.
    Definition covered (l : layer) : Prop :=
      (isPT (latt l) = true -> incl (dirtyPT l) D) /\ (forall c, In c (lgroup l) -> isPT (latt c) = true -> incl (dirtyPT c) D).
    Lemma entryOK_deleted c l : In (lseq (latt l)) D -> entryOK c l st'.
    Proof. intros H. right. now rewrite (deleted _ H). Qed.
    Lemma dirtyPT_self l : In (lseq (latt l)) (dirtyPT l).
    Proof. destruct l. now left. Qed.
    Lemma covered_sibs l : incl (dirtySibs l) D -> forall k, In k (lkids l) -> covered k.
    Proof.
      intros H k I. split.
      - intros E x Hx. apply H. unfold dirtySibs. apply in_flat_map. exists k. split; [exact I|]. rewrite E. apply in_app_iff. now left.
      - intros c Ic E x Hx. apply H. unfold dirtySibs. apply in_flat_map. exists k. split; [exact I|]. apply in_app_iff. right.
        apply in_flat_map. exists c. split; [exact Ic|]. now rewrite E.
    Qed.
    Lemma covered_PT l : incl (dirtyPT l) D -> incl (dirtySibs l) D.
    Proof.
      intros H x Hx. apply H. destruct l as [a ks cs]. cbn [dirtyPT]. right. unfold dirtySibs in Hx. cbn [lkids] in Hx.
      apply in_flat_map in Hx. destruct Hx as (k & I & Hx). apply in_flat_map. exists k. split; [exact I|]. destruct k as [b kk cc]. exact Hx.
    Qed.
    Lemma covered_member l c : lwf l -> covered l -> In c (lgroup l) -> covered c.
    Proof.
      intros W [_ H] I. split; [now apply H|]. rewrite (lwf_group_nil _ _ W I). intros x [].
    Qed.

    Lemma recontext l : lwf l -> covered l -> someInv l st -> allInv l st'.
    Proof.
      induction l as [a ks cs Hk Hc] using layer_rec'. intros W C [c0 H]. destruct (isPT (latt (Lay a ks cs))) eqn:E.
      - pose proof (proj1 C E) as CP. rewrite inv_eq in H. destruct H as (_ & H2 & H3).
        intros c. rewrite inv_eq. split; [|split].
        + apply entryOK_deleted. apply CP, dirtyPT_self.
        + apply kidsOK_all. apply kidsOK_some in H2. cbn [lkids] in *. rewrite Forall_forall in *. intros k Ik d.
          specialize (H2 k Ik). unfold someKid, PRender2.kidInv in *. destruct (lclipping (latt k)).
          * revert H2. apply absent_fewer, less.
          * apply (Hk k Ik (lwf_in_kids _ _ W Ik)); [|exact H2]. apply (covered_sibs _ (covered_PT _ CP)). exact Ik.
        + apply groupOK_all. apply groupOK_some in H3. cbn [lgroup] in *. rewrite Forall_forall in *. intros k Ik.
          apply (Hc k Ik (lwf_in_group _ _ W Ik)); [|apply H3; exact Ik]. exact (covered_member _ _ W C Ik).
      - intros c. apply (inv_nonPT _ _ c0 c E). revert H. apply inv_fewer, less.
    Qed.
    Lemma recontext_kid k : lwf k -> covered k -> someKid k st -> allKid k st'.
    Proof.
      intros W C H c. unfold someKid, PRender2.kidInv in *. destruct (lclipping (latt k)); [revert H; apply absent_fewer, less|now apply recontext].
    Qed.
    Lemma recontext_group l : lwf l -> covered l -> Forall (fun c => someInv c st) (lgroup l) -> Forall (fun c => allInv c st') (lgroup l).
    Proof.
      intros W C H. rewrite Forall_forall in *. intros c I. apply recontext; [eapply lwf_in_group; eassumption|eapply covered_member; eassumption|auto].
    Qed.

    Lemma dirty_cons l s p : dirty false l (s :: p) =
        match child l s with
        | None => ([], false)
        | Some c =>
            let '(d, up) := dirty false c p in
            if up then
              let d := match snd s, nth_error (lkids l) (fst s) with Some _, Some k => d ++ [lseq (latt k)] | _, _ => d end in
              let orphan := match snd s, nth_error (lkids l) (fst s) with
                            | None, _ => lclipping (latt c) | Some _, Some k => lclipping (latt k) | Some _, None => true end in
              if orphan || false then (d, false) else (d ++ dirtySibs l ++ [lseq (latt l)], true)
            else (d, false)
        end.
    Proof. reflexivity. Qed.
  End loud.
End render.
