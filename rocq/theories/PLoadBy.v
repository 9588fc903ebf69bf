(** Facts about the loader with a transformation (MLoadBy). *)
From Coq Require Import Permutation.
From Verif Require Import Base BaseFacts MRect MThumb MSched PSched MBlend MDraw MWait PWait MTile STile PTile MLoad SLoad PLoad MScale MLoadBy.
Open Scope Z_scope.

(** * What is done with one layer *)
Section layer.
  Variables (rnd : QArith_base.Q -> QArith_base.Q) (lib : library) (cpus : nat) (ts : Z) (mm : aff) (gt : option gammaTable).
  Notation canvasOf := (canvasOfBy rnd lib cpus ts mm gt).
  Notation maskOf := (maskOfBy rnd lib cpus ts mm).
  (** The worker has finishedBy the layer [l]: the new layer and the image *)
  Definition finishedBy (l l' : player) (c : option (tilemap px)) (m : option (tilemap Z)) : Prop := exists l1, canvasOf l l1 c /\ maskOf l1 l' m.
  (** A copy of the layer at some time *)
  Definition stageBy (l l' : player) : Prop :=
    l' = l \/ (exists c, canvasOf l l' c) \/ (exists c m, finishedBy l l' c m).

  Lemma canvasOf_sameBy l l' c : canvasOf l l' c -> l' = setRect l (prect l').
  Proof.
    unfold canvasOfBy. destruct (hasImage l && negb (rempty (prect l))).
    - intros (m & r & _ & _ & _ & ->). reflexivity.
    - intros [_ ->]. now destruct l.
  Qed.
  Lemma maskOf_sameBy l l' c : maskOf l l' c -> l' = setMaskRect l (pmrect l').
  Proof.
    unfold maskOfBy. destruct (negb (rempty (pmrect l))).
    - destruct (pmchan l).
      + intros (m & r & _ & _ & _ & ->). reflexivity.
      + intros [_ ->]. now destruct l.
    - intros [_ ->]. now destruct l.
  Qed.
  Lemma canvasOf_seqBy l l' c : canvasOf l l' c -> pseq l' = pseq l.
  Proof. intros H. now rewrite (canvasOf_sameBy _ _ _ H). Qed.
  Lemma maskOf_seqBy l l' c : maskOf l l' c -> pseq l' = pseq l.
  Proof. intros H. now rewrite (maskOf_sameBy _ _ _ H). Qed.
  Lemma maskOf_setRectBy l r l' m : maskOf (setRect l r) l' m -> maskOf l (setRect l' (prect l)) m /\ prect l' = r.
  Proof.
    unfold maskOfBy. cbn [pmrect pmchan pmdc setRect]. destruct (negb (rempty (pmrect l))).
    - destruct (pmchan l).
      + intros (m' & r' & B & T & -> & ->). split; [|reflexivity]. exists m', r'. auto.
      + intros [-> ->]. split; [|reflexivity]. split; [reflexivity|now destruct l].
    - intros [-> ->]. split; [|reflexivity]. split; [reflexivity|now destruct l].
  Qed.
  Lemma stage_sameBy l l' : stageBy l l' -> sameButRects l l'.
  Proof.
    unfold sameButRects. intros [->|[[c H]|(c & m & l1 & H1 & H2)]].
    - now destruct l.
    - rewrite (canvasOf_sameBy _ _ _ H). now destruct l, l'.
    - rewrite (maskOf_sameBy _ _ _ H2), (canvasOf_sameBy _ _ _ H1). now destruct l, l1, l'.
  Qed.
End layer.

(** * The invariant *)
Section inv.
  Variables (rnd : QArith_base.Q -> QArith_base.Q) (lib : library) (cpus : nat) (ts : Z) (mm : aff) (gt : option gammaTable).
  Variable ls0 : list player.
  Hypothesis Hseq : NoDup (map pseq ls0).
  Notation finished := (finishedBy rnd lib cpus ts mm gt).
  Notation stage := (stageBy rnd lib cpus ts mm gt).

  Definition statusBy (n : nat) (js : list job) (ims : list (Z * limage)) (i : nat) (l0 l : player) : Prop :=
    ((n <= i)%nat /\ l = l0) \/ (In (JCanvas i) js /\ l = l0) \/
    (exists c, In (JMask i c) js /\ canvasOfBy rnd lib cpus ts mm gt l0 l c) \/
    (exists c m, In (JStore i (LI c m)) js /\ finished l0 l c m) \/
    (exists c m, ((i < n)%nat /\ (forall j, In j js -> jidx j <> i) /\ m_get Z.eqb ims (pseq l0) = Some (LI c m)) /\ finished l0 l c m).
  Lemma status_stageBy n js ims i l0 l : statusBy n js ims i l0 l -> stage l0 l.
  Proof.
    intros [[_ ->]|[[_ ->]|[(c & _ & H)|[(c & m & _ & H)|(c & m & _ & H)]]]].
    - now left.
    - now left.
    - right. left. eauto.
    - right. right. eauto.
    - right. right. eauto.
  Qed.

  Record InvBy (st : loader) : Prop := {
    inv_lenBy : length (ldLayers st) = length ls0;
    inv_nodupBy : NoDup (map jidx (ldBusy st));
    inv_ltBy : forall j, In j (ldBusy st) -> (jidx j < ldSent st)%nat;
    inv_statusBy : forall i l0, nth_error ls0 i = Some l0 -> exists l, nth_error (ldLayers st) i = Some l /\ statusBy (ldSent st) (ldBusy st) (ldImages st) i l0 l;
    inv_domBy : forall q li, m_get Z.eqb (ldImages st) q = Some li -> exists i l0, nth_error ls0 i = Some l0 /\ pseq l0 = q;
    inv_copiedBy : forall i l, nth_error (ldCopied st) i = Some l -> exists l0, nth_error ls0 i = Some l0 /\ stage l0 l }.



  (** The statusBy of the layer whose job is [j] *)
  Lemma status_jobBy n j1 j2 j ims i l0 l : NoDup (map jidx (j1 ++ j :: j2)) -> (forall j', In j' (j1 ++ j :: j2) -> (jidx j' < n)%nat) ->
    jidx j = i -> statusBy n (j1 ++ j :: j2) ims i l0 l ->
    match j with
    | JCanvas _ => l = l0
    | JMask _ c => canvasOfBy rnd lib cpus ts mm gt l0 l c
    | JStore _ (LI c m) => finished l0 l c m
    end.
  Proof.
    intros D L E [[H _]|[[H X]|[(c & H & X)|[(c & m & H & X)|(c & m & H & X)]]]].
    - specialize (L j (in_elt _ _ _)). lia.
    - assert (JCanvas i = j) as <- by (apply (jobs_same j1 j2); auto). exact X.
    - assert (JMask i c = j) as <- by (apply (jobs_same j1 j2); auto). exact X.
    - assert (JStore i (LI c m) = j) as <- by (apply (jobs_same j1 j2); auto). exact X.
    - destruct H as (_ & H & _). exfalso. apply (H j); [apply in_elt|exact E].
  Qed.
  (** The statusBy of another layer *)
  Lemma status_otherBy n j1 j2 j ims js' i l0 l : NoDup (map jidx (j1 ++ j :: j2)) -> jidx j <> i ->
    (forall j', In j' (j1 ++ j2) -> In j' js') -> (forall j', In j' js' -> In j' (j1 ++ j2) \/ jidx j' = jidx j) ->
    statusBy n (j1 ++ j :: j2) ims i l0 l -> statusBy n js' ims i l0 l.
  Proof.
    intros D N S S' [H|[[H X]|[(c & H & X)|[(c & m & H & X)|(c & m & H & X)]]]].
    - now left.
    - right. left. split; [|exact X]. apply S. apply (jobs_other j1 j2 j (JCanvas i) i D H eq_refl). congruence.
    - right. right. left. exists c. split; [|exact X]. apply S. apply (jobs_other j1 j2 j (JMask i c) i D H eq_refl). congruence.
    - right. right. right. left. exists c, m. split; [|exact X]. apply S. apply (jobs_other j1 j2 j _ i D H eq_refl). congruence.
    - right. right. right. right. exists c, m. split; [|exact X]. destruct H as (H1 & H2 & H3). split; [exact H1|]. split; [|exact H3].
      intros j' Hj. destruct (S' j' Hj) as [Hj'|Hj']; [|congruence]. apply H2. now apply in_weaken.
  Qed.

  Lemma inv_startBy : InvBy (lstart ls0).
  Proof.
    split; cbn; try easy.
    - constructor.
    - intros i l0 H. exists l0. split; [exact H|]. left. split; [lia|reflexivity].
    - intros [|i] l H; discriminate.
  Qed.


  Lemma inv_stepBy st st' : InvBy st -> lstepBy rnd lib cpus ts mm gt st st' -> InvBy st'.
  Proof.
    intros [I1 I2 I3 I4 I5 I6] Hs. destruct Hs as [ls n js ims cs Hn Hc|ls n j1 i j2 ims cs l l' c Hl Ho|ls n j1 i c j2 ims cs l l' m Hl Ho|ls n j1 i ld j2 ims cs l Hl|ls js ims cs l Hl];
      cbn [ldLayers ldSent ldBusy ldImages ldCopied] in *.
    - split; cbn [ldLayers ldSent ldBusy ldImages ldCopied]; try assumption.
      + rewrite map_app. cbn [map jidx]. eapply Permutation_NoDup; [apply Permutation_cons_append|]. constructor; [|exact I2].
        intros H. apply in_map_iff in H. destruct H as (j & E & H). apply I3 in H. lia.
      + intros j Hj. apply in_app_or in Hj. destruct Hj as [Hj|[<-|[]]]; [apply I3 in Hj; lia|cbn; lia].
      + intros k l0 Hk. destruct (I4 k l0 Hk) as (l & Hl & S). exists l. split; [exact Hl|].
        destruct S as [[H X]|[[H X]|[(c & H & X)|[(c & m & H & X)|(c & m & H & X)]]]].
        * destruct (Nat.eq_dec k n) as [->|N]; [right; left; split; [apply in_elt|exact X]|left; split; [lia|exact X]].
        * right. left. split; [apply in_or_app; now left|exact X].
        * right. right. left. exists c. split; [apply in_or_app; now left|exact X].
        * right. right. right. left. exists c, m. split; [apply in_or_app; now left|exact X].
        * right. right. right. right. exists c, m. split; [|exact X]. destruct H as (H1 & H2 & H3). split; [lia|]. split; [|exact H3].
          intros j Hj. apply in_app_or in Hj. destruct Hj as [Hj|[<-|[]]]; [now apply H2|cbn; lia].
    - split; cbn [ldLayers ldSent ldBusy ldImages ldCopied]; try assumption.
      + now rewrite length_setNth.
      + exact (jobs_replace _ _ (JCanvas i) (JMask i c) eq_refl I2).
      + intros j Hj. apply in_replace in Hj. destruct Hj as [Hj| ->]; [apply I3; now apply in_weaken|]. exact (I3 _ (in_elt (JCanvas i) j1 j2)).
      + intros k l0 Hk. destruct (I4 k l0 Hk) as (lk & Hlk & S). rewrite nth_setNth. destruct (Nat.eqb_spec i k) as [<-|N].
        * rewrite Hl. exists l'. split; [reflexivity|]. rewrite Hl in Hlk. injection Hlk as <-.
          apply (status_jobBy n j1 j2 (JCanvas i)) in S; [|assumption|assumption|reflexivity]. cbn in S. subst l0.
          right. right. left. exists c. split; [apply in_elt|exact Ho].
        * exists lk. split; [exact Hlk|]. apply (status_otherBy n j1 j2 (JCanvas i) ims) ; [assumption|exact N|intros j; apply in_weaken| |exact S].
          intros j Hj. apply in_replace in Hj. destruct Hj as [Hj| ->]; [now left|now right].
    - split; cbn [ldLayers ldSent ldBusy ldImages ldCopied]; try assumption.
      + now rewrite length_setNth.
      + exact (jobs_replace _ _ (JMask i c) (JStore i (LI c m)) eq_refl I2).
      + intros j Hj. apply in_replace in Hj. destruct Hj as [Hj| ->]; [apply I3; now apply in_weaken|]. exact (I3 _ (in_elt (JMask i c) j1 j2)).
      + intros k l0 Hk. destruct (I4 k l0 Hk) as (lk & Hlk & S). rewrite nth_setNth. destruct (Nat.eqb_spec i k) as [<-|N].
        * rewrite Hl. exists l'. split; [reflexivity|]. rewrite Hl in Hlk. injection Hlk as <-.
          apply (status_jobBy n j1 j2 (JMask i c)) in S; [|assumption|assumption|reflexivity]. cbn in S.
          right. right. right. left. exists c, m. split; [apply in_elt|]. exists l. auto.
        * exists lk. split; [exact Hlk|]. apply (status_otherBy n j1 j2 (JMask i c) ims); [assumption|exact N|intros j; apply in_weaken| |exact S].
          intros j Hj. apply in_replace in Hj. destruct Hj as [Hj| ->]; [now left|now right].
    - assert (exists l0, nth_error ls0 i = Some l0) as [l0 Hl0].
      { destruct (nth_error ls0 i) eqn:E; [eauto|]. apply nth_error_None in E. rewrite <- I1 in E. apply nth_error_None in E. congruence. }
      destruct (I4 i l0 Hl0) as (li & Hli & S0). rewrite Hl in Hli. injection Hli as <-. assert (S1 := S0).
      apply (status_jobBy n j1 j2 (JStore i ld)) in S1; [|assumption|assumption|reflexivity]. destruct ld as [c m].
      assert (pseq l = pseq l0) as Es. { apply status_stageBy, stage_sameBy in S0. now rewrite S0. }
      assert (NoDup (map jidx (j1 ++ j2)) /\ ~ In i (map jidx (j1 ++ j2))) as [D1 D2].
      { rewrite map_app in *. cbn [map jidx] in I2. split; [now apply NoDup_remove_1 in I2|now apply NoDup_remove_2 in I2]. }
      assert (forall j, In j (j1 ++ j2) -> jidx j <> i) as D3. { intros j Hj E. apply D2. rewrite <- E. now apply in_map. }
      split; cbn [ldLayers ldSent ldBusy ldImages ldCopied]; try assumption.
      + intros j Hj. apply I3. now apply in_weaken.
      + intros k lk0 Hk. destruct (I4 k lk0 Hk) as (lk & Hlk & S). exists lk. split; [exact Hlk|]. destruct (Nat.eq_dec i k) as [<-|N].
        * assert (lk0 = l0) by congruence. assert (lk = l) by congruence. subst lk0 lk. right. right. right. right. exists c, m.
          split; [|exact S1]. split; [exact (I3 _ (in_elt (JStore i (LI c m)) j1 j2))|]. split; [exact D3|]. rewrite (m_get_set Z.eqb Z.eqb_eq), Es.
          now rewrite Z.eqb_refl.
        * apply (status_otherBy n j1 j2 (JStore i (LI c m)) ims (j1 ++ j2)) in S; [|assumption|exact N|auto|auto].
          destruct S as [H|[H|[H|[H|(c' & m' & (H1 & H2 & H3) & X)]]]]; [now left|right; now left|right; right; now left|right; right; right; now left|].
          right. right. right. right. exists c', m'. split; [|exact X]. split; [exact H1|]. split; [exact H2|]. rewrite (m_get_set Z.eqb Z.eqb_eq).
          destruct (Z.eqb_spec (pseq l) (pseq lk0)) as [E|_]; [|exact H3]. exfalso. apply N. apply (pseq_inj ls0 Hseq i k l0 lk0); congruence.
      + intros q li. rewrite (m_get_set Z.eqb Z.eqb_eq). destruct (Z.eqb_spec (pseq l) q) as [<-|_]; [|apply I5]. intros _. exists i, l0. auto.
    - split; cbn [ldLayers ldSent ldBusy ldImages ldCopied]; try assumption.
      intros i x Hx. destruct (Nat.lt_ge_cases i (length cs)) as [Hi|Hi]; [rewrite nth_error_app1 in Hx by exact Hi; now apply I6|].
      rewrite nth_error_app2 in Hx by exact Hi. assert (i = length cs) as ->.
      { destruct (i - length cs)%nat as [|d] eqn:E; [lia|]. cbn in Hx. now destruct d. }
      rewrite Nat.sub_diag in Hx. injection Hx as <-. assert (exists l0, nth_error ls0 (length cs) = Some l0) as [l0 Hl0].
      { destruct (nth_error ls0 (length cs)) eqn:E; [eauto|]. apply nth_error_None in E. rewrite <- I1 in E. apply nth_error_None in E. congruence. }
      exists l0. split; [exact Hl0|]. destruct (I4 _ _ Hl0) as (l1 & Hl1 & S). rewrite Hl in Hl1. injection Hl1 as <-. exact (status_stageBy _ _ _ _ _ _ S).
  Qed.

  Lemma inv_stepsBy st : steps (lstepBy rnd lib cpus ts mm gt) (lstart ls0) st -> InvBy st.
  Proof. apply steps_inv; [exact inv_stepBy|exact inv_startBy]. Qed.

  Lemma inv_endBy st : steps (lstepBy rnd lib cpus ts mm gt) (lstart ls0) st -> lended st ->
    (forall i l0, nth_error ls0 i = Some l0 -> exists l c m, m_get Z.eqb (ldImages st) (pseq l0) = Some (LI c m) /\ finished l0 l c m) /\
    (forall q li, m_get Z.eqb (ldImages st) q = Some li -> exists i l0, nth_error ls0 i = Some l0 /\ pseq l0 = q) /\
    (forall i l0, nth_error ls0 i = Some l0 -> exists l, nth_error (ldCopied st) i = Some l /\ stage l0 l) /\
    length (ldCopied st) = length ls0.
  Proof.
    intros Hs (E1 & E2 & E3). destruct (inv_stepsBy st Hs) as [I1 I2 I3 I4 I5 I6]. split; [|split; [exact I5|split; [|congruence]]].
    - intros i l0 Hi. destruct (I4 i l0 Hi) as (l & Hl & S). rewrite E2 in S.
      destruct S as [[H _]|[[[] _]|[(c & [] & _)|[(c & m & [] & _)|(c & m & (_ & _ & H) & X)]]]]; [|eauto].
      assert (i < length ls0)%nat by (apply nth_error_Some; congruence). lia.
    - intros i l0 Hi. assert (i < length ls0)%nat by (apply nth_error_Some; congruence).
      destruct (nth_error (ldCopied st) i) as [l|] eqn:E; [|apply nth_error_None in E; lia].
      destruct (I6 i l E) as (l0' & Hl & S). exists l. split; [reflexivity|]. congruence.
  Qed.
End inv.

