(** Proofs about the loader. *)
From Coq Require Import Permutation.
From Verif Require Import Base BaseFacts MRect MSched PSched MBlend MPorter PPorter MWait PWait MRender MRenderPx PRenderPx MTile STile PTile MLoad SLoad.
Open Scope Z_scope.

(** * Lists *)
Lemma length_setNth {A} (v : A) : forall l i, length (setNth i v l) = length l.
Proof. induction l as [|x l IH]; intros [|i]; cbn [setNth length]; auto. Qed.
Lemma nth_setNth {A} (v : A) : forall l i j, nth_error (setNth i v l) j =
  if (i =? j)%nat then match nth_error l j with Some _ => Some v | None => None end else nth_error l j.
Proof.
  induction l as [|x l IH]; intros [|i] [|j]; cbn [setNth nth_error Nat.eqb]; try reflexivity.
  - now destruct (i =? j)%nat.
  - apply IH.
Qed.
Lemma m_get_keys {V} (m : tilemap V) k : (exists c, m_get pt_eqb m k = Some c) <-> In k (map fst m).
Proof.
  induction m as [|[k' c'] m IH]; cbn [m_get map In fst].
  - split; [intros [c H]; discriminate|intros []].
  - destruct (pt_eqb_spec k k') as [->|N]; [split; [now left|eauto]|]. rewrite IH. intuition congruence.
Qed.

(** * The rectangle of a map *)
Definition allIn (ts : Z) (ks : list point) (r : rect) : Prop := forall k p, In k ks -> in_tile ts k p -> pt_in p r = true.
Lemma union_in p a b : pt_in p a = true \/ pt_in p b = true -> pt_in p (runion a b) = true.
Proof.
  unfold runion. destruct (rempty a) eqn:Ea; [|destruct (rempty b) eqn:Eb].
  - intros [H|H]; [|exact H]. unfold rempty in Ea. unfold pt_in in H. lia.
  - intros [H|H]; [exact H|]. unfold rempty in Eb. unfold pt_in in H. lia.
  - unfold pt_in. cbn [rx0 rx1 ry0 ry1]. lia.
Qed.
Lemma union_least a b r' : (forall p, pt_in p a = true -> pt_in p r' = true) -> (forall p, pt_in p b = true -> pt_in p r' = true) ->
  forall p, pt_in p (runion a b) = true -> pt_in p r' = true.
Proof.
  intros Ha Hb p. unfold runion. destruct (rempty a) eqn:Ea; [apply Hb|]. destruct (rempty b) eqn:Eb; [apply Ha|].
  unfold rempty in Ea, Eb. pose proof (Ha (Pt (rx0 a) (ry0 a))) as A1. pose proof (Ha (Pt (rx1 a - 1) (ry1 a - 1))) as A2.
  pose proof (Hb (Pt (rx0 b) (ry0 b))) as B1. pose proof (Hb (Pt (rx1 b - 1) (ry1 b - 1))) as B2.
  unfold pt_in in *. cbn [MRect.px py rx0 rx1 ry0 ry1] in *. lia.
Qed.
Lemma pt_tileRect ts k p : in_tile ts k p <-> pt_in p (tileRect ts k) = true.
Proof. unfold in_tile, pt_in, tileRect. cbn [rx0 rx1 ry0 ry1]. lia. Qed.
Lemma fold_rect ts ks : forall r0, let r := fold_left (fun r k => runion (tileRect ts k) r) ks r0 in
  (forall p, pt_in p r0 = true -> pt_in p r = true) /\ allIn ts ks r /\
  (forall r', (forall p, pt_in p r0 = true -> pt_in p r' = true) -> allIn ts ks r' -> forall p, pt_in p r = true -> pt_in p r' = true).
Proof.
  induction ks as [|k ks IH]; intros r0; cbn [fold_left].
  - split; [auto|]. split; [intros k p []|]. auto.
  - destruct (IH (runion (tileRect ts k) r0)) as (I1 & I2 & I3). split; [|split].
    + intros p H. apply I1, union_in. now right.
    + intros k' p [<-|H] Hp; [|now apply (I2 k')]. apply I1, union_in. left. now apply pt_tileRect.
    + intros r' H0 Hk. apply I3.
      * apply union_least; [|exact H0]. intros p Hp. apply (Hk k); [now left|]. now apply pt_tileRect.
      * intros k' p H. apply Hk. now right.
Qed.
Lemma tilesRect_bounds {V} ts (m : tilemap V) r : tilesRect ts m r -> bounds ts m r.
Proof.
  intros (ks & P & ->). destruct (fold_rect ts ks ZR) as (_ & F2 & F3). split.
  - intros k c p Hm. apply F2. apply (Permutation_in k (Permutation_sym P)). apply m_get_keys. eauto.
  - intros r' H. apply F3.
    + intros p Hp. unfold pt_in, ZR in Hp. cbn in Hp. lia.
    + intros k p Hk. apply (Permutation_in k P) in Hk. apply m_get_keys in Hk. destruct Hk as [c Hk]. eauto.
Qed.
Lemma bounds_nonempty {V} ts (m : tilemap V) r k c : 0 < ts -> bounds ts m r -> m_get pt_eqb m k = Some c -> rempty r = false.
Proof.
  intros Ht [B _] H. specialize (B k c k H). unfold in_tile, pt_in, rempty in *. lia.
Qed.

(** * The tiles do not depend on the schedule *)
Lemma built_spec {V} (zero : V) get cpus ts r dX m : (1 <= cpus)%nat -> 0 < ts -> built (newTiled zero get cpus ts r dX) m ->
  forall k c, m_get pt_eqb m k = Some c <-> grid ts r k /\ fillTile get ts r dX (MRect.px k) (py k) (freshBuf zero ts) = Some (c, true).
Proof.
  intros Hc Ht (ws & s & E & Hi & ->) k c. destruct (newTiled_in _ _ _ _ _ _ _ Hc Ht E) as [N1 _].
  rewrite m_get_tiles.
  - rewrite (interleave_in _ _ Hi), N1. cbn [m_get]. split; [intros [H|[_ H]]; [exact H|discriminate]|now left].
  - intros k' c1 c2 H1 H2. apply (interleave_in _ _ Hi) in H1, H2. apply N1 in H1, H2. destruct H1, H2. congruence.
Qed.
Lemma built_same {V} (zero : V) get cpus cpus' ts r dX m m' : (1 <= cpus)%nat -> (1 <= cpus')%nat -> 0 < ts ->
  built (newTiled zero get cpus ts r dX) m -> built (newTiled zero get cpus' ts r dX) m' -> forall k, m_get pt_eqb m k = m_get pt_eqb m' k.
Proof.
  intros Hc Hc' Ht B B' k. pose proof (built_spec _ _ _ _ _ _ _ Hc Ht B k) as S. pose proof (built_spec _ _ _ _ _ _ _ Hc' Ht B' k) as S'.
  destruct (m_get pt_eqb m k) as [c|] eqn:E.
  - symmetry. apply S', S. reflexivity.
  - destruct (m_get pt_eqb m' k) as [c|] eqn:E'; [|reflexivity]. assert (None = Some c) by now apply S, S'. discriminate.
Qed.

(** * What is done with one layer *)
Section layer.
  Variable cpus : nat.
  Variable ts : Z.
  Notation canvasOf := (canvasOf cpus ts).
  Notation maskOf := (maskOf cpus ts).
  (** The worker has finished the layer [l]: the new layer and the image *)
  Definition finished (l l' : player) (c : option (tilemap px)) (m : option (tilemap Z)) : Prop := exists l1, canvasOf l l1 c /\ maskOf l1 l' m.
  (** A copy of the layer at some time *)
  Definition stage (l l' : player) : Prop :=
    l' = l \/ (exists c, canvasOf l l' c) \/ (exists c m, finished l l' c m).

  Lemma canvasOf_same l l' c : canvasOf l l' c -> l' = setRect l (prect l').
  Proof.
    unfold MLoad.canvasOf. destruct (hasImage l && negb (rempty (prect l))).
    - intros (m & r & _ & _ & _ & ->). reflexivity.
    - intros [_ ->]. now destruct l.
  Qed.
  Lemma maskOf_same l l' c : maskOf l l' c -> l' = setMaskRect l (pmrect l').
  Proof.
    unfold MLoad.maskOf. destruct (negb (rempty (pmrect l))).
    - destruct (pmchan l).
      + intros (m & r & _ & _ & _ & ->). reflexivity.
      + intros [_ ->]. now destruct l.
    - intros [_ ->]. now destruct l.
  Qed.
  Lemma canvasOf_seq l l' c : canvasOf l l' c -> pseq l' = pseq l.
  Proof. intros H. now rewrite (canvasOf_same _ _ _ H). Qed.
  Lemma maskOf_seq l l' c : maskOf l l' c -> pseq l' = pseq l.
  Proof. intros H. now rewrite (maskOf_same _ _ _ H). Qed.
  Lemma maskOf_setRect l r l' m : maskOf (setRect l r) l' m -> maskOf l (setRect l' (prect l)) m /\ prect l' = r.
  Proof.
    unfold MLoad.maskOf. cbn [pmrect pmchan pmdc setRect]. destruct (negb (rempty (pmrect l))).
    - destruct (pmchan l).
      + intros (m' & r' & B & T & -> & ->). split; [|reflexivity]. exists m', r'. auto.
      + intros [-> ->]. split; [|reflexivity]. split; [reflexivity|now destruct l].
    - intros [-> ->]. split; [|reflexivity]. split; [reflexivity|now destruct l].
  Qed.
  Lemma stage_same l l' : stage l l' -> sameButRects l l'.
  Proof.
    unfold sameButRects. intros [->|[[c H]|(c & m & l1 & H1 & H2)]].
    - now destruct l.
    - rewrite (canvasOf_same _ _ _ H). now destruct l, l'.
    - rewrite (maskOf_same _ _ _ H2), (canvasOf_same _ _ _ H1). now destruct l, l1, l'.
  Qed.
End layer.

(** * The invariant *)
Definition jidx (j : job) : nat := match j with JCanvas i | JMask i _ | JStore i _ => i end.
Section inv.
  Variable cpus : nat.
  Variable ts : Z.
  Variable ls0 : list player.
  Hypothesis Hseq : NoDup (map pseq ls0).
  Notation finished := (finished cpus ts).
  Notation stage := (stage cpus ts).

  Definition status (n : nat) (js : list job) (ims : list (Z * limage)) (i : nat) (l0 l : player) : Prop :=
    ((n <= i)%nat /\ l = l0) \/ (In (JCanvas i) js /\ l = l0) \/
    (exists c, In (JMask i c) js /\ canvasOf cpus ts l0 l c) \/
    (exists c m, In (JStore i (LI c m)) js /\ finished l0 l c m) \/
    (exists c m, ((i < n)%nat /\ (forall j, In j js -> jidx j <> i) /\ m_get Z.eqb ims (pseq l0) = Some (LI c m)) /\ finished l0 l c m).
  Lemma status_stage n js ims i l0 l : status n js ims i l0 l -> stage l0 l.
  Proof.
    intros [[_ ->]|[[_ ->]|[(c & _ & H)|[(c & m & _ & H)|(c & m & _ & H)]]]].
    - now left.
    - now left.
    - right. left. eauto.
    - right. right. eauto.
    - right. right. eauto.
  Qed.

  Record Inv (st : loader) : Prop := {
    inv_len : length (ldLayers st) = length ls0;
    inv_nodup : NoDup (map jidx (ldBusy st));
    inv_lt : forall j, In j (ldBusy st) -> (jidx j < ldSent st)%nat;
    inv_status : forall i l0, nth_error ls0 i = Some l0 -> exists l, nth_error (ldLayers st) i = Some l /\ status (ldSent st) (ldBusy st) (ldImages st) i l0 l;
    inv_dom : forall q li, m_get Z.eqb (ldImages st) q = Some li -> exists i l0, nth_error ls0 i = Some l0 /\ pseq l0 = q;
    inv_copied : forall i l, nth_error (ldCopied st) i = Some l -> exists l0, nth_error ls0 i = Some l0 /\ stage l0 l }.

  Lemma pseq_inj i j a b : nth_error ls0 i = Some a -> nth_error ls0 j = Some b -> pseq a = pseq b -> i = j.
  Proof.
    intros Ha Hb E. assert (nth_error (map pseq ls0) i = Some (pseq a)) as A by now rewrite nth_error_map, Ha.
    assert (nth_error (map pseq ls0) j = Some (pseq b)) as B by now rewrite nth_error_map, Hb.
    eapply NoDup_nth_error; [exact Hseq| |congruence]. apply nth_error_Some. congruence.
  Qed.

  Lemma jobs_replace (j1 j2 : list job) j j' : jidx j' = jidx j -> NoDup (map jidx (j1 ++ j :: j2)) -> NoDup (map jidx (j1 ++ j' :: j2)).
  Proof. intros E. rewrite !map_app. cbn [map]. now rewrite E. Qed.
  Lemma jobs_other (j1 j2 : list job) j j' i : NoDup (map jidx (j1 ++ j :: j2)) -> In j' (j1 ++ j :: j2) -> jidx j' = i -> i <> jidx j ->
    In j' (j1 ++ j2).
  Proof.
    intros _ H E N. apply in_app_or in H. apply in_or_app. destruct H as [H|[H|H]]; [now left| |now right]. congruence.
  Qed.
  Lemma jobs_same (j1 j2 : list job) j j' : NoDup (map jidx (j1 ++ j :: j2)) -> In j' (j1 ++ j :: j2) -> jidx j' = jidx j -> j' = j.
  Proof.
    rewrite map_app. cbn [map]. intros D H E. apply NoDup_remove_2 in D. apply in_app_or in H. destruct H as [H|[H|H]]; [|easy|];
      exfalso; apply D; rewrite <- E; apply in_or_app; [left|right]; now apply in_map.
  Qed.
  Lemma in_weaken (j1 j2 : list job) j j' : In j' (j1 ++ j2) -> In j' (j1 ++ j :: j2).
  Proof. intros H. apply in_app_or in H. apply in_or_app. destruct H; [now left|right; now right]. Qed.

  (** The status of the layer whose job is [j] *)
  Lemma status_job n j1 j2 j ims i l0 l : NoDup (map jidx (j1 ++ j :: j2)) -> (forall j', In j' (j1 ++ j :: j2) -> (jidx j' < n)%nat) ->
    jidx j = i -> status n (j1 ++ j :: j2) ims i l0 l ->
    match j with
    | JCanvas _ => l = l0
    | JMask _ c => canvasOf cpus ts l0 l c
    | JStore _ (LI c m) => finished l0 l c m
    end.
  Proof.
    intros D L E [[H _]|[[H X]|[(c & H & X)|[(c & m & H & X)|(c & m & H & X)]]]].
    - specialize (L j (in_elt _ _ _)). lia.
    - assert (JCanvas i = j) as <- by (apply (jobs_same j1 j2); auto). exact X.
    - assert (JMask i c = j) as <- by (apply (jobs_same j1 j2); auto). exact X.
    - assert (JStore i (LI c m) = j) as <- by (apply (jobs_same j1 j2); auto). exact X.
    - destruct H as (_ & H & _). exfalso. apply (H j); [apply in_elt|exact E].
  Qed.
  (** The status of another layer *)
  Lemma status_other n j1 j2 j ims js' i l0 l : NoDup (map jidx (j1 ++ j :: j2)) -> jidx j <> i ->
    (forall j', In j' (j1 ++ j2) -> In j' js') -> (forall j', In j' js' -> In j' (j1 ++ j2) \/ jidx j' = jidx j) ->
    status n (j1 ++ j :: j2) ims i l0 l -> status n js' ims i l0 l.
  Proof.
    intros D N S S' [H|[[H X]|[(c & H & X)|[(c & m & H & X)|(c & m & H & X)]]]].
    - now left.
    - right. left. split; [|exact X]. apply S. apply (jobs_other j1 j2 j (JCanvas i) i D H eq_refl). congruence.
    - right. right. left. exists c. split; [|exact X]. apply S. apply (jobs_other j1 j2 j (JMask i c) i D H eq_refl). congruence.
    - right. right. right. left. exists c, m. split; [|exact X]. apply S. apply (jobs_other j1 j2 j _ i D H eq_refl). congruence.
    - right. right. right. right. exists c, m. split; [|exact X]. destruct H as (H1 & H2 & H3). split; [exact H1|]. split; [|exact H3].
      intros j' Hj. destruct (S' j' Hj) as [Hj'|Hj']; [|congruence]. apply H2. now apply in_weaken.
  Qed.

  Lemma inv_start : Inv (lstart ls0).
  Proof.
    split; cbn; try easy.
    - constructor.
    - intros i l0 H. exists l0. split; [exact H|]. left. split; [lia|reflexivity].
    - intros [|i] l H; discriminate.
  Qed.

  Lemma in_replace (j1 j2 : list job) j' x : In x (j1 ++ j' :: j2) -> In x (j1 ++ j2) \/ x = j'.
  Proof. intros H. apply in_app_or in H. destruct H as [H|[H|H]]; [left; apply in_or_app; now left|right; easy|left; apply in_or_app; now right]. Qed.

  Lemma inv_step st st' : Inv st -> lstep cpus ts st st' -> Inv st'.
  Proof.
    intros [I1 I2 I3 I4 I5 I6] Hs. destruct Hs as [ls n js ims cs Hn Hc|ls n j1 i j2 ims cs l l' c Hl Ho|ls n j1 i c j2 ims cs l l' m Hl Ho|ls n j1 i ld j2 ims cs l Hl|ls js ims cs l Hl];
      cbn [ldLayers ldSent ldBusy ldImages ldCopied] in *.
    - split; cbn [ldLayers ldSent ldBusy ldImages ldCopied]; try assumption.
      + rewrite map_app. cbn [map jidx]. eapply Permutation_NoDup; [apply Permutation_cons_append|]. constructor; [|exact I2].
        intros H. apply in_map_iff in H. destruct H as (j & E & H). apply I3 in H. lia.
      + intros j Hj. apply in_app_or in Hj. destruct Hj as [Hj|[<-|[]]]; [apply I3 in Hj; lia|cbn; lia].
      + intros k l0 Hk. destruct (I4 k l0 Hk) as (l & Hl & S). exists l. split; [exact Hl|].
        destruct S as [[H X]|[[H X]|[(c & H & X)|[(c & m & H & X)|(c & m & H & X)]]]].
        * destruct (Nat.eq_dec k n) as [->|N]; [right; left; split; [apply in_elt|exact X]|left; split; [lia|exact X]].
        * right. left. split; [apply in_or_app; now left|exact X].
        * right. right. left. exists c. split; [apply in_or_app; now left|exact X].
        * right. right. right. left. exists c, m. split; [apply in_or_app; now left|exact X].
        * right. right. right. right. exists c, m. split; [|exact X]. destruct H as (H1 & H2 & H3). split; [lia|]. split; [|exact H3].
          intros j Hj. apply in_app_or in Hj. destruct Hj as [Hj|[<-|[]]]; [now apply H2|cbn; lia].
    - split; cbn [ldLayers ldSent ldBusy ldImages ldCopied]; try assumption.
      + now rewrite length_setNth.
      + exact (jobs_replace _ _ (JCanvas i) (JMask i c) eq_refl I2).
      + intros j Hj. apply in_replace in Hj. destruct Hj as [Hj| ->]; [apply I3; now apply in_weaken|]. exact (I3 _ (in_elt (JCanvas i) j1 j2)).
      + intros k l0 Hk. destruct (I4 k l0 Hk) as (lk & Hlk & S). rewrite nth_setNth. destruct (Nat.eqb_spec i k) as [<-|N].
        * rewrite Hl. exists l'. split; [reflexivity|]. rewrite Hl in Hlk. injection Hlk as <-.
          apply (status_job n j1 j2 (JCanvas i)) in S; [|assumption|assumption|reflexivity]. cbn in S. subst l0.
          right. right. left. exists c. split; [apply in_elt|exact Ho].
        * exists lk. split; [exact Hlk|]. apply (status_other n j1 j2 (JCanvas i) ims) ; [assumption|exact N|intros j; apply in_weaken| |exact S].
          intros j Hj. apply in_replace in Hj. destruct Hj as [Hj| ->]; [now left|now right].
    - split; cbn [ldLayers ldSent ldBusy ldImages ldCopied]; try assumption.
      + now rewrite length_setNth.
      + exact (jobs_replace _ _ (JMask i c) (JStore i (LI c m)) eq_refl I2).
      + intros j Hj. apply in_replace in Hj. destruct Hj as [Hj| ->]; [apply I3; now apply in_weaken|]. exact (I3 _ (in_elt (JMask i c) j1 j2)).
      + intros k l0 Hk. destruct (I4 k l0 Hk) as (lk & Hlk & S). rewrite nth_setNth. destruct (Nat.eqb_spec i k) as [<-|N].
        * rewrite Hl. exists l'. split; [reflexivity|]. rewrite Hl in Hlk. injection Hlk as <-.
          apply (status_job n j1 j2 (JMask i c)) in S; [|assumption|assumption|reflexivity]. cbn in S.
          right. right. right. left. exists c, m. split; [apply in_elt|]. exists l. auto.
        * exists lk. split; [exact Hlk|]. apply (status_other n j1 j2 (JMask i c) ims); [assumption|exact N|intros j; apply in_weaken| |exact S].
          intros j Hj. apply in_replace in Hj. destruct Hj as [Hj| ->]; [now left|now right].
    - assert (exists l0, nth_error ls0 i = Some l0) as [l0 Hl0].
      { destruct (nth_error ls0 i) eqn:E; [eauto|]. apply nth_error_None in E. rewrite <- I1 in E. apply nth_error_None in E. congruence. }
      destruct (I4 i l0 Hl0) as (li & Hli & S0). rewrite Hl in Hli. injection Hli as <-. assert (S1 := S0).
      apply (status_job n j1 j2 (JStore i ld)) in S1; [|assumption|assumption|reflexivity]. destruct ld as [c m].
      assert (pseq l = pseq l0) as Es. { apply status_stage, stage_same in S0. now rewrite S0. }
      assert (NoDup (map jidx (j1 ++ j2)) /\ ~ In i (map jidx (j1 ++ j2))) as [D1 D2].
      { rewrite map_app in *. cbn [map jidx] in I2. split; [now apply NoDup_remove_1 in I2|now apply NoDup_remove_2 in I2]. }
      assert (forall j, In j (j1 ++ j2) -> jidx j <> i) as D3. { intros j Hj E. apply D2. rewrite <- E. now apply in_map. }
      split; cbn [ldLayers ldSent ldBusy ldImages ldCopied]; try assumption.
      + intros j Hj. apply I3. now apply in_weaken.
      + intros k lk0 Hk. destruct (I4 k lk0 Hk) as (lk & Hlk & S). exists lk. split; [exact Hlk|]. destruct (Nat.eq_dec i k) as [<-|N].
        * assert (lk0 = l0) by congruence. assert (lk = l) by congruence. subst lk0 lk. right. right. right. right. exists c, m.
          split; [|exact S1]. split; [exact (I3 _ (in_elt (JStore i (LI c m)) j1 j2))|]. split; [exact D3|]. rewrite (m_get_set Z.eqb Z.eqb_eq), Es.
          now rewrite Z.eqb_refl.
        * apply (status_other n j1 j2 (JStore i (LI c m)) ims (j1 ++ j2)) in S; [|assumption|exact N|auto|auto].
          destruct S as [H|[H|[H|[H|(c' & m' & (H1 & H2 & H3) & X)]]]]; [now left|right; now left|right; right; now left|right; right; right; now left|].
          right. right. right. right. exists c', m'. split; [|exact X]. split; [exact H1|]. split; [exact H2|]. rewrite (m_get_set Z.eqb Z.eqb_eq).
          destruct (Z.eqb_spec (pseq l) (pseq lk0)) as [E|_]; [|exact H3]. exfalso. apply N. apply (pseq_inj i k l0 lk0); congruence.
      + intros q li. rewrite (m_get_set Z.eqb Z.eqb_eq). destruct (Z.eqb_spec (pseq l) q) as [<-|_]; [|apply I5]. intros _. exists i, l0. auto.
    - split; cbn [ldLayers ldSent ldBusy ldImages ldCopied]; try assumption.
      intros i x Hx. destruct (Nat.lt_ge_cases i (length cs)) as [Hi|Hi]; [rewrite nth_error_app1 in Hx by exact Hi; now apply I6|].
      rewrite nth_error_app2 in Hx by exact Hi. assert (i = length cs) as ->.
      { destruct (i - length cs)%nat as [|d] eqn:E; [lia|]. cbn in Hx. now destruct d. }
      rewrite Nat.sub_diag in Hx. injection Hx as <-. assert (exists l0, nth_error ls0 (length cs) = Some l0) as [l0 Hl0].
      { destruct (nth_error ls0 (length cs)) eqn:E; [eauto|]. apply nth_error_None in E. rewrite <- I1 in E. apply nth_error_None in E. congruence. }
      exists l0. split; [exact Hl0|]. destruct (I4 _ _ Hl0) as (l1 & Hl1 & S). rewrite Hl in Hl1. injection Hl1 as <-. exact (status_stage _ _ _ _ _ _ S).
  Qed.

  Lemma inv_steps st : steps (lstep cpus ts) (lstart ls0) st -> Inv st.
  Proof. apply steps_inv; [exact inv_step|exact inv_start]. Qed.

  Lemma inv_end st : steps (lstep cpus ts) (lstart ls0) st -> lended st ->
    (forall i l0, nth_error ls0 i = Some l0 -> exists l c m, m_get Z.eqb (ldImages st) (pseq l0) = Some (LI c m) /\ finished l0 l c m) /\
    (forall q li, m_get Z.eqb (ldImages st) q = Some li -> exists i l0, nth_error ls0 i = Some l0 /\ pseq l0 = q) /\
    (forall i l0, nth_error ls0 i = Some l0 -> exists l, nth_error (ldCopied st) i = Some l /\ stage l0 l) /\
    length (ldCopied st) = length ls0.
  Proof.
    intros Hs (E1 & E2 & E3). destruct (inv_steps st Hs) as [I1 I2 I3 I4 I5 I6]. split; [|split; [exact I5|split; [|congruence]]].
    - intros i l0 Hi. destruct (I4 i l0 Hi) as (l & Hl & S). rewrite E2 in S.
      destruct S as [[H _]|[[[] _]|[(c & [] & _)|[(c & m & [] & _)|(c & m & (_ & _ & H) & X)]]]]; [|eauto].
      assert (i < length ls0)%nat by (apply nth_error_Some; congruence). lia.
    - intros i l0 Hi. assert (i < length ls0)%nat by (apply nth_error_Some; congruence).
      destruct (nth_error (ldCopied st) i) as [l|] eqn:E; [|apply nth_error_None in E; lia].
      destruct (I6 i l E) as (l0' & Hl & S). exists l. split; [reflexivity|]. congruence.
  Qed.
End inv.

(** * The images do not depend on the schedule *)
Lemma finished_same cpus cpus' ts l0 l l' c c' m m' : (1 <= cpus)%nat -> (1 <= cpus')%nat -> 0 < ts ->
  finished cpus ts l0 l c m -> finished cpus' ts l0 l' c' m' -> sameTiles c c' /\ sameTiles m m'.
Proof.
  intros Hc Hc' Ht (l1 & C & M) (l1' & C' & M'). split.
  - unfold canvasOf in C, C'. destruct (hasImage l0 && negb (rempty (prect l0))).
    + destruct C as (t & r & B & _ & -> & _), C' as (t' & r' & B' & _ & -> & _). exact (built_same _ _ _ _ _ _ _ _ _ Hc Hc' Ht B B').
    + destruct C as [-> _], C' as [-> _]. exact I.
  - rewrite (canvasOf_same _ _ _ _ _ C) in M. rewrite (canvasOf_same _ _ _ _ _ C') in M'.
    apply maskOf_setRect in M, M'. destruct M as [M _], M' as [M' _]. unfold maskOf in M, M'. destruct (negb (rempty (pmrect l0))).
    + destruct (pmchan l0).
      * destruct M as (t & r & B & _ & -> & _), M' as (t' & r' & B' & _ & -> & _). exact (built_same _ _ _ _ _ _ _ _ _ Hc Hc' Ht B B').
      * destruct M as [-> _], M' as [-> _]. exact I.
    + destruct M as [-> _], M' as [-> _]. exact I.
Qed.
Lemma same_images cpus cpus' ts ls st st' : (1 <= cpus)%nat -> (1 <= cpus')%nat -> 0 < ts -> NoDup (map pseq ls) ->
  steps (lstep cpus ts) (lstart ls) st -> lended st -> steps (lstep cpus' ts) (lstart ls) st' -> lended st' ->
  forall q, sameImages (m_get Z.eqb (ldImages st) q) (m_get Z.eqb (ldImages st') q).
Proof.
  intros Hc Hc' Ht Hq S E S' E' q. destruct (inv_end cpus ts ls Hq st S E) as (A & B & _). destruct (inv_end cpus' ts ls Hq st' S' E') as (A' & B' & _).
  destruct (m_get Z.eqb (ldImages st) q) as [li|] eqn:G.
  - destruct (B q li G) as (i & l0 & Hl & <-). destruct (A i l0 Hl) as (l & c & m & G1 & F). destruct (A' i l0 Hl) as (l' & c' & m' & G1' & F').
    rewrite G1'. assert (li = LI c m) by congruence. subst li. exact (finished_same _ _ _ _ _ _ _ _ _ _ Hc Hc' Ht F F').
  - destruct (m_get Z.eqb (ldImages st') q) as [li|] eqn:G'; [|exact I]. destruct (B' q li G') as (i & l0 & Hl & <-).
    destruct (A i l0 Hl) as (l & c & m & G1 & F). congruence.
Qed.

Lemma bounds_ext {V} ts (m m' : tilemap V) r : (forall k, m_get pt_eqb m k = m_get pt_eqb m' k) -> bounds ts m r -> bounds ts m' r.
Proof.
  intros E [B1 B2]. split.
  - intros k c p. rewrite <- E. apply B1.
  - intros r' H. apply B2. intros k c p. rewrite E. apply H.
Qed.
(** A copy has the old rectangles or those of the tiles. *)
Lemma copies cpus ts ls st : (1 <= cpus)%nat -> 0 < ts -> NoDup (map pseq ls) -> steps (lstep cpus ts) (lstart ls) st -> lended st ->
  length (ldCopied st) = length ls /\
  forall i l, nth_error ls i = Some l -> exists l' c m, nth_error (ldCopied st) i = Some l' /\ sameButRects l l' /\
    m_get Z.eqb (ldImages st) (pseq l) = Some (LI c m) /\
    (prect l' = prect l \/ exists t, c = Some t /\ bounds ts t (prect l')) /\
    (pmrect l' = pmrect l \/ exists t, m = Some t /\ bounds ts t (pmrect l')).
Proof.
  intros Hc Ht Hq S E. destruct (inv_end cpus ts ls Hq st S E) as (A & _ & B & L). split; [exact L|]. intros i l Hi.
  destruct (A i l Hi) as (l1 & c & m & G & F). destruct (B i l Hi) as (l' & Hl & St). exists l', c, m.
  split; [exact Hl|]. split; [exact (stage_same _ _ _ _ St)|]. split; [exact G|].
  assert (forall c' l2, canvasOf cpus ts l l2 c' -> (prect l2 = prect l \/ exists t, c = Some t /\ bounds ts t (prect l2)) /\ pmrect l2 = pmrect l) as Cv.
  { intros c' l2 C. split; [|now rewrite (canvasOf_same _ _ _ _ _ C)]. destruct F as (l3 & F & _). unfold canvasOf in C, F.
    destruct (hasImage l && negb (rempty (prect l))); [|left; now destruct C as [_ ->]].
    destruct C as (t & r & B1 & T & _ & ->), F as (t' & r' & B1' & _ & -> & _). right. exists t'. split; [reflexivity|].
    apply (bounds_ext ts t); [exact (built_same _ _ _ _ _ _ _ _ _ Hc Hc Ht B1 B1')|]. exact (tilesRect_bounds ts t r T). }
  destruct St as [->|[[c' C]|(c' & m' & l2 & C & M)]].
  - auto.
  - destruct (Cv _ _ C) as [H1 H2]. auto.
  - destruct (Cv _ _ C) as [H1 H2]. assert (prect l' = prect l2) as Er by now rewrite (maskOf_same _ _ _ _ _ M). rewrite Er. split; [exact H1|].
    assert (M' := M). rewrite (canvasOf_same _ _ _ _ _ C) in M'. apply maskOf_setRect in M'. destruct M' as [M' _].
    destruct F as (l3 & F1 & F2). rewrite (canvasOf_same _ _ _ _ _ F1) in F2. apply maskOf_setRect in F2. destruct F2 as [F2 _].
    unfold maskOf in M', F2. destruct (negb (rempty (pmrect l))).
    + destruct (pmchan l).
      * destruct M' as (t & r & B1 & T & _ & X), F2 as (t' & r' & B1' & _ & -> & _). right. exists t'. split; [reflexivity|].
        apply (bounds_ext ts t); [exact (built_same _ _ _ _ _ _ _ _ _ Hc Hc Ht B1 B1')|]. apply (f_equal pmrect) in X. cbn in X. rewrite X. exact (tilesRect_bounds ts t r T).
      * left. destruct M' as [_ X]. apply (f_equal pmrect) in X. exact X.
    + left. destruct M' as [_ X]. apply (f_equal pmrect) in X. exact X.
Qed.

(** * Masks *)
Lemma grid_mult ts r k : 0 < ts -> grid ts r k -> (ts | MRect.px k) /\ (ts | py k).
Proof.
  intros Ht [H1 H2]. apply in_forUp in H1, H2; try lia. destruct H1 as (_ & a & _ & ->), H2 as (_ & b & _ & ->). unfold gridStart.
  split; [exists (Z.quot (rx0 r) ts + a)|exists (Z.quot (ry0 r) ts + b)]; ring.
Qed.
Lemma mult_unique ts k k' p : 0 < ts -> (ts | MRect.px k) -> (ts | py k) -> (ts | MRect.px k') -> (ts | py k') ->
  in_tile ts k p -> in_tile ts k' p -> k = k'.
Proof.
  intros Ht [a A] [b B] [a' A'] [b' B'] [P1 P2] [P3 P4]. destruct k as [x y], k' as [x' y']. cbn [MRect.px py] in *.
  assert (a = a') by nia. assert (b = b') by nia. subst. reflexivity.
Qed.
(** The tile of the mask that the renderer finds *)
Lemma mask_tile cpus ts r a dc m k p v : (1 <= cpus)%nat -> 0 < ts -> plane_ok r 1 a -> built (newTiledMask cpus ts r a dc) m ->
  0 <= MRect.px p -> 0 <= py p -> (ts | MRect.px k) -> (ts | py k) -> in_tile ts k p ->
  (if pt_in p r then exists x, idx a (sample_pos r 1 p) = Some x /\ x = mask_value dc v else v = 0) ->
  match m_get pt_eqb m k with Some t => zlen t = ts * ts /\ tile_at ts k t p = Some v | None => v = 0 end.
Proof.
  intros Hc Ht Hp B Hx Hy D1 D2 Hk Hv. pose proof (built_spec _ _ _ _ _ _ _ Hc Ht B) as S. destruct B as (ws & s & E & Hi & ->).
  destruct (newTiledMask_spec cpus ts r a dc Hc Ht Hp) as (ws' & E' & T). rewrite E in E'. injection E' as <-.
  destruct (T s Hi) as (W & T1 & T2). clear T. set (m := exec putTile s []) in *. clearbody m.
  assert (shows ts 0 m p v) as Sh.
  { destruct (pt_in p r) eqn:Ep.
    - destruct (T1 p Ep Hx Hy) as (w & Hw & Hi'). destruct Hv as (x & Hx' & ->). assert (mask_value dc v = mask_value dc w) as Em by congruence.
      unfold mask_value in Em. assert (v = w) by (destruct (dc =? 0); lia). now subst w.
    - subst v. now apply T2. }
  destruct Sh as [(k' & c & G & K & V)|[-> N]].
  - assert (k = k') as <-.
    { apply S in G. destruct G as [G _]. apply (grid_mult ts r k' Ht) in G. destruct G. now apply (mult_unique ts k k' p). }
    rewrite G. split; [|exact V]. destruct W as [_ W]. exact (W k c G).
  - destruct (m_get pt_eqb m k) as [t|] eqn:G; [|reflexivity]. exfalso. exact (N k t G Hk).
Qed.

Lemma destIn_zero d : pdA machine DestIn true 65535 0 d = Some black.
Proof.
  unfold pdA, setPx, setNRGBA, pd. cbn [pa]. change (mul machine (mul machine 0 257) 65535 / 65535) with 0. cbn [pdAlpha].
  change (mul machine (pa (rdDest machine true d)) 0) with ((pa (rdDest machine true d) * 0) mod 4294967296). rewrite Z.mul_0_r. reflexivity.
Qed.
Lemma destOut_full d : pdA machine DestOut true 65535 255 d = Some black.
Proof.
  unfold pdA, setPx, setNRGBA, pd. cbn [pa]. change (mul machine (mul machine 255 257) 65535 / 65535) with 65535. cbn [pdAlpha].
  change (sub machine 65535 65535) with 0. change (mul machine 0 (pa (rdDest machine true d))) with ((0 * pa (rdDest machine true d)) mod 4294967296). rewrite Z.mul_0_l. reflexivity.
Qed.
Lemma idx_map2 {A B C} (f : A -> B -> C) : forall l l' i x y, idx l i = Some x -> idx l' i = Some y -> idx (map2 f l l') i = Some (f x y).
Proof.
  unfold idx. intros l l' i x y. destruct (i <? 0); [discriminate|]. generalize (Z.to_nat i) as n. clear i. revert l'.
  induction l as [|a l IH]; intros l' n; destruct n as [|n], l' as [|b l']; cbn [nth_error map2]; try discriminate; [congruence|apply IH].
Qed.
Lemma idx_zero i n : 0 <= i < Z.of_nat n -> idx (zeroPx n) i = Some black.
Proof.
  intros H. unfold idx, zeroPx. replace (i <? 0) with false by lia. apply nth_error_repeat. lia.
Qed.
Lemma tile_pos ts k p : 0 < ts -> in_tile ts k p -> 0 <= (py p - py k) * ts + (MRect.px p - MRect.px k) < ts * ts.
Proof. unfold in_tile. nia. Qed.

Notation applyMaskPx ts := (applyMask destInMPx destOutMPx destOverPx (clearPx (Z.to_nat (ts * ts)))).
Lemma mask_hides cpus ts ls st i l0 l a vis op bm clip bce : (1 <= cpus)%nat -> 0 < ts -> NoDup (map pseq ls) ->
  steps (lstep cpus ts) (lstart ls) st -> lended st -> nth_error ls i = Some l0 -> nth_error (ldCopied st) i = Some l ->
  pmchan l0 = Some a -> plane_ok (pmrect l0) 1 a -> Z.land (pflags l0) 2 = 0 -> pmdc l0 = 0 \/ pmdc l0 = 255 ->
  (exists p v, pt_in p (pmrect l0) = true /\ 0 <= MRect.px p /\ 0 <= py p /\ maskAt l0 a p v /\ v <> pmdc l0) ->
  maskEnabled l = true /\
  forall k p b buf, 0 <= MRect.px p -> 0 <= py p -> (ts | MRect.px k) -> (ts | py k) -> in_tile ts k p -> maskAt l0 a p 0 ->
    zlen buf = ts * ts -> list_eqb bm passThrough = false ->
    tile_at ts k (applyMaskPx ts (maskTile (ldImages st) k) (attrsOf l vis op bm clip bce) b buf) p = Some black.
Proof.
  intros Hc Ht Hq S E Hl0 Hl Ha Hp Hf Hd Hn.
  destruct (copies cpus ts ls st Hc Ht Hq S E) as [_ Cp]. destruct (Cp i l0 Hl0) as (l' & c & m & Hl' & Sb & G & _ & Mr). rewrite Hl in Hl'. injection Hl' as <-. clear Cp.
  destruct (inv_end cpus ts ls Hq st S E) as (A & _). destruct (A i l0 Hl0) as (l1 & c' & m' & G' & F). rewrite G in G'. injection G' as <- <-. clear A.
  destruct F as (l2 & F1 & F2). rewrite (canvasOf_same _ _ _ _ _ F1) in F2. apply maskOf_setRect in F2. destruct F2 as [F2 _].
  destruct Hn as (p0 & v0 & P0 & X0 & Y0 & M0 & D0). assert (rempty (pmrect l0) = false) as Re by (unfold pt_in in P0; unfold rempty; lia).
  unfold maskOf in F2. rewrite Re, Ha in F2. cbn [negb] in F2. destruct F2 as (t & r & B & _ & -> & _).
  assert (pflags l = pflags l0 /\ pmdc l = pmdc l0 /\ pseq l = pseq l0) as (Ef & Ed & Es) by (rewrite Sb; auto).
  assert (maskEnabled l = true) as Me.
  { unfold maskEnabled. rewrite Ef, Hf, Z.eqb_refl. cbn [andb]. destruct Mr as [->|(t' & Et & Bt)]; [now rewrite Re|]. injection Et as <-.
    (* the pixel that differs from the default colour is in a tile *)
    set (k0 := Pt (MRect.px p0 / ts * ts) (py p0 / ts * ts)).
    assert (in_tile ts k0 p0) as K0.
    { unfold in_tile, k0. cbn [MRect.px py]. pose proof (Z.mod_pos_bound (MRect.px p0) ts Ht). pose proof (Z.mod_pos_bound (py p0) ts Ht).
      pose proof (Z.div_mod (MRect.px p0) ts). pose proof (Z.div_mod (py p0) ts). lia. }
    pose proof (mask_tile cpus ts (pmrect l0) a (pmdc l0) t k0 p0 (mask_value (pmdc l0) v0) Hc Ht Hp B X0 Y0) as Mt.
    rewrite P0 in Mt. unfold maskAt in M0. rewrite P0 in M0.
    specialize (Mt ltac:(unfold k0; cbn; exists (MRect.px p0 / ts); ring) ltac:(unfold k0; cbn; exists (py p0 / ts); ring) K0).
    destruct (m_get pt_eqb t k0) as [w|] eqn:Gt.
    - now rewrite (bounds_nonempty ts t _ k0 w Ht Bt Gt).
    - exfalso. apply D0. assert (mask_value (pmdc l0) v0 = 0) as Z0.
      { apply Mt. exists v0. split; [exact M0|]. unfold mask_value. destruct (pmdc l0 =? 0); lia. }
      unfold mask_value in Z0. destruct Hd as [Hd|Hd]; rewrite Hd in *; cbn in Z0; lia. }
  split; [exact Me|]. intros k p b buf Hx Hy D1 D2 Hk Hm Hb Hpt. unfold applyMask. cbn [lmen lseq lmdc attrsOf isPT lbm].
  rewrite Me. unfold isPT. cbn [lbm attrsOf]. rewrite Hpt. rewrite Es. unfold maskTile. rewrite G.
  pose proof (tile_pos ts k p Ht Hk) as Pos.
  assert (exists x, idx buf ((py p - py k) * ts + (MRect.px p - MRect.px k)) = Some x) as [x Hxb] by (apply idx_lt; lia).
  rewrite Ed. destruct Hd as [Hd|Hd]; rewrite Hd; cbn [Z.eqb Pos.eqb negb].
  - assert (match m_get pt_eqb t k with Some w => zlen w = ts * ts /\ tile_at ts k w p = Some 0 | None => 0 = 0 end) as Mt.
    { apply (mask_tile cpus ts (pmrect l0) a (pmdc l0) t k p 0); auto. unfold maskAt in Hm. destruct (pt_in p (pmrect l0)); [|reflexivity].
      exists 0. split; [exact Hm|]. unfold mask_value. now rewrite Hd. }
    destruct (m_get pt_eqb t k) as [w|].
    + destruct Mt as [_ Mt]. unfold tile_at in *. unfold destInMPx. rewrite (idx_map2 _ _ _ _ _ _ Mt Hxb). now rewrite destIn_zero.
    + unfold tile_at, clearPx. rewrite idx_zero by lia. reflexivity.
  - assert (pt_in p (pmrect l0) = true) as Pin. { destruct (pt_in p (pmrect l0)) eqn:Ep; [reflexivity|]. unfold maskAt in Hm. rewrite Ep in Hm. lia. }
    assert (match m_get pt_eqb t k with Some w => zlen w = ts * ts /\ tile_at ts k w p = Some 255 | None => 255 = 0 end) as Mt.
    { apply (mask_tile cpus ts (pmrect l0) a (pmdc l0) t k p 255); auto. unfold maskAt in Hm. rewrite Pin in *.
      exists 0. split; [exact Hm|]. unfold mask_value. now rewrite Hd. }
    destruct (m_get pt_eqb t k) as [w|]; [|discriminate]. destruct Mt as [_ Mt]. unfold tile_at in *. unfold destOutMPx. rewrite (idx_map2 _ _ _ _ _ _ Mt Hxb). now rewrite destOut_full.
Qed.
