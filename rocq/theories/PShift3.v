(** Two loaders that make the same tiles: each run of one has a run of the other. *)
From Coq Require Import Permutation.
From Verif Require Import Base BaseFacts MRect MSched MBlend MTile MLoad SLoad PLoad MWait PWait.
Open Scope Z_scope.

(** The steps of MLoad.lstep and MLoadBy.lstepBy, for any work of the goroutines *)
Inductive gstep (C : player -> player -> option (tilemap px) -> Prop) (M : player -> player -> option (tilemap Z) -> Prop) (cpus : nat) : loader -> loader -> Prop :=
| G_send ls n js ims cs : (n < length ls)%nat -> (length js < cpus)%nat ->
    gstep C M cpus (LD ls n js ims cs) (LD ls (S n) (js ++ [JCanvas n]) ims cs)
| G_canvas ls n j1 i j2 ims cs l l' c : nth_error ls i = Some l -> C l l' c ->
    gstep C M cpus (LD ls n (j1 ++ JCanvas i :: j2) ims cs) (LD (setNth i l' ls) n (j1 ++ JMask i c :: j2) ims cs)
| G_mask ls n j1 i c j2 ims cs l l' k : nth_error ls i = Some l -> M l l' k ->
    gstep C M cpus (LD ls n (j1 ++ JMask i c :: j2) ims cs) (LD (setNth i l' ls) n (j1 ++ JStore i (LI c k) :: j2) ims cs)
| G_store ls n j1 i ld j2 ims cs l : nth_error ls i = Some l ->
    gstep C M cpus (LD ls n (j1 ++ JStore i ld :: j2) ims cs) (LD ls n (j1 ++ j2) (m_set Z.eqb ims (pseq l) ld) cs)
| G_copy ls js ims cs l : nth_error ls (length cs) = Some l ->
    gstep C M cpus (LD ls (length ls) js ims cs) (LD ls (length ls) js ims (cs ++ [l])).

Lemma Forall2_set {A B} (R : A -> B -> Prop) i x y l l' : R x y -> Forall2 R l l' -> Forall2 R (setNth i x l) (setNth i y l').
Proof. intros H F. revert i. induction F as [|a b l l' Hab F IH]; intros [|i]; cbn [setNth]; constructor; auto. Qed.
Lemma Forall2_len {A B} (R : A -> B -> Prop) l l' : Forall2 R l l' -> length l = length l'.
Proof. induction 1; cbn; auto. Qed.
Lemma Forall2_nth1 {A B} (R : A -> B -> Prop) l l' i x : Forall2 R l l' -> nth_error l i = Some x -> exists y, nth_error l' i = Some y /\ R x y.
Proof. intros F. revert i. induction F as [|a b l l' Hab F IH]; intros [|i] E; try discriminate; cbn [nth_error] in *; [injection E as <-; eauto|auto]. Qed.

Section sim.
  (** Masks of the other layers do not matter. *)
  Variable care : Z -> Prop.
  Definition jrel (j j' : job) : Prop :=
    match j, j' with
    | JCanvas i, JCanvas i' => i = i'
    | JMask i c, JMask i' c' => i = i' /\ sameTiles c c'
    | JStore i (LI c m), JStore i' (LI c' m') => i = i' /\ sameTiles c c' /\ (care (Z.of_nat i) -> sameTiles m m')
    | _, _ => False
    end.
  Definition irel (q : Z) (o o' : option limage) : Prop :=
    match o, o' with
    | None, None => True
    | Some (LI c m), Some (LI c' m') => sameTiles c c' /\ (care q -> sameTiles m m')
    | _, _ => False
    end.
  Definition lrel (l l' : player) : Prop :=
    pseq l' = pseq l /\ pflags l' = pflags l /\ pmdc l' = pmdc l /\ (care (pseq l) -> rempty (pmrect l') = rempty (pmrect l)).
  Record Sim (st st' : loader) : Prop := {
    sim_layers : Forall2 lrel (ldLayers st) (ldLayers st');
    sim_sent : ldSent st' = ldSent st;
    sim_busy : Forall2 jrel (ldBusy st) (ldBusy st');
    sim_images : forall q, irel q (m_get Z.eqb (ldImages st) q) (m_get Z.eqb (ldImages st') q);
    sim_copied : Forall2 lrel (ldCopied st) (ldCopied st') }.

  Variables (C1 C2 : player -> player -> option (tilemap px) -> Prop) (M1 M2 : player -> player -> option (tilemap Z) -> Prop) (cpus : nat).
  Variables (ls1 ls2 : list player) (I1 I2 : loader -> Prop).
  Hypothesis Hseq : forall i l, nth_error ls1 i = Some l -> pseq l = Z.of_nat i.
  Hypothesis R0 : Forall2 lrel ls1 ls2.
  Hypothesis HC : forall i l0 l0' l c, nth_error ls1 i = Some l0 -> nth_error ls2 i = Some l0' -> C1 l0 l c ->
    exists l' c', C2 l0' l' c' /\ sameTiles c c' /\ lrel l l'.
  Hypothesis HM : forall i l0 l0' l1 l1' l m, nth_error ls1 i = Some l0 -> nth_error ls2 i = Some l0' -> l1 = setRect l0 (prect l1) -> l1' = setRect l0' (prect l1') -> M1 l1 l m ->
    exists l' m', M2 l1' l' m' /\ (care (Z.of_nat i) -> sameTiles m m') /\ lrel l l'.
  Hypothesis S1 : I1 (lstart ls1).
  Hypothesis S2 : I2 (lstart ls2).
  Hypothesis N1 : forall st st', I1 st -> gstep C1 M1 cpus st st' -> I1 st'.
  Hypothesis N2 : forall st st', I2 st -> gstep C2 M2 cpus st st' -> I2 st'.
  Hypothesis O1 : forall ls n j1 i j2 ims cs l, I1 (LD ls n (j1 ++ JCanvas i :: j2) ims cs) -> nth_error ls i = Some l -> nth_error ls1 i = Some l.
  Hypothesis O2 : forall ls n j1 i j2 ims cs l, I2 (LD ls n (j1 ++ JCanvas i :: j2) ims cs) -> nth_error ls i = Some l -> nth_error ls2 i = Some l.
  Hypothesis P1 : forall ls n j1 i c j2 ims cs l, I1 (LD ls n (j1 ++ JMask i c :: j2) ims cs) -> nth_error ls i = Some l -> exists l0, nth_error ls1 i = Some l0 /\ l = setRect l0 (prect l).
  Hypothesis P2 : forall ls n j1 i c j2 ims cs l, I2 (LD ls n (j1 ++ JMask i c :: j2) ims cs) -> nth_error ls i = Some l -> exists l0, nth_error ls2 i = Some l0 /\ l = setRect l0 (prect l).
  Hypothesis Q1 : forall st i l, I1 st -> nth_error (ldLayers st) i = Some l -> pseq l = Z.of_nat i.

  Lemma sim_step st st' st1 : I1 st -> I2 st' -> Sim st st' -> gstep C1 M1 cpus st st1 -> exists st1', gstep C2 M2 cpus st' st1' /\ Sim st1 st1'.
  Proof.
    intros Ha Hb [L N B Im Cp] H. destruct st' as [ls' n' js' ims' cs']. cbn [ldLayers ldSent ldBusy ldImages ldCopied] in *. assert (Ha' := Ha).
    destruct H as [ls n js ims cs Hn Hc|ls n j1 i j2 ims cs l l' c Hl Ho|ls n j1 i c j2 ims cs l l' m Hl Ho|ls n j1 i ld j2 ims cs l Hl|ls js ims cs l Hl];
      cbn [ldLayers ldSent ldBusy ldImages ldCopied] in *; subst n'.
    - exists (LD ls' (S n) (js' ++ [JCanvas n]) ims' cs'). split.
      + apply G_send; [rewrite <- (Forall2_len _ _ _ L)|rewrite <- (Forall2_len _ _ _ B)]; assumption.
      + split; cbn [ldLayers ldSent ldBusy ldImages ldCopied]; try assumption; [reflexivity|]. apply Forall2_app; [exact B|]. now repeat constructor.
    - apply Forall2_app_inv_l in B. destruct B as (j1' & b & B1 & B & ->). inversion B as [|? j' ? j2' Hj B2]; subst. destruct j' as [i'| |]; [|contradiction..]. cbn in Hj. subst i'.
      destruct (Forall2_nth1 _ _ _ _ _ L Hl) as (lx & Hlx & _). destruct (HC i l lx l' c (O1 _ _ _ _ _ _ _ _ Ha Hl) (O2 _ _ _ _ _ _ _ _ Hb Hlx) Ho) as (ly & c' & Hy & Tc & Rl).
      eexists. split; [exact (G_canvas _ _ _ _ _ _ _ _ _ _ lx ly c' Hlx Hy)|]. split; cbn [ldLayers ldSent ldBusy ldImages ldCopied]; try assumption; [now apply Forall2_set|reflexivity|].
      apply Forall2_app; [exact B1|]. constructor; [|exact B2]. split; [reflexivity|exact Tc].
    - apply Forall2_app_inv_l in B. destruct B as (j1' & b & B1 & B & ->). inversion B as [|? j' ? j2' Hj B2]; subst. destruct j' as [|i' c'|]; [contradiction| |contradiction]. cbn in Hj. destruct Hj as [<- Tc].
      destruct (Forall2_nth1 _ _ _ _ _ L Hl) as (lx & Hlx & _). destruct (P1 _ _ _ _ _ _ _ _ _ Ha Hl) as (l0 & E0 & El). destruct (P2 _ _ _ _ _ _ _ _ _ Hb Hlx) as (l0' & E0' & El').
      destruct (HM i l0 l0' l lx l' m E0 E0' El El' Ho) as (ly & m' & Hy & Tm & Rl).
      eexists. split; [exact (G_mask _ _ _ _ _ _ _ c' _ _ _ lx ly m' Hlx Hy)|]. split; cbn [ldLayers ldSent ldBusy ldImages ldCopied]; try assumption; [now apply Forall2_set|reflexivity|].
      apply Forall2_app; [exact B1|]. constructor; [|exact B2]. split; [reflexivity|]. now split.
    - apply Forall2_app_inv_l in B. destruct B as (j1' & b & B1 & B & ->). inversion B as [|? j' ? j2' Hj B2]; subst. destruct ld as [c m]. destruct j' as [| |i' [c' m']]; [contradiction..|]. cbn in Hj. destruct Hj as (<- & Tc & Tm).
      destruct (Forall2_nth1 _ _ _ _ _ L Hl) as (lx & Hlx & Rl). pose proof (Q1 _ i l Ha Hl) as Eq.
      eexists. split; [exact (G_store _ _ _ _ _ _ _ (LI c' m') _ _ _ lx Hlx)|]. split; cbn [ldLayers ldSent ldBusy ldImages ldCopied]; try assumption; [reflexivity|now apply Forall2_app|].
      intros q. rewrite !(m_get_set Z.eqb Z.eqb_eq). destruct Rl as (-> & _). destruct (Z.eqb_spec (pseq l) q) as [<-|_]; [|apply Im]. cbn. split; [exact Tc|]. rewrite Eq. exact Tm.
    - destruct (Forall2_nth1 _ _ _ _ _ L Hl) as (lx & Hlx & Rl). rewrite (Forall2_len _ _ _ L), (Forall2_len _ _ _ Cp) in *.
      eexists. split; [exact (G_copy _ _ _ _ _ _ _ lx Hlx)|]. split; cbn [ldLayers ldSent ldBusy ldImages ldCopied]; try assumption; [reflexivity|]. apply Forall2_app; [exact Cp|]. constructor; [exact Rl|constructor].
  Qed.
  Lemma sim_steps st : steps (gstep C1 M1 cpus) (lstart ls1) st -> exists st', steps (gstep C2 M2 cpus) (lstart ls2) st' /\ Sim st st'.
  Proof.
    intros H. assert (G : I1 st /\ exists st', steps (gstep C2 M2 cpus) (lstart ls2) st' /\ I2 st' /\ Sim st st').
    { revert H. apply (steps_inv (gstep C1 M1 cpus) (fun st => I1 st /\ exists st', steps (gstep C2 M2 cpus) (lstart ls2) st' /\ I2 st' /\ Sim st st')); clear st.
      - intros st st1 (A & st' & R & A' & S) G. split; [exact (N1 _ _ A G)|]. destruct (sim_step st st' st1 A A' S G) as (st1' & G' & S').
        exists st1'. split; [|split; [exact (N2 _ _ A' G')|exact S']]. exact (steps_next _ _ _ _ R G').
      - split; [exact S1|]. exists (lstart ls2). split; [apply steps_refl|]. split; [exact S2|]. split; cbn; auto; constructor. }
    destruct G as (_ & st' & R & _ & S). eauto.
  Qed.
  Lemma sim_ended st st' : Sim st st' -> lended st -> lended st'.
  Proof.
    intros [L N B Im Cp] (E1 & E2 & E3). split; [|split].
    - rewrite N, <- (Forall2_len _ _ _ L). exact E1.
    - rewrite E2 in B. now inversion B.
    - rewrite <- (Forall2_len _ _ _ L), <- (Forall2_len _ _ _ Cp). exact E3.
  Qed.
End sim.
