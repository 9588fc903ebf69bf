(** Loading with a translation and loading layers that lie at the new place. *)
From Coq Require Import QArith Permutation.
From Verif Require Import Base BaseFacts MRect MThumb SThumb MSched PSched MBlend SBlend MWait PWait MTile STile PTile MLoad SLoad PLoad MTileRender STileRender PTileRender MScale SScale PScale
  MLoadBy PLoadBy PShift1 PShift3.
From Verif Require PThumbs.
Open Scope Z_scope.

Lemma rempty_points r r' : (forall p, pt_in p r = true <-> pt_in p r' = true) -> rempty r = rempty r'.
Proof.
  intros H. assert (K : forall r r', (forall p, pt_in p r = true -> pt_in p r' = true) -> rempty r = false -> rempty r' = false).
  { clear. intros r r' H E. specialize (H (Pt (rx0 r) (ry0 r))). unfold pt_in, rempty in *. cbn [MRect.px py] in *. lia. }
  destruct (rempty r) eqn:E, (rempty r') eqn:E'; auto.
  - rewrite (K r' r) in E; [discriminate|intros p; apply H|exact E'].
  - rewrite (K r r') in E'; [discriminate|intros p; apply H|exact E].
Qed.
Lemma bounds_empty {V} ts (m : tilemap V) r r' : bounds ts m r -> bounds ts m r' -> rempty r = rempty r'.
Proof. intros [A B] [A' B']. apply rempty_points. intros p. split; intros H; [exact (B r' A' p H)|exact (B' r A p H)]. Qed.
Lemma sameTiles_sym {V} (m m' : option (tilemap V)) : sameTiles m m' -> sameTiles m' m.
Proof. destruct m, m'; cbn; auto. Qed.

Definition on (l : player) : Prop := Z.land (pflags l) 2 = 0.
Record placed (dx dy : Z) (l l' : player) : Prop := {
  pl_seq : pseq l' = pseq l; pl_type : ptype l' = ptype l; pl_rect : prect l' = shiftR (prect l) dx dy;
  pl_r : pr_ l' = pr_ l; pl_g : pg_ l' = pg_ l; pl_b : pb_ l' = pb_ l; pl_a : pa_ l' = pa_ l;
  pl_mrect : pmrect l' = shiftR (pmrect l) dx dy \/ rempty (pmrect l) = true /\ rempty (pmrect l') = true;
  pl_chan : pmchan l' = pmchan l; pl_dc : pmdc l' = pmdc l; pl_flags : pflags l' = pflags l }.
Record sound (dx dy : Z) (l : player) : Prop := {
  so_rect : rempty (prect l) = false -> moderate (prect l) dx dy;
  so_planes : hasImage l = true -> rempty (prect l) = false -> plane_ok (prect l) 1 (pr_ l) /\ plane_ok (prect l) 1 (pg_ l) /\ plane_ok (prect l) 1 (pb_ l) /\
    match pa_ l with Some a => plane_ok (prect l) 1 a | None => True end /\
    forall p v, pt_in p (prect l) = true -> source_px (pr_ l) (pg_ l) (pb_ l) (pa_ l) (sample_pos (prect l) 1 p) v -> pa v = 0 \/ pa v = 255;
  so_mask : forall a, rempty (pmrect l) = false -> pmchan l = Some a -> moderate (pmrect l) dx dy /\ plane_ok (pmrect l) 1 a /\ (on l -> pmdc l = 0) }.

Lemma placed_mempty dx dy l l' : placed dx dy l l' -> rempty (pmrect l') = rempty (pmrect l).
Proof. intros P. destruct (pl_mrect _ _ _ _ P) as [->|[-> ->]]; [apply rempty_shift|reflexivity]. Qed.

Lemma nodup_of (a : list player) : (forall i l, nth_error a i = Some l -> pseq l = Z.of_nat i) -> NoDup (map pseq a).
Proof.
  intros H. apply NoDup_nth_error. intros i j Hi E. rewrite map_length in Hi. rewrite !nth_error_map in E.
  destruct (nth_error a i) as [x|] eqn:Ex; [|apply nth_error_None in Ex; lia]. destruct (nth_error a j) as [y|] eqn:Ey; [|discriminate].
  cbn in E. injection E as E. rewrite (H _ _ Ex), (H _ _ Ey) in E. lia.
Qed.

Section work.
  Variables (rnd : Q -> Q) (lib : library) (cpus : nat) (ts dx dy : Z).
  Hypothesis Hr : SThumb.rounding rnd.
  Hypothesis Hl : good_library lib.
  Hypothesis Hc : (1 <= cpus)%nat.
  Hypothesis Ht : 0 < ts.
  Notation T := (translation dx dy).
  Notation CB := (canvasOfBy rnd lib cpus ts T None).
  Notation MB := (maskOfBy rnd lib cpus ts T).
  Notation CA := (canvasOf cpus ts).
  Notation MA := (maskOf cpus ts).

  Section one.
    Variables l l' : player.
    Hypothesis P : placed dx dy l l'.
    Hypothesis S : sound dx dy l.
    Lemma has_same : hasImage l' = hasImage l. Proof. unfold hasImage. now rewrite (pl_type _ _ _ _ P). Qed.
    Lemma emp_same : rempty (prect l') = rempty (prect l). Proof. rewrite (pl_rect _ _ _ _ P). apply rempty_shift. Qed.
    Lemma canvas_by : exists k c, CB l k c.
    Proof.
      unfold canvasOfBy. destruct (hasImage l && negb (rempty (prect l))) eqn:E; [|eauto]. apply andb_true_iff in E. destruct E as [E1 E2]. apply negb_true_iff in E2.
      destruct (so_planes _ _ _ S E1 E2) as (P1 & P2 & P3 & P4 & _).
      destruct (picture_by rnd lib cpus ts Hr Hl Hc Ht (prect l) dx dy (so_rect _ _ _ S E2) (pr_ l) (pg_ l) (pb_ l) (pa_ l) P1 P2 P3 P4) as [m B].
      destruct (PThumbs.tilesRect_ex ts m) as [r R]. eexists _, _, m, r. auto.
    Qed.
    Lemma canvas_at : exists k c, CA l' k c.
    Proof.
      unfold canvasOf. rewrite has_same, emp_same. destruct (hasImage l && negb (rempty (prect l))) eqn:E; [|eauto]. apply andb_true_iff in E. destruct E as [E1 E2]. apply negb_true_iff in E2.
      destruct (so_planes _ _ _ S E1 E2) as (P1 & P2 & P3 & P4 & P5).
      destruct (picture_at cpus ts Hc Ht (prect l) dx dy (pr_ l) (pg_ l) (pb_ l) (pa_ l) P1 P2 P3 P4 P5) as [m B].
      destruct (PThumbs.tilesRect_ex ts m) as [r R]. rewrite (pl_rect _ _ _ _ P), (pl_r _ _ _ _ P), (pl_g _ _ _ _ P), (pl_b _ _ _ _ P), (pl_a _ _ _ _ P). eexists _, _, m, r. auto.
    Qed.
    Lemma canvas_eq k k' c c' : CB l k c -> CA l' k' c' -> sameTiles c c'.
    Proof.
      unfold canvasOfBy, canvasOf. rewrite has_same, emp_same. destruct (hasImage l && negb (rempty (prect l))) eqn:E; [|intros [-> _] [-> _]; exact I].
      apply andb_true_iff in E. destruct E as [E1 E2]. apply negb_true_iff in E2.
      destruct (so_planes _ _ _ S E1 E2) as (P1 & P2 & P3 & P4 & P5). rewrite (pl_rect _ _ _ _ P), (pl_r _ _ _ _ P), (pl_g _ _ _ _ P), (pl_b _ _ _ _ P), (pl_a _ _ _ _ P).
      intros (m & r & B & _ & -> & _) (m' & r' & B' & _ & -> & _).
      exact (picture_same rnd lib cpus ts Hr Hl Hc Ht (prect l) dx dy (so_rect _ _ _ S E2) (pr_ l) (pg_ l) (pb_ l) (pa_ l) P1 P2 P3 P4 P5 m m' B B').
    Qed.
    Variables x x' : rect.
    Lemma mask_by_ : exists k c, MB (setRect l x) k c.
    Proof.
      unfold maskOfBy. cbn [setRect pmrect pmchan pmdc]. destruct (rempty (pmrect l)) eqn:E; cbn [negb]; [eauto|]. destruct (pmchan l) as [a|] eqn:Ea; [|eauto].
      destruct (so_mask _ _ _ S a E Ea) as (M1 & M2 & _).
      destruct (mask_by rnd lib cpus ts Hr Hl Hc Ht (pmrect l) dx dy M1 a M2 (pmdc l)) as [m B]. destruct (PThumbs.tilesRect_ex ts m) as [r R]. eexists _, _, m, r. auto.
    Qed.
    Lemma mask_at' : exists k c, MA (setRect l' x') k c.
    Proof.
      unfold maskOf. cbn [setRect pmrect pmchan pmdc]. rewrite (placed_mempty _ _ _ _ P), (pl_chan _ _ _ _ P), (pl_dc _ _ _ _ P). destruct (rempty (pmrect l)) eqn:E; cbn [negb]; [eauto|]. destruct (pmchan l) as [a|] eqn:Ea; [|eauto].
      destruct (so_mask _ _ _ S a E Ea) as (M1 & M2 & _). destruct (pl_mrect _ _ _ _ P) as [->|[? _]]; [|congruence].
      destruct (mask_at_ cpus ts Hc Ht (pmrect l) dx dy a M2 (pmdc l)) as [m B]. destruct (PThumbs.tilesRect_ex ts m) as [r R]. eexists _, _, m, r. auto.
    Qed.
    Lemma mask_eq k k' c c' : MB (setRect l x) k c -> MA (setRect l' x') k' c' -> on l -> sameTiles c c' /\ rempty (pmrect k') = rempty (pmrect k).
    Proof.
      unfold maskOfBy, maskOf. cbn [setRect pmrect pmchan pmdc]. rewrite (placed_mempty _ _ _ _ P), (pl_chan _ _ _ _ P), (pl_dc _ _ _ _ P). destruct (rempty (pmrect l)) eqn:E; cbn [negb].
      { intros [-> ->] [-> ->] _. split; [exact I|]. exact (placed_mempty _ _ _ _ P). }
      destruct (pmchan l) as [a|] eqn:Ea; [|intros [-> ->] [-> ->] _; split; [exact I|exact (placed_mempty _ _ _ _ P)]].
      destruct (so_mask _ _ _ S a E Ea) as (M1 & M2 & M3). destruct (pl_mrect _ _ _ _ P) as [->|[? _]]; [|congruence].
      intros (m & r & B & R & -> & ->) (m' & r' & B' & R' & -> & ->) On. rewrite (M3 On) in B, B'.
      pose proof (mask_same rnd lib cpus ts Hr Hl Hc Ht (pmrect l) dx dy M1 a M2 m m' B B') as Em. split; [exact Em|]. cbn [setMaskRect pmrect].
      apply tilesRect_bounds in R, R'. symmetry. exact (bounds_empty ts m' r r' (bounds_ext ts m m' r Em R) R').
    Qed.
  End one.

  (** * All layers *)
  Variables ls ls' : list player.
  Hypothesis HP : Forall2 (placed dx dy) ls ls'.
  Hypothesis HS : Forall (sound dx dy) ls.
  Hypothesis Hq : forall i l, nth_error ls i = Some l -> pseq l = Z.of_nat i.
  Definition care (q : Z) : Prop := forall l, In l ls -> pseq l = q -> on l.

  Lemma Hq' i l : nth_error ls' i = Some l -> pseq l = Z.of_nat i.
  Proof.
    intros E. destruct (nth_error ls i) as [k|] eqn:Ek.
    - destruct (Forall2_nth1 _ _ _ _ _ HP Ek) as (l1 & E1 & P1). rewrite E in E1. injection E1 as <-. rewrite (pl_seq _ _ _ _ P1). auto.
    - apply nth_error_None in Ek. rewrite (Forall2_len _ _ _ HP) in Ek. apply nth_error_None in Ek. congruence.
  Qed.
  Definition nodup_by := nodup_of ls Hq.
  Definition nodup_at := nodup_of ls' Hq'.
  Lemma pair_at i l0 l0' : nth_error ls i = Some l0 -> nth_error ls' i = Some l0' -> placed dx dy l0 l0' /\ sound dx dy l0.
  Proof.
    intros E E'. destruct (Forall2_nth1 _ _ _ _ _ HP E) as (l1 & E1 & P1). rewrite E' in E1. injection E1 as <-. split; [exact P1|].
    rewrite Forall_forall in HS. apply HS. eapply nth_error_In; exact E.
  Qed.
  Lemma care_on i l0 : nth_error ls i = Some l0 -> care (Z.of_nat i) -> on l0.
  Proof. intros E H. apply H; [eapply nth_error_In; exact E|now apply Hq]. Qed.

  Lemma by_gstep st st1 : lstepBy rnd lib cpus ts T None st st1 <-> gstep CB MB cpus st st1.
  Proof.
    split; intros H; destruct H; [apply G_send|eapply G_canvas|eapply G_mask|apply G_store|apply G_copy|apply LB_send|eapply LB_canvas|eapply LB_mask|apply LB_store|apply LB_copy]; eassumption.
  Qed.
  Lemma at_gstep st st1 : lstep cpus ts st st1 <-> gstep CA MA cpus st st1.
  Proof.
    split; intros H; destruct H; [apply G_send|eapply G_canvas|eapply G_mask|apply G_store|apply G_copy|apply L_send|eapply L_canvas|eapply L_mask|apply L_store|apply L_copy]; eassumption.
  Qed.
  Lemma steps_map {S} (R R' : S -> S -> Prop) a b : (forall x y, R x y -> R' x y) -> MWait.steps R a b -> MWait.steps R' a b.
  Proof. intros H. induction 1 as [|s t u _ IH G]; [apply steps_refl|]. exact (steps_next _ _ _ _ IH (H _ _ G)). Qed.

  Notation I1 := (InvBy rnd lib cpus ts T None ls).
  Notation I2 := (Inv cpus ts ls').
  Lemma N1 st st' : I1 st -> gstep CB MB cpus st st' -> I1 st'.
  Proof. intros H G. apply (inv_stepBy rnd lib cpus ts T None ls nodup_by st); [exact H|]. now apply by_gstep. Qed.
  Lemma N2 st st' : I2 st -> gstep CA MA cpus st st' -> I2 st'.
  Proof. intros H G. apply (inv_step cpus ts ls' nodup_at st); [exact H|]. now apply at_gstep. Qed.
  Lemma status_by st i l : I1 st -> nth_error (ldLayers st) i = Some l -> exists l0, nth_error ls i = Some l0 /\ statusBy rnd lib cpus ts T None (ldSent st) (ldBusy st) (ldImages st) i l0 l.
  Proof.
    intros H E. destruct (nth_error ls i) as [l0|] eqn:E0.
    - exists l0. split; [reflexivity|]. destruct (inv_statusBy _ _ _ _ _ _ _ _ H i l0 E0) as (l1 & E1 & St). rewrite E in E1. now injection E1 as <-.
    - apply nth_error_None in E0. rewrite <- (inv_lenBy _ _ _ _ _ _ _ _ H) in E0. apply nth_error_None in E0. congruence.
  Qed.
  Lemma status_at st i l : I2 st -> nth_error (ldLayers st) i = Some l -> exists l0, nth_error ls' i = Some l0 /\ status cpus ts (ldSent st) (ldBusy st) (ldImages st) i l0 l.
  Proof.
    intros H E. destruct (nth_error ls' i) as [l0|] eqn:E0.
    - exists l0. split; [reflexivity|]. destruct (inv_status _ _ _ _ H i l0 E0) as (l1 & E1 & St). rewrite E in E1. now injection E1 as <-.
    - apply nth_error_None in E0. rewrite <- (inv_len _ _ _ _ H) in E0. apply nth_error_None in E0. congruence.
  Qed.
  Lemma O1 a n j1 i j2 ims cs l : I1 (LD a n (j1 ++ JCanvas i :: j2) ims cs) -> nth_error a i = Some l -> nth_error ls i = Some l.
  Proof.
    intros H E. destruct (status_by _ i l H E) as (l0 & E0 & St). cbn [ldSent ldBusy ldImages] in St.
    apply (status_jobBy rnd lib cpus ts T None n j1 j2 (JCanvas i)) in St; [cbn in St; now subst l|exact (inv_nodupBy _ _ _ _ _ _ _ _ H)|exact (inv_ltBy _ _ _ _ _ _ _ _ H)|reflexivity].
  Qed.
  Lemma O2 a n j1 i j2 ims cs l : I2 (LD a n (j1 ++ JCanvas i :: j2) ims cs) -> nth_error a i = Some l -> nth_error ls' i = Some l.
  Proof.
    intros H E. destruct (status_at _ i l H E) as (l0 & E0 & St). cbn [ldSent ldBusy ldImages] in St.
    apply (status_job cpus ts n j1 j2 (JCanvas i)) in St; [cbn in St; now subst l|exact (inv_nodup _ _ _ _ H)|exact (inv_lt _ _ _ _ H)|reflexivity].
  Qed.
  Lemma P1 a n j1 i c j2 ims cs l : I1 (LD a n (j1 ++ JMask i c :: j2) ims cs) -> nth_error a i = Some l -> exists l0, nth_error ls i = Some l0 /\ l = setRect l0 (prect l).
  Proof.
    intros H E. destruct (status_by _ i l H E) as (l0 & E0 & St). cbn [ldSent ldBusy ldImages] in St. exists l0. split; [exact E0|].
    apply (status_jobBy rnd lib cpus ts T None n j1 j2 (JMask i c)) in St; [cbn in St; exact (canvasOf_sameBy _ _ _ _ _ _ _ _ _ St)|exact (inv_nodupBy _ _ _ _ _ _ _ _ H)|exact (inv_ltBy _ _ _ _ _ _ _ _ H)|reflexivity].
  Qed.
  Lemma P2 a n j1 i c j2 ims cs l : I2 (LD a n (j1 ++ JMask i c :: j2) ims cs) -> nth_error a i = Some l -> exists l0, nth_error ls' i = Some l0 /\ l = setRect l0 (prect l).
  Proof.
    intros H E. destruct (status_at _ i l H E) as (l0 & E0 & St). cbn [ldSent ldBusy ldImages] in St. exists l0. split; [exact E0|].
    apply (status_job cpus ts n j1 j2 (JMask i c)) in St; [cbn in St; exact (canvasOf_same _ _ _ _ _ St)|exact (inv_nodup _ _ _ _ H)|exact (inv_lt _ _ _ _ H)|reflexivity].
  Qed.
  Lemma Q1 st i l : I1 st -> nth_error (ldLayers st) i = Some l -> pseq l = Z.of_nat i.
  Proof. intros H E. destruct (status_by _ i l H E) as (l0 & E0 & St). apply status_stageBy, stage_sameBy in St. rewrite St. exact (Hq i l0 E0). Qed.
  Lemma Q2 st i l : I2 st -> nth_error (ldLayers st) i = Some l -> pseq l = Z.of_nat i.
  Proof. intros H E. destruct (status_at _ i l H E) as (l0 & E0 & St). apply status_stage, stage_same in St. rewrite St. exact (Hq' i l0 E0). Qed.

  Lemma placed_lrel l l' : placed dx dy l l' -> lrel care l l'.
  Proof. intros P. split; [exact (pl_seq _ _ _ _ P)|]. split; [exact (pl_flags _ _ _ _ P)|]. split; [exact (pl_dc _ _ _ _ P)|]. intros _. exact (placed_mempty _ _ _ _ P). Qed.
  Lemma lrel_sym l l' : lrel care l l' -> lrel care l' l.
  Proof. intros (A & B & C & D). split; [now symmetry|]. split; [now symmetry|]. split; [now symmetry|]. rewrite A. intros H. symmetry. auto. Qed.

  Lemma by_at st : MWait.steps (lstepBy rnd lib cpus ts T None) (lstart ls) st -> lended st -> exists st', MWait.steps (lstep cpus ts) (lstart ls') st' /\ lended st' /\ Sim care st st'.
  Proof.
    intros H E. destruct (sim_steps care CB CA MB MA cpus ls ls' I1 I2) with (st := st) as (st' & H' & S').
    - clear - HP. induction HP; constructor; auto. now apply placed_lrel.
    - intros i l0 l0' l c E0 E0' C. destruct (pair_at i l0 l0' E0 E0') as [P S]. destruct (canvas_at l0 l0' P S) as (l' & c' & C'). exists l', c'. split; [exact C'|].
      split; [exact (canvas_eq l0 l0' P S l l' c c' C C')|]. rewrite (canvasOf_sameBy _ _ _ _ _ _ _ _ _ C), (canvasOf_same _ _ _ _ _ C'). destruct (placed_lrel _ _ P) as (A & B & D & F). now repeat split.
    - intros i l0 l0' l1 l1' l m E0 E0' -> -> M. destruct (pair_at i l0 l0' E0 E0') as [P S]. destruct (mask_at' l0 l0' P S (prect l1')) as (l' & m' & M'). exists l', m'. split; [exact M'|].
      pose proof (mask_eq l0 l0' P S _ _ l l' m m' M M') as Eq. split; [intros Ca; exact (proj1 (Eq (care_on i l0 E0 Ca)))|].
      pose proof (maskOf_sameBy _ _ _ _ _ _ _ _ M) as X. pose proof (maskOf_same _ _ _ _ _ M') as X'.
      assert (Y : pseq l = pseq l0 /\ pflags l = pflags l0 /\ pmdc l = pmdc l0) by (rewrite X; cbn; auto). assert (Y' : pseq l' = pseq l0' /\ pflags l' = pflags l0' /\ pmdc l' = pmdc l0') by (rewrite X'; cbn; auto).
      unfold lrel. destruct Y as (-> & -> & ->), Y' as (-> & -> & ->). split; [exact (pl_seq _ _ _ _ P)|]. split; [exact (pl_flags _ _ _ _ P)|]. split; [exact (pl_dc _ _ _ _ P)|].
      rewrite (Hq i l0 E0). intros Ca. exact (proj2 (Eq (care_on i l0 E0 Ca))).
    - exact (inv_startBy rnd lib cpus ts T None ls).
    - exact (inv_start cpus ts ls').
    - exact N1.
    - exact N2.
    - exact O1.
    - exact O2.
    - exact P1.
    - exact P2.
    - exact Q1.
    - eapply steps_map; [|exact H]. intros x y. apply by_gstep.
    - exists st'. split; [|split; [exact (sim_ended care st st' S' E)|exact S']]. eapply steps_map; [|exact H']. intros x y. apply at_gstep.
  Qed.
  Lemma at_by st' : MWait.steps (lstep cpus ts) (lstart ls') st' -> lended st' -> exists st, MWait.steps (lstepBy rnd lib cpus ts T None) (lstart ls) st /\ lended st /\ Sim care st' st.
  Proof.
    intros H E. destruct (sim_steps care CA CB MA MB cpus ls' ls I2 I1) with (st := st') as (st & H' & S').
    - clear - HP. induction HP; constructor; auto. now apply lrel_sym, placed_lrel.
    - intros i l0' l0 l' c' E0' E0 C'. destruct (pair_at i l0 l0' E0 E0') as [P S]. destruct (canvas_by l0 S) as (l & c & C). exists l, c. split; [exact C|].
      split; [apply sameTiles_sym; exact (canvas_eq l0 l0' P S l l' c c' C C')|]. rewrite (canvasOf_sameBy _ _ _ _ _ _ _ _ _ C), (canvasOf_same _ _ _ _ _ C'). apply lrel_sym. destruct (placed_lrel _ _ P) as (A & B & D & F). now repeat split.
    - intros i l0' l0 l1' l1 l' m' E0' E0 -> -> M'. destruct (pair_at i l0 l0' E0 E0') as [P S]. destruct (mask_by_ l0 S (prect l1)) as (l & m & M). exists l, m. split; [exact M|].
      pose proof (mask_eq l0 l0' P S _ _ l l' m m' M M') as Eq. split; [intros Ca; apply sameTiles_sym; exact (proj1 (Eq (care_on i l0 E0 Ca)))|]. apply lrel_sym.
      pose proof (maskOf_sameBy _ _ _ _ _ _ _ _ M) as X. pose proof (maskOf_same _ _ _ _ _ M') as X'.
      assert (Y : pseq l = pseq l0 /\ pflags l = pflags l0 /\ pmdc l = pmdc l0) by (rewrite X; cbn; auto). assert (Y' : pseq l' = pseq l0' /\ pflags l' = pflags l0' /\ pmdc l' = pmdc l0') by (rewrite X'; cbn; auto).
      unfold lrel. destruct Y as (-> & -> & ->), Y' as (-> & -> & ->). split; [exact (pl_seq _ _ _ _ P)|]. split; [exact (pl_flags _ _ _ _ P)|]. split; [exact (pl_dc _ _ _ _ P)|].
      rewrite (Hq i l0 E0). intros Ca. exact (proj2 (Eq (care_on i l0 E0 Ca))).
    - exact (inv_start cpus ts ls').
    - exact (inv_startBy rnd lib cpus ts T None ls).
    - exact N2.
    - exact N1.
    - exact O2.
    - exact O1.
    - exact P2.
    - exact P1.
    - exact Q2.
    - eapply steps_map; [|exact H]. intros x y. apply at_gstep.
    - exists st. split; [|split; [exact (sim_ended care st' st S' E)|exact S']]. eapply steps_map; [|exact H']. intros x y. apply by_gstep.
  Qed.
End work.
