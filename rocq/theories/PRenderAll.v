(** Proofs about the workers of the renderer and its histories. *)
From Verif Require Import Base BaseFacts MRect MSched PSched MDraw MTile STile PTile MRender SRender PRender PRender2 PRender3 PRender4 PRender5 MRenderAll SRenderAll.

(** * Schedules *)
Lemma interleave_filter {A} (P : A -> bool) ls r : interleave ls r -> interleave (map (filter P) ls) (filter P r).
Proof.
  induction 1 as [ls H|l1 a t l2 r _ IH].
  - constructor. rewrite Forall_forall in *. intros l I. apply in_map_iff in I. destruct I as (x & <- & I). now rewrite (H x I).
  - rewrite map_app in *. cbn [map filter] in *. destruct (P a); [now constructor|exact IH].
Qed.
Lemma interleave_nil {A} (ls : list (list A)) r : interleave ls r -> Forall (fun l => l = []) ls -> r = [].
Proof.
  intros H N. inversion H as [|l1 a t l2 r' _]; subst; [reflexivity|]. rewrite Forall_app, Forall_cons_iff in N. destruct N as (_ & N & _). discriminate.
Qed.
Lemma mid_unique {A} (l1 l2 : list (list A)) x m1 y m2 : Forall (fun l => l = []) l1 -> Forall (fun l => l = []) l2 -> y <> [] ->
  l1 ++ x :: l2 = m1 ++ y :: m2 -> m1 = l1 /\ y = x /\ m2 = l2.
Proof.
  intros N1 N2 Hy. revert m1. induction l1 as [|z l1 IH]; intros [|u m1] E; cbn in E; injection E as E1 E2.
  - subst. auto.
  - subst. rewrite Forall_app, Forall_cons_iff in N2. destruct N2 as (_ & N2 & _). contradiction.
  - subst. apply Forall_cons_iff in N1. destruct N1. contradiction.
  - subst. apply Forall_cons_iff in N1. destruct N1 as [_ N1]. destruct (IH N1 m1 E2) as (-> & -> & ->). auto.
Qed.
Lemma interleave_single {A} (x : list A) : forall r l1 l2, Forall (fun l => l = []) l1 -> Forall (fun l => l = []) l2 ->
  interleave (l1 ++ x :: l2) r -> r = x.
Proof.
  induction x as [|a x IH]; intros r l1 l2 N1 N2 H.
  - eapply interleave_nil; [exact H|]. rewrite Forall_app, Forall_cons_iff. auto.
  - inversion H as [ls N E|m1 b t m2 r' H' E]; subst.
    + rewrite Forall_app, Forall_cons_iff in N. destruct N as (_ & N & _). discriminate.
    + symmetry in E. destruct (mid_unique l1 l2 (a :: x) m1 (b :: t) m2 N1 N2) as (-> & E1 & ->); [discriminate|exact E|].
      injection E1 as -> ->. f_equal. exact (IH _ l1 l2 N1 N2 H').
Qed.

Lemma NoDup_app_intro {A} (l1 l2 : list A) : NoDup l1 -> NoDup l2 -> (forall x, In x l1 -> In x l2 -> False) -> NoDup (l1 ++ l2).
Proof.
  induction 1 as [|x l1 Hx _ IH]; intros N2 D; [exact N2|]. cbn. constructor.
  - rewrite in_app_iff. intros [H|H]; [contradiction|]. apply (D x); [now left|exact H].
  - apply IH; [exact N2|]. intros y H1 H2. apply (D y); [now right|exact H2].
Qed.
Lemma NoDup_map_inj {A B} (f : A -> B) l : (forall x y, f x = f y -> x = y) -> NoDup l -> NoDup (map f l).
Proof.
  intros Hf. induction 1 as [|x l Hx _ IH]; [constructor|]. cbn. constructor; [|exact IH].
  intros H. apply in_map_iff in H. destruct H as (y & E & I). apply Hf in E. now subst.
Qed.

Section all.
  Context {img : Type}.
  Notation local := (local img).
  Notation world := (world img).

  Lemma exec_at (sched : list (point * (local -> local))) q : forall w,
    exec act sched w q = fold_left (fun x g => g x) (map snd (filter (fun a => pt_eqb q (fst a)) sched)) (w q).
  Proof.
    induction sched as [|a sched IH]; intros w; [reflexivity|]. change (exec act (a :: sched) w) with (exec act sched (act a w)).
    rewrite IH. unfold act at 1. cbn [filter]. destruct (pt_eqb q (fst a)); reflexivity.
  Qed.
  Lemma filter_acts (m : point -> list (local -> local)) q pts : NoDup pts ->
    filter (fun a => pt_eqb q (fst a)) (flat_map (fun pt => map (pair pt) (m pt)) pts) =
    if existsb (pt_eqb q) pts then map (pair q) (m q) else [].
  Proof.
    induction 1 as [|p pts Hp _ IH]; [reflexivity|]. cbn [flat_map existsb]. rewrite filter_app, IH.
    assert (E : filter (fun a => pt_eqb q (fst a)) (map (pair p) (m p)) = if pt_eqb q p then map (pair p) (m p) else []).
    { induction (m p) as [|g l IHl]; [now destruct (pt_eqb q p)|]. cbn [map filter fst]. rewrite IHl. destruct (pt_eqb q p); reflexivity. }
    rewrite E. destruct (pt_eqb_spec q p) as [->|]; cbn [orb]; [|reflexivity].
    replace (existsb (pt_eqb p) pts) with false; [apply app_nil_r|]. symmetry. apply Bool.not_true_iff_false. intros H.
    apply existsb_exists in H. destruct H as (x & I & H). destruct (pt_eqb_spec p x); [subst; contradiction|discriminate].
  Qed.
  Lemma existsb_pt q pts : existsb (pt_eqb q) pts = true <-> In q pts.
  Proof.
    rewrite existsb_exists. split.
    - intros (x & I & H). destruct (pt_eqb_spec q x); [now subst|discriminate].
    - intros I. exists q. split; [exact I|]. destruct (pt_eqb_spec q q); congruence.
  Qed.
  Lemma existsb_pt_false q pts : ~ In q pts -> existsb (pt_eqb q) pts = false.
  Proof. intros H. apply Bool.not_true_iff_false. now rewrite existsb_pt. Qed.

  (** Every schedule does the whole work of each point, and nothing else *)
  Lemma sched_at (m : point -> list (local -> local)) (rows : list (list (list point))) sched (w : world) q : NoDup (concat (map (@concat point) rows)) ->
    interleave (map (workerActs m) rows) sched ->
    exec act sched w q = if existsb (pt_eqb q) (concat (map (@concat point) rows)) then fold_left (fun x g => g x) (m q) (w q) else w q.
  Proof.
    intros N H. rewrite exec_at. apply (interleave_filter (fun a => pt_eqb q (fst a))) in H. rewrite map_map in H.
    set (F := fun rs => filter (fun a => pt_eqb q (fst a)) (workerActs m rs)) in *.
    assert (HF : forall rs, NoDup (concat rs) -> F rs = if existsb (pt_eqb q) (concat rs) then map (pair q) (m q) else []).
    { intros rs Nr. unfold F, workerActs. now apply filter_acts. }
    assert (Z : forall rs, NoDup (concat (map (@concat point) rs)) -> ~ In q (concat (map (@concat point) rs)) -> Forall (fun l => l = []) (map F rs)).
    { induction rs as [|x rs IH]; cbn [map concat]; intros Nr Hq; [constructor|]. constructor.
      - rewrite HF by (eapply NoDup_app_l; exact Nr). rewrite existsb_pt_false; [reflexivity|]. intros I. apply Hq. apply in_app_iff. now left.
      - apply IH; [eapply NoDup_app_r; exact Nr|]. intros I. apply Hq. apply in_app_iff. now right. }
    destruct (existsb (pt_eqb q) (concat (map (@concat point) rows))) eqn:E.
    - apply existsb_pt in E.
      assert (S : exists r1 x r2, rows = r1 ++ x :: r2 /\ In q (concat x)).
      { apply in_concat in E. destruct E as (l & I & Hl). apply in_map_iff in I. destruct I as (x & <- & I). apply in_split in I.
        destruct I as (r1 & r2 & ->). eauto. }
      destruct S as (r1 & x & r2 & -> & Hx). rewrite map_app, concat_app in N. cbn [map concat] in N.
      rewrite map_app in H. cbn [map] in H.
      pose proof (NoDup_app_r _ _ N) as N2. pose proof (NoDup_app_l _ _ N2) as N3.
      apply interleave_single in H.
      + rewrite H, HF by exact N3. rewrite (proj2 (existsb_pt q (concat x)) Hx), map_map. cbn [snd]. now rewrite map_id.
      + apply Z; [eapply NoDup_app_l; exact N|]. intros I. eapply (NoDup_app_disj _ _ q N I). apply in_app_iff. now left.
      + apply Z; [eapply NoDup_app_r; exact N2|]. intros I. eapply (NoDup_app_disj _ _ q N2); eassumption.
    - apply interleave_nil in H; [now rewrite H|]. apply Z; [exact N|]. intros I. apply existsb_pt in I. congruence.
  Qed.
End all.

(** * The rows of the workers *)
Lemma rows_grid cpus ts r : (1 <= cpus)%nat -> 0 < ts ->
  concat (map (@concat point) (workerRows cpus ts r)) = gridPoints ts (gridStart ts (rx0 r)) (rx1 r) (gridStart ts (ry0 r)) (ry1 r).
Proof.
  intros Hc Ht. unfold workerRows, gridPoints. destruct (tileWorkers_forUp cpus ts (gridStart ts (ry0 r)) (ry1 r) Hc Ht) as [E _].
  rewrite <- E. clear E. induction (tileWorkers cpus ts (gridStart ts (ry0 r)) (ry1 r)) as [|[a b] l IH]; [reflexivity|].
  cbn [map concat]. rewrite flat_map_app, IH. f_equal. now rewrite flat_map_concat_map.
Qed.
Lemma forUp_NoDup t0 t1 step : 0 < step -> NoDup (forUp t0 t1 step).
Proof.
  intros H. rewrite forUp_eq. apply NoDup_map_inj; [intros x y; nia|apply NoDup_zseq].
Qed.
Lemma grid_NoDup ts x0 x1 y0 y1 : 0 < ts -> NoDup (gridPoints ts x0 x1 y0 y1).
Proof.
  intros Ht. unfold gridPoints. pose proof (forUp_NoDup y0 y1 ts Ht) as Ny. induction Ny as [|y ys Hy _ IH]; [constructor|].
  cbn [flat_map]. apply NoDup_app_intro; [|exact IH|].
  - apply NoDup_map_inj; [congruence|]. now apply forUp_NoDup.
  - intros p I1 I2. apply in_map_iff in I1. destruct I1 as (x & <- & _). apply in_flat_map in I2. destruct I2 as (y' & I2 & I3).
    apply in_map_iff in I3. destruct I3 as (x' & E & _). injection E as _ ->. contradiction.
Qed.
Lemma prefix_rows (rows rows' : list (list (list point))) : Forall2 prefix rows rows' -> NoDup (concat (map (@concat point) rows')) ->
  NoDup (concat (map (@concat point) rows)) /\ incl (concat (map (@concat point) rows)) (concat (map (@concat point) rows')).
Proof.
  induction 1 as [|x y rows rows' [t ->] _ IH]; cbn [map concat]; intros N; [split; [constructor|intros p []]|].
  rewrite concat_app, <- app_assoc in *. pose proof (NoDup_app_r _ _ (NoDup_app_r _ _ N)) as N2. destruct (IH N2) as [I1 I2]. split.
  - apply NoDup_app_intro; [eapply NoDup_app_l; exact N|exact I1|]. intros p P1 P2. eapply (NoDup_app_disj _ _ p N P1). apply in_app_iff. right. now apply I2.
  - intros p P. rewrite !in_app_iff in *. destruct P as [P|P]; [now left|]. right. right. now apply I2.
Qed.

(** * One tile: the entries alone decide *)
Section tile.
  Context {img msk : Type}.
  Variable zero : img.
  Variable copyT : img -> img.
  Variable blendOf : bytes -> option (Z -> img -> img -> img).
  Variable destInM destOutM : msk -> img -> img.
  Variable destInT destOverT : img -> img -> img.
  Variable clearT removeAlpha : img -> img.
  Variable canvas : Z -> option img.
  Variable mask : Z -> option msk.
  Notation tstate := (tstate img).
  Notation drawLayer := (drawLayer zero copyT blendOf destInM destOutM destInT destOverT clearT removeAlpha canvas mask).
  Notation putTile := (putTile copyT blendOf).
  Notation drawTop := (drawTop zero copyT blendOf destInM destOutM destInT destOverT clearT removeAlpha canvas mask).
  Notation updateTile := (updateTile zero copyT blendOf destInM destOutM destInT destOverT clearT removeAlpha canvas mask).
  Notation renderTile := (renderTile zero copyT blendOf destInM destOutM destInT destOverT clearT removeAlpha canvas mask).
  Notation clips := (clips zero copyT blendOf destInM destOutM destInT destOverT clearT removeAlpha canvas mask).
  Notation draws := (draws zero copyT blendOf destInM destOutM destInT destOverT clearT removeAlpha canvas mask).
  Notation finish := (finish zero copyT blendOf destInM destOutM destInT destOverT clearT removeAlpha canvas mask).
  Notation ent st s := (m_get Z.eqb (tent st) s).

  Definition simS (st st' : tstate) : Prop := forall s, ent st s = ent st' s.
  Definition simO {A} (o o' : option (tstate * A)) : Prop :=
    match o, o' with
    | Some (st, x), Some (st', x') => simS st st' /\ x = x'
    | None, None => True
    | _, _ => False
    end.
  Definition simO2 {A B} (o o' : option (tstate * A * B)) : Prop :=
    match o, o' with
    | Some (st, x, y), Some (st', x', y') => simS st st' /\ x = x' /\ y = y'
    | None, None => True
    | _, _ => False
    end.
  Lemma simS_set st st' s e l l' : simS st st' -> simS (Tst (m_set Z.eqb (tent st) s e) l) (Tst (m_set Z.eqb (tent st') s e) l').
  Proof. intros H x. cbn [tent]. rewrite !(m_get_set Z.eqb Z.eqb_eq). destruct (s =? x); [reflexivity|apply H]. Qed.
  Lemma simS_update st st' dr s b c : simS st st' -> simS (updateCache copyT dr s b c st) (updateCache copyT dr s b c st').
  Proof. intros H. unfold updateCache. destruct c; [|exact H]. destruct dr; try exact H; now apply simS_set. Qed.

  Definition drawSim (l : layer) : Prop := forall st st' b op force, simS st st' -> simO2 (drawLayer st b l op force) (drawLayer st' b l op force).
  Lemma clips_sim cs : Forall drawSim cs -> forall st st' x, simS st st' -> simO (clips cs st x) (clips cs st' x).
  Proof.
    induction 1 as [|c cs Hc _ IH]; intros st st' x S; [split; [exact S|reflexivity]|]. rewrite !clips_cons.
    specialize (Hc st st' x (lopa (latt c)) true S). revert Hc.
    destruct (drawLayer st x c _ true) as [[[s1 x1] d1]|], (drawLayer st' x c _ true) as [[[s2 x2] d2]|]; cbn; try tauto.
    intros (S' & <- & _). now apply IH.
  Qed.
  Lemma draws_sim al ks : Forall drawSim ks -> forall st st' x d, simS st st' -> simO2 (draws al ks st x d) (draws al ks st' x d).
  Proof.
    induction 1 as [|c cs Hc _ IH]; intros st st' x d S; [split; [exact S|split; reflexivity]|]. rewrite !draws_cons.
    specialize (Hc st st' x (Z.shiftr (lopa (latt c) * al) 23) false S). revert Hc.
    destruct (drawLayer st x c _ false) as [[[s1 x1] d1]|], (drawLayer st' x c _ false) as [[[s2 x2] d2]|]; cbn; try tauto.
    intros (S' & <- & <-). now apply IH.
  Qed.
  Lemma finish_sim a cs op b st st' buf c : Forall drawSim cs -> simS st st' -> simO2 (finish a cs op b st buf c) (finish a cs op b st' buf c).
  Proof.
    intros Hc S. unfold PRender.finish. cbn zeta. destruct cs as [|k cs].
    - destruct (putTile a b _ op); [|exact I]. split; [now apply simS_update|auto].
    - destruct (lbce a).
      + match goal with |- context [clips (k :: cs) st ?x] => pose proof (clips_sim (k :: cs) Hc st st' x S) as H end.
        revert H. destruct (clips (k :: cs) st _) as [[s1 x1]|], (clips (k :: cs) st' _) as [[s2 x2]|]; cbn [simO]; try tauto.
        intros (S' & <-). destruct (putTile a b _ op); [|exact I]. split; [now apply simS_update|auto].
      + destruct (drawWithOpacity blendOf b _ op (lbm a)); [|exact I]. split; [now apply simS_update|auto].
  Qed.
  Lemma drawLayer_sim l : drawSim l.
  Proof.
    induction l as [a ks cs Hk Hc] using layer_rec'. intros st st' b op force S. rewrite !drawLayer_eq.
    destruct (negb (lvis a) || (op =? 0)); [cbn; auto|]. destruct (lclipping a && negb force); [cbn; auto|]. destruct (isNil ks).
    - destruct (canvas (lseq a)); [|cbn; auto]. now apply finish_sim.
    - rewrite (S (lseq a)). destruct (ent st' (lseq a)) as [[ci|]|].
      + destruct (putTile a b ci op); cbn; auto.
      + cbn; auto.
      + match goal with |- context [draws ?al ks st ?x ?d] => pose proof (draws_sim al ks Hk st st' x d S) as H end.
        revert H. destruct (draws _ ks st _ _) as [[[s1 x1] d1]|], (draws _ ks st' _ _) as [[[s2 x2] d2]|]; cbn [simO2]; try tauto.
        intros (S' & <- & <-). destruct d1; [now apply finish_sim|]. split; [now apply simS_update|auto].
  Qed.
  Lemma drawTop_sim ks : forall st st' x d, simS st st' -> simO2 (drawTop ks st x d) (drawTop ks st' x d).
  Proof.
    induction ks as [|k ks IH]; intros st st' x d S; [cbn; auto|]. cbn [MRender.drawTop].
    pose proof (drawLayer_sim k st st' x (lopa (latt k)) false S) as H. revert H.
    destruct (drawLayer st x k _ false) as [[[s1 x1] d1]|], (drawLayer st' x k _ false) as [[[s2 x2] d2]|]; cbn [simO2]; try tauto.
    intros (S' & <- & <-). now apply IH.
  Qed.
  Lemma updateTile_sim root st st' : simS st st' -> simO (updateTile root st) (updateTile root st').
  Proof.
    intros S. unfold MRender.updateTile. rewrite (S (lseq (latt root))). destruct (ent st' (lseq (latt root))); [split; auto|].
    pose proof (drawTop_sim (lkids root) st st' zero false S) as H. revert H.
    destruct (drawTop _ st _ _) as [[[s1 x1] d1]|], (drawTop _ st' _ _) as [[[s2 x2] d2]|]; cbn [simO2]; try tauto.
    intros (S' & <- & <-). split; [now apply simS_update|reflexivity].
  Qed.
  Lemma renderTile_sim diffOnly root st st' d : simS st st' -> simO (renderTile diffOnly root st d) (renderTile diffOnly root st' d).
  Proof.
    intros S. unfold MRender.renderTile. pose proof (updateTile_sim root st st' S) as H. revert H.
    destruct (updateTile root st) as [[s1 m1]|], (updateTile root st') as [[s2 m2]|]; cbn [simO]; try tauto.
    intros (S' & <-). destruct (m1 || negb diffOnly); [|split; auto]. unfold paint. rewrite (S' (lseq (latt root))).
    destruct (ent s2 (lseq (latt root))) as [[ci|]|]; cbn; auto.
  Qed.
  Lemma renderTile_ext diffOnly root st d st' d' : renderTile diffOnly root st d = Some (st', d') -> ext st st'.
  Proof.
    unfold MRender.renderTile. destruct (updateTile root st) as [[s1 m1]|] eqn:E; [|discriminate].
    destruct (m1 || negb diffOnly); [destruct (paint copyT clearT root s1 d); [|discriminate]|]; intros [= <- <-]; eapply updateTile_ext; try exact (fun _ => false); exact E.
  Qed.
  (** A render with diffOnly does not touch the pixels if the root has an entry, and paints
      the entry otherwise *)
  Lemma renderTile_diff root st d st' d' : renderTile true root st d = Some (st', d') ->
    (ent st (lseq (latt root)) <> None -> d' = d /\ st' = st) /\
    (ent st (lseq (latt root)) = None -> paint copyT clearT root st' d = Some d').
  Proof.
    unfold MRender.renderTile. destruct (updateTile root st) as [[s1 m1]|] eqn:E; [|discriminate]. intros H. split; intros P.
    - revert E H. unfold MRender.updateTile. destruct (ent st (lseq (latt root))); [|congruence]. intros [= <- <-]. cbn [orb negb]. intros [= <- <-]. auto.
    - assert (m1 = true) as ->.
      { revert E. unfold MRender.updateTile. rewrite P. destruct (drawTop _ st _ _) as [[[? ?] ?]|]; [|discriminate]. congruence. }
      cbn [orb] in H. destruct (paint copyT clearT root s1 d) eqn:Ep; [|discriminate]. injection H as <- <-. exact Ep.
  Qed.
  (** A full render paints the entry *)
  Lemma renderTile_full root st d st' d' : renderTile false root st d = Some (st', d') -> paint copyT clearT root st' d = Some d'.
  Proof.
    unfold MRender.renderTile. destruct (updateTile root st) as [[s1 m1]|] eqn:E; [|discriminate]. rewrite orb_true_r.
    destruct (paint copyT clearT root s1 d) eqn:Ep; [|discriminate]. intros [= <- <-]. exact Ep.
  Qed.
End tile.

(** * All tiles *)
Section world.
  Context {img msk : Type}.
  Variable zero : img.
  Variable copyT : img -> img.
  Variable blendOf : bytes -> option (Z -> img -> img -> img).
  Variable destInM destOutM : msk -> img -> img.
  Variable destInT destOverT : img -> img -> img.
  Variable clearT removeAlpha : img -> img.
  Variable canvas : point -> Z -> option img.
  Variable hasCanvas : Z -> bool.
  Variable mask : point -> Z -> option msk.
  Notation tstate := (tstate img).
  Notation world := (world img).
  Notation rt q := (renderTile zero copyT blendOf destInM destOutM destInT destOverT clearT removeAlpha (canvas q) (mask q)).
  Notation tileAct := (tileAct zero copyT blendOf destInM destOutM destInT destOverT clearT removeAlpha canvas mask).
  Notation ran := (ran zero copyT blendOf destInM destOutM destInT destOverT clearT removeAlpha canvas mask).
  Notation rendered := (rendered zero copyT blendOf destInM destOutM destInT destOverT clearT removeAlpha canvas mask).
  Notation aborted := (aborted zero copyT blendOf destInM destOutM destInT destOverT clearT removeAlpha canvas mask).
  Notation history := (history zero copyT blendOf destInM destOutM destInT destOverT clearT removeAlpha canvas hasCanvas mask).
  Notation invRoot q := (invRoot zero copyT blendOf destInM destOutM destInT destOverT clearT removeAlpha (canvas q) hasCanvas (mask q)).
  Notation stableRoot q := (stableRoot zero copyT blendOf destInM destOutM destInT destOverT clearT removeAlpha (canvas q) (mask q)).
  Notation lwf := (lwf blendOf hasCanvas).
  Notation ent st s := (m_get Z.eqb (tent st) s).
  Notation grid ts r := (gridPoints ts (gridStart ts (rx0 r)) (rx1 r) (gridStart ts (ry0 r)) (ry1 r)).

  (** The result of a render at every point *)
  Lemma rendered_at cpus ts r diffOnly root w w' q : (1 <= cpus)%nat -> 0 < ts -> rendered cpus ts r diffOnly root w w' ->
    w' q = if existsb (pt_eqb q) (grid ts r) then tileAct diffOnly root q (start w q) else start w q.
  Proof.
    intros Hc Ht [w1 [m sched Hm Hi]]. rewrite <- (rows_grid cpus ts r Hc Ht).
    rewrite (sched_at m (workerRows cpus ts r) sched (start w) q); [|rewrite rows_grid by assumption; now apply grid_NoDup|exact Hi].
    now rewrite (Hm q).
  Qed.
  Lemma aborted_at cpus ts r diffOnly root w w' q : (1 <= cpus)%nat -> 0 < ts -> aborted cpus ts r diffOnly root w w' ->
    w' q = undo (fun q => start w q) q \/
    w' q = undo (fun q => tileAct diffOnly root q (start w q)) q.
  Proof.
    intros Hc Ht [rows w1 HF [m sched Hm Hi]].
    destruct (prefix_rows rows _ HF) as [N _]; [rewrite rows_grid by assumption; now apply grid_NoDup|].
    unfold undo at 1 3. rewrite (sched_at m rows sched (start w) q N Hi). rewrite (Hm q).
    destruct (existsb (pt_eqb q) (concat (map (concat (A:=point)) rows))); auto.
  Qed.

  (** C50 *)
  Lemma aborted_entries cpus ts r diffOnly root w w' q st d : (1 <= cpus)%nat -> 0 < ts -> aborted cpus ts r diffOnly root w w' ->
    w q = Some (st, d) -> w' q = None \/ exists st' d', w' q = Some (st', d') /\ simS st st' /\ tlog st' = [].
  Proof.
    intros Hc Ht HA Hq. destruct (aborted_at _ _ _ _ _ _ _ q Hc Ht HA) as [-> | ->]; unfold undo, start; rewrite Hq; cbn [option_map].
    - right. do 2 eexists. split; [reflexivity|]. split; [|reflexivity]. intros s. reflexivity.
    - cbn [MRenderAll.tileAct]. destruct (rt q diffOnly root _ d) as [[st1 d1]|] eqn:E; [|now left]. right. cbn [option_map].
      apply renderTile_ext in E. destruct (revert_ext (Tst (tent st) []) st1 eq_refl E) as [L K].
      do 2 eexists. split; [reflexivity|]. split; [|exact L]. intros s. symmetry. apply K.
  Qed.
  Lemma same_tile diffOnly root q st st' d d' : simS st st' -> (forall d d', clearT d = clearT d') ->
    simO (rt q false root st d) (rt q false root st' d') /\
    (forall e, ent st (lseq (latt root)) = Some e -> d = d' -> simO (rt q diffOnly root st d) (rt q diffOnly root st' d')).
  Proof.
    intros S C. split.
    - pose proof (renderTile_sim zero copyT blendOf destInM destOutM destInT destOverT clearT removeAlpha (canvas q) (mask q) false root st st' d S) as H.
      assert (E : rt q false root st' d = rt q false root st' d').
      { unfold renderTile. destruct (updateTile _ _ _ _ _ _ _ _ _ _ _ root st') as [[s1 m]|]; [|reflexivity]. rewrite orb_true_r. unfold paint.
        destruct (ent s1 (lseq (latt root))) as [[ci|]|]; try reflexivity. now rewrite (C d d'). }
      rewrite E in H. exact H.
    - intros e _ <-. now apply renderTile_sim.
  Qed.
  Lemma abort_harmless cpus cpus1 cpus2 ts r r' diffOnly root root' w w' w1 w2 q : (1 <= cpus)%nat -> (1 <= cpus1)%nat -> (1 <= cpus2)%nat -> 0 < ts ->
    (forall d d', clearT d = clearT d') ->
    aborted cpus ts r diffOnly root w w' -> w' q <> None -> In q (grid ts r') ->
    rendered cpus1 ts r' false root' w' w1 -> rendered cpus2 ts r' false root' w w2 -> simO (w1 q) (w2 q).
  Proof.
    intros Hc H1 H2 Ht C HA Hq Hg R1 R2. rewrite (rendered_at _ _ _ _ _ _ _ q H1 Ht R1), (rendered_at _ _ _ _ _ _ _ q H2 Ht R2).
    apply existsb_pt in Hg. rewrite Hg. destruct (w q) as [[st d]|] eqn:Ew.
    - destruct (aborted_entries _ _ _ _ _ _ _ q st d Hc Ht HA Ew) as [E|(st' & d' & E & S & L)]; [contradiction|].
      unfold start. rewrite E, Ew. cbn [option_map MRenderAll.tileAct].
      apply (same_tile false root' q (Tst (tent st') []) (Tst (tent st) []) d' d); [|exact C]. intros s. symmetry. apply S.
    - exfalso. apply Hq. destruct (aborted_at _ _ _ _ _ _ _ q Hc Ht HA) as [-> | ->]; unfold undo, start; rewrite Ew; reflexivity.
  Qed.

  (** C49 *)
  Definition painted (root : layer) (x : local img) : Prop := forall st d, x = Some (st, d) ->
    forall e, ent st (lseq (latt root)) = Some e -> d = match e with Some ci => copyT ci | None => clearT d end.
  Lemma paint_painted root st d d' : (forall d d', clearT d = clearT d') -> paint copyT clearT root st d = Some d' -> painted root (Some (st, d')).
  Proof.
    intros C H st0 d0 [= <- <-] e E. revert H. unfold paint. rewrite E. destruct e as [ci|]; intros [= <-]; [reflexivity|apply C].
  Qed.
  Lemma tileAct_painted root q x : (forall d d', clearT d = clearT d') -> painted root x -> painted root (tileAct true root q x).
  Proof.
    intros C H st d E. destruct x as [[s0 d0]|]; [|discriminate]. cbn [MRenderAll.tileAct] in E.
    destruct (renderTile_diff zero copyT blendOf destInM destOutM destInT destOverT clearT removeAlpha (canvas q) (mask q) root s0 d0 st d E) as [H1 H2].
    destruct (ent s0 (lseq (latt root))) as [e0|] eqn:E0.
    - destruct (H1 ltac:(discriminate)) as [-> ->]. now apply H.
    - exact (paint_painted root st d0 d C (H2 eq_refl) st d eq_refl).
  Qed.
  Lemma undo_painted root w w1 q : (forall d d', clearT d = clearT d') -> painted root (w q) ->
    w1 q = start w q \/ w1 q = tileAct true root q (start w q) -> painted root (undo w1 q).
  Proof.
    intros C H [E|E]; unfold undo; rewrite E; unfold start; destruct (w q) as [[s0 d0]|]; cbn [option_map]; try (intros ? ? ?; discriminate).
    - intros st d [= <- <-] e. cbn [revert tent tlog fold_left]. now apply H.
    - cbn [MRenderAll.tileAct]. destruct (rt q true root _ d0) as [[st1 d1]|] eqn:Et; cbn [option_map]; [|intros ? ? ?; discriminate].
      intros st d [= <- <-] e He.
      destruct (renderTile_diff zero copyT blendOf destInM destOutM destInT destOverT clearT removeAlpha (canvas q) (mask q) root _ d0 st1 d1 Et) as [H1 _].
      apply renderTile_ext in Et. destruct (revert_ext (Tst (tent s0) []) st1 eq_refl Et) as [_ K]. rewrite K in He. cbn [tent] in *.
      destruct (H1 ltac:(rewrite He; discriminate)) as [-> _]. exact (H s0 d0 eq_refl e He).
  Qed.
  Lemma start_painted root w q : painted root (w q) -> painted root (start w q).
  Proof.
    intros H st d. unfold start. destruct (w q) as [[s0 d0]|]; [|discriminate]. cbn [option_map]. intros [= <- <-] e. cbn [tent]. now apply H.
  Qed.
  Lemma setDirty_less top root p st q s e : ent (setDirty (canvas q) hasCanvas top root p st) s = Some e -> ent st s = Some e.
  Proof.
    unfold setDirty. destruct (layerAt root p) as [l|]; [|auto]. destruct (inArea (canvas q) hasCanvas l); [|auto].
    cbn [tent]. rewrite m_get_dels. destruct (existsb (Z.eqb s) _); [discriminate|auto].
  Qed.
  Lemma dirtiedAll_at top root ps w q : dirtiedAll canvas hasCanvas top root ps w q =
    option_map (fun '(st, d) => (fold_left (fun st p => setDirty (canvas q) hasCanvas top root p st) ps st, d)) (w q).
  Proof.
    unfold dirtiedAll. revert w. induction ps as [|p ps IH]; intros w; cbn [fold_left]; [now destruct (w q) as [[st d]|]|].
    rewrite IH. unfold dirtied. now destruct (w q) as [[st d]|].
  Qed.
  Lemma setDirtyAll_less top root ps q s e : forall st,
    ent (fold_left (fun st p => setDirty (canvas q) hasCanvas top root p st) ps st) s = Some e -> ent st s = Some e.
  Proof. induction ps as [|p ps IH]; intros st; cbn [fold_left]; [auto|]. intros H. apply IH in H. revert H. apply setDirty_less. Qed.
  Lemma history_painted ts r top okChg okTree okDraw root w : 0 < ts -> (forall d d', clearT d = clearT d') ->
    history ts r top false (eq true) okChg okTree okDraw root w -> forall q, painted root (w q).
  Proof.
    intros Ht C. induction 1 as [root w N _|root w w' _ _ D _ _|root w root' ps _ IH CH _ _|root w cpus r' dO w' _ IH Hc K _ _ R|root w cpus r' dO w' _ IH Hc K _ _ R]; intros q.
    - destruct (N q) as [d E]. rewrite E. intros st d0 [= <- <-] e. discriminate.
    - discriminate.
    - rewrite dirtiedAll_at. intros st d. destruct (w q) as [[s0 d0]|] eqn:E; [|discriminate]. cbn [option_map]. intros [= <- <-] e He. apply setDirtyAll_less in He.
      destruct (changed_here _ _ _ CH) as [[X _] _]. rewrite X in He. exact (IH q s0 d0 E e He).
    - subst dO. rewrite (rendered_at _ _ _ _ _ _ _ q Hc Ht R). destruct (existsb _ _); [apply tileAct_painted; [exact C|]|]; apply start_painted, IH.
    - subst dO. destruct (aborted_at _ _ _ _ _ _ _ q Hc Ht R) as [-> | ->]; apply (undo_painted root w); auto.
  Qed.
  Lemma diff_full ts r top okChg okTree okDraw root w w0 cpus cpus' w1 w2 q : 0 < ts -> (forall d d', clearT d = clearT d') ->
    history ts r top false (eq true) okChg okTree okDraw root w -> (1 <= cpus)%nat -> (1 <= cpus')%nat ->
    option_map fst (w0 q) = option_map fst (w q) -> In q (grid ts r) ->
    rendered cpus ts r true root w w1 -> rendered cpus' ts r false root w0 w2 -> w1 q = w2 q.
  Proof.
    intros Ht C HH H1 H2 E0 Hg R1 R2. pose proof (history_painted _ _ _ _ _ _ _ _ Ht C HH q) as P.
    rewrite (rendered_at _ _ _ _ _ _ _ q H1 Ht R1), (rendered_at _ _ _ _ _ _ _ q H2 Ht R2). apply existsb_pt in Hg. rewrite Hg.
    unfold start. destruct (w q) as [[st d]|] eqn:Ew, (w0 q) as [[st' d']|] eqn:E'; cbn [option_map fst] in *; try discriminate; [|reflexivity].
    injection E0 as ->. cbn [MRenderAll.tileAct]. unfold renderTile.
    destruct (updateTile _ _ _ _ _ _ _ _ _ _ _ root _) as [[s1 m]|] eqn:Eu; [|reflexivity]. rewrite orb_true_r. cbn [negb]. rewrite orb_false_r. destruct m.
    - unfold paint. destruct (ent s1 (lseq (latt root))) as [[ci|]|]; try reflexivity. now rewrite (C d d').
    - pose proof (updateTile_unmodified zero copyT blendOf destInM destOutM destInT destOverT clearT removeAlpha (canvas q) (mask q) _ _ _ Eu) as ->.
      destruct (updateTile_present zero copyT blendOf destInM destOutM destInT destOverT clearT removeAlpha (canvas q) (mask q) _ _ _ _ Eu) as [e Ee].
      unfold paint. rewrite Ee. cbn [tent] in Ee. pose proof (P st d eq_refl e Ee) as Pd. destruct e as [ci|]; [now rewrite Pd|]. rewrite Pd at 1. now rewrite (C d d').
  Qed.

  (** C48 *)
  Notation okTree := (okTree blendOf hasCanvas).
  Notation okDraw := (okDraw zero copyT blendOf destInM destOutM destInT destOverT clearT removeAlpha canvas mask).
  Lemma lwf_modes l : lwf l -> modesOK blendOf l.
  Proof.
    induction l as [a ks cs Hk Hc] using layer_rec'. intros W. inversion W; subst. constructor; [assumption| |].
    - rewrite Forall_forall in *. auto.
    - rewrite Forall_forall in *. auto.
  Qed.
  Lemma lwf_modes_kids l : lwf l -> Forall (modesOK blendOf) (lkids l).
  Proof. intros W. apply lwf_modes in W. now inversion W. Qed.
  Definition valid (root : layer) (q : point) (x : local img) : Prop := exists st d, x = Some (st, d) /\ invRoot q root st.
  Lemma start_valid root w q : valid root q (w q) -> valid root q (start w q).
  Proof.
    intros (st & d & E & J). exists (Tst (tent st) []), d. unfold start. rewrite E. split; [reflexivity|].
    eapply invRoot_ents; [|exact J]. reflexivity.
  Qed.
  Lemma tileAct_valid dO root q x : okTree root -> okDraw root -> valid root q x -> valid root q (tileAct dO root q x).
  Proof.
    intros [W N] S (st & d & -> & J). cbn [MRenderAll.tileAct]. destruct (rt q dO root st d) as [[st1 d1]|] eqn:E.
    - exists st1, d1. split; [reflexivity|]. eapply render_keeps; eauto.
    - exfalso. revert E. apply renderTile_some. now apply lwf_modes_kids.
  Qed.
  Hypothesis canvas_nil : forall q s, hasCanvas s = false -> canvas q s = None.
  Lemma history_valid ts r newDest kind root w : 0 < ts ->
    history ts r false newDest kind okChange okTree okDraw root w -> okTree root /\ forall q, valid root q (w q).
  Proof.
    intros Ht. induction 1 as [root w N O|root w w' _ [O IH] _ D _|root w root' ps _ [O IH] CH OC O'|root w cpus r' dO w' _ [O IH] Hc K S _ R|root w cpus r' dO w' _ [O IH] Hc K S _ R];
      (split; [assumption|]); intros q.
    - destruct (N q) as [d E]. exists (Tst [] []), d. split; [exact E|apply invRoot_fresh].
    - destruct (IH q) as (st & d & E & J). destruct (D q st d E) as [d' E']. exists st, d'. auto.
    - destruct (IH q) as (st & d & E & J). rewrite dirtiedAll_at, E. cbn [option_map]. do 2 eexists. split; [reflexivity|].
      destruct O as [W _], O' as [W' _]. eapply batch_root; eauto.
    - rewrite (rendered_at _ _ _ _ _ _ _ q Hc Ht R). destruct (existsb _ _); [apply tileAct_valid; auto|]; apply start_valid, IH.
    - destruct (IH q) as (st & d & E & J). destruct (aborted_entries _ _ _ _ _ _ _ q st d Hc Ht R E) as [E'|(st' & d' & E' & SS & _)].
      + exfalso. assert (V : valid root q (start w q)) by apply start_valid, IH.
        assert (V' : valid root q (tileAct dO root q (start w q))) by (now apply tileAct_valid).
        destruct V as (s1 & d1 & V & _), V' as (s2 & d2 & V' & _).
        destruct (aborted_at _ _ _ _ _ _ _ q Hc Ht R) as [X|X]; rewrite X in E'; unfold undo in E'; [rewrite V in E'|rewrite V' in E']; discriminate.
      + exists st', d'. split; [exact E'|]. eapply invRoot_ents; [|exact J]. intros s. symmetry. apply SS.
  Qed.
  Lemma history_fresh ts r newDest kind root w w0 r' cpus cpus' w1 w2 q : 0 < ts ->
    history ts r false newDest kind okChange okTree okDraw root w -> okDraw root -> new w0 -> (1 <= cpus)%nat -> (1 <= cpus')%nat -> 
    (forall d d', clearT d = clearT d') -> In q (grid ts r') ->
    rendered cpus ts r' false root w w1 -> rendered cpus' ts r' false root w0 w2 ->
    exists st1 st2 d, w1 q = Some (st1, d) /\ w2 q = Some (st2, d) /\
      forall d0, d = shown zero copyT blendOf destInM destOutM destInT destOverT clearT removeAlpha (canvas q) (mask q) root d0.
  Proof.
    intros Ht HH S N H1 H2 C Hg R1 R2. destruct (history_valid _ _ _ _ _ _ Ht HH) as [[W ND] V].
    destruct (start_valid _ _ _ (V q)) as (st & d & E & J). destruct (N q) as [d0 E0].
    rewrite (rendered_at _ _ _ _ _ _ _ q H1 Ht R1), (rendered_at _ _ _ _ _ _ _ q H2 Ht R2). apply existsb_pt in Hg. rewrite Hg, E.
    unfold start. rewrite E0. cbn [option_map MRenderAll.tileAct tent].
    destruct (render_fresh zero copyT blendOf destInM destOutM destInT destOverT clearT removeAlpha (canvas q) hasCanvas (mask q) root st d W ND (S q) J) as (s1 & s2 & d' & F1 & F2 & _ & Es).
    pose proof (proj1 (same_tile false root q (Tst [] []) (Tst [] []) d d0 (fun s => eq_refl) C)) as X.
    unfold fresh in F2. rewrite F1. rewrite F2 in X. cbn [simO] in X. destruct (rt q false root (Tst [] []) d0) as [[s3 d3]|]; [|contradiction].
    destruct X as [_ <-]. exists s1, s3, d'. split; [reflexivity|]. split; [reflexivity|]. intros d1. rewrite Es. unfold shown. cbn zeta. now rewrite (C d d1).
  Qed.
End world.

Lemma tileOf_grid ts r q : 0 < ts -> tileOf ts r q <-> In q (gridPoints ts (gridStart ts (rx0 r)) (rx1 r) (gridStart ts (ry0 r)) (ry1 r)).
Proof.
  intros Ht. rewrite in_gridPoints, !in_forUp by exact Ht. unfold tileOf, gridStart. set (x := Z.quot (rx0 r) ts). set (y := Z.quot (ry0 r) ts). split.
  - intros (i & j & E1 & E2 & Hi & Hj & L1 & L2). split; split; try (exists (i - x); lia); try (exists (j - y); lia); nia.
  - intros ([B1 (i & Hi & E1)] & [B2 (j & Hj & E2)]). exists (x + i), (y + j). nia.
Qed.
Lemma simO_sameAt {img} (x y : local img) : simO x y -> sameAt x y.
Proof. destruct x as [[st d]|], y as [[st2 d2]|]; intros H; try exact H. destruct H as [H ->]. split; [reflexivity|exact H]. Qed.

(** One change, and several *)
Lemma changed_refl ps root : changed ps root root.
Proof. intros p. destruct (layerAt root p); [|exact I]. unfold same_but. auto. Qed.
Lemma nth_error_other {A} (l1 l2 : list A) x y i : i <> length l1 -> nth_error (l1 ++ x :: l2) i = nth_error (l1 ++ y :: l2) i.
Proof.
  revert i. induction l1 as [|z l1 IH]; intros [|i] H; cbn [app nth_error length] in *; try reflexivity; [congruence|]. apply IH. congruence.
Qed.
Lemma changed_chg p a : forall root t, layerAt root p = Some t -> same_but (latt t) a -> changed [p] root (chg p a root).
Proof.
  induction p as [|[i o] p IH]; intros root t Ht Sa.
  - injection Ht as <-. intros [|s q].
    + cbn. auto.
    + rewrite !layerAt_cons. replace (child (chg [] a root) s) with (child root s) by reflexivity.
      destruct (child root s) as [c|]; [|exact I]. destruct (layerAt c q); [|exact I]. unfold same_but. auto.
  - intros [|s q].
    + cbn [layerAt]. rewrite (latt_chg (i, o) p a root). unfold same_but. auto.
    + rewrite layerAt_cons in Ht. rewrite !layerAt_cons.
      assert (X : match child root s, child (chg (@cons step (i, o) p) a root) s with
                  | Some c, Some c' => latt c' = latt c /\ lkids c' = lkids c \/ (s = (i, o) /\ changed [p] c c')
                  | None, None => True | _, _ => False end).
      { unfold child in Ht. cbn [fst snd] in Ht. destruct s as [i' o']. unfold child. cbn [fst snd].
        destruct (nth_error (lkids root) i) as [k|] eqn:Ek; [|discriminate]. destruct o as [j|].
        - destruct (nth_error (lgroup k) j) as [c|] eqn:Ec; [|discriminate].
          destruct (mapnth_split (fun k => Lay (latt k) (lkids k) (mapnth (chg p a) j (lgroup k))) _ _ _ Ek) as (l1 & l2 & E1 & E2 & L).
          destruct (mapnth_split (chg p a) _ _ _ Ec) as (g1 & g2 & G1 & G2 & Lg). cbn [chg lkids]. rewrite E2, E1, G2.
          destruct (Nat.eq_dec i' i) as [->|N].
          + rewrite <- L, !nth_error_mid. cbn [lgroup]. destruct o' as [j'|]; [|].
            * rewrite G1. destruct (Nat.eq_dec j' j) as [->|Nj].
              -- rewrite <- Lg, !nth_error_mid. right. split; [reflexivity|]. apply (IH c t Ht Sa).
              -- rewrite (nth_error_other g1 g2 c (chg p a c) j') by lia. destruct (nth_error (g1 ++ chg p a c :: g2) j'); auto.
            * left. auto.
          + rewrite (nth_error_other l1 l2 k (Lay (latt k) (lkids k) (g1 ++ chg p a c :: g2)) i') by lia.
            destruct (nth_error (l1 ++ _ :: l2) i') as [z|]; [|exact I]. destruct o' as [j'|]; [destruct (nth_error (lgroup z) j'); auto|auto].
        - destruct (mapnth_split (chg p a) _ _ _ Ek) as (l1 & l2 & E1 & E2 & L). cbn [chg lkids]. rewrite E2, E1.
          destruct (Nat.eq_dec i' i) as [->|N].
          + rewrite <- L, !nth_error_mid. destruct o' as [j'|].
            * rewrite lgroup_chg. destruct (nth_error (lgroup k) j'); auto.
            * right. split; [reflexivity|]. apply (IH k t Ht Sa).
          + rewrite (nth_error_other l1 l2 k (chg p a k) i') by lia.
            destruct (nth_error (l1 ++ _ :: l2) i') as [z|]; [|exact I]. destruct o' as [j'|]; [destruct (nth_error (lgroup z) j'); auto|auto]. }
      destruct (child root s) as [c|], (child (chg _ a root) s) as [c'|]; try contradiction; [|exact I]. destruct X as [[X1 X2]|[-> X]].
      * destruct q as [|s' q]; [cbn [layerAt]; rewrite X1; unfold same_but; auto|]. rewrite !layerAt_cons.
        replace (child c' s') with (child c s') by (unfold child; now rewrite X2). destruct (child c s') as [z|]; [|exact I].
        destruct (layerAt z q); [|exact I]. unfold same_but. auto.
      * specialize (X q). destruct (layerAt c q), (layerAt c' q); try exact X. destruct X as [X1 [X2|[<-|[]]]]; split; auto. right. now left.
Qed.
Lemma changed_trans ps qs r1 r2 r3 : changed ps r1 r2 -> changed qs r2 r3 -> changed (ps ++ qs) r1 r3.
Proof.
  intros H1 H2 p. specialize (H1 p). specialize (H2 p). destruct (layerAt r1 p), (layerAt r2 p), (layerAt r3 p); try tauto.
  destruct H1 as [[A1 A2] A3], H2 as [[B1 B2] B3]. unfold same_but. rewrite in_app_iff. repeat split; try congruence.
  destruct A3 as [A3|A3], B3 as [B3|B3]; auto. left. congruence.
Qed.
Lemma okChange_at ps root root' : changed ps root root' ->
  (forall p, In p ps -> forall t t', layerAt root p = Some t -> layerAt root' p = Some t' ->
    isPT (latt t) = true -> isPT (latt t') = false -> forall k, In k (lkids t') -> isPT (latt k) = false) -> okChange root root'.
Proof.
  intros C H p t t' E E' P P'. pose proof (C p) as X. rewrite E, E' in X. destruct X as [_ [X|X]]; [congruence|]. now apply (H p X t t').
Qed.
