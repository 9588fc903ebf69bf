(** Proofs about waiting. *)
From Coq Require Import Wf_nat Wellfounded.
From Verif Require Import Base MWait.

Lemma steps_inv {S} (R : S -> S -> Prop) (P : S -> Prop) s t : (forall a b, P a -> R a b -> P b) -> P s -> steps R s t -> P t.
Proof. intros H Hs Ht. induction Ht; eauto. Qed.
Lemma measure_wf {S} (f : S -> nat) (R : S -> S -> Prop) : (forall s t, R s t -> (f t < f s)%nat) -> well_founded (fun t s => R s t).
Proof. intros H. apply (wf_incl _ _ (ltof S f)); [|apply well_founded_ltof]. intros t s Hs. exact (H s t Hs). Qed.

(** * Wait *)
Definition early (w : wst) : bool := match w with Early => true | _ => false end.
(** The reachable states. *)
Definition wgood (s : wait) : Prop :=
  (wh s <> HWait -> forallb isDone (ww s) = true) /\
  (wh s = HEnd <-> exists r, wc s = CRet r) /\
  (wabort s = true -> wcancel s = true /\ wc s <> CSelect /\ wc s <> CRet false) /\
  (wc s = CRecv -> wabort s = true) /\ (wc s = CRet true -> wabort s = true) /\
  (wabort s = false -> existsb early (ww s) = false).
Lemma wgood_start l x : Forall (fun w => exists n, w = Run n) l -> wgood (wstart l x).
Proof.
  intros H. unfold wgood, wstart. cbn. repeat split; try congruence.
  - intros (r & E). discriminate.
  - intros _. induction H as [|w l [n ->] _ IH]; [reflexivity|]. exact IH.
Qed.
Lemma forallb_mid {A} f (l1 : list A) a b l2 : f b = true -> (forallb f (l1 ++ a :: l2) = true) -> forallb f (l1 ++ b :: l2) = true.
Proof. intros Hb. rewrite !forallb_app. cbn. rewrite Hb. destruct (forallb f l1), (f a), (forallb f l2); cbn; congruence. Qed.
Lemma forallb_mid_false {A} f (l1 : list A) a l2 : f a = false -> forallb f (l1 ++ a :: l2) = false.
Proof. intros H. rewrite forallb_app. cbn. rewrite H. apply andb_false_r. Qed.
Lemma existsb_mid {A} f (l1 : list A) a b l2 : f b = f a -> existsb f (l1 ++ b :: l2) = existsb f (l1 ++ a :: l2).
Proof. intros H. rewrite !existsb_app. cbn. now rewrite H. Qed.
Lemma wgood_step s t : wgood s -> wstep s t -> wgood t.
Proof.
  unfold wgood. intros (G1 & G2 & G3 & G4 & G5 & G6) H. destruct H; cbn [ww wh wc wcancel wabort] in *.
  - assert (h = HWait) as ->. { destruct h; [reflexivity| |]; exfalso; specialize (G1 ltac:(discriminate)); rewrite forallb_mid_false in G1; easy. }
    repeat split; try tauto; try congruence. intros E. rewrite <- (G6 E). now apply existsb_mid.
  - repeat split; try tauto. { intros E. specialize (G1 E). eapply forallb_mid; [|exact G1]. reflexivity. }
    intros E. rewrite <- (G6 E). now apply existsb_mid.
  - repeat split; try tauto. { intros E. specialize (G1 E). eapply forallb_mid; [|exact G1]. reflexivity. } discriminate.
  - repeat split; try tauto; try discriminate. intros E. apply G2 in E. discriminate.
  - repeat split; try tauto; try discriminate; try (now intros; eauto); intros; try (apply G1; discriminate); exfalso; destruct (G3 ltac:(assumption)) as (_ & N & _); now apply N.
  - repeat split; try tauto; try discriminate.
    + intros E. apply G2 in E. destruct E. discriminate.
    + intros (r & E). discriminate.
  - specialize (G4 eq_refl). specialize (G3 G4). repeat split; try tauto; try discriminate; try (now intros; eauto). intros _. apply G1. discriminate.
  - repeat split; try tauto; intros E; specialize (G3 E); tauto.
Qed.
Lemma wgood_steps l x s : Forall (fun w => exists n, w = Run n) l -> steps wstep (wstart l x) s -> wgood s.
Proof. intros H. apply steps_inv; [exact wgood_step|]. now apply wgood_start. Qed.

Definition wweight (w : wst) : nat := match w with Run n => S n | _ => O end.
Definition wmeasure (s : wait) : nat :=
  list_sum (map wweight (ww s)) + (match wh s with HWait => 2 | HSend => 1 | HEnd => 0 end) +
  (match wc s with CSelect => 2 | CRecv => 1 | CRet _ => 0 end) + (if wcancel s then 0 else 1).
Lemma list_sum_mid l1 a l2 : list_sum (map wweight (l1 ++ a :: l2)) = (list_sum (map wweight l1) + (wweight a + list_sum (map wweight l2)))%nat.
Proof. rewrite map_app, list_sum_app. reflexivity. Qed.
Lemma wstep_measure s t : wstep s t -> (wmeasure t < wmeasure s)%nat.
Proof. intros H. destruct H; unfold wmeasure; cbn [ww wh wc wcancel]; rewrite ?list_sum_mid; cbn [wweight]; try lia; destruct h; lia. Qed.

Lemma not_done l : forallb isDone l = false -> exists l1 n l2, l = l1 ++ Run n :: l2.
Proof.
  induction l as [|w l IH]; cbn; [discriminate|]. destruct w; cbn.
  - intros _. now exists [], n, l.
  - intros H. destruct (IH H) as (l1 & n & l2 & ->). now exists (Full :: l1), n, l2.
  - intros H. destruct (IH H) as (l1 & n & l2 & ->). now exists (Early :: l1), n, l2.
Qed.
Lemma wprogress s : wgood s -> (forall t, wstep s t -> wcancels s t) ->
  forallb isDone (ww s) = true /\ wh s = HEnd /\ exists r, wc s = CRet r.
Proof.
  destruct s as [l h c x a]. intros G Hstuck. unfold wgood in G. cbn [ww wh wc wcancel wabort] in *. destruct G as (G1 & G2 & G3 & G4 & G5 & G6).
  assert (forall t, wstep (Wait l h c x a) t -> x = false /\ wcancel t = true) as K by (intros t Ht; exact (Hstuck t Ht)).
  destruct (forallb isDone l) eqn:D.
  - split; [reflexivity|]. destruct h.
    + pose proof (K _ (W_group l c x a D)) as [E1 E2]. cbn in E2. congruence.
    + destruct c as [| |r].
      * pose proof (K _ (W_complete l x a)) as [E1 E2]. cbn in E2. congruence.
      * pose proof (K _ (W_recv l x a)) as [E1 E2]. cbn in E2. congruence.
      * exfalso. assert (HSend = HEnd) by (apply G2; eauto). discriminate.
    + split; [reflexivity|]. now apply G2.
  - exfalso. apply not_done in D. destruct D as (l1 & n & l2 & ->). destruct n.
    + pose proof (K _ (W_full l1 l2 h c x a)) as [E1 E2]. cbn in E2. congruence.
    + pose proof (K _ (W_work l1 n l2 h c x a)) as [E1 E2]. cbn in E2. congruence.
Qed.

(** * createCanvas *)
Definition bgood (s : canv) : Prop :=
  match bm s with
  | MWait h c => (h <> HWait -> forallb bDone (bw s) = true) /\ (h = HEnd <-> exists r, c = CRet r) /\ (c = CRecv -> bcancel s = true)
  | MDecode _ _ => bcancel s = true \/ existsb (fun b => negb (bDone b)) (bw s) = true
  | MFail => True
  end /\ (bcancel s = false -> bclosed (bm s) = false -> existsb bDone (bw s) = false).
Lemma bgood_start n k ok x : (1 <= n)%nat -> bgood (bstart n k ok x).
Proof. intros H. destruct n; [lia|]. unfold bgood, bstart. cbn. split; [now right|]. intros _ _. induction n; [reflexivity|]. apply IHn. lia. Qed.
Lemma bgood_step s t : bgood s -> bstep s t -> bgood t.
Proof.
  unfold bgood. intros [G1 G2] H. destruct H; cbn [bw bm bcancel bclosed] in *.
  - split; [|intros E _; specialize (G2 E eq_refl); erewrite existsb_mid; [exact G2|reflexivity]].
    destruct G1 as [G1|G1]; [now left|right; erewrite existsb_mid; [exact G1|reflexivity]].
  - split; [|intros E F; specialize (G2 E F); erewrite existsb_mid; [exact G2|reflexivity]].
    destruct m; [destruct G1 as [G1|G1]; [now left|right; erewrite existsb_mid; [exact G1|reflexivity]]| |exact I].
    destruct G1 as (A & B & C). repeat split; try tauto. intros E. specialize (A E). rewrite forallb_mid_false in A; easy.
  - split; [|discriminate]. destruct m; [now left| |exact I].
    destruct G1 as (A & B & C). repeat split; try tauto. intros E. specialize (A E). eapply forallb_mid; [|exact A]. reflexivity.
  - split; [|discriminate]. repeat split; try easy. intros (r & E). discriminate.
  - split; [exact I|discriminate].
  - split; [|congruence]. destruct m; [discriminate| |exact I].
    destruct G1 as (A & B & C). repeat split; try tauto. intros E. specialize (A E). eapply forallb_mid; [|exact A]. reflexivity.
  - split; [|discriminate]. destruct G1 as (A & B & C). repeat split; try tauto; try discriminate. intros E. apply B in E. discriminate.
  - split; [|discriminate]. destruct G1 as (A & B & C). repeat split; try tauto; try discriminate; try (now intros; eauto). intros _. now apply A.
  - split; [|discriminate]. destruct G1 as (A & B & C). repeat split; try tauto; try discriminate.
    + intros E. apply B in E. destruct E; discriminate.
    + intros (r & E). discriminate.
  - split; [|discriminate]. destruct G1 as (A & B & C). repeat split; try tauto; try discriminate; try (now intros; eauto). intros _. now apply A.
  - split; [|discriminate]. destruct m; [now left| |exact I]. tauto.
Qed.

Definition bweight (b : bst) : nat := match b with BIdle => 1 | BBusy => 2 | BEnd => 0 end.
Definition bmeasure (s : canv) : nat :=
  list_sum (map bweight (bw s)) +
  (match bm s with
   | MDecode k _ => 6 + 2 * k
   | MWait h c => (match h with HWait => 2 | HSend => 1 | HEnd => 0 end) + (match c with CSelect => 2 | CRecv => 1 | CRet _ => 0 end)
   | MFail => 0
   end) + (if bcancel s then 0 else 1).
Lemma list_sum_midb l1 a l2 : list_sum (map bweight (l1 ++ a :: l2)) = (list_sum (map bweight l1) + (bweight a + list_sum (map bweight l2)))%nat.
Proof. rewrite map_app, list_sum_app. reflexivity. Qed.
Lemma bstep_measure s t : bstep s t -> (bmeasure t < bmeasure s)%nat.
Proof. intros H. destruct H; unfold bmeasure; cbn [bw bm bcancel]; rewrite ?list_sum_midb; cbn [bweight]; try lia; try destruct h; try destruct c; try lia. Qed.

Lemma split_st l b : existsb (fun x => match x, b with BIdle, BIdle | BBusy, BBusy | BEnd, BEnd => true | _, _ => false end) l = true ->
  exists l1 l2, l = l1 ++ b :: l2.
Proof.
  induction l as [|w l IH]; cbn; [discriminate|]. intros H. apply orb_true_iff in H. destruct H as [H|H].
  - exists [], l. cbn. f_equal. now destruct w, b.
  - destruct (IH H) as (l1 & l2 & ->). now exists (w :: l1), l2.
Qed.
Lemma st_cases l : (exists l1 l2, l = l1 ++ BIdle :: l2) \/ (exists l1 l2, l = l1 ++ BBusy :: l2) \/ forallb bDone l = true.
Proof.
  induction l as [|w l IH]; [now right; right|]. destruct w.
  - left. now exists [], l.
  - right. left. now exists [], l.
  - destruct IH as [(l1 & l2 & ->)|[(l1 & l2 & ->)|H]]; [left; now exists (BEnd :: l1), l2|right; left; now exists (BEnd :: l1), l2|right; right; exact H].
Qed.
Definition breturned (s : canv) : Prop := (exists r, bm s = MWait HEnd (CRet r)) \/ bm s = MFail.
Lemma bprogress s : bgood s -> (forall t, bstep s t -> bcancels s t) ->
  forallb bDone (bw s) = true /\ (breturned s \/ bcancel s = true /\ exists k ok, bm s = MDecode (S k) ok).
Proof.
  destruct s as [l m x]. unfold bgood, breturned. cbn [bw bm bcancel]. intros [G1 G2] Hs.
  assert (forall t, bstep (Canv l m x) t -> bcancel t = x -> False) as K.
  { intros t Ht E. destruct (Hs t Ht) as [E1 E2]. cbn in E1. congruence. }
  destruct (st_cases l) as [(l1 & l2 & ->)|[(l1 & l2 & ->)|D]].
  - exfalso. destruct m as [[|k] [|]|h c|].
    + exact (K _ (B_close _ x) eq_refl).
    + exact (K _ (B_fail _ x) eq_refl).
    + exact (K _ (B_send l1 l2 k true x) eq_refl).
    + exact (K _ (B_send l1 l2 k false x) eq_refl).
    + exact (K _ (B_drain l1 l2 (MWait h c) x eq_refl) eq_refl).
    + exact (K _ (B_drain l1 l2 MFail x eq_refl) eq_refl).
  - exfalso. exact (K _ (B_store l1 l2 m x) eq_refl).
  - split; [exact D|]. destruct m as [[|k] ok|h c|].
    + exfalso. destruct ok; [exact (K _ (B_close _ x) eq_refl)|exact (K _ (B_fail _ x) eq_refl)].
    + right. split; [|eauto]. destruct G1 as [G1|G1]; [exact G1|]. exfalso. clear - D G1.
      induction l as [|w l IH]; [discriminate|]. cbn in *. destruct w; try discriminate. now apply IH.
    + left. left. destruct G1 as (A & B & C). destruct h.
      * exfalso. exact (K _ (B_group l c x D) eq_refl).
      * exfalso. destruct c as [| |r].
        -- exact (K _ (B_complete l x) eq_refl).
        -- exact (K _ (B_recv l x) eq_refl).
        -- assert (HSend = HEnd) by (apply B; eauto). discriminate.
      * destruct (proj1 B eq_refl) as (r & ->). eauto.
    + left. now right.
Qed.
