(** Changes of layers that are announced late: which cache entries are in doubt. *)
From Verif Require Import Base BaseFacts MRender SRender PRender PRender2 PRender3.

Lemma layer_kids (Q : layer -> Prop) :
  (forall l, (forall k, In k (lkids l) -> Q k /\ forall c, In c (lgroup k) -> Q c) -> Q l) -> forall l, Q l.
Proof.
  intros H. assert (A : forall l, Q l /\ forall c, In c (lgroup l) -> Q c); [|intros l; apply A].
  induction l as [a ks cs Hk Hc] using layer_rec'. rewrite Forall_forall in *. split; [apply H|]; cbn [lkids lgroup].
  - intros k I. exact (Hk k I).
  - intros c I. exact (proj1 (Hc c I)).
Qed.
Lemma layer_both (Q : layer -> Prop) : 
  (forall l, (forall k, In k (lkids l) -> Q k) -> (forall c, In c (lgroup l) -> Q c) -> Q l) -> forall l, Q l.
Proof.
  intros H. induction l as [a ks cs Hk Hc] using layer_rec'. rewrite Forall_forall in *. apply H; assumption.
Qed.
Lemma flat_map_once {A B} (f : A -> list B) ls x y s :
  NoDup (flat_map f ls) -> In x ls -> In y ls -> In s (f x) -> In s (f y) -> x = y.
Proof.
  induction ls as [|z ls IH]; cbn [flat_map In]; [tauto|]. intros N [->|Ix] [->|Iy] Hx Hy; [reflexivity| | |].
  - exfalso. apply (NoDup_app_disj _ _ s N Hx). apply in_flat_map. eauto.
  - exfalso. apply (NoDup_app_disj _ _ s N Hy). apply in_flat_map. eauto.
  - apply IH; auto. eapply NoDup_app_r; exact N.
Qed.
Lemma existsb_ext_in {A} (f g : A -> bool) ls : (forall x, In x ls -> f x = g x) -> existsb f ls = existsb g ls.
Proof. induction ls as [|x ls IH]; intros H; [reflexivity|]. cbn [existsb]. rewrite H by now left. rewrite IH; [reflexivity|]. intros y I. apply H. now right. Qed.
Lemma flat_map_ext_in {A B} (f g : A -> list B) ls : (forall x, In x ls -> f x = g x) -> flat_map f ls = flat_map g ls.
Proof. induction ls as [|x ls IH]; intros H; [reflexivity|]. cbn [flat_map]. rewrite H by now left. rewrite IH; [reflexivity|]. intros y I. apply H. now right. Qed.

(** The SeqIDs of a layer without those of its clipping group *)
Definition own (l : layer) : list Z := lseq (latt l) :: flat_map seqs (lkids l).
Lemma seqs_own l : seqs l = own l ++ flat_map seqs (lgroup l).
Proof. destruct l as [a ks cs]. reflexivity. Qed.
Lemma own_seqs l s : In s (own l) -> In s (seqs l).
Proof. rewrite seqs_own, in_app_iff. auto. Qed.
Lemma in_own l s : In s (own l) <-> s = lseq (latt l) \/ exists k, In k (lkids l) /\ In s (seqs k).
Proof. unfold own. cbn [In]. rewrite in_flat_map. intuition congruence. Qed.
Lemma seqs_self l : In (lseq (latt l)) (seqs l).
Proof. destruct l. now left. Qed.
Lemma seqs_kid_in l k s : In k (lkids l) -> In s (seqs k) -> In s (own l).
Proof. intros I H. apply in_own. right. eauto. Qed.
Lemma seqs_member_in k c s : In c (lgroup k) -> In s (seqs c) -> In s (seqs k).
Proof. intros I H. rewrite seqs_own, in_app_iff, in_flat_map. right. eauto. Qed.
Lemma NoDup_own l : NoDup (seqs l) -> NoDup (own l).
Proof. rewrite seqs_own. apply NoDup_app_l. Qed.
Lemma NoDup_flat {A B} (f : A -> list B) ls x : NoDup (flat_map f ls) -> In x ls -> NoDup (f x).
Proof.
  induction ls as [|y ls IH]; cbn [flat_map In]; [tauto|]. intros N [->|I]; [eapply NoDup_app_l; exact N|].
  apply IH; [eapply NoDup_app_r; exact N|exact I].
Qed.
Lemma NoDup_kid l k : NoDup (own l) -> In k (lkids l) -> NoDup (seqs k).
Proof. intros N. apply NoDup_cons_iff in N. now apply NoDup_flat. Qed.
Lemma NoDup_member k c : NoDup (seqs k) -> In c (lgroup k) -> NoDup (seqs c).
Proof. rewrite seqs_own. intros N. apply NoDup_app_r in N. now apply NoDup_flat. Qed.

Section late.
  Context {img : Type}.
  Variable canvas : Z -> option img.
  Variable hasCanvas : Z -> bool.
  Section pending.
  (** The layers whose changes are not announced yet *)
  Variable P : Z -> bool.

  Definition alive (a : lattr) : bool := lvis a && negb (lopa a =? 0).
  (** Is the point in the area of the layer, or was it before the pending changes? *)
  Fixpoint pot (l : layer) : bool :=
    match l with
    | Lay a ks _ =>
        if hasCanvas (lseq a) then match canvas (lseq a) with Some _ => true | None => false end
        else existsb (fun k => negb (lclipping (latt k)) && (alive (latt k) || P (lseq (latt k))) && pot k) ks
    end.
  Definition potKid (k : layer) : bool := negb (lclipping (latt k)) && (alive (latt k) || P (lseq (latt k))) && pot k.
  (** The buffer of the layer may be wrong: a pending change in it *)
  Fixpoint tnt (l : layer) : bool :=
    match l with
    | Lay a ks _ => (P (lseq a) && pot l) ||
        existsb (fun k => negb (lclipping (latt k)) && (tnt k || match k with Lay _ _ cs => existsb tnt cs end)) ks
    end.
  Definition kidT (k : layer) : bool := negb (lclipping (latt k)) && (tnt k || existsb tnt (lgroup k)).
  Definition lev (l : layer) : bool := existsb kidT (lkids l).
  (** ... or what is drawn for the layer, with its clipping group; [g]: the backdrop may be wrong *)
  Definition fl (g : bool) (l : layer) : bool := tnt l || existsb tnt (lgroup l) || (g && isPT (latt l)).
  (** The layers whose cache entries are in doubt *)
  Fixpoint Dset (g : bool) (l : layer) : list Z :=
    match l with
    | Lay a ks _ =>
        (if fl g l then [lseq a] else []) ++
        flat_map (fun k => match k with Lay b _ cs => if lclipping b then [] else
          Dset (lev l || (g && isPT a)) k ++ flat_map (Dset (fl (lev l || (g && isPT a)) k)) cs end) ks
    end.
  Definition below (g : bool) (l : layer) : bool := lev l || (g && isPT (latt l)).
  (** With the clipping group *)
  Definition Dk (g : bool) (k : layer) : list Z := Dset g k ++ flat_map (Dset (fl g k)) (lgroup k).
  Definition Dks (g : bool) (ks : list layer) : list Z := flat_map (fun k => if lclipping (latt k) then [] else Dk g k) ks.
  Definition Droot (root : layer) : list Z := (if tnt root then [lseq (latt root)] else []) ++ Dks (lev root) (lkids root).

  Lemma pot_eq l : pot l = if hasCanvas (lseq (latt l)) then match canvas (lseq (latt l)) with Some _ => true | None => false end
    else existsb potKid (lkids l).
  Proof. destruct l. reflexivity. Qed.
  Lemma tnt_eq l : tnt l = (P (lseq (latt l)) && pot l) || lev l.
  Proof. destruct l as [a ks cs]. cbn [tnt latt lkids lev]. f_equal. unfold lev. cbn [lkids]. apply existsb_ext_in. intros [b kk cc] _. reflexivity. Qed.
  Lemma Dset_eq g l : Dset g l = (if fl g l then [lseq (latt l)] else []) ++ Dks (below g l) (lkids l).
  Proof.
    destruct l as [a ks cs]. cbn [Dset latt lkids]. f_equal. unfold Dks. apply flat_map_ext_in. intros [b kk cc] _. reflexivity.
  Qed.
  Lemma lev_in l k : In k (lkids l) -> kidT k = true -> lev l = true.
  Proof. intros I H. apply existsb_exists. eauto. Qed.
  Lemma lev_tnt l : lev l = true -> tnt l = true.
  Proof. intros H. rewrite tnt_eq, H. apply orb_true_r. Qed.
  Lemma kidT_tnt k : lclipping (latt k) = false -> tnt k = true -> kidT k = true.
  Proof. unfold kidT. intros -> ->. reflexivity. Qed.
  Lemma kidT_member k c : lclipping (latt k) = false -> In c (lgroup k) -> tnt c = true -> kidT k = true.
  Proof. unfold kidT. intros -> I H. apply orb_true_iff. right. apply existsb_exists. eauto. Qed.
  Lemma in_Dset g l s : In s (Dset g l) <-> (fl g l = true /\ s = lseq (latt l)) \/
    exists k, In k (lkids l) /\ lclipping (latt k) = false /\ In s (Dk (below g l) k).
  Proof.
    rewrite Dset_eq, in_app_iff. unfold Dks. rewrite in_flat_map. split.
    - intros [H|(k & I & H)].
      + left. destruct (fl g l); [|destruct H]. destruct H as [<-|[]]. auto.
      + right. exists k. destruct (lclipping (latt k)); [destruct H|]. auto.
    - intros [[-> ->]|(k & I & E & H)]; [left; now left|]. right. exists k. rewrite E. auto.
  Qed.
  Lemma in_Dk g k s : In s (Dk g k) <-> In s (Dset g k) \/ exists c, In c (lgroup k) /\ In s (Dset (fl g k) c).
  Proof. unfold Dk. rewrite in_app_iff, in_flat_map. reflexivity. Qed.
  Lemma in_Droot root s : In s (Droot root) <-> (tnt root = true /\ s = lseq (latt root)) \/
    exists k, In k (lkids root) /\ lclipping (latt k) = false /\ In s (Dk (lev root) k).
  Proof.
    unfold Droot. rewrite in_app_iff. unfold Dks. rewrite in_flat_map. split.
    - intros [H|(k & I & H)].
      + left. destruct (tnt root); [|destruct H]. destruct H as [<-|[]]. auto.
      + right. exists k. destruct (lclipping (latt k)); [destruct H|]. auto.
    - intros [[-> ->]|(k & I & E & H)]; [left; now left|]. right. exists k. rewrite E. auto.
  Qed.

  (** * In doubt are only layers of the tree *)
  Lemma Dset_own l : forall g s, In s (Dset g l) -> In s (own l).
  Proof.
    induction l as [l IH] using layer_kids. intros g s. rewrite in_Dset, in_own. intros [[_ ->]|(k & I & _ & H)]; [now left|]. right. exists k. split; [exact I|].
    destruct (IH k I) as [K1 K2]. apply in_Dk in H. destruct H as [H|(c & Ic & H)]; [apply own_seqs; eauto|].
    eapply seqs_member_in; [exact Ic|]. apply own_seqs. eapply K2; eauto.
  Qed.
  Lemma Dk_seqs g k s : In s (Dk g k) -> In s (seqs k).
  Proof.
    rewrite in_Dk. intros [H|(c & Ic & H)]; [eapply own_seqs, Dset_own; exact H|].
    eapply seqs_member_in; [exact Ic|]. eapply own_seqs, Dset_own; exact H.
  Qed.
  (** Which entries of a layer are in doubt depends on the layer only *)
  Definition HD (D : list Z) (g : bool) (l : layer) : Prop := forall s, In s (seqs l) -> (In s D <-> In s (Dk g l)).
  Lemma HD_self D g l : NoDup (seqs l) -> HD D g l -> (In (lseq (latt l)) D <-> fl g l = true).
  Proof.
    intros N H. rewrite (H _ (seqs_self l)), in_Dk, in_Dset. rewrite seqs_own in N. split.
    - intros [[[E _]|(k & I & _ & X)]|(c & Ic & X)]; [exact E| |].
      + exfalso. apply NoDup_app_l, NoDup_cons_iff in N. apply (proj1 N). apply in_flat_map. exists k. split; [exact I|]. eapply Dk_seqs; exact X.
      + exfalso. apply (NoDup_app_disj _ _ _ N (or_introl eq_refl)). apply in_flat_map. exists c. split; [exact Ic|]. eapply own_seqs, Dset_own; exact X.
    - intros E. left. left. auto.
  Qed.
  Lemma HD_kid D g l k : NoDup (seqs l) -> HD D g l -> In k (lkids l) -> lclipping (latt k) = false -> HD D (below g l) k.
  Proof.
    intros N H I E s Hs. pose proof (seqs_kid_in l k s I Hs) as O. rewrite (H s (own_seqs _ _ O)), in_Dk, in_Dset. rewrite seqs_own in N. split.
    - intros [[[_ ->]|(k' & I' & _ & X)]|(c & Ic & X)].
      + exfalso. apply NoDup_app_l, NoDup_cons_iff in N. apply (proj1 N). apply in_flat_map. eauto.
      + apply NoDup_app_l, NoDup_cons_iff in N. rewrite (flat_map_once seqs (lkids l) k k' s (proj2 N) I I' Hs (Dk_seqs _ _ _ X)). exact X.
      + exfalso. apply (NoDup_app_disj _ _ s N O). apply in_flat_map. exists c. split; [exact Ic|]. eapply own_seqs, Dset_own; exact X.
    - intros X. left. right. eauto.
  Qed.
  Lemma HD_member D g l c : NoDup (seqs l) -> HD D g l -> In c (lgroup l) -> lgroup c = [] -> HD D (fl g l) c.
  Proof.
    intros N H I E s Hs. pose proof (seqs_member_in l c s I Hs) as O. rewrite (H s O), !in_Dk, E. rewrite seqs_own in N. split.
    - intros [X|(c' & I' & X)].
      + exfalso. apply (NoDup_app_disj _ _ s N (Dset_own _ _ _ X)). apply in_flat_map. eauto.
      + left. apply NoDup_app_r in N. rewrite (flat_map_once seqs (lgroup l) c c' s N I I' Hs (own_seqs _ _ (Dset_own _ _ _ X))). exact X.
    - intros [X|(x & [] & _)]. right. eauto.
  Qed.
  Lemma HD_top root k : NoDup (own root) -> In k (lkids root) -> lclipping (latt k) = false -> HD (Droot root) (lev root) k.
  Proof.
    intros N I E s Hs. rewrite in_Droot. apply NoDup_cons_iff in N. destruct N as [N1 N2]. split.
    - intros [[_ ->]|(k' & I' & _ & X)]; [exfalso; apply N1; apply in_flat_map; eauto|].
      now rewrite (flat_map_once seqs _ k k' s N2 I I' Hs (Dk_seqs _ _ _ X)).
    - intros X. right. eauto.
  Qed.
  Lemma Droot_self root : NoDup (own root) -> (In (lseq (latt root)) (Droot root) <-> tnt root = true).
  Proof.
    intros N. rewrite in_Droot. apply NoDup_cons_iff in N. split.
    - intros [[H _]|(k & I & _ & X)]; [exact H|]. exfalso. apply (proj1 N). apply in_flat_map. exists k. split; [exact I|]. eapply Dk_seqs; exact X.
    - intros H. left. auto.
  Qed.
  End pending.

  (** * Nothing pending, nothing in doubt *)
  Lemma tnt_none l : tnt (fun _ => false) l = false.
  Proof.
    induction l as [l IH] using layer_kids. rewrite tnt_eq. cbn [andb orb]. unfold lev. destruct (existsb _ _) eqn:E; [|reflexivity].
    apply existsb_exists in E. destruct E as (k & I & H). destruct (IH k I) as [K1 K2]. unfold kidT in H. rewrite K1 in H. cbn [orb] in H.
    apply andb_true_iff in H. destruct H as [_ H]. apply existsb_exists in H. destruct H as (c & Ic & H). now rewrite (K2 c Ic) in H.
  Qed.
  Lemma lev_none l : lev (fun _ => false) l = false.
  Proof. pose proof (tnt_none l) as H. rewrite tnt_eq in H. exact H. Qed.
  Lemma grp_none cs : existsb (tnt (fun _ => false)) cs = false.
  Proof. destruct (existsb _ _) eqn:E; [|reflexivity]. apply existsb_exists in E. destruct E as (c & _ & H). now rewrite tnt_none in H. Qed.
  Lemma fl_none l : fl (fun _ => false) false l = false.
  Proof. unfold fl. now rewrite tnt_none, grp_none. Qed.
  Lemma Dset_none l : forall s, ~ In s (Dset (fun _ => false) false l).
  Proof.
    induction l as [l IH] using layer_kids. intros s. rewrite in_Dset, fl_none. unfold below. rewrite lev_none. cbn [orb andb].
    intros [[E _]|(k & I & _ & H)]; [discriminate|]. destruct (IH k I) as [K1 K2]. rewrite in_Dk, fl_none in H. destruct H as [H|(c & Ic & H)]; [exact (K1 s H)|exact (K2 c Ic s H)].
  Qed.
  Lemma Droot_none root s : ~ In s (Droot (fun _ => false) root).
  Proof.
    rewrite in_Droot, tnt_none, lev_none. intros [[E _]|(k & I & _ & H)]; [discriminate|]. rewrite in_Dk, fl_none in H.
    destruct H as [H|(c & Ic & H)]; eapply Dset_none; exact H.
  Qed.

  (** * Only the pending changes of the layer count *)
  Definition agree (P P2 : Z -> bool) (l : layer) : Prop := forall s, In s (own l) -> P s = P2 s.
  Lemma agree_kid P P2 l k : agree P P2 l -> In k (lkids l) -> agree P P2 k.
  Proof. intros H I s Hs. apply H. eapply seqs_kid_in; [exact I|now apply own_seqs]. Qed.
  Lemma agree_member P P2 l k c : agree P P2 l -> In k (lkids l) -> In c (lgroup k) -> agree P P2 c.
  Proof. intros H I Ic s Hs. apply H. eapply seqs_kid_in; [exact I|]. eapply seqs_member_in; [exact Ic|now apply own_seqs]. Qed.
  Lemma pot_agree P P2 l : agree P P2 l -> pot P l = pot P2 l.
  Proof.
    induction l as [l IH] using layer_kids. intros H. rewrite !pot_eq. destruct (hasCanvas _); [reflexivity|]. apply existsb_ext_in. intros k I. unfold potKid.
    rewrite (proj1 (IH k I)) by (eapply agree_kid; eassumption). rewrite (H (lseq (latt k))); [reflexivity|]. eapply seqs_kid_in; [exact I|apply seqs_self].
  Qed.
  Lemma tnt_agree P P2 l : agree P P2 l -> tnt P l = tnt P2 l.
  Proof.
    induction l as [l IH] using layer_kids. intros H. rewrite !tnt_eq, (pot_agree P P2 l H), (H (lseq (latt l))) by now left. f_equal. unfold lev.
    apply existsb_ext_in. intros k I. unfold kidT. rewrite (proj1 (IH k I)) by (eapply agree_kid; eassumption). f_equal. f_equal.
    apply existsb_ext_in. intros c Ic. apply (proj2 (IH k I) c Ic). eapply agree_member; eassumption.
  Qed.
  Lemma lev_agree P P2 l : agree P P2 l -> lev P l = lev P2 l.
  Proof.
    intros H. unfold lev. apply existsb_ext_in. intros k I. unfold kidT. rewrite (tnt_agree P P2 k) by (eapply agree_kid; eassumption). f_equal. f_equal.
    apply existsb_ext_in. intros c Ic. apply tnt_agree. eapply agree_member; eassumption.
  Qed.
  Definition agreeK (P P2 : Z -> bool) (k : layer) : Prop := forall s, In s (seqs k) -> P s = P2 s.
  Lemma agreeK_own P P2 k : agreeK P P2 k -> agree P P2 k.
  Proof. intros H s Hs. apply H. now apply own_seqs. Qed.
  Lemma agreeK_member P P2 k c : agreeK P P2 k -> In c (lgroup k) -> agree P P2 c.
  Proof. intros H I s Hs. apply H. eapply seqs_member_in; [exact I|now apply own_seqs]. Qed.
  Lemma agree_kidK P P2 l k : agree P P2 l -> In k (lkids l) -> agreeK P P2 k.
  Proof. intros H I s Hs. apply H. eapply seqs_kid_in; eassumption. Qed.
  Lemma fl_agree P P2 g k : agreeK P P2 k -> fl P g k = fl P2 g k.
  Proof.
    intros H. unfold fl. rewrite (tnt_agree P P2 k) by now apply agreeK_own. f_equal. f_equal. apply existsb_ext_in. intros c I. apply tnt_agree. eapply agreeK_member; eassumption.
  Qed.
  Lemma kidT_agree P P2 k : agreeK P P2 k -> kidT P k = kidT P2 k.
  Proof.
    intros H. unfold kidT. rewrite (tnt_agree P P2 k) by now apply agreeK_own. f_equal. f_equal. apply existsb_ext_in. intros c I. apply tnt_agree. eapply agreeK_member; eassumption.
  Qed.
End late.
