(** Proofs about copies of trees and about the tree in memory. *)
From Verif Require Import Base BaseFacts MLTree SLTree PLTree.

Definition ltree_rec' {A} (P : ltree A -> Prop) (H : forall n cs, Forall P cs -> P (LT n cs)) : forall t, P t :=
  fix F t := match t with LT n cs => H n cs ((fix go cs := match cs return Forall P cs with [] => Forall_nil _ | c :: cs => Forall_cons _ (F c) (go cs) end) cs) end.

Definition copyKids {A} (p : list nat) : nat -> list (ltree A) -> list (Z * list nat) -> list (ltree A) * list (Z * list nat) :=
  fix go i cs m :=
  match cs with
  | [] => ([], m)
  | c :: cs =>
      let '(c, m) := cloneCopy (p ++ [i]) c m in
      let '(cs, m) := go (S i) cs m in
      (setParent (Some (Dst p)) c :: cs, m)
  end.
Lemma cloneCopy_eq {A} p (n : node A) cs m :
  cloneCopy p (LT n cs) m = let '(ds, m) := copyKids p 0 cs (m_set Z.eqb m (nseq n) p) in (LT n ds, m).
Proof. reflexivity. Qed.
Lemma copyKids_cons {A} p i (c : ltree A) cs m :
  copyKids p i (c :: cs) m =
    let '(c, m) := cloneCopy (p ++ [i]) c m in let '(cs, m) := copyKids p (S i) cs m in (setParent (Some (Dst p)) c :: cs, m).
Proof. reflexivity. Qed.

Definition with_parent {A} (n : node A) (o : option ref) : node A := Node (nseq n) (nat_ n) o (nby n) (ngroup n).
(** The layer at [q] after the first pass, [q] relative to [p] *)
Definition copied {A} (p q : list nat) (n : node A) : node A :=
  match q with [] => n | _ => with_parent n (Some (Dst (p ++ removelast q))) end.

Definition copy_spec {A} (p : list nat) (t : ltree A) : Prop := forall m,
  distinct t ->
  (forall q, lat (fst (cloneCopy p t m)) q = match lat t q with Some n => Some (copied p q n) | None => None end) /\
  (forall q n, lat t q = Some n -> m_get Z.eqb (snd (cloneCopy p t m)) (nseq n) = Some (p ++ q)) /\
  (forall s, (forall q n, lat t q = Some n -> nseq n <> s) -> m_get Z.eqb (snd (cloneCopy p t m)) s = m_get Z.eqb m s).

Definition lat_setParent {A} o (t : ltree A) q : lat (setParent o t) q = match q with [] => Some (with_parent (lroot t) o) | _ => lat t q end.
Proof. destruct t, q; reflexivity. Qed.

Lemma copyKids_spec {A} (p : list nat) (cs : list (ltree A)) : Forall (fun c => forall p, copy_spec p c) cs ->
  forall i m,
  (forall k k' c c' q q' n n', nth_error cs k = Some c -> nth_error cs k' = Some c' -> lat c q = Some n -> lat c' q' = Some n' ->
     nseq n = nseq n' -> k = k' /\ q = q') ->
  (forall k, match nth_error cs k, nth_error (fst (copyKids p i cs m)) k with
     | None, None => True
     | Some c, Some d => forall q, lat d q = match lat c q with
         | Some n => Some (with_parent n (Some (Dst (removelast (p ++ (i + k)%nat :: q))))) | None => None end
     | _, _ => False end) /\
  (forall k c q n, nth_error cs k = Some c -> lat c q = Some n -> m_get Z.eqb (snd (copyKids p i cs m)) (nseq n) = Some (p ++ (i + k)%nat :: q)) /\
  (forall s, (forall k c q n, nth_error cs k = Some c -> lat c q = Some n -> nseq n <> s) ->
     m_get Z.eqb (snd (copyKids p i cs m)) s = m_get Z.eqb m s).
Proof.
  induction 1 as [|c cs Hc _ IH]; intros i m D; [|rewrite copyKids_cons].
  - cbn. split; [|split].
    + intros [|k]; exact I.
    + intros [|k]; discriminate.
    + reflexivity.
  - destruct (cloneCopy (p ++ [i]) c m) as [c' m1] eqn:E1. destruct (copyKids p (S i) cs m1) as [ds m2] eqn:E2.
    cbn [fst snd].
    destruct (Hc (p ++ [i]) m) as (C1 & C2 & C3).
    { intros q q' n n' Hq Hq' Hs. exact (proj2 (D 0%nat 0%nat c c q q' n n' eq_refl eq_refl Hq Hq' Hs)). }
    rewrite E1 in C1, C2, C3. cbn [fst snd] in C1, C2, C3.
    destruct (IH (S i) m1) as (K1 & K2 & K3).
    { intros k k' c1 c2 q q' n n' H1 H2 H3 H4 Hs. destruct (D (S k) (S k') c1 c2 q q' n n' H1 H2 H3 H4 Hs) as [X ->]. split; [congruence|reflexivity]. }
    rewrite E2 in K1, K2, K3. cbn [fst snd] in K1, K2, K3.
    split; [|split].
    + intros [|k]; cbn [nth_error].
      * intros q. rewrite lat_setParent, Nat.add_0_r. destruct q as [|j q].
        -- destruct c as [n cs0]. cbn [lat].
           assert (lroot c' = n).
           { specialize (C1 []). destruct c' as [n' ds']. cbn in C1. injection C1 as <-. reflexivity. }
           rewrite H, removelast_last. reflexivity.
        -- rewrite C1. destruct (lat c (j :: q)) as [n|]; [|reflexivity].
           unfold copied. do 3 f_equal. rewrite <- app_assoc. cbn [app]. rewrite !removelast_app by discriminate. reflexivity.
      * specialize (K1 k). replace (i + S k)%nat with (S i + k)%nat by lia. exact K1.
    + intros [|k] c0 q n; cbn [nth_error].
      * intros [= <-] Hq. rewrite K3.
        -- rewrite (C2 _ _ Hq), Nat.add_0_r, <- app_assoc. reflexivity.
        -- intros k' c2 q' n' H1 H2 Hs. destruct (D (S k') 0%nat c2 c q' q n' n H1 eq_refl H2 Hq Hs). discriminate.
      * intros H1 H2. rewrite (K2 _ _ _ _ H1 H2). replace (S i + k)%nat with (i + S k)%nat by lia. reflexivity.
    + intros s Hs. rewrite K3, C3; [reflexivity| |].
      * intros q n. apply (Hs 0%nat c q n eq_refl).
      * intros k c0 q n H. apply (Hs (S k) c0 q n H).
Qed.

Lemma cloneCopy_spec {A} (t : ltree A) : forall p, copy_spec p t.
Proof.
  induction t as [n cs IH] using @ltree_rec'. intros p m D. rewrite cloneCopy_eq.
  destruct (copyKids_spec p cs IH 0 (m_set Z.eqb m (nseq n) p)) as (K1 & K2 & K3).
  { intros k k' c c' q q' n1 n2 H1 H2 H3 H4 Hs.
    assert (X : k :: q = k' :: q'); [|now injection X].
    apply (D (k :: q) (k' :: q') n1 n2); [cbn; rewrite H1; exact H3|cbn; rewrite H2; exact H4|exact Hs]. }
  destruct (copyKids p 0 cs (m_set Z.eqb m (nseq n) p)) as [ds m2]. cbn [fst snd] in *.
  split; [|split].
  - intros [|i q]; cbn [lat]; [reflexivity|]. specialize (K1 i).
    destruct (nth_error cs i) as [c|], (nth_error ds i) as [d|]; try contradiction; [|reflexivity].
    rewrite K1. destruct (lat c q); [|reflexivity]. rewrite removelast_app by discriminate. reflexivity.
  - intros [|i q] n0; cbn [lat].
    + intros [= <-]. rewrite K3.
      * rewrite (m_get_set Z.eqb Z.eqb_eq), Z.eqb_refl, app_nil_r. reflexivity.
      * intros k c q n' H1 H2 Hs. assert (X : k :: q = []); [|discriminate].
        apply (D (k :: q) [] n' n); [cbn; rewrite H1; exact H2|reflexivity|exact Hs].
    + destruct (nth_error cs i) as [c|] eqn:Ec; [|discriminate]. intros Hq. apply (K2 _ _ _ _ Ec Hq).
  - intros s Hs. rewrite K3.
    + rewrite (m_get_set Z.eqb Z.eqb_eq). destruct (Z.eqb_spec (nseq n) s) as [E|]; [|reflexivity].
      exfalso. now apply (Hs [] n eq_refl).
    + intros k c q n0 H1 H2. apply (Hs (k :: q)). cbn. now rewrite H1.
Qed.

(** * The second pass *)
Section second.
  Context {A : Type} (seqOf : Z -> Z) (m : list (Z * list nat)) (t0 : ltree A).
  Hypothesis Hm : forall q n, lat t0 q = Some n -> m_get Z.eqb m (nseq n) = Some q.

  Lemma cloneRef_ok r : src_ok seqOf t0 r -> exists r', cloneRef seqOf m r = Some r' /\ corresponds seqOf t0 r r'.
  Proof using Hm.
    intros (a & q & n & -> & H1 & H2). cbn. unfold lookup. rewrite <- H2, (Hm _ _ H1). eexists. split; [reflexivity|].
    now exists a, q, n.
  Qed.
  Lemma cloneRefs_ok l : Forall (src_ok seqOf t0) l -> exists l', optAll (map (cloneRef seqOf m) l) = Some l' /\ Forall2 (corresponds seqOf t0) l l'.
  Proof using Hm.
    induction 1 as [|r l Hr _ (l' & E & F)].
    - now exists [].
    - destruct (cloneRef_ok r Hr) as (r' & Er & Cr). exists (r' :: l'). cbn. rewrite Er, E. auto.
  Qed.

  Lemma cloneClip_ok : forall s d : ltree A,
    (forall p n, lat s p = Some n -> (nby n = None \/ src_ok seqOf t0 (nby n)) /\ Forall (src_ok seqOf t0) (ngroup n)) ->
    (forall p, lat s p = None <-> lat d p = None) ->
    (forall p n n', lat s p = Some n -> lat d p = Some n' -> nby n' = nby n) ->
    exists d', cloneClip seqOf m s d = Some d' /\
      (forall p, lat d p = None <-> lat d' p = None) /\
      forall p n n1 n', lat s p = Some n -> lat d p = Some n1 -> lat d' p = Some n' ->
        nseq n' = nseq n1 /\ nat_ n' = nat_ n1 /\ nparent n' = nparent n1 /\
        ((nby n = None /\ nby n' = None) \/ corresponds seqOf t0 (nby n) (nby n')) /\
        Forall2 (corresponds seqOf t0) (ngroup n) (ngroup n').
  Proof using Hm.
    induction s as [s ss IH] using @ltree_rec'. intros [d ds] Hr Hn Hb.
    cbn [cloneClip].
    destruct (Hr [] s eq_refl) as [Rb Rg]. destruct (cloneRefs_ok _ Rg) as (g & Eg & Fg). rewrite Eg.
    assert (B : exists b, match nby s with None => Some (nby d) | Some r => cloneRef seqOf m (Some r) end = Some b /\
                ((nby s = None /\ b = None) \/ corresponds seqOf t0 (nby s) b)).
    { destruct Rb as [E|R].
      - rewrite E. exists (nby d). split; [reflexivity|]. left. split; [reflexivity|].
        rewrite (Hb [] s d eq_refl eq_refl). exact E.
      - destruct (cloneRef_ok _ R) as (b & Eb & Cb). exists b. destruct R as (a & q & n & E & _). rewrite E in *.
        split; [exact Eb|]. now right. }
    destruct B as (b & Eb & Cb). rewrite Eb.
    assert (K : exists ds', (fix go (ss ds : list (ltree A)) : option (list (ltree A)) :=
                 match ss, ds with
                 | s :: ss, d :: ds => match cloneClip seqOf m s d, go ss ds with Some d, Some ds => Some (d :: ds) | _, _ => None end
                 | _, ds => Some ds
                 end) ss ds = Some ds' /\
              forall k, match nth_error ss k, nth_error ds k, nth_error ds' k with
                | None, None, None => True
                | Some c, Some d1, Some d' => (forall p, lat d1 p = None <-> lat d' p = None) /\
                   forall p n n1 n', lat c p = Some n -> lat d1 p = Some n1 -> lat d' p = Some n' ->
        nseq n' = nseq n1 /\ nat_ n' = nat_ n1 /\ nparent n' = nparent n1 /\
        ((nby n = None /\ nby n' = None) \/ corresponds seqOf t0 (nby n) (nby n')) /\
        Forall2 (corresponds seqOf t0) (ngroup n) (ngroup n')
                | _, _, _ => False end).
    { assert (Hr' : forall k c p n, nth_error ss k = Some c -> lat c p = Some n -> (nby n = None \/ src_ok seqOf t0 (nby n)) /\ Forall (src_ok seqOf t0) (ngroup n)).
      { intros k c p n H1 H2. apply (Hr (k :: p)). cbn. now rewrite H1. }
      assert (Hn' : forall k p, match nth_error ss k, nth_error ds k with Some c, Some d => lat c p = None <-> lat d p = None | None, None => True | _, _ => False end).
      { intros k p. pose proof (Hn [k]) as H1. pose proof (Hn (k :: p)) as H2. cbn in H1, H2.
        destruct (nth_error ss k) as [c|], (nth_error ds k) as [d1|]; auto.
        - exfalso. destruct c. cbn in H1. discriminate (proj2 H1 eq_refl).
        - exfalso. destruct d1. cbn in H1. discriminate (proj1 H1 eq_refl). }
      assert (Hb' : forall k c d1 p n n', nth_error ss k = Some c -> nth_error ds k = Some d1 -> lat c p = Some n -> lat d1 p = Some n' -> nby n' = nby n).
      { intros k c d1 p n n' H1 H2 H3 H4. apply (Hb (k :: p)); cbn; [now rewrite H1|now rewrite H2]. }
      clear Hr Hn Hb Eg Fg Rb Rg Eb Cb g b. revert ds Hn' Hb'. induction IH as [|c ss Hc _ IHl]; intros ds Hn' Hb'.
      - exists ds. split; [reflexivity|]. intros k. specialize (Hn' k []). destruct k; cbn in *; destruct ds; cbn in *; auto; try contradiction.
        destruct (nth_error ds k); auto.
      - destruct ds as [|d1 ds]; [now specialize (Hn' 0%nat [])|].
        destruct (Hc d1) as (d' & E' & D1 & D2).
        { intros p n. apply (Hr' 0%nat c p n eq_refl). }
        { intros p. apply (Hn' 0%nat p). }
        { intros p n n'. apply (Hb' 0%nat c d1 p n n' eq_refl eq_refl). }
        destruct (IHl (fun k c p n => Hr' (S k) c p n) ds (fun k p => Hn' (S k) p) (fun k c d p n n' => Hb' (S k) c d p n n')) as (ds' & Eds & Kds).
        exists (d' :: ds'). rewrite E', Eds. split; [reflexivity|]. intros [|k]; cbn [nth_error]; [now split|apply Kds]. }
    destruct K as (ds' & Eds & Kds). rewrite Eds. eexists. split; [reflexivity|]. split.
    - intros [|k p]; cbn [lat]; [split; discriminate|]. specialize (Kds k).
      destruct (nth_error ss k), (nth_error ds k), (nth_error ds' k); try contradiction; [apply Kds|reflexivity].
    - intros [|k p] n n1 n'; cbn [lat].
      + intros [= <-] [= <-] [= <-]. cbn. auto.
      + specialize (Kds k). destruct (nth_error ss k), (nth_error ds k), (nth_error ds' k); try contradiction; try discriminate.
        apply Kds.
  Qed.
End second.

Lemma clone_copy_of {A} (seqOf : Z -> Z) (t : ltree A) :
  distinct t -> refs_ok seqOf t -> exists d, cloneTree seqOf t = Some d /\ copy_of seqOf t d.
Proof.
  intros D R. unfold cloneTree. destruct (cloneCopy_spec t [] [] D) as (C1 & C2 & _).
  destruct (cloneCopy [] t []) as [d m]. cbn [fst snd] in *.
  destruct (cloneClip_ok seqOf m t C2 t d) as (d' & E & N & P).
  - exact R.
  - intros p. rewrite C1. destruct (lat t p); split; congruence.
  - intros p n n' H1 H2. rewrite C1, H1 in H2. injection H2 as <-. destruct p; reflexivity.
  - exists d'. split; [exact E|]. intros p. split.
    + rewrite <- N, C1. destruct (lat t p); split; congruence.
    + intros n n' H1 H2. specialize (C1 p). rewrite H1 in C1.
      destruct (P p n _ n' H1 C1 H2) as (P1 & P2 & P3 & P4 & P5). repeat split; auto.
      * rewrite P1. destruct p; reflexivity.
      * rewrite P2. destruct p; reflexivity.
      * intros ->. exact P3.
      * intros q i ->. rewrite P3. unfold copied. destruct (q ++ [i]) eqn:Eq.
        -- destruct q; discriminate.
        -- rewrite <- Eq, removelast_last. reflexivity.
Qed.
