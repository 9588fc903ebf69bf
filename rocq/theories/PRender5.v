(** Proofs about one tile of the renderer: several changes that are announced together. *)
From Verif Require Import Base BaseFacts MRender SRender PRender PRender2 PRender3.

Section render.
  Context {img msk : Type}.
  Variable zero : img.
  Variable copyT : img -> img.
  Variable blendOf : bytes -> option (Z -> img -> img -> img).
  Variable destInM destOutM : msk -> img -> img.
  Variable destInT destOverT : img -> img -> img.
  Variable clearT removeAlpha : img -> img.
  Variable canvas : Z -> option img.
  Variable hasCanvas : Z -> bool.
  Variable mask : Z -> option msk.
  Variable canvas_nil : forall s, hasCanvas s = false -> canvas s = None.

  Notation tstate := (tstate img).
  Notation startBuf := (startBuf zero copyT).
  Notation inArea := (inArea canvas hasCanvas).
  Notation areaRec := (areaRec canvas hasCanvas).
  Notation body := (body zero copyT blendOf destInM destOutM destInT destOverT clearT removeAlpha canvas mask).
  Notation pre := (pre zero copyT blendOf destInM destOutM destInT destOverT clearT removeAlpha canvas mask).
  Notation kidP := (kidP zero copyT blendOf destInM destOutM destInT destOverT clearT removeAlpha canvas mask).
  Notation drawsP := (drawsP zero copyT blendOf destInM destOutM destInT destOverT clearT removeAlpha canvas mask).
  Notation clipP := (clipP zero copyT blendOf destInM destOutM destInT destOverT clearT removeAlpha canvas mask).
  Notation clipsP := (clipsP zero copyT blendOf destInM destOutM destInT destOverT clearT removeAlpha canvas mask).
  Notation grp := (grp zero copyT blendOf destInM destOutM destInT destOverT clearT removeAlpha canvas mask).
  Notation inv := (inv zero copyT blendOf destInM destOutM destInT destOverT clearT removeAlpha canvas hasCanvas mask).
  Notation kidInv := (kidInv zero copyT blendOf destInM destOutM destInT destOverT clearT removeAlpha canvas hasCanvas mask).
  Notation invKs := (invKs zero copyT blendOf destInM destOutM destInT destOverT clearT removeAlpha canvas hasCanvas mask).
  Notation invCs := (invCs zero copyT blendOf destInM destOutM destInT destOverT clearT removeAlpha canvas hasCanvas mask).
  Notation invDs := (invDs zero copyT blendOf destInM destOutM destInT destOverT clearT removeAlpha canvas hasCanvas mask).
  Notation invNs := (invNs zero copyT blendOf destInM destOutM destInT destOverT clearT removeAlpha canvas hasCanvas mask).
  Notation entryOK := (entryOK zero copyT blendOf destInM destOutM destInT destOverT clearT removeAlpha canvas hasCanvas mask).
  Notation kidsOK := (kidsOK zero copyT blendOf destInM destOutM destInT destOverT clearT removeAlpha canvas hasCanvas mask).
  Notation groupOK := (groupOK zero copyT blendOf destInM destOutM destInT destOverT clearT removeAlpha canvas hasCanvas mask).
  Notation invRoot := (invRoot zero copyT blendOf destInM destOutM destInT destOverT clearT removeAlpha canvas hasCanvas mask).
  Notation inner := (inner zero).
  Notation ctx := (@ctx img).
  Notation lwf := (lwf blendOf hasCanvas).
  Notation ent st s := (m_get Z.eqb (tent st) s).
  Notation WK := (WK zero copyT blendOf destInM destOutM destInT destOverT clearT removeAlpha canvas hasCanvas mask).
  Notation WC := (WC zero copyT blendOf destInM destOutM destInT destOverT clearT removeAlpha canvas hasCanvas mask).
  Notation WS := (WS zero copyT blendOf destInM destOutM destInT destOverT clearT removeAlpha canvas hasCanvas mask).
  Notation someInv := (someInv zero copyT blendOf destInM destOutM destInT destOverT clearT removeAlpha canvas hasCanvas mask).
  Notation someKid := (someKid zero copyT blendOf destInM destOutM destInT destOverT clearT removeAlpha canvas hasCanvas mask).
  Notation allInv := (allInv zero copyT blendOf destInM destOutM destInT destOverT clearT removeAlpha canvas hasCanvas mask).
  Notation allKid := (allKid zero copyT blendOf destInM destOutM destInT destOverT clearT removeAlpha canvas hasCanvas mask).
  Notation areaKid := (areaKid canvas hasCanvas).

  (** * Positions below a child *)
  Definition step_eqb (s s' : step) : bool :=
    Nat.eqb (fst s) (fst s') && match snd s, snd s' with None, None => true | Some j, Some j' => Nat.eqb j j' | _, _ => false end.
  Lemma step_eqb_eq s s' : step_eqb s s' = true <-> s = s'.
  Proof.
    destruct s as [i o], s' as [i' o']. unfold step_eqb. cbn [fst snd]. rewrite andb_true_iff, Nat.eqb_eq. destruct o as [j|], o' as [j'|].
    - rewrite Nat.eqb_eq. split; [intros [-> ->]; reflexivity|intros [= -> ->]; auto].
    - split; [intros [_ E]; discriminate|discriminate].
    - split; [intros [_ E]; discriminate|discriminate].
    - split; [intros [-> _]; reflexivity|intros [= ->]; auto].
  Qed.
  Definition below (s : step) (ps : list (list step)) : list (list step) :=
    flat_map (fun p => match p with [] => [] | s' :: q => if step_eqb s s' then [q] else [] end) ps.
  Lemma in_below s ps q : In q (below s ps) <-> In (s :: q) ps.
  Proof.
    unfold below. rewrite in_flat_map. split.
    - intros ([|s' p] & I & H); [destruct H|]. destruct (step_eqb s s') eqn:E; [|destruct H]. apply step_eqb_eq in E. destruct H as [->|[]]. now subst.
    - intros I. exists (s :: q). split; [exact I|]. replace (step_eqb s s) with true; [now left|]. symmetry. now apply step_eqb_eq.
  Qed.

  Lemma changed_child ps l l' s : changed ps l l' ->
    match child l s, child l' s with Some c, Some c' => changed (below s ps) c c' | None, None => True | _, _ => False end.
  Proof.
    intros H. pose proof (H [s]) as H0. cbn [layerAt] in H0. destruct (child l s) as [c|] eqn:E, (child l' s) as [c'|] eqn:E'; try exact H0.
    intros p. pose proof (H (s :: p)) as Hp. cbn [layerAt] in Hp. rewrite E, E' in Hp. destruct (layerAt c p), (layerAt c' p); try exact Hp.
    now rewrite in_below.
  Qed.
  Lemma changed_kid ps l l' i : changed ps l l' ->
    match nth_error (lkids l) i, nth_error (lkids l') i with Some k, Some k' => changed (below (i, None) ps) k k' | None, None => True | _, _ => False end.
  Proof.
    intros H. pose proof (changed_child ps l l' (i, None) H) as C. unfold child in C. cbn [fst snd] in C.
    destruct (nth_error (lkids l) i), (nth_error (lkids l') i); exact C.
  Qed.
  Lemma changed_member ps l l' i k k' j : changed ps l l' -> nth_error (lkids l) i = Some k -> nth_error (lkids l') i = Some k' ->
    match nth_error (lgroup k) j, nth_error (lgroup k') j with Some c, Some c' => changed (below (i, Some j) ps) c c' | None, None => True | _, _ => False end.
  Proof.
    intros H E E'. pose proof (changed_child ps l l' (i, Some j) H) as C. unfold child in C. cbn [fst snd] in C. rewrite E, E' in C.
    destruct (nth_error (lgroup k) j), (nth_error (lgroup k') j); exact C.
  Qed.
  Lemma Forall2_index {A B} (R : A -> B -> Prop) l : forall l',
    (forall i, match nth_error l i, nth_error l' i with Some x, Some y => R x y | None, None => True | _, _ => False end) -> Forall2 R l l'.
  Proof.
    induction l as [|x l IH]; intros [|y l'] H.
    - constructor.
    - destruct (H O).
    - destruct (H O).
    - constructor; [exact (H O)|]. apply IH. intros i. exact (H (S i)).
  Qed.
  Lemma changed_here ps l l' : changed ps l l' -> same_but (latt l) (latt l') /\ (latt l' = latt l \/ In [] ps).
  Proof. intros H. exact (H []). Qed.

  (** Positions that are announced with effect *)
  Definition hit (l : layer) (p : list step) : bool :=
    match layerAt l p with Some t => inArea t | None => false end && snd (dirty false l p).
  Definition loud (ps : list (list step)) (l : layer) : bool := existsb (hit l) ps.
  Lemma loud_false ps l p : loud ps l = false -> In p ps -> hit l p = false.
  Proof. intros H I. destruct (hit l p) eqn:E; [|reflexivity]. assert (loud ps l = true) by (apply existsb_exists; eauto). congruence. Qed.
  Lemma hit_kid l i k q : nth_error (lkids l) i = Some k -> lclipping (latt k) = false -> hit k q = true -> hit l (@cons step (i, None) q) = true.
  Proof.
    intros E C. unfold hit. rewrite layerAt_cons, dirty_cons. unfold child. cbn [fst snd]. rewrite E, C. rewrite !andb_true_iff.
    destruct (dirty false k q) as [d up]. cbn [snd]. intros [H1 ->]. auto.
  Qed.
  Lemma hit_member l i k j c q : nth_error (lkids l) i = Some k -> lclipping (latt k) = false -> nth_error (lgroup k) j = Some c ->
    hit c q = true -> hit l (@cons step (i, Some j) q) = true.
  Proof.
    intros E C E2. unfold hit. rewrite layerAt_cons, dirty_cons. unfold child. cbn [fst snd]. rewrite E, E2, C. rewrite !andb_true_iff.
    destruct (dirty false c q) as [d up]. cbn [snd]. intros [H1 ->]. auto.
  Qed.
  Definition tail (ps : list (list step)) : list (list step) := filter (fun p => negb (isNil p)) ps.
  Lemma in_tail ps s q : In (s :: q) (tail ps) <-> In (s :: q) ps.
  Proof. unfold tail. rewrite filter_In. cbn. tauto. Qed.
  Lemma quiet_kid ps l i k : loud (tail ps) l = false -> nth_error (lkids l) i = Some k -> lclipping (latt k) = false -> loud (below (i, None) ps) k = false.
  Proof.
    intros H E C. destruct (loud (below (i, None) ps) k) eqn:L; [|reflexivity]. apply existsb_exists in L. destruct L as (q & I & Hq).
    apply in_below, in_tail in I. pose proof (loud_false _ _ _ H I) as X. rewrite (hit_kid l i k q E C Hq) in X. discriminate.
  Qed.
  Lemma quiet_member ps l i k j c : loud (tail ps) l = false -> nth_error (lkids l) i = Some k -> lclipping (latt k) = false -> nth_error (lgroup k) j = Some c ->
    loud (below (i, Some j) ps) c = false.
  Proof.
    intros H E C E2. destruct (loud (below (i, Some j) ps) c) eqn:L; [|reflexivity]. apply existsb_exists in L. destruct L as (q & I & Hq).
    apply in_below, in_tail in I. pose proof (loud_false _ _ _ H I) as X. rewrite (hit_member l i k j c q E C E2 Hq) in X. discriminate.
  Qed.
  Lemma loud_tail ps l : loud ps l = false -> loud (tail ps) l = false.
  Proof.
    intros H. destruct (loud (tail ps) l) eqn:L; [|reflexivity]. apply existsb_exists in L. destruct L as (q & I & Hq).
    unfold tail in I. apply filter_In in I. rewrite (loud_false _ _ _ H (proj1 I)) in Hq. discriminate.
  Qed.

  (** * The SeqIDs stay *)
  Lemma flat_map_eq2 {A B} (f : A -> list B) u v : Forall2 (fun x y => f y = f x) u v -> flat_map f v = flat_map f u.
  Proof. induction 1 as [|x y u v E _ IH]; [reflexivity|]. cbn [flat_map]. now rewrite E, IH. Qed.
  Definition seqsP (l : layer) : Prop := forall ps l', changed ps l l' -> lwf l -> lwf l' ->
    flat_map seqs (lgroup l') = flat_map seqs (lgroup l) -> seqs l' = seqs l.
  Lemma seqs_changed' l : seqsP l /\ Forall seqsP (lgroup l).
  Proof.
    induction l as [a ks cs Hk Hc] using layer_rec'. split.
    - intros ps l' H W W' G. destruct l' as [a' ks' cs']. cbn [lgroup] in G. cbn [seqs]. rewrite G.
      destruct (changed_here _ _ _ H) as [[E _] _]. cbn [latt] in E. rewrite E. f_equal. f_equal. apply flat_map_eq2.
      apply Forall2_index. intros i. pose proof (changed_kid _ _ _ i H) as C. cbn [lkids] in C.
      destruct (nth_error ks i) as [k|] eqn:E1, (nth_error ks' i) as [k'|] eqn:E2; try exact C.
      pose proof (nth_error_In _ _ E1) as I1. pose proof (nth_error_In _ _ E2) as I2.
      rewrite Forall_forall in Hk. destruct (Hk k I1) as [K1 K2].
      pose proof (lwf_in_kids _ _ _ k W I1) as Wk. pose proof (lwf_in_kids _ _ _ k' W' I2) as Wk'. apply (K1 _ _ C Wk Wk'). apply flat_map_eq2.
      apply Forall2_index. intros j. pose proof (changed_member _ _ _ i k k' j H E1 E2) as D.
      destruct (nth_error (lgroup k) j) as [c|] eqn:E3, (nth_error (lgroup k') j) as [c'|] eqn:E4; try exact D.
      pose proof (nth_error_In _ _ E3) as I3. pose proof (nth_error_In _ _ E4) as I4. rewrite Forall_forall in K2.
      apply (K2 c I3 _ _ D (lwf_in_group _ _ _ _ Wk I3) (lwf_in_group _ _ _ _ Wk' I4)).
      now rewrite (lwf_group_nil _ _ _ _ Wk I3), (lwf_group_nil _ _ _ _ Wk' I4).
    - cbn [lgroup]. rewrite Forall_forall in *. intros c I. apply Hc. exact I.
  Qed.
  Lemma seqs_changed l : seqsP l.
  Proof. apply seqs_changed'. Qed.
  Lemma seqs_kid ps l l' i k k' : changed ps l l' -> lwf l -> lwf l' -> nth_error (lkids l) i = Some k -> nth_error (lkids l') i = Some k' -> seqs k' = seqs k.
  Proof.
    intros H W W' E1 E2. pose proof (nth_error_In _ _ E1) as I1. pose proof (nth_error_In _ _ E2) as I2.
    pose proof (lwf_in_kids _ _ _ k W I1) as Wk. pose proof (lwf_in_kids _ _ _ k' W' I2) as Wk'.
    pose proof (changed_kid _ _ _ i H) as C. rewrite E1, E2 in C. apply (seqs_changed k _ _ C Wk Wk'). apply flat_map_eq2.
    apply Forall2_index. intros j. pose proof (changed_member _ _ _ i k k' j H E1 E2) as D.
    destruct (nth_error (lgroup k) j) as [c|] eqn:E3, (nth_error (lgroup k') j) as [c'|] eqn:E4; try exact D.
    pose proof (nth_error_In _ _ E3) as I3. pose proof (nth_error_In _ _ E4) as I4.
    apply (seqs_changed c _ _ D (lwf_in_group _ _ _ _ Wk I3) (lwf_in_group _ _ _ _ Wk' I4)).
    now rewrite (lwf_group_nil _ _ _ _ Wk I3), (lwf_group_nil _ _ _ _ Wk' I4).
  Qed.
  Lemma clipping_kid ps l l' i k k' : changed ps l l' -> nth_error (lkids l) i = Some k -> nth_error (lkids l') i = Some k' -> lclipping (latt k') = lclipping (latt k).
  Proof. intros H E1 E2. pose proof (changed_kid _ _ _ i H) as C. rewrite E1, E2 in C. destruct (changed_here _ _ _ C) as [[_ E] _]. exact E. Qed.

  (** * Without effect at the point *)
  Section quiet.
    Variable st : tstate.
    Lemma WS_refl l : WS st l l.
    Proof. unfold PRender3.WS. repeat split; auto. Qed.
    Lemma WS_trans l1 l2 l3 : WS st l1 l2 -> WS st l2 l3 -> WS st l1 l3.
    Proof.
      intros (A1 & A2 & A3 & A4 & A5) (B1 & B2 & B3 & B4 & B5). unfold PRender3.WS.
      rewrite B1, B2, B4. repeat split; auto. intros b op. now rewrite B3.
    Qed.
    Lemma WK_trans l1 l2 l3 : WK st l1 l2 -> WK st l2 l3 -> WK st l1 l3.
    Proof.
      intros (A1 & A2 & A3 & A4 & A5 & A6) (B1 & B2 & B3 & B4 & B5 & B6). unfold PRender3.WK.
      rewrite B1, B2, B4. repeat split; auto. intros f buf Hf. rewrite B3 by exact Hf. now apply A3.
    Qed.
    Lemma WC_trans l1 l2 l3 : WC st l1 l2 -> WC st l2 l3 -> WC st l1 l3.
    Proof.
      intros (A1 & A2 & A3) (B1 & B2 & B3). unfold PRender3.WC. repeat split; auto. intros x. now rewrite B1.
    Qed.
    Lemma WS_kids a cs u v : Forall2 (WK st) u v -> forall l1, WS st (Lay a (l1 ++ u) cs) (Lay a (l1 ++ v) cs).
    Proof.
      induction 1 as [|k k' u v K _ IH]; intros l1; [apply WS_refl|].
      eapply WS_trans; [apply WS_kid; exact K|]. specialize (IH (l1 ++ [k'])). now rewrite <- !app_assoc in IH.
    Qed.
    Lemma WS_groups a ks u v : Forall2 (fun c c' => seqs c' = seqs c /\ WC st c c') u v -> forall l1, WS st (Lay a ks (l1 ++ u)) (Lay a ks (l1 ++ v)).
    Proof.
      induction 1 as [|k k' u v [K1 K2] _ IH]; intros l1; [apply WS_refl|].
      eapply WS_trans; [apply WS_group; [exact K1|exact K2]|]. specialize (IH (l1 ++ [k'])). now rewrite <- !app_assoc in IH.
    Qed.
    Definition quietP (l : layer) : Prop := forall ps l', changed ps l l' -> lwf l -> lwf l' -> loud ps l' = false ->
      Forall2 (fun c c' => seqs c' = seqs c /\ WC st c c') (lgroup l) (lgroup l') -> WK st l l' /\ WC st l l'.
    (** Kids of a layer below which nothing is announced with effect *)
    Lemma quiet_kids ks ps l l' : changed ps l l' -> lwf l -> lwf l' -> loud (tail ps) l' = false ->
      ks = lkids l -> Forall (fun k => quietP k /\ Forall quietP (lgroup k)) ks -> Forall2 (WK st) (lkids l) (lkids l').
    Proof.
      intros H W W' L -> Hk. apply Forall2_index. intros i. pose proof (changed_kid _ _ _ i H) as C.
      destruct (nth_error (lkids l) i) as [k|] eqn:E1, (nth_error (lkids l') i) as [k'|] eqn:E2; try exact C.
      pose proof (nth_error_In _ _ E1) as I1. pose proof (nth_error_In _ _ E2) as I2.
      pose proof (lwf_in_kids _ _ _ k W I1) as Wk. pose proof (lwf_in_kids _ _ _ k' W' I2) as Wk'.
      pose proof (clipping_kid _ _ _ i k k' H E1 E2) as Ec.
      destruct (lclipping (latt k')) eqn:Ek.
      - apply WK_orphan; [exact (seqs_kid _ _ _ i k k' H W W' E1 E2)|exact Ek|now symmetry].
      - rewrite Forall_forall in Hk. destruct (Hk k I1) as [K1 K2]. apply (K1 _ _ C Wk Wk'); [now apply (quiet_kid ps l' i k')|].
        apply Forall2_index. intros j. pose proof (changed_member _ _ _ i k k' j H E1 E2) as D.
        destruct (nth_error (lgroup k) j) as [c|] eqn:E3, (nth_error (lgroup k') j) as [c'|] eqn:E4; try exact D.
        pose proof (nth_error_In _ _ E3) as I3. pose proof (nth_error_In _ _ E4) as I4.
        pose proof (lwf_in_group _ _ _ c Wk I3) as Wc. pose proof (lwf_in_group _ _ _ c' Wk' I4) as Wc'.
        pose proof (lwf_group_nil _ _ _ c Wk I3) as N. pose proof (lwf_group_nil _ _ _ c' Wk' I4) as N'. split.
        + apply (seqs_changed c _ _ D Wc Wc'). now rewrite N, N'.
        + rewrite Forall_forall in K2. apply (K2 c I3 _ _ D Wc Wc').
          * exact (quiet_member ps l' i k' j c' L E2 Ek E4).
          * rewrite N, N'. constructor.
    Qed.
    Lemma quietB' l : quietP l /\ Forall quietP (lgroup l).
    Proof.
      induction l as [a ks cs Hk Hc] using layer_rec'. split; [|cbn [lgroup]; rewrite Forall_forall in *; intros c I; now apply Hc].
      intros ps l' H W W' L G. pose proof (quiet_kids ks _ _ _ H W W' (loud_tail _ _ L) eq_refl Hk) as K.
      destruct l' as [a' ks' cs']. cbn [lkids lgroup] in K, G.
      assert (S : WS st (Lay a ks cs) (Lay a ks' cs')).
      { eapply WS_trans; [exact (WS_kids a cs ks ks' K [])|exact (WS_groups a ks' cs cs' G [])]. }
      destruct (changed_here _ _ _ H) as [SB [E|E]]; cbn [latt] in *.
      - subst a'. split; [now apply WS_WK|now apply WS_WC].
      - assert (A : inArea (Lay a' ks' cs') = false).
        { pose proof (loud_false _ _ _ L E) as X. unfold hit in X. cbn [layerAt dirty snd] in X. now rewrite andb_true_r in X. }
        assert (W1 : lwf (Lay a ks' cs')).
        { inversion W as [? ? ? M1 M2 M3 M4 M5 M6]; subst. inversion W' as [? ? ? M1' M2' M3' M4' M5' M6']; subst. constructor; auto.
          - unfold SRender.modeOK in *. destruct (isPT a); [|exact M1]. destruct M1 as [->|M1]; [left; now inversion G|now right].
          - intros N. destruct SB as [<- _]. now apply M2'. }
        assert (A1 : inArea (Lay a ks' cs') = false) by (rewrite <- A; apply inArea_attr; symmetry; apply SB).
        destruct (W_unseen zero copyT blendOf destInM destOutM destInT destOverT clearT removeAlpha canvas hasCanvas mask canvas_nil st (Lay a ks' cs') a' W1 A1 SB W') as [U1 U2].
        cbn [lkids lgroup] in U1, U2. split; [eapply WK_trans; [apply WS_WK; exact S|exact U1]|eapply WC_trans; [apply WS_WC; exact S|exact U2]].
    Qed.
    Lemma quietB l : quietP l.
    Proof. apply quietB'. Qed.
    Lemma quiet_kidsB ps l l' : changed ps l l' -> lwf l -> lwf l' -> loud (tail ps) l' = false -> Forall2 (WK st) (lkids l) (lkids l').
    Proof.
      intros H W W' L. apply (quiet_kids (lkids l) ps l l' H W W' L eq_refl). rewrite Forall_forall. intros k _. apply quietB'.
    Qed.
    Lemma drawsP_W2 f u v : sees0 f -> Forall2 (WK st) u v -> forall buf drew, drawsP f v buf drew = drawsP f u buf drew.
    Proof.
      intros Hf. induction 1 as [|k k' u v K _ IH]; intros buf drew; [reflexivity|]. cbn [SRender.drawsP].
      destruct K as (_ & _ & K & _). rewrite K by exact Hf. apply IH.
    Qed.
    Lemma invKs_W2 f u v : sees0 f -> Forall2 (WK st) u v -> forall buf, invKs f u buf st -> invKs f v buf st.
    Proof.
      intros Hf. induction 1 as [|k k' u v K _ IH]; intros buf; [auto|]. cbn [PRender2.invKs].
      destruct K as (_ & _ & K1 & _ & K2 & _). rewrite K1 by exact Hf. intros [A B]. split; [now apply K2|now apply IH].
    Qed.
    (** A cache that is valid in some context in which the layer is drawn as a child, or as
        a member of a group *)
    Definition hasK (k : layer) : Prop := kidInv None k st \/ exists f buf, sees0 f /\ kidInv (Some (buf, f (lopa (latt k)))) k st.
    Definition hasC (c : layer) : Prop := inv None c st \/ exists x, inv (Some (x, lopa (latt c))) c st.
    Lemma WK_has k k' : WK st k k' -> hasK k -> hasK k'.
    Proof.
      intros (_ & _ & _ & _ & K5 & K6) [H|(f & buf & Hf & H)]; [left; now apply K6|right]. exists f, buf. split; [exact Hf|now apply K5].
    Qed.
    Lemma WC_has k k' : WC st k k' -> hasC k -> hasC k'.
    Proof. intros (_ & K5 & K6) [H|(x & H)]; [left; now apply K6|right]. exists x. now apply K5. Qed.
    Lemma hasK_some k : hasK k -> someKid k st.
    Proof. intros [H|(f & buf & _ & H)]; eapply kidInv_some; exact H. Qed.
    Lemma hasC_some k : hasC k -> someInv k st.
    Proof. intros [H|(x & H)]; eexists; exact H. Qed.
    Lemma invKs_has f ks : sees0 f -> forall buf, invKs f ks buf st -> Forall hasK ks.
    Proof. intros Hf. induction ks as [|k ks IH]; intros buf; [constructor|]. intros [H1 H2]. constructor; [right; eauto|eauto]. Qed.
    Lemma kidsOK_has c l : kidsOK c l st -> Forall hasK (lkids l).
    Proof.
      unfold PRender2.kidsOK. destruct c as [[b op]|]; [apply invKs_has, kidOp_0|]. unfold PRender2.invDs. apply Forall_impl. intros k H. now left.
    Qed.
    Lemma groupOK_has c l : groupOK c l st -> Forall hasC (lgroup l).
    Proof.
      unfold PRender2.groupOK. assert (N : invNs (lgroup l) st -> Forall hasC (lgroup l)).
      { unfold PRender2.invNs. apply Forall_impl. intros k H. now left. }
      assert (C : forall x, invCs (lgroup l) x st -> Forall hasC (lgroup l)).
      { clear N. induction (lgroup l) as [|k ks IH]; intros x; [constructor|]. intros [H1 H2]. constructor; [right; eauto|eauto]. }
      destruct c as [[b op]|]; [|exact N]. destruct (if lbce (latt l) then _ else _); [apply C|exact N].
    Qed.
  End quiet.

  (** * With effect *)
  Section effect.
    Variable st st' : tstate.
    Variable D : list Z.
    Hypothesis some_deleted : forall s, ent st' s = ent st s \/ ent st' s = None.
    Hypothesis deleted : forall s, In s D -> ent st' s = None.
    Notation covered := (covered D).
    Let lessB S : fewer S st st'.
    Proof. intros s _. apply some_deleted. Qed.
    (** All that is announced is deleted *)
    Definition HD (ps : list (list step)) (l : layer) : Prop :=
      forall p t, In p ps -> layerAt l p = Some t -> inArea t = true -> incl (fst (dirty false l p)) D.
    Lemma dirty_child l s c q : child l s = Some c -> incl (fst (dirty false c q)) (fst (dirty false l (s :: q))).
    Proof.
      intros E. rewrite dirty_cons, E. destruct (dirty false c q) as [d up]. cbn [fst]. destruct up; [|apply incl_refl].
      assert (X : incl d (match snd s, nth_error (lkids l) (fst s) with Some _, Some k => d ++ [lseq (latt k)] | _, _ => d end)).
      { destruct (snd s), (nth_error (lkids l) (fst s)); try apply incl_refl. apply incl_appl, incl_refl. }
      destruct (_ || false); cbn [fst]; [exact X|]. now apply incl_appl.
    Qed.
    Lemma HD_child ps l s c : HD ps l -> child l s = Some c -> HD (below s ps) c.
    Proof.
      intros H E p t I Ht A. apply in_below in I. eapply incl_tran; [apply dirty_child; exact E|]. apply (H _ t I); [|exact A]. now rewrite layerAt_cons, E.
    Qed.
    Lemma hit_inv l p : hit l p = true -> exists t, layerAt l p = Some t /\ inArea t = true /\ snd (dirty false l p) = true.
    Proof. unfold hit. rewrite andb_true_iff. destruct (layerAt l p) as [t|]; [|intros [E _]; discriminate]. intros [A B]. eauto. Qed.
    Lemma dirty_self l p : snd (dirty false l p) = true -> In (lseq (latt l)) (fst (dirty false l p)).
    Proof.
      destruct p as [|s p]; [now left|]. rewrite dirty_cons. destruct (child l s) as [c|]; [|discriminate]. destruct (dirty false c p) as [d up].
      destruct up; [|discriminate]. cbv zeta. destruct (_ || false); [discriminate|]. intros _. cbn [fst]. rewrite !in_app_iff. right. right. now left.
    Qed.
    Lemma loud_deleted ps l : HD ps l -> loud ps l = true -> In (lseq (latt l)) D.
    Proof.
      intros H L. apply existsb_exists in L. destruct L as (p & I & Hp). destruct (hit_inv _ _ Hp) as (t & E & A & U).
      apply (H p t I E A). now apply dirty_self.
    Qed.
    Lemma loud_sibs ps l : HD ps l -> loud (tail ps) l = true -> incl (dirtySibs l) D /\ In (lseq (latt l)) D.
    Proof.
      intros H L. apply existsb_exists in L. destruct L as (p & I & Hp). unfold tail in I. apply filter_In in I. destruct I as [I N].
      destruct (hit_inv _ _ Hp) as (t & E & A & U). destruct p as [|s p]; [discriminate|]. pose proof (H _ t I E A) as X.
      revert U X. rewrite dirty_cons. destruct (child l s) as [c|]; [|discriminate]. destruct (dirty false c p) as [d up].
      destruct up; [|discriminate]. cbv zeta. destruct (_ || false); [discriminate|]. intros _ X. cbn [fst] in X. split.
      - intros x Hx. apply X. rewrite !in_app_iff. auto.
      - apply X. rewrite !in_app_iff. right. right. now left.
    Qed.
    Lemma member_deleted ps l i k j c : HD ps l -> nth_error (lkids l) i = Some k -> nth_error (lgroup k) j = Some c ->
      loud (below (i, Some j) ps) c = true -> In (lseq (latt k)) D.
    Proof.
      intros H E E2 L. apply existsb_exists in L. destruct L as (q & I & Hq). destruct (hit_inv _ _ Hq) as (t & Et & A & U).
      apply in_below in I. assert (Ec : child l (i, Some j) = Some c) by (unfold child; cbn [fst snd]; now rewrite E).
      pose proof (H _ t I ltac:(now rewrite layerAt_cons, Ec) A) as X. revert X. rewrite dirty_cons, Ec. cbn [fst snd]. rewrite E.
      destruct (dirty false c q) as [d up]. cbn [snd] in U. subst up. cbv zeta. intros X. destruct (_ || false); cbn [fst] in X; apply X; rewrite !in_app_iff.
      - right. now left.
      - left. right. now left.
    Qed.
    Lemma okChange_child l l' s c c' : okChange l l' -> child l s = Some c -> child l' s = Some c' -> okChange c c'.
    Proof. intros H E E' p t t' P P'. apply (H (s :: p)); [now rewrite layerAt_cons, E|now rewrite layerAt_cons, E']. Qed.

    Definition loudP (l : layer) : Prop := forall ps l', changed ps l l' -> okChange l l' -> lwf l -> lwf l' -> HD ps l' -> covered l' ->
      In (lseq (latt l')) D -> Forall2 (fun c c' => hasC st c -> allInv c' st') (lgroup l) (lgroup l') -> someInv l st -> allInv l' st'.
    Notation recontext := (recontext zero copyT blendOf destInM destOutM destInT destOverT clearT removeAlpha canvas hasCanvas mask st st' D some_deleted deleted).
    Notation recontext_kid := (recontext_kid zero copyT blendOf destInM destOutM destInT destOverT clearT removeAlpha canvas hasCanvas mask st st' D some_deleted deleted).

    Lemma group_again ps l l' i k k' : changed ps l l' -> okChange l l' -> lwf l -> lwf l' -> HD ps l' ->
      nth_error (lkids l) i = Some k -> nth_error (lkids l') i = Some k' -> covered k' -> Forall loudP (lgroup k) ->
      Forall2 (fun c c' => hasC st c -> allInv c' st') (lgroup k) (lgroup k').
    Proof.
      intros H O W W' HH E1 E2 C HL. pose proof (nth_error_In _ _ E1) as I1. pose proof (nth_error_In _ _ E2) as I2.
      pose proof (lwf_in_kids _ _ _ k W I1) as Wk. pose proof (lwf_in_kids _ _ _ k' W' I2) as Wk'.
      apply Forall2_index. intros j. pose proof (changed_member _ _ _ i k k' j H E1 E2) as M.
      destruct (nth_error (lgroup k) j) as [c|] eqn:E3, (nth_error (lgroup k') j) as [c'|] eqn:E4; try exact M.
      pose proof (nth_error_In _ _ E3) as I3. pose proof (nth_error_In _ _ E4) as I4.
      pose proof (lwf_in_group _ _ _ c Wk I3) as Wc. pose proof (lwf_in_group _ _ _ c' Wk' I4) as Wc'.
      pose proof (lwf_group_nil _ _ _ c Wk I3) as N. pose proof (lwf_group_nil _ _ _ c' Wk' I4) as N'.
      assert (Cc : covered c') by (eapply covered_member; [exact Wk'|exact C|exact I4]).
      assert (Ec : child l (i, Some j) = Some c) by (unfold child; cbn [fst snd]; now rewrite E1).
      assert (Ec' : child l' (i, Some j) = Some c') by (unfold child; cbn [fst snd]; now rewrite E2).
      pose proof (HD_child _ _ _ _ HH Ec') as HHc.
      intros Hc. destruct (loud (below (i, Some j) ps) c') eqn:L.
      - rewrite Forall_forall in HL. apply (HL c I3 _ _ M (okChange_child _ _ _ _ _ O Ec Ec') Wc Wc' HHc Cc (loud_deleted _ _ HHc L)); [rewrite N, N'; constructor|].
        now apply hasC_some.
      - apply recontext; [exact Wc'|exact Cc|]. apply hasC_some. revert Hc. apply WC_has.
        apply (quietB st c _ _ M Wc Wc' L). rewrite N, N'. constructor.
    Qed.
    Lemma kid_again ps l l' i k k' : changed ps l l' -> okChange l l' -> lwf l -> lwf l' -> HD ps l' ->
      nth_error (lkids l) i = Some k -> nth_error (lkids l') i = Some k' -> covered k' -> loudP k -> Forall loudP (lgroup k) ->
      hasK st k -> allKid k' st'.
    Proof.
      intros H O W W' HH E1 E2 C HL HG Hk. pose proof (nth_error_In _ _ E1) as I1. pose proof (nth_error_In _ _ E2) as I2.
      pose proof (lwf_in_kids _ _ _ k W I1) as Wk. pose proof (lwf_in_kids _ _ _ k' W' I2) as Wk'.
      pose proof (changed_kid _ _ _ i H) as Hc. rewrite E1, E2 in Hc.
      pose proof (clipping_kid _ _ _ i k k' H E1 E2) as Ec. pose proof (seqs_kid _ _ _ i k k' H W W' E1 E2) as Es.
      destruct (lclipping (latt k')) eqn:Ek.
      - intros c. unfold PRender2.kidInv. rewrite Ek. apply hasK_some in Hk. unfold PRender3.someKid in Hk. rewrite <- Ec in Hk.
        apply (absent_fewer _ st st' (lessB _)). intros s. rewrite Es. apply Hk.
      - assert (Ck : child l (i, None) = Some k) by (unfold child; cbn [fst snd]; now rewrite E1).
        assert (Ck' : child l' (i, None) = Some k') by (unfold child; cbn [fst snd]; now rewrite E2).
        pose proof (HD_child _ _ _ _ HH Ck') as HHk.
        pose proof (group_again _ _ _ i k k' H O W W' HH E1 E2 C HG) as G.
        assert (Again : In (lseq (latt k')) D -> allKid k' st').
        { intros Del c. unfold PRender2.kidInv. rewrite Ek. apply (HL _ _ Hc (okChange_child _ _ _ _ _ O Ck Ck') Wk Wk' HHk C Del G).
          apply hasK_some in Hk. unfold PRender3.someKid in Hk. now rewrite <- Ec in Hk. }
        destruct (loud (below (i, None) ps) k') eqn:L; [apply Again; now apply (loud_deleted _ _ HHk)|].
        destruct (existsb (fun j => match nth_error (lgroup k') j with Some c' => loud (below (i, Some j) ps) c' | None => false end) (seq 0 (length (lgroup k')))) eqn:LG.
        + apply existsb_exists in LG. destruct LG as (j & _ & LG). destruct (nth_error (lgroup k') j) as [c'|] eqn:E4; [|discriminate].
          apply Again. exact (member_deleted _ _ i k' j c' HH E2 E4 LG).
        + apply recontext_kid; [exact Wk'|exact C|]. apply hasK_some. revert Hk. apply WK_has. apply (quietB st k _ _ Hc Wk Wk' L).
          apply Forall2_index. intros j. pose proof (changed_member _ _ _ i k k' j H E1 E2) as M.
          destruct (nth_error (lgroup k) j) as [c|] eqn:E3, (nth_error (lgroup k') j) as [c'|] eqn:E4; try exact M.
          pose proof (nth_error_In _ _ E3) as I3. pose proof (nth_error_In _ _ E4) as I4.
          pose proof (lwf_in_group _ _ _ c Wk I3) as Wc. pose proof (lwf_in_group _ _ _ c' Wk' I4) as Wc'.
          pose proof (lwf_group_nil _ _ _ c Wk I3) as N. pose proof (lwf_group_nil _ _ _ c' Wk' I4) as N'. split.
          * apply (seqs_changed c _ _ M Wc Wc'). now rewrite N, N'.
          * apply (quietB st c _ _ M Wc Wc'); [|rewrite N, N'; constructor].
            destruct (loud (below (i, Some j) ps) c') eqn:LL; [|reflexivity]. exfalso. revert LG. apply not_false_iff_true. apply existsb_exists. exists j.
            split; [|now rewrite E4]. apply in_seq. split; [lia|]. apply nth_error_Some. rewrite E4. discriminate.
    Qed.
    Lemma kids_again ps l l' : changed ps l l' -> okChange l l' -> lwf l -> lwf l' -> HD ps l' -> (forall k', In k' (lkids l') -> covered k') ->
      Forall (fun k => loudP k /\ Forall loudP (lgroup k)) (lkids l) -> Forall (hasK st) (lkids l) -> Forall (fun k => allKid k st') (lkids l').
    Proof.
      intros H O W W' HH C HL HK. apply Forall_forall. intros k' I'. apply In_nth_error in I'. destruct I' as [i E2].
      pose proof (changed_kid _ _ _ i H) as X. destruct (nth_error (lkids l) i) as [k|] eqn:E1; [|rewrite E2 in X; destruct X].
      pose proof (nth_error_In _ _ E1) as I1. rewrite Forall_forall in HL, HK. destruct (HL k I1) as [L1 L2].
      exact (kid_again _ _ _ i k k' H O W W' HH E1 E2 (C k' (nth_error_In _ _ E2)) L1 L2 (HK k I1)).
    Qed.
    Lemma quiet_has l l' : Forall2 (WK st) (lkids l) (lkids l') -> Forall (hasK st) (lkids l) -> Forall (hasK st) (lkids l').
    Proof. induction 1 as [|k k' u v K _ IH]; [auto|]. intros F. inversion F; subst. constructor; [eapply WK_has; eassumption|auto]. Qed.

    Lemma loudB' l : loudP l /\ Forall loudP (lgroup l).
    Proof.
      induction l as [a ks cs Hk Hc] using layer_rec'. split; [|cbn [lgroup]; rewrite Forall_forall in *; intros c I; now apply Hc].
      intros ps l' H O W W' HH C Del G HS. destruct HS as [c0 H0]. rewrite inv_eq in H0. destruct H0 as (_ & H2 & H3).
      intros c. rewrite inv_eq. split; [now apply entryOK_deleted with (D := D) (st' := st')|split].
      - pose proof (kidsOK_has st _ _ H2) as HK. destruct (loud (tail ps) l') eqn:L.
        + apply kidsOK_all. apply (kids_again ps (Lay a ks cs) l' H O W W' HH); [|exact Hk|exact HK].
          intros k' I'. exact (covered_sibs _ _ (proj1 (loud_sibs _ _ HH L)) k' I').
        + pose proof (quiet_kidsB st ps (Lay a ks cs) l' H W W' L) as Q. destruct (isPT (latt l')) eqn:EP.
          * apply kidsOK_all. pose proof (quiet_has _ _ Q HK) as HK'. rewrite Forall_forall in *. intros k' I'.
            apply recontext_kid; [exact (lwf_in_kids _ _ _ _ W' I')| |apply hasK_some; auto].
            apply (covered_sibs D l'); [|exact I']. apply covered_PT. now apply (proj1 C).
          * destruct (isPT a) eqn:EP0.
            -- apply kidsOK_all. pose proof (quiet_has _ _ Q HK) as HK'. rewrite Forall_forall in *. intros k' I' y.
               pose proof (O [] _ _ eq_refl eq_refl EP0 EP k' I') as NP. specialize (HK' k' I'). apply hasK_some in HK'.
               unfold PRender3.someKid, PRender2.kidInv in *. destruct (lclipping (latt k')); [revert HK'; apply absent_fewer, lessB|].
               destruct HK' as [c1 HK']. refine (inv_nonPT zero copyT blendOf destInM destOutM destInT destOverT clearT removeAlpha canvas hasCanvas mask _ _ c1 y NP _).
               revert HK'. apply inv_fewer, lessB.
            -- unfold PRender2.inner in *. cbn [latt] in H2. rewrite EP. rewrite EP0 in H2.
               unfold PRender2.kidsOK in *. cbn [latt lkids] in *.
               replace (kidOp (latt l') 0) with (kidOp a 0) by (unfold kidOp, alphaOf; now rewrite EP, EP0).
               replace (startBuf (latt l') zero) with (startBuf a zero) by (unfold SRender.startBuf; now rewrite EP, EP0).
               apply (invKs_W2 st _ _ _ (kidOp_0 a 0) Q) in H2. revert H2. apply invKs_fewer; [apply all_keep|apply lessB].
      - apply groupOK_all. pose proof (groupOK_has st _ _ H3) as HG. cbn [lgroup] in HG, G. clear - G HG.
        revert HG. induction G as [|x y u v E _ IH]; [constructor|]. intros F. inversion F; subst. constructor; auto.
    Qed.
  End effect.

  (** * The whole tree *)
  Lemma batch_root ps root root' st : changed ps root root' -> okChange root root' -> lwf root -> lwf root' -> invRoot root st ->
    invRoot root' (fold_left (fun st p => setDirty canvas hasCanvas false root' p st) ps st).
  Proof.
    intros H O W W' [I1 I2].
    set (D := flat_map (fun p => match layerAt root' p with Some t => if inArea t then fst (dirty false root' p) else [] | None => [] end) ps).
    set (st' := fold_left _ ps st).
    assert (F : forall s, ent st' s = if existsb (Z.eqb s) D then None else ent st s).
    { intros s. unfold st', D. clear. revert st. induction ps as [|p ps IH]; intros st; [reflexivity|]. cbn [fold_left flat_map].
      rewrite IH, existsb_app. unfold setDirty. destruct (layerAt root' p) as [t|]; [|reflexivity].
      destruct (inArea t); [|reflexivity]. cbn [tent]. rewrite m_get_dels. destruct (existsb (Z.eqb s) (fst _)); cbn [orb]; [now destruct (existsb _ _)|reflexivity]. }
    assert (F1 : forall s, ent st' s = ent st s \/ ent st' s = None) by (intros s; rewrite F; destruct (existsb _ _); auto).
    assert (F2 : forall s, In s D -> ent st' s = None) by (intros s Hs; rewrite F; apply existsb_In in Hs; now rewrite Hs).
    assert (HH : HD D ps root').
    { intros p t I E A x Hx. unfold D. apply in_flat_map. exists p. split; [exact I|]. now rewrite E, A. }
    destruct (changed_here _ _ _ H) as [[Es _] _]. unfold PRender2.invRoot. rewrite Es. destruct (loud (tail ps) root') eqn:L.
    - destruct (loud_sibs D ps root' HH L) as [S1 S2]. rewrite Es in S2. split; [now rewrite (F2 _ S2)|]. apply invKs_all.
      apply (kids_again st st' D F1 F2 ps root root' H O W W' HH); [exact (covered_sibs _ _ S1)| |].
      + apply Forall_forall. intros k _. now apply loudB'.
      + eapply invKs_has; [|exact I2]. reflexivity.
    - pose proof (quiet_kidsB st ps root root' H W W' L) as Q. split.
      + destruct (F1 (lseq (latt root))) as [-> | ->]; [|exact I]. rewrite (drawsP_W2 st idOp _ _ eq_refl Q). exact I1.
      + apply (invKs_W2 st idOp _ _ eq_refl Q) in I2. revert I2. apply invKs_fewer; [apply all_keep|]. intros s _. apply F1.
  Qed.
End render.
