(** Proofs about the names and attributes of the layers of the tree that New makes. *)
From Coq Require Import String.
From Verif Require Import Base BaseFacts MRect MConfig MReader MLayer MApi SUtil SUtf16 SCompress SConfig SRecord SLayer XRecord PConfig2 PRecord4
  MBlend MRender MTile STile MLoad SLoad PLoad MPipe MNames SNames PPipe2 PPipe3.
From Verif Require MWait PRecord2.
Close Scope string_scope.
Open Scope list_scope.
Open Scope Z_scope.

Lemma layer_ind2 (P : MLayer.layer -> Prop) : (forall r ls, Forall P ls -> P (MLayer.Layer r ls)) -> forall l, P l.
Proof.
  intros H. fix F 1. intros [r ls]. apply H. induction ls as [|l ls IH]; constructor; [apply F|exact IH].
Qed.

Fixpoint preorder (l : MLayer.layer) : list lrec := match l with MLayer.Layer r ls => r :: flat_map preorder ls end.
Lemma gather_preorder l : l_mbcs (lay_rec l) :: gatherLayerName l = map l_mbcs (preorder l).
Proof.
  induction l as [r ls IH] using layer_ind2. cbn [lay_rec gatherLayerName preorder map]. f_equal.
  induction IH as [|l ls H _ IH]; [reflexivity|]. cbn [flat_map]. rewrite map_app, <- H, IH. reflexivity.
Qed.
Definition needs (r : lrec) : bool := match l_uname r, l_mbcs r with [], _ :: _ => true | _, _ => false end.

Section build.
  Context {Enc : Type}.
  Variable nop : Enc.
  Variable dec : Enc -> bytes -> option bytes.
  Variable f : nat -> bytes -> option Enc.
  Variable img : list MLayer.layer.
  Variable cs : list player.
  Let names := concat (map l_mbcs (flat_map preorder img)).
  Let known (r : lrec) : Prop := nth_error cs (Z.to_nat (l_seq r)) <> None.

  Definition nameBy (e : Enc) (r : lrec) : bytes :=
    if needs r then match dec e (l_mbcs r) with Some n => n | None => l_mbcs r end else l_uname r.
  Definition attrBy (e : Enc) (r : lrec) : option battr :=
    match nth_error cs (Z.to_nat (l_seq r)) with
    | Some c => Some (BA (nameBy e r) (lFolder r) (lFolderIsOpen r) (pmdc c) (buildAttr r c))
    | None => None
    end.
  Inductive builtBy (e : Enc) : MLayer.layer -> btree -> Prop :=
  | builtBy_intro r ls a ts : attrBy e r = Some a -> Forall2 (builtBy e) ls ts -> builtBy e (MLayer.Layer r ls) (BT a ts).

  Definition rectOf (r : lrec) : rect := match nth_error cs (Z.to_nat (l_seq r)) with Some c => prect c | None => ZR end.
  Definition grown (r0 : rect) (rs : list lrec) : rect := fold_left (fun r x => runion r (rectOf x)) rs r0.

  Lemma all_names : img <> [] -> exists n0 ns, flat_map (fun c => l_mbcs (lay_rec c) :: gatherLayerName c) img = n0 :: ns /\ concat (n0 :: ns) = names.
  Proof.
    intros H. assert (E : flat_map (fun c => l_mbcs (lay_rec c) :: gatherLayerName c) img = map l_mbcs (flat_map preorder img)).
    { clear H names. induction img as [|l ls IH]; [reflexivity|]. cbn [flat_map]. rewrite map_app, <- gather_preorder, IH. reflexivity. }
    destruct img as [|l ls]; [congruence|]. exists (l_mbcs (lay_rec l)). eexists. split; [reflexivity|]. unfold names. rewrite <- E. reflexivity.
  Qed.

  Section found.
    Variable e : Enc.
    Hypothesis Hne : img <> [].
    Hypothesis He : f 0%nat names = Some e.

    Definition at_stage (k : bool) (b : @builder Enc) : Prop :=
      b_enc b = (if k then Some e else None) /\ b_calls b = if k then [names] else [].

    Lemma name_step k b r : at_stage k b -> exists b', layerName nop dec (Some f) img r b = Some (b', nameBy e r) /\ at_stage (k || needs r) b' /\ b_rect b' = b_rect b.
    Proof.
      intros [E1 E2]. unfold layerName, nameBy, needs. destruct (l_uname r) as [|u us]; [destruct (l_mbcs r) as [|m ms] eqn:Em|].
      - exists b. rewrite orb_false_r. repeat split; assumption.
      - unfold getLayerNameEncoding. rewrite E1. rewrite orb_true_r. destruct k.
        + exists b. repeat split; assumption.
        + destruct (all_names Hne) as (n0 & ns & -> & En). rewrite En, E2. cbn [length]. rewrite He. eexists. split; [reflexivity|]. repeat split.
      - exists b. rewrite orb_false_r. repeat split; assumption.
    Qed.

    Lemma build_loop ls : Forall (fun l => forall k b, Forall known (preorder l) -> at_stage k b -> exists b' t,
        buildLayer nop dec (Some f) img cs l b = Some (b', t) /\ builtBy e l t /\ at_stage (k || existsb needs (preorder l)) b' /\ b_rect b' = grown (b_rect b) (preorder l)) ls ->
      forall k b, Forall known (flat_map preorder ls) -> at_stage k b -> exists b' ts,
        buildLayers nop dec (Some f) img cs ls b = Some (b', ts) /\ Forall2 (builtBy e) ls ts /\ at_stage (k || existsb needs (flat_map preorder ls)) b' /\ b_rect b' = grown (b_rect b) (flat_map preorder ls).
    Proof.
      induction 1 as [|l ls H _ IH]; intros k b K S.
      { exists b, []. split; [reflexivity|]. split; [constructor|]. cbn [flat_map existsb]. rewrite orb_false_r. auto. }
      cbn [flat_map] in *. apply Forall_app in K. destruct K as [K1 K2].
      destruct (H k b K1 S) as (b1 & t & E1 & B1 & S1 & R1). destruct (IH _ b1 K2 S1) as (b2 & ts & E2 & B2 & S2 & R2).
      exists b2, (t :: ts). cbn [buildLayers]. rewrite E1, E2. split; [reflexivity|]. split; [constructor; assumption|]. split.
      - rewrite existsb_app, orb_assoc. exact S2.
      - unfold grown in *. rewrite R2, R1, fold_left_app. reflexivity.
    Qed.
    Lemma build_one l : forall k b, Forall known (preorder l) -> at_stage k b -> exists b' t,
      buildLayer nop dec (Some f) img cs l b = Some (b', t) /\ builtBy e l t /\ at_stage (k || existsb needs (preorder l)) b' /\ b_rect b' = grown (b_rect b) (preorder l).
    Proof.
      induction l as [r ls IH] using layer_ind2. intros k b K S. cbn [preorder] in *. inversion K as [|? ? K1 K2]. unfold known in K1.
      destruct (name_step k b r S) as (b1 & En & S1 & R1). destruct (nth_error cs (Z.to_nat (l_seq r))) as [c|] eqn:Ec; [|congruence].
      destruct (build_loop ls IH (k || needs r) (Bld (runion (b_rect b1) (prect c)) (b_enc b1) (b_calls b1)) K2 S1) as (b2 & ts & E2 & B2 & S2 & R2).
      cbn [existsb]. exists b2. eexists. split.
      - cbn [buildLayer]. rewrite Ec, En.
        match goal with |- context[?F ls (Bld ?x ?y ?z)] => assert (forall ls b, F ls b = buildLayers nop dec (Some f) img cs ls b) as L end.
        { clear. intros ls. induction ls as [|l ls IH]; intros b; [reflexivity|]. cbn [buildLayers]. destruct (buildLayer nop dec (Some f) img cs l b) as [[b' t]|]; [|reflexivity]. now rewrite IH. }
        rewrite L, E2. reflexivity.
      - split; [constructor; [|exact B2]; unfold attrBy; rewrite Ec; reflexivity|]. rewrite orb_assoc. split; [exact S2|].
        rewrite R2. cbn [b_rect]. rewrite R1. unfold grown. cbn [fold_left]. replace (rectOf r) with (prect c) by (unfold rectOf; now rewrite Ec). reflexivity.
    Qed.
    Lemma build_all ls : Forall known (flat_map preorder ls) -> exists b' ts,
        buildLayers nop dec (Some f) img cs ls (Bld ZR None []) = Some (b', ts) /\ Forall2 (builtBy e) ls ts /\
        b_calls b' = (if existsb needs (flat_map preorder ls) then [names] else []) /\ b_rect b' = grown ZR (flat_map preorder ls).
    Proof.
      intros K. destruct (build_loop ls) with (k := false) (b := Bld (Enc := Enc) ZR None []) as (b' & ts & E & B & [_ S] & R); auto.
      - apply Forall_forall. intros l _. apply build_one.
      - split; reflexivity.
      - exists b', ts. auto.
    Qed.
  End found.

  (** Without a name to decode the detector is not asked, with one it must not return nil. *)
  Section nil.
    Hypothesis Hne : img <> [].
    Definition fresh (b : @builder Enc) : Prop := b_enc b = None /\ b_calls b = [].

    (** What happens with a layer: nothing is asked, or there is a panic. *)
    Definition quiet_or_nil {T} (B : T -> Enc -> Prop) (n : bool) (r : rect) (o : option (@builder Enc * T)) : Prop :=
      if n then f 0%nat names = None -> o = None
      else exists b' t, o = Some (b', t) /\ (forall e, B t e) /\ fresh b' /\ b_rect b' = r.

    Lemma name_quiet b r : fresh b -> quiet_or_nil (fun n e => n = nameBy e r) (needs r) (b_rect b) (layerName nop dec (Some f) img r b).
    Proof.
      intros [E1 E2]. unfold layerName, nameBy, needs. destruct (l_uname r) as [|u us]; [destruct (l_mbcs r) as [|m ms] eqn:Em|].
      - exists b, []. repeat split; assumption.
      - intros He. unfold getLayerNameEncoding. rewrite E1. destruct (all_names Hne) as (n0 & ns & -> & En). rewrite En, E2. cbn [length]. rewrite He. reflexivity.
      - exists b, (u :: us). repeat split; assumption.
    Qed.
    Lemma quiet_loop ls : Forall (fun l => forall b, Forall known (preorder l) -> fresh b ->
        quiet_or_nil (fun t e => builtBy e l t) (existsb needs (preorder l)) (grown (b_rect b) (preorder l)) (buildLayer nop dec (Some f) img cs l b)) ls ->
      forall b, Forall known (flat_map preorder ls) -> fresh b ->
        quiet_or_nil (fun ts e => Forall2 (builtBy e) ls ts) (existsb needs (flat_map preorder ls)) (grown (b_rect b) (flat_map preorder ls)) (buildLayers nop dec (Some f) img cs ls b).
    Proof.
      induction 1 as [|l ls H _ IH]; intros b K S.
      { exists b, []. repeat split; try apply S; constructor. }
      cbn [flat_map] in *. apply Forall_app in K. destruct K as [K1 K2]. specialize (H b K1 S). cbn [buildLayers]. rewrite existsb_app.
      destruct (existsb needs (preorder l)) eqn:N1.
      - intros He. cbn [orb]. rewrite (H He). reflexivity.
      - destruct H as (b1 & t & E1 & B1 & S1 & R1). rewrite E1. cbn [orb]. specialize (IH b1 K2 S1). destruct (existsb needs (flat_map preorder ls)).
        + intros He. rewrite (IH He). reflexivity.
        + destruct IH as (b2 & ts & E2 & B2 & S2 & R2). rewrite E2. exists b2, (t :: ts). split; [reflexivity|]. split; [intros e; constructor; auto|].
          split; [exact S2|]. unfold grown in *. rewrite R2, R1, fold_left_app. reflexivity.
    Qed.
    Lemma quiet_one l : forall b, Forall known (preorder l) -> fresh b ->
      quiet_or_nil (fun t e => builtBy e l t) (existsb needs (preorder l)) (grown (b_rect b) (preorder l)) (buildLayer nop dec (Some f) img cs l b).
    Proof.
      induction l as [r ls IH] using layer_ind2. intros b K S. cbn [preorder] in *. inversion K as [|? ? K1 K2]. unfold known in K1.
      pose proof (name_quiet b r S) as NQ. destruct (nth_error cs (Z.to_nat (l_seq r))) as [c|] eqn:Ec; [|congruence].
      cbn [buildLayer existsb]. rewrite Ec. destruct (needs r) eqn:N1.
      - intros He. rewrite (NQ He). reflexivity.
      - destruct NQ as (b1 & n & E1 & B1 & S1 & R1). rewrite E1. cbn [orb].
        pose proof (quiet_loop ls IH (Bld (runion (b_rect b1) (prect c)) (b_enc b1) (b_calls b1)) K2 S1) as Q.
        match goal with |- context[?F ls (Bld ?x ?y ?z)] => assert (forall ls b, F ls b = buildLayers nop dec (Some f) img cs ls b) as L end.
        { clear. intros ls. induction ls as [|l ls IH]; intros b; [reflexivity|]. cbn [buildLayers]. destruct (buildLayer nop dec (Some f) img cs l b) as [[b' t]|]; [|reflexivity]. now rewrite IH. }
        rewrite L. destruct (existsb needs (flat_map preorder ls)).
        + intros He. rewrite (Q He). reflexivity.
        + destruct Q as (b2 & ts & E2 & B2 & S2 & R2). rewrite E2. eexists b2, _. split; [reflexivity|]. split.
          * intros e. constructor; [|apply B2]. unfold attrBy. rewrite Ec, <- (B1 e). reflexivity.
          * split; [exact S2|]. rewrite R2. cbn [b_rect]. rewrite R1. unfold grown. cbn [fold_left]. replace (rectOf r) with (prect c) by (unfold rectOf; now rewrite Ec). reflexivity.
    Qed.
    Lemma quiet_all ls : Forall known (flat_map preorder ls) ->
      quiet_or_nil (fun ts e => Forall2 (builtBy e) ls ts) (existsb needs (flat_map preorder ls)) (grown ZR (flat_map preorder ls)) (buildLayers nop dec (Some f) img cs ls (Bld ZR None [])).
    Proof.
      intros K. apply (quiet_loop ls) with (b := Bld (Enc := Enc) ZR None []); auto; [|split; reflexivity].
      apply Forall_forall. intros l _. apply quiet_one.
    Qed.
  End nil.
End build.

Scheme tree_is_mut := Minimality for tree_is Sort Prop with trees_are_mut := Minimality for trees_are Sort Prop.
Combined Scheme trees_are_both from tree_is_mut, trees_are_mut.

Lemma land2 f : (Z.land f 2 =? 0) = true <-> f / 2 mod 2 = 0.
Proof.
  assert (E : f / 2 mod 2 = if Z.testbit f 1 then 1 else 0).
  { rewrite <- Z.bit0_mod. change 2 with (2 ^ 1) at 1. rewrite Z.div_pow2_bits by lia. destruct (Z.testbit f (0 + 1)) eqn:T; change (0 + 1) with 1 in T; rewrite T; reflexivity. }
  assert (H : Z.land f 2 = if Z.testbit f 1 then 2 else 0).
  { apply Z.bits_inj'. intros k Hk. rewrite Z.land_spec. destruct (Z.eq_dec k 1) as [->|N].
    - destruct (Z.testbit f 1); reflexivity.
    - assert (T : Z.testbit 2 k = false). { change 2 with (2 ^ 1). apply Z.pow2_bits_false. lia. }
      rewrite T, andb_false_r. destruct (Z.testbit f 1); [symmetry; exact T|symmetry; apply Z.bits_0]. }
  rewrite E, H. destruct (Z.testbit f 1); cbn; split; intros X; congruence || lia.
Qed.

Definition windowed (flat : list slayer) (i : nat) (part : list slayer) : Prop := forall j sl, nth_error part j = Some sl -> nth_error flat (i + j) = Some sl.
Lemma windowed_app flat i a b : windowed flat i (a ++ b) -> windowed flat i a /\ windowed flat (i + length a) b.
Proof.
  intros W. split; intros j sl E.
  - apply W. rewrite nth_error_app1; [exact E|]. apply nth_error_Some. congruence.
  - replace (i + length a + j)%nat with (i + (length a + j))%nat by lia. apply W. rewrite nth_error_app2 by lia. now replace (length a + j - length a)%nat with j by lia.
Qed.

Section file.
  Context {Enc : Type}.
  Variable nop : Enc.
  Variable dec : Enc -> bytes -> option bytes.
  Variables (inflate : bytes -> Z -> option (bytes * Z)) (large : bool) (depth nch : Z) (cpus : nat) (ts : Z).
  Hypotheses (Hc : (1 <= cpus)%nat) (Ht : 0 < ts).
  Variables (flat : list slayer) (full : list lrec) (st : loader).
  Hypothesis Lf : layers_are false 3 depth nch 0 flat full.
  Hypothesis Hv : Forall (slayer_valid inflate large depth nch) flat.
  Hypothesis Hs : MWait.steps (lstep cpus ts) (lstart (map playerOf full)) st.
  Hypothesis He : lended st.
  Notation cs := (ldCopied st).

  Lemma copy_at i sl : nth_error flat i = Some sl -> exists c, nth_error cs i = Some c /\ pseq c = Z.of_nat i /\
    pmdc c = mk_color (mask_of (sl_mask sl)) /\
    (maskEnabled c = true -> mk_flags (mask_of (sl_mask sl)) / 2 mod 2 = 0 /\ rempty (mk_rect (mask_of (sl_mask sl))) = false).
  Proof.
    intros E. destruct (layers_are_nth _ _ _ _ _ _ _ _ _ Lf E) as (l & El & L). rewrite Z.add_0_l in L.
    assert (Ep : nth_error (map playerOf full) i = Some (playerOf l)) by (now apply map_nth_error).
    pose proof (proj1 L) as A. destruct A as (A1 & _ & _ & _ & _ & _ & A7 & _).
    assert (Nd : NoDup (map pseq (map playerOf full))).
    { rewrite map_map. change (fun l => pseq (playerOf l)) with l_seq. exact (proj1 (layers_are_seqs _ _ _ _ _ _ _ Lf)). }
    destruct (inv_end cpus ts _ Nd st Hs He) as (A & _). destruct (A i _ Ep) as (l2 & c & m & G & (l1 & C & M)).
    destruct (copies cpus ts _ st Hc Ht Nd Hs He) as (_ & B). destruct (B i _ Ep) as (l' & c' & m' & E' & S' & G' & _ & R').
    rewrite G in G'. injection G' as <- <-. exists l'. split; [exact E'|]. unfold sameButRects in S'.
    assert (pseq l' = l_seq l /\ pmdc l' = mk_color (l_mask l) /\ pflags l' = mk_flags (l_mask l)) as (P1 & P2 & P3).
    { rewrite S'. repeat split; reflexivity. }
    split; [congruence|]. split; [congruence|]. unfold maskEnabled. rewrite P3, A7. intros X. apply andb_prop in X. destruct X as [X1 X2].
    apply land2 in X1. split; [exact X1|]. destruct R' as [R|(t & -> & _)].
    - cbn [playerOf pmrect] in R. rewrite R, A7 in X2. now apply negb_true_iff in X2.
    - rewrite (canvasOf_same _ _ _ _ _ C) in M. unfold maskOf in M. cbn [setRect playerOf pmrect] in M. rewrite A7 in M.
      destruct (rempty (mk_rect (mask_of (sl_mask sl)))); [|reflexivity]. cbn [negb] in M. destruct M. discriminate.
  Qed.

  Lemma uname_is i sl l : attributes_are i sl l -> slayer_valid inflate large depth nch sl -> l_mbcs l = sl_name sl /\ unicode_name sl (l_uname l).
  Proof.
    intros (_ & _ & _ & _ & _ & _ & _ & A & B & _) V. split; [exact A|]. unfold unicode_name.
    destruct (last_info (sl_info sl) (ascii "luni")) as [[|x d]|] eqn:L; [exact (proj2 B)| |exact (proj2 B)].
    unfold slayer_valid in V. rewrite L in V. assert (exists rs, luni_is (x :: d) rs) as [rs R] by (decompose [and] V; assumption).
    exists rs. split; [exact R|]. exact (proj2 (B rs R)).
  Qed.
  Lemma type_of i sl l t : attributes_are i sl l -> has_type sl t -> l_sdtype l = t /\ type_is sl t (l_sdblend l).
  Proof.
    intros (_ & _ & _ & _ & _ & _ & _ & _ & _ & _ & B & _) H. unfold has_type, type_is in *. destruct (divider_info (sl_info sl)) as [d|].
    - destruct H as (bm & sub & H). destruct (B _ _ _ H) as (B1 & B2 & _). split; [exact B1|]. exists bm, sub. split; [exact H|exact B2].
    - destruct B as (B1 & B2 & _). subst t. auto.
  Qed.
  Lemma uname_only i sl l u : attributes_are i sl l -> unicode_name sl u -> u = l_uname l.
  Proof.
    intros (_ & _ & _ & _ & _ & _ & _ & _ & B & _) U. unfold unicode_name in U. destruct (last_info (sl_info sl) (ascii "luni")) as [[|x d]|].
    - destruct B. congruence.
    - destruct U as (rs & R & ->). symmetry. exact (proj2 (B rs R)).
    - destruct B. congruence.
  Qed.
  Lemma needs_iff i sl l : attributes_are i sl l -> slayer_valid inflate large depth nch sl -> (needs l = true <-> legacy_only sl).
  Proof.
    intros A V. destruct (uname_is i sl l A V) as [E U]. assert (needs l = true <-> l_uname l = [] /\ sl_name sl <> []) as ->.
    { unfold needs. rewrite E. destruct (l_uname l), (sl_name sl); split; intros H; try discriminate; try (now destruct H); try (now split; congruence). }
    unfold legacy_only. split; intros [H1 H2]; (split; [|exact H2]).
    - now rewrite H1 in U.
    - symmetry. exact (uname_only i sl l [] A H1).
  Qed.

  Lemma presented_at e i sl l t a : nth_error flat i = Some sl -> attributes_are (Z.of_nat i) sl l -> has_type sl t ->
    attrBy dec cs e l = Some a -> presented (dec e) (Z.of_nat i) sl ((t =? 1) || (t =? 2)) a.
  Proof.
    intros E A T B. assert (V : slayer_valid inflate large depth nch sl). { rewrite Forall_forall in Hv. apply Hv. now apply nth_error_In in E. }
    destruct (copy_at i sl E) as (c & Ec & C1 & C2 & C3). destruct (uname_is _ _ _ A V) as [Nm Nu]. destruct (type_of _ _ _ _ A T) as [T1 T2].
    unfold attrBy in B. assert (Es : Z.to_nat (l_seq l) = i). { destruct A as (-> & _). lia. } rewrite Es, Ec in B. injection B as <-.
    unfold presented. cbn [ba_name ba_folder ba_open ba_mask ba_attr buildAttr attrsOf lseq lopa lclipping lbce lvis lmdc lmen lbm].
    destruct A as (_ & _ & A3 & A4 & A5 & A6 & _ & _ & _ & A10 & _).
    split.
    { exists (l_uname l). split; [exact Nu|]. unfold nameBy, needs. rewrite Nm. destruct (l_uname l) as [|u us].
      - destruct (sl_name sl) as [|n ns]; [right; left; auto|]. right; right. destruct (dec e (n :: ns)) eqn:D; [left|right]; repeat split; congruence.
      - left. split; [discriminate|reflexivity]. }
    split; [exact C1|]. split; [exact A4|]. split; [exact A5|]. split; [exact A10|].
    split; [unfold lVisible; rewrite A6; apply land2|].
    unfold lFolder, lFolderIsOpen. rewrite T1. split; [reflexivity|]. split; [exact C2|]. split; [reflexivity|]. split; [exact C3|].
    exists t, (l_sdblend l). split; [exact T2|]. split; [apply Z.eqb_eq|]. unfold blendModeOf, lFolder. rewrite T1, A3. split.
    - intros ->. reflexivity.
    - intros ->. change passThrough with (ascii "pass"). change (str "norm"%string) with (ascii "norm"). split.
      + intros ->. reflexivity.
      + intros Np. destruct (list_eqb (sl_blend sl) (ascii "pass")) eqn:Eb; [|reflexivity]. exfalso. apply Np. now apply list_eqb_eq.
  Qed.

  (** Everything about the tree at once: its layers are known, the presentation, the names
      in order, and whether a name is to be decoded. *)
  Definition tree_facts (iz : Z) (s : stree) (l : MLayer.layer) : Prop := forall i, iz = Z.of_nat i -> stree_valid s -> windowed flat i (sflatten s) ->
    Forall (fun r => nth_error cs (Z.to_nat (l_seq r)) <> None) (preorder l) /\
    map l_mbcs (preorder l) = legacy_names s /\
    (existsb needs (preorder l) = true <-> exists sl, in_tree sl s /\ legacy_only sl) /\
    forall e t, builtBy dec cs e l t -> presents (dec e) iz s t.
  Definition trees_facts (iz : Z) (ss : list stree) (ls : list MLayer.layer) : Prop := forall i, iz = Z.of_nat i -> Forall stree_valid ss -> windowed flat i (flat_map sflatten ss) ->
    Forall (fun r => nth_error cs (Z.to_nat (l_seq r)) <> None) (flat_map preorder ls) /\
    map l_mbcs (flat_map preorder ls) = flat_map legacy_names ss /\
    (existsb needs (flat_map preorder ls) = true <-> exists s sl, In s ss /\ in_tree sl s /\ legacy_only sl) /\
    forall e bs, Forall2 (builtBy dec cs e) ls bs -> presents_all (dec e) iz ss bs.

  Lemma in_leaf_inv sl s : in_tree sl (SLeaf s) -> sl = s.
  Proof. inversion 1. reflexivity. Qed.
  Lemma in_folder_inv sl d f c : in_tree sl (SFolder d f c) -> sl = f \/ exists t, In t c /\ in_tree sl t.
  Proof. inversion 1; eauto. Qed.

  Lemma facts : (forall i s l, tree_is false 3 depth nch i s l -> tree_facts i s l) /\ (forall i ss ls, trees_are false 3 depth nch i ss ls -> trees_facts i ss ls).
  Proof.
    assert (known : forall i sl, nth_error flat i = Some sl -> forall l, attributes_are (Z.of_nat i) sl l -> nth_error cs (Z.to_nat (l_seq l)) <> None).
    { intros i sl E l (-> & _). destruct (copy_at i sl E) as (c & Ec & _). rewrite Nat2Z.id. congruence. }
    assert (valid : forall i sl, nth_error flat i = Some sl -> slayer_valid inflate large depth nch sl).
    { intros i sl E. rewrite Forall_forall in Hv. apply Hv. now apply nth_error_In in E. }
    apply trees_are_both.
    - intros iz sl l [A _] i -> V W. specialize (W 0%nat sl eq_refl). rewrite Nat.add_0_r in W. cbn [preorder flat_map map legacy_names existsb].
      split; [constructor; [exact (known _ _ W _ A)|constructor]|]. destruct (uname_is _ _ _ A (valid _ _ W)) as [En _]. split; [now rewrite En|]. split.
      + rewrite orb_false_r, (needs_iff _ _ _ A (valid _ _ W)). split; [intros H; exists sl; split; [constructor|exact H]|]. intros (sl' & I & H). apply in_leaf_inv in I. now subst.
      + intros e t B. inversion B as [r ls a ts' Ea F]; subst. inversion F; subst. constructor. inversion V as [? ty Ty N1 N2 N3|]; subst.
        pose proof (presented_at e i sl l ty a W A Ty Ea) as P. now replace ((ty =? 1) || (ty =? 2)) with false in P by lia.
    - intros iz d f c l ls TA IH [A _] i -> V W. inversion V as [|? ? ? ty Td Tf Hty Vc]; subst. cbn [sflatten] in W.
      assert (Wc : windowed flat (S i) (flat_map sflatten c) /\ nth_error flat (S i + length (flat_map sflatten c)) = Some f).
      { change (d :: flat_map sflatten c ++ [f]) with ([d] ++ (flat_map sflatten c ++ [f])) in W. apply windowed_app in W. destruct W as [_ W].
        cbn [length] in W. apply windowed_app in W. destruct W as [W W3]. split; [now replace (S i) with (i + 1)%nat by lia|].
        specialize (W3 0%nat f eq_refl). replace (S i + length (flat_map sflatten c))%nat with (i + 1 + length (flat_map sflatten c) + 0)%nat by lia. exact W3. }
      destruct Wc as [Wc Ef]. assert (Ei : Z.of_nat i + 1 = Z.of_nat (S i)) by lia. destruct (IH (S i) Ei Vc Wc) as (K & Nm & Nd & P).
      assert (Ez : Z.of_nat i + 1 + zlen (flat_map sflatten c) = Z.of_nat (S i + length (flat_map sflatten c))) by (unfold zlen; lia). rewrite Ez in A.
      cbn [preorder map legacy_names existsb]. split; [constructor; [exact (known _ _ Ef _ A)|exact K]|].
      destruct (uname_is _ _ _ A (valid _ _ Ef)) as [En _]. split; [now rewrite En, Nm|]. split.
      + rewrite orb_true_iff, Nd, (needs_iff _ _ _ A (valid _ _ Ef)). split.
        * intros [H|(s & sl & H1 & H2 & H3)]; [exists f; split; [constructor|exact H]|]. exists sl. split; [econstructor; eauto|exact H3].
        * intros (sl & I & H). apply in_folder_inv in I. destruct I as [->|(t & I1 & I2)]; [now left|right; eauto].
      + intros e t B. inversion B as [r ls' a ts' Ea F]; subst. constructor.
        * rewrite Ez. pose proof (presented_at e _ f l ty a Ef A Tf Ea) as Q. now replace ((ty =? 1) || (ty =? 2)) with true in Q by lia.
        * exact (P e ts' F).
    - intros iz i -> V W. cbn [flat_map map existsb]. split; [constructor|]. split; [reflexivity|]. split; [split; [discriminate|intros (? & ? & [] & _)]|].
      intros e bs F. inversion F. constructor.
    - intros iz t ss l ls _ IH1 _ IH2 i -> V W. inversion V as [|? ? V1 V2]; subst. cbn [flat_map] in *. apply windowed_app in W. destruct W as [W1 W2].
      destruct (IH1 i eq_refl V1 W1) as (K1 & N1 & D1 & P1). assert (Ei : Z.of_nat i + zlen (sflatten t) = Z.of_nat (i + length (sflatten t))) by (unfold zlen; lia).
      destruct (IH2 _ Ei V2 W2) as (K2 & N2 & D2 & P2). split; [apply Forall_app; auto|]. split; [rewrite map_app; congruence|]. split.
      + rewrite existsb_app, orb_true_iff, D1, D2. split.
        * intros [(sl & I & H)|(s & sl & I & H)]; [exists t, sl; split; [now left|auto]|exists s, sl; split; [now right|auto]].
        * intros (s & sl & [<-|I] & H); [left; eauto|right; eauto].
      + intros e bs F. inversion F as [|? b ? bs' F1 F2]; subst. constructor; [now apply P1|now apply P2].
  Qed.
End file.

Section whole.
  Variables (inflate : bytes -> Z -> option (bytes * Z)).
  Lemma file_named kind procs h rsv cmd res neg pl sf pad gmask bs tail rest cpus ts : (1 <= procs)%nat -> (1 <= cpus)%nat -> 0 < ts ->
    header_valid h -> h_mode h = 3 -> mode_depth_ok 3 (h_depth h) -> zlen rsv = 6 -> zlen cmd < 4294967296 ->
    Forall rblock_valid res -> zlen (enc_rblocks res) < 4294967296 ->
    let large := h_version h =? 2 in
    section_valid inflate large neg (h_depth h) 3 pl (flat_map sflatten sf) pad gmask bs tail -> Forall stree_valid sf ->
    let enc := enc_config h rsv cmd res ++ enc_section large neg pl (flat_map sflatten sf) pad gmask bs tail in
    exists f evs, Decode inflate kind procs newOptions (enc ++ rest) = (Ok (f, zlen enc, rest), evs) /\
      forall st, MWait.steps (lstep cpus ts) (lstart (map (fun e => playerOf (ev_layer e)) evs)) st -> lended st ->
      forall (Enc : Type) (nop : Enc) dec d canvas,
      let names := concat (flat_map legacy_names sf) in
      let needed := exists s sl, In s sf /\ in_tree sl s /\ legacy_only sl in
      let built := newLayers nop dec (defaultDetector nop d) (f_layer f) (ldCopied st) canvas in
      (forall e, used_encoding nop d names e -> exists bts r calls, built = Some (bts, r, calls) /\ presents_all (dec e) 0 sf bts /\
         (needed -> calls = [names]) /\ (~ needed -> calls = [])) /\
      (~ needed -> exists bts r, built = Some (bts, r, []) /\ forall e, presents_all (dec e) 0 sf bts) /\
      (forall f, d = Some f -> f 0%nat names = None -> needed -> built = None).
  Proof.
    intros Hpr Hc Ht Hh Hm Hd Hr Hcm Hres Hrl large Hs HV enc.
    destruct (decode_layers inflate kind procs newOptions h rsv cmd res 3 neg pl sf pad gmask bs tail rest Hpr Hh Hr Hcm Hres Hrl) as (f & evs & ED & _ & ET & _ & _ & _ & _ & full & Ee & Lf).
    - now rewrite Hm.
    - rewrite Hm. reflexivity.
    - reflexivity.
    - cbn [newOptions o_config_loaded config_of cfg_mode]. rewrite Hm. reflexivity.
    - exact Hs.
    - exact HV.
    - exists f, evs. split; [exact ED|]. rewrite Hm in *.
      assert (Eev : map (fun e => playerOf (ev_layer e)) evs = map playerOf full).
      { rewrite Ee. unfold section_events. cbn [newOptions o_skip_layer]. rewrite <- (map_map ev_layer playerOf). now rewrite events_layers. }
      rewrite Eev. intros st Hst Hend Enc nop dec d canvas names needed built.
      pose proof (proj2 (facts nop dec inflate large (h_depth h) 3 cpus ts Hc Ht _ full st Lf (proj1 Hs) Hst Hend) 0 sf (f_layer f) ET 0%nat eq_refl HV (fun j sl E => E)) as (K & Nm & Nd & P).
      assert (Dd : exists g, defaultDetector nop d = Some g /\ (forall e, used_encoding nop d names e -> g 0%nat names = Some e) /\ forall f0, d = Some f0 -> g = f0).
      { destruct d as [g|].
        - exists g. split; [reflexivity|]. split; [auto|]. now intros f0 [= ->].
        - exists (fun _ _ => Some nop). split; [reflexivity|]. split; [intros e ->; reflexivity|discriminate]. }
      destruct Dd as (g & Dg & Ug & Fg). unfold built, newLayers. rewrite Dg.
      assert (Cases : (f_layer f = [] /\ sf = []) \/ f_layer f <> []).
      { inversion ET; subst; [left; auto|right; discriminate]. }
      destruct Cases as [[E1 E2]|Hne].
      { rewrite E1. subst sf. cbn [buildLayers b_rect b_calls].
        assert (Nn : ~ needed) by (intros (? & ? & [] & _)). split; [|split].
        - intros e U. eexists [], _, []. split; [reflexivity|]. split; [constructor|]. split; [intros X; now destruct Nn|auto].
        - intros _. eexists [], _. split; [reflexivity|]. intros. constructor.
        - intros _ _ _ X. now destruct Nn. }
      assert (Ens : concat (map l_mbcs (flat_map preorder (f_layer f))) = names) by (now rewrite Nm).
      split; [|split].
      + intros e U. destruct (build_all nop dec g (f_layer f) (ldCopied st) e Hne) with (ls := f_layer f) as (b' & bts & E & B & C & R).
        * rewrite Ens. now apply Ug.
        * exact K.
        * rewrite E. eexists bts, _, (b_calls b'). split; [reflexivity|]. split; [exact (P e bts B)|]. rewrite C, Ens. split; intros X.
          -- now rewrite (proj2 Nd X).
          -- destruct (existsb needs _) eqn:Ex; [|reflexivity]. exfalso. apply X. now apply Nd.
      + intros X. pose proof (quiet_all nop dec g (f_layer f) (ldCopied st) Hne (f_layer f) K) as Q.
        destruct (existsb needs _) eqn:Ex; [exfalso; apply X; now apply Nd|]. destruct Q as (b' & bts & E & B & [_ C] & _). rewrite E.
        eexists bts, _. rewrite C. split; [reflexivity|]. intros e. apply P. apply B.
      + intros f0 -> Fn X. specialize (Fg f0 eq_refl). subst f0. pose proof (quiet_all nop dec g (f_layer f) (ldCopied st) Hne (f_layer f) K) as Q.
        rewrite (proj2 Nd X) in Q. rewrite Q; [reflexivity|]. now rewrite Ens.
  Qed.
End whole.

Lemma shown_name_only decode sl n n' : shown_name decode sl n -> shown_name decode sl n' -> n = n'.
Proof.
  intros (u & U & S) (u' & U' & S'). assert (u' = u) as ->.
  { unfold unicode_name in U, U'. destruct (last_info (sl_info sl) (ascii "luni")) as [[|x d]|]; try congruence.
    destruct U as (rs & R & ->), U' as (rs' & R' & ->). apply PRecord2.luni_spec in R, R'. congruence. }
  intuition congruence.
Qed.
