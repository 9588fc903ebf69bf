(** The tree of a file with plain layers, and what the renderer shows. *)
From Coq Require Import String.
From Verif Require Import Base BaseFacts SConfig MRect MPicker MConfig MReader MLayer MApi SCompress SRecord SLayer PConfig2 PRecord4
  MSched PSched MBlend MPorter SBlend MWait PWait MRender SRender PRender PRender2 MRenderAll SRenderAll PRenderAll MRenderPx PRenderPx
  MDraw MTile STile PTile MLoad SLoad PLoad STileRender PTileRender MPipe SPipe PPipe PPipe2.
Close Scope string_scope.
Open Scope Z_scope.

Section tree.
  Variables (inflate : bytes -> Z -> option (bytes * Z)) (large : bool) (cpus : nat) (ts : Z).
  Hypotheses (Hc : (1 <= cpus)%nat) (Ht : 0 < ts).
  Variables (flat : list slayer) (full : list lrec) (st : loader).
  Hypothesis Lf : layers_are false 3 8 3 0 flat full.
  Hypothesis Hv : Forall (slayer_valid inflate large 8 3) flat.
  Hypothesis Hs : MWait.steps (lstep cpus ts) (lstart (map playerOf full)) st.
  Hypothesis He : lended st.
  Hypothesis Hcl : forall sl, In sl flat -> picture_ok sl \/ exists t, has_type sl t /\ t <> 0.

  Lemma seqs_nodup : NoDup (map pseq (map playerOf full)).
  Proof. rewrite map_map. change (fun l => pseq (playerOf l)) with l_seq. exact (proj1 (layers_are_seqs _ _ _ _ _ _ _ Lf)). Qed.

  Lemma rec_at i sl : nth_error flat i = Some sl -> exists l c m l1 l2 l',
    layer_is false 3 8 3 (Z.of_nat i) sl l /\ m_get Z.eqb (ldImages st) (Z.of_nat i) = Some (LI c m) /\
    canvasOf cpus ts (playerOf l) l1 c /\ maskOf cpus ts l1 l2 m /\
    nth_error (ldCopied st) i = Some l' /\ sameButRects (playerOf l) l' /\ (pmrect l' = mk_rect (l_mask l) \/ exists t, m = Some t /\ bounds ts t (pmrect l')).
  Proof.
    intros E. destruct (layers_are_nth _ _ _ _ _ _ _ _ _ Lf E) as (l & El & L). rewrite Z.add_0_l in L.
    assert (Ep : nth_error (map playerOf full) i = Some (playerOf l)) by (now apply map_nth_error).
    assert (Eq : pseq (playerOf l) = Z.of_nat i) by (exact (proj1 (proj1 L))).
    destruct (inv_end cpus ts _ seqs_nodup st Hs He) as (A & _). destruct (A i _ Ep) as (l2 & c & m & G & (l1 & C & M)).
    destruct (copies cpus ts _ st Hc Ht seqs_nodup Hs He) as (_ & B). destruct (B i _ Ep) as (l' & c' & m' & E' & S' & G' & _ & R').
    rewrite G in G'. injection G' as <- <-. rewrite Eq in G. exists l, c, m, l1, l2, l'. repeat (split; [assumption|]).
    exact R'.
  Qed.
  (** Layers without an image have no canvas *)
  Lemma no_canvas i sl t : nth_error flat i = Some sl -> has_type sl t -> t <> 0 ->
    exists m, m_get Z.eqb (ldImages st) (Z.of_nat i) = Some (LI None m).
  Proof.
    intros E T N. destruct (rec_at i sl E) as (l & c & m & l1 & l2 & l' & L & G & C & _). pose proof (has_type_is _ _ _ _ (proj1 L) T) as Et.
    unfold canvasOf, hasImage in C. cbn [playerOf ptype] in C. rewrite Et in C. replace (t =? 0) with false in C by lia. destruct C as [-> _]. eauto.
  Qed.
  (** A layer without a mask *)
  Lemma attr_at i sl : nth_error flat i = Some sl -> plain sl -> exists l c l', layer_is false 3 8 3 (Z.of_nat i) sl l /\ m_get Z.eqb (ldImages st) (Z.of_nat i) = Some c /\
    nth_error (ldCopied st) i = Some l' /\ pseq l' = Z.of_nat i /\ maskEnabled l' = false.
  Proof.
    intros E (_ & P & _). destruct (rec_at i sl E) as (l & c & m & l1 & l2 & l' & L & G & C & M & E' & S' & R'). exists l, (LI c m), l'.
    split; [exact L|]. split; [exact G|]. split; [exact E'|]. pose proof (proj1 L) as A. destruct A as (A1 & _ & _ & _ & _ & _ & A2 & _).
    split; [rewrite S'; exact A1|]. unfold maskEnabled.
    assert (Z0 : pmrect l' = ZR).
    { rewrite P in A2. cbn [mask_of] in A2. destruct R' as [->|(t & -> & _)]; [rewrite A2; reflexivity|]. exfalso.
      apply canvasOf_same in C. unfold maskOf in M. rewrite C in M. cbn [setRect pmrect playerOf] in M. rewrite A2 in M.
      cbn [mask0 mk_rect] in M. change (negb (rempty ZR)) with false in M. now destruct M. }
    rewrite Z0. change (negb (rempty ZR)) with false. apply andb_false_r.
  Qed.

  Lemma canvas_good q s t : canvasTile (ldImages st) q s = Some t -> exists f, holds (Z.to_nat (ts * ts)) t f.
  Proof.
    unfold canvasTile. destruct (m_get Z.eqb (ldImages st) s) as [[[m|] k]|] eqn:G; try discriminate. intros E.
    destruct (inv_end cpus ts _ seqs_nodup st Hs He) as (_ & B & _). destruct (B _ _ G) as (i & l0 & Ei & Es).
    assert (Hi : (i < length flat)%nat).
    { rewrite <- (layers_are_length _ _ _ _ _ _ _ Lf). rewrite <- (map_length playerOf). apply nth_error_Some. congruence. }
    destruct (nth_error flat i) as [sl|] eqn:Ef; [|apply nth_error_None in Ef; lia].
    destruct (rec_at i sl Ef) as (l & c & m' & l1 & l2 & l' & L & G' & C & _).
    assert (s = Z.of_nat i) as ->.
    { destruct (layers_are_nth _ _ _ _ _ _ _ _ _ Lf Ef) as (l3 & E3 & L3). rewrite (map_nth_error playerOf i full E3) in Ei. injection Ei as <-.
      rewrite <- Es. exact (proj1 (proj1 L3)). }
    rewrite G in G'. injection G' as <- <-. destruct (Hcl sl (nth_error_In _ _ Ef)) as [Pl|(ty & T & N)].
    - destruct (leaf_tiles inflate cpus ts Hc Ht _ _ _ _ _ Pl L C) as [Al Ok]. apply Pc_holds; [exact Ht|apply (Al q t E)|]. intros v. apply (Ok q t v E).
    - destruct (no_canvas i sl ty Ef T N) as (m2 & G2). congruence.
  Qed.

  (** ** The tree *)
  Notation cs := (ldCopied st).
  Notation ims := (ldImages st).
  Notation plainQ q := (plainL (canvasTile ims q)).
  Definition pos (q p : point) : nat := Z.to_nat ((py p - py q) * ts + (MRect.px p - MRect.px q)).
  Definition at_tile (q p : point) : Prop := (ts | MRect.px q) /\ (ts | py q) /\ in_tile ts q p /\ 0 <= MRect.px p /\ 0 <= py p.
  Definition window (i : nat) (part : list slayer) : Prop := forall j sl, nth_error part j = Some sl -> nth_error flat (i + j) = Some sl.
  Lemma window_app i a b : window i (a ++ b) -> window i a /\ window (i + length a) b.
  Proof.
    intros W. split; intros j sl E.
    - apply W. rewrite nth_error_app1; [exact E|]. apply nth_error_Some. congruence.
    - replace (i + length a + j)%nat with (i + (length a + j))%nat by lia. apply W. rewrite nth_error_app2 by lia. now replace (length a + j - length a)%nat with j by lia.
  Qed.

  Lemma cell_canvas q p i c m : m_get Z.eqb ims (Z.of_nat i) = Some (LI c m) -> in_tile ts q p -> cellOf (canvasTile ims q) (Z.of_nat i) (pos q p) = canvasPx ts c q p.
  Proof.
    intros G Hq. unfold cellOf, canvasTile, canvasPx. rewrite G. destruct c as [c|]; [|reflexivity]. destruct (m_get pt_eqb c q) as [t|]; [|reflexivity].
    unfold tile_at, idx. pose proof (tile_pos ts q p Ht Hq). unfold pos. set (o := (py p - py q) * ts + (MRect.px p - MRect.px q)) in *. replace (o <? 0) with false by lia.
    destruct (nth_error t (Z.to_nat o)); reflexivity.
  Qed.

  Definition good_list (i : nat) (n : nat) (sf : list stree) (ks : list MRender.layer) : Prop :=
    (forall q, Forall (plainQ q) ks) /\ Forall (lwf blendPx (hasCanvasOf ims)) ks /\
    (forall s, In s (flat_map seqs ks) -> Z.of_nat i <= s < Z.of_nat (i + n)) /\ NoDup (flat_map seqs ks) /\
    forall q p, at_tile q p -> forall d c, paint_trees p sf d c <-> c = comps (canvasTile ims q) (pos q p) ks d.
  Lemma NoDup_app' {A} (a b : list A) : NoDup a -> NoDup b -> (forall x, In x a -> In x b -> False) -> NoDup (a ++ b).
  Proof.
    induction a as [|x a IH]; intros Na Nb D; [exact Nb|]. inversion Na as [|? ? H1 H2]; subst. cbn [app]. constructor.
    - intros H. apply in_app_or in H. destruct H as [H|H]; [contradiction|]. apply (D x); [now left|exact H].
    - apply IH; auto. intros y Hy. apply D. now right.
  Qed.
  Lemma good_nil i n : good_list i n [] [].
  Proof.
    split; [constructor|]. split; [constructor|]. split; [intros s []|]. split; [constructor|]. intros q p _ d c. split; [inversion 1; reflexivity|intros ->; constructor].
  Qed.
  Lemma good_cons i n n' t sf k ks : (forall q, plainQ q k) -> lwf blendPx (hasCanvasOf ims) k ->
    (forall s, In s (seqs k) -> Z.of_nat i <= s < Z.of_nat (i + n)) -> NoDup (seqs k) ->
    (forall q p, at_tile q p -> forall d c, paint_tree p t d c <-> c = comp (canvasTile ims q) (pos q p) k d) ->
    good_list (i + n) n' sf ks -> good_list i (n + n') (t :: sf) (k :: ks).
  Proof.
    intros P W B N C (P' & W' & B' & N' & C'). split; [constructor; auto|]. split; [constructor; auto|]. split; [|split].
    - intros s H. cbn [flat_map] in H. apply in_app_or in H. destruct H as [H|H]; [apply B in H|apply B' in H]; lia.
    - cbn [flat_map]. apply NoDup_app'; auto. intros s H H'. apply B in H. apply B' in H'. lia.
    - intros q p A d c. unfold comps. cbn [fold_left]. split.
      + inversion 1 as [|? ? ? d2 ? H1 H2]; subst. apply (C q p A) in H1. subst d2. now apply (C' q p A).
      + intros ->. econstructor; [now apply (C q p A)|]. now apply (C' q p A).
  Qed.
  Lemma plain_ungrouped sf i n ks : good_list i n sf ks -> withGroups ks = ks.
  Proof.
    intros (P & _). apply withGroups_none. eapply Forall_impl; [|exact (P (Pt 0 0))]. intros k H. inversion H; subst. cbn [latt lgroup]. auto.
  Qed.
  Lemma buildAttr_at i sl l l' : layer_is false 3 8 3 (Z.of_nat i) sl l -> plain sl -> pseq l' = Z.of_nat i -> maskEnabled l' = false ->
    exists bce mdc, buildAttr l l' = Lattr (Z.of_nat i) (negb (hidden sl)) 255 (blendModeOf l) false bce false mdc.
  Proof.
    intros [A _] (C & _ & O) S M. pose proof (hidden_visible _ _ _ A) as V. destruct A as (_ & _ & _ & Eo & Ec & _). unfold buildAttr, attrsOf.
    rewrite S, M, V, Eo, Ec, O, C. eauto.
  Qed.
  Lemma nth_copy i l l' : layer_is false 3 8 3 (Z.of_nat i) l l' -> Z.to_nat (l_seq l') = i.
  Proof. intros [(E & _) _]. rewrite E. lia. Qed.
  (** The records of the tree and those of the callbacks describe the same layer *)
  Lemma same_mode i sl l l2 : layer_is false 3 8 3 i sl l -> layer_is false 3 8 3 i sl l2 -> l_blend l = l_blend l2.
  Proof. intros [(_ & _ & A & _) _] [(_ & _ & B & _) _]. congruence. Qed.

  Lemma tree_good : forall n sf i ls, (list_sum (map ssize sf) <= n)%nat -> Forall stree_valid sf -> Forall plain_tree sf -> window i (flat_map sflatten sf) ->
    trees_are false 3 8 3 (Z.of_nat i) sf ls -> good_list i (length (flat_map sflatten sf)) sf (map (treeOf cs) ls).
  Proof.
    induction n as [|n IH]; intros sf i ls Hsz HV HP HW HT.
    { destruct sf as [|[l|d f c] sf]; cbn in Hsz; try lia. inversion HT; subst. apply good_nil. }
    destruct sf as [|t sf]; [inversion HT; subst; apply good_nil|].
    inversion HT as [|? ? ? l ls' T1 T2]; subst. clear HT. inversion HV as [|? ? V1 V2]; subst. inversion HP as [|? ? P1 P2]; subst.
    cbn [flat_map] in *. apply window_app in HW. destruct HW as [W1 W2]. rewrite app_length. cbn [map].
    assert (Hs1 : (ssize t + list_sum (map ssize sf) <= S n)%nat) by exact Hsz.
    assert (Hs2 : (list_sum (map ssize sf) <= n)%nat) by (destruct t; cbn [ssize] in Hs1; lia).
    assert (G2 : good_list (i + length (sflatten t)) (length (flat_map sflatten sf)) sf (map (treeOf cs) ls')).
    { apply IH; auto. replace (Z.of_nat (i + length (sflatten t))) with (Z.of_nat i + zlen (sflatten t)) by (unfold zlen; lia). exact T2. }
    destruct t as [sl|dv fo ct].
    - (* a picture *)
      inversion T1 as [? ? r L|]; subst. inversion P1 as [? Pl|]; subst. pose proof (proj1 Pl) as Pn. cbn [sflatten length] in *.
      pose proof (W1 0%nat sl eq_refl) as Ef. rewrite Nat.add_0_r in Ef. rewrite Forall_forall in Hv. pose proof (Hv sl (nth_error_In _ _ Ef)) as Vl.
      destruct (attr_at i sl Ef Pn) as (l0 & [c m] & l' & L0 & G & E' & S' & M').
      destruct (rec_at i sl Ef) as (l3 & c3 & m3 & l1 & l2 & l4 & L3 & G3 & C3 & _). rewrite G in G3. injection G3 as <- <-.
      destruct (buildAttr_at i sl r l' L Pn S' M') as (bce & mdc & Ea). destruct Pl as (Pn' & Ty & (m0 & Hm0) & Pr). pose proof (conj Pn' (conj Ty (conj (ex_intro _ m0 Hm0) Pr))) as Pl.
      pose proof (leaf_not_pt _ _ _ _ (proj1 L) Ty Hm0) as NP. pose proof (leaf_bm _ _ _ (proj1 L) Ty) as BM.
      assert (Etree : treeOf cs (Layer r []) = Lay (Lattr (Z.of_nat i) (negb (hidden sl)) 255 (blendModeOf r) false bce false mdc) [] []).
      { cbn [treeOf map]. rewrite (nth_copy _ _ _ L), E', Ea. reflexivity. }
      rewrite Etree. apply good_cons; [| | | | |exact G2].
      + intros q. constructor; try reflexivity; [|unfold isPT; cbn [lbm]; congruence|constructor]. intros _. cbn [lbm]. apply BM in Hm0. congruence.
      + constructor; [|congruence|intros ? []|intros ? []|constructor|constructor]. unfold modeOK, isPT. cbn [lbm]. rewrite NP. unfold blendPx. apply BM in Hm0. rewrite Hm0. discriminate.
      + intros s [<-|[]]. cbn [lseq]. lia.
      + constructor; [intros []|constructor].
      + intros q p A d v. destruct A as (D1 & D2 & Hq & Hx & Hy).
        pose proof (leaf_at inflate large cpus ts Hc Ht _ sl l3 l1 c q p (proj2 Pl) Vl L3 C3 D1 D2 Hq Hx Hy) as X.
        cbn [comp lvis lseq]. rewrite (cell_canvas q p i c m G Hq). unfold modeB. cbn [lbm]. pose proof (proj1 (BM m0) Hm0) as Hg. rewrite Hg. split.
        * inversion 1 as [? ? Hh|? ? ? ? Hh|? mm s ? Hh Hm Hp|? ? ? ? ? ? ? ?|]; subst; rewrite Hh; cbn [negb]; [reflexivity|].
          apply X in Hp. subst s. apply BM in Hm. rewrite Hm in Hg. injection Hg as ->. reflexivity.
        * intros ->. destruct (hidden sl) eqn:Hh; cbn [negb]; [now constructor|]. constructor; [exact Hh|exact Hm0|now apply X].
    - (* a folder *)
      inversion T1 as [|? ? ? ? r lc T3 L]; subst. inversion P1 as [|? ? ? fm Pn Hfm Pc']; subst. inversion V1 as [|? ? ? ty Td Tf Hty Vc]; subst. cbn [sflatten] in *.
      cbn [ssize] in Hs1. set (N := length (flat_map sflatten ct)) in *.
      assert (Wc : window (S i) (flat_map sflatten ct) /\ nth_error flat (S i + N) = Some fo).
      { change (dv :: flat_map sflatten ct ++ [fo]) with ([dv] ++ (flat_map sflatten ct ++ [fo])) in W1. apply window_app in W1. destruct W1 as [_ W1].
        cbn [length] in W1. apply window_app in W1. destruct W1 as [W1 W3]. split; [now replace (S i) with (i + 1)%nat by lia|].
        specialize (W3 0%nat fo eq_refl). replace (S i + N)%nat with (i + 1 + length (flat_map sflatten ct) + 0)%nat by (unfold N; lia). exact W3. }
      destruct Wc as [Wc Ef].
      assert (Gc : good_list (S i) N ct (map (treeOf cs) lc)).
      { apply IH; auto; [lia|]. replace (Z.of_nat (S i)) with (Z.of_nat i + 1) by lia. exact T3. }
      replace (Z.of_nat i + 1 + zlen (flat_map sflatten ct)) with (Z.of_nat (S i + N)) in L by (unfold N, zlen; lia).
      destruct (attr_at (S i + N) fo Ef Pn) as (l0 & [c m] & l' & L0 & G & E' & S' & M').
      destruct (no_canvas (S i + N) fo ty Ef Tf ltac:(lia)) as (m2 & G'). rewrite G in G'. injection G' as -> <-.
      destruct (buildAttr_at (S i + N) fo r l' L Pn S' M') as (bce & mdc & Ea). pose proof (folder_bm_mode _ _ _ _ _ (proj1 L) Tf Hty Hfm) as BM.
      assert (Etree : treeOf cs (Layer r lc) = Lay (Lattr (Z.of_nat (S i + N)) (negb (hidden fo)) 255 (blendModeOf r) false bce false mdc) (map (treeOf cs) lc) []).
      { cbn [treeOf]. rewrite (nth_copy _ _ _ L), E', Ea, (plain_ungrouped _ _ _ _ Gc). reflexivity. }
      rewrite Etree. destruct Gc as (Pq & Wf & Bq & Nq & Cq).
      assert (Hpt : list_eqb (blendModeOf r) passThrough = true -> blendModeOf r = passThrough) by apply list_eqb_eq.
      assert (Hkey : list_eqb (blendModeOf r) passThrough = false -> exists m, m_get list_eqb blendModes (blendModeOf r) = Some m).
      { intros X. pose proof (proj1 (BM fm) Hfm) as Y. destruct fm as [m0|]; [eauto|]. rewrite Y in X. discriminate. }
      apply good_cons; [| | | | |exact G2].
      + intros q. constructor; try reflexivity; [| |apply Pq].
        * intros X. unfold isPT in X. cbn [lbm] in *. destruct (Hkey X) as [m0 Em]. congruence.
        * intros _ _. cbn [lseq]. unfold canvasTile. now rewrite G.
      + constructor; [| |intros k Hk; specialize (Pq (Pt 0 0)); rewrite Forall_forall in Pq; specialize (Pq k Hk); inversion Pq; reflexivity|intros ? []|exact Wf|constructor].
        * unfold modeOK, isPT. cbn [lbm]. destruct (list_eqb (blendModeOf r) passThrough) eqn:X; [now left|]. destruct (Hkey eq_refl) as [m0 Em]. unfold blendPx. rewrite Em. discriminate.
        * intros _. cbn [lseq]. unfold hasCanvasOf. now rewrite G.
      + cbn [length]. rewrite app_length. cbn [length]. fold N. intros s. cbn [seqs lseq flat_map]. rewrite app_nil_r. intros [<-|H]; [lia|]. apply Bq in H. lia.
      + cbn [seqs lseq flat_map]. rewrite app_nil_r. constructor; [|exact Nq]. intros H. apply Bq in H. lia.
      + intros q p A d v. specialize (Cq q p A). cbn [comp lvis lseq].
        assert (Hb : forall d0, comps (canvasTile ims q) (pos q p) (map (treeOf cs) lc) d0 = fold_left (fun d k => comp (canvasTile ims q) (pos q p) k d) (map (treeOf cs) lc) d0) by reflexivity.
        unfold isPT, modeB. cbn [lbm].
        assert (Eleaf : cellOf (canvasTile ims q) (Z.of_nat (S i + N)) (pos q p) = None) by (unfold cellOf, canvasTile; rewrite G; reflexivity).
        set (ks := map (treeOf cs) lc) in *.
        assert (Ev : forall mo, (match ks with
          | [] => over mo (cellOf (canvasTile ims q) (Z.of_nat (S i + N)) (pos q p)) d
          | _ :: _ => if list_eqb (blendModeOf r) passThrough then fold_left (fun d k => comp (canvasTile ims q) (pos q p) k d) ks d
                      else over mo (fold_left (fun d k => comp (canvasTile ims q) (pos q p) k d) ks None) d
          end) = if list_eqb (blendModeOf r) passThrough then comps (canvasTile ims q) (pos q p) ks d
                 else over mo (comps (canvasTile ims q) (pos q p) ks None) d).
        { intros mo. rewrite Eleaf. unfold comps. destruct ks; [|reflexivity]. cbn [fold_left over]. now destruct (list_eqb _ _). }
        rewrite Ev. clear Ev. split.
        * inversion 1 as [|? ? ? ? Hh| |? ? ? ? ? Hh Hm Hp|? ? ? mm s ? Hh Hm Hp]; subst; rewrite Hh; cbn [negb]; [reflexivity| |].
          -- pose proof (proj1 (BM None) Hm) as Y. cbv beta iota in Y. rewrite Y. change (list_eqb passThrough passThrough) with true. now apply Cq.
          -- pose proof (proj1 (BM (Some mm)) Hm) as Y. cbv beta iota in Y. rewrite Y. apply key_get in Y. rewrite (key_not_pass _ _ Y). apply Cq in Hp. now subst s.
        * intros ->. destruct (hidden fo) eqn:Hh; cbn [negb]; [now constructor|]. destruct (list_eqb (blendModeOf r) passThrough) eqn:X.
          -- apply paint_through; [exact Hh|apply (BM None); now apply Hpt|now apply Cq].
          -- destruct (Hkey eq_refl) as [m0 Em]. rewrite Em. apply paint_folder; [exact Hh|now apply (BM (Some m0))|now apply Cq].
  Qed.
End tree.

(** * From the bytes to the pixels *)
Lemma flat_class : forall n sf, (list_sum (map ssize sf) <= n)%nat -> Forall stree_valid sf -> Forall plain_tree sf ->
  forall sl, In sl (flat_map sflatten sf) -> picture_ok sl \/ exists t, has_type sl t /\ t <> 0.
Proof.
  induction n as [|n IH]; intros sf Hsz HV HP sl H.
  { destruct sf as [|[l|d f c] sf]; cbn in Hsz; try lia. destruct H. }
  destruct sf as [|t sf]; [destruct H|]. inversion HV as [|? ? V1 V2]; subst. inversion HP as [|? ? P1 P2]; subst.
  assert (Hs1 : (ssize t + list_sum (map ssize sf) <= S n)%nat) by exact Hsz.
  cbn [flat_map] in H. apply in_app_or in H. destruct H as [H|H].
  - destruct t as [l|dv fo ct]; cbn [sflatten] in H.
    + destruct H as [<-|[]]. inversion P1 as [? Pl|]; subst. left. exact (proj2 Pl).
    + inversion V1 as [|? ? ? ty Td Tf Hty Vc]; subst. inversion P1 as [|? ? ? fm Pn Hfm Pc']; subst. cbn [ssize] in Hs1.
      destruct H as [<-|H]; [right; exists 3; split; [exact Td|lia]|]. apply in_app_or in H. destruct H as [H|[<-|[]]].
      * apply (IH ct); auto. lia.
      * right. exists ty. split; [exact Tf|lia].
  - apply (IH sf); auto. destruct t; cbn [ssize] in Hs1; lia.
Qed.
