From Verif Require Import Base BaseFacts MRect MLayer STree.

Section ind.
  Variable Pr : ftree -> Prop.
  Hypothesis Hleaf : forall r, Pr (FLeaf r).
  Hypothesis Hfolder : forall d f c, Forall Pr c -> Pr (FFolder d f c).
  Fixpoint ftree_ind' (t : ftree) : Pr t :=
    match t with
    | FLeaf r => Hleaf r
    | FFolder d f c => Hfolder d f c
        ((fix go (l : list ftree) : Forall Pr l :=
          match l with [] => Forall_nil _ | t :: l => Forall_cons _ (ftree_ind' t) (go l) end) c)
    end.
End ind.

Lemma wf_folder d f c : wf_tree (FFolder d f c) <-> is_divider d = true /\ is_folder f = true /\ wf_forest c.
Proof. reflexivity. Qed.

Lemma wf_forest_app a b : wf_forest (a ++ b) <-> wf_forest a /\ wf_forest b.
Proof. induction a; cbn; tauto. Qed.

Lemma divider_not_folder d : is_divider d = true -> is_folder d = false.
Proof. unfold is_divider, is_folder. lia. Qed.

Lemma build_tree_forward t : wf_tree t -> forall i ls stack n,
  build i (flatten t ++ ls) stack n = build (i + zlen (flatten t)) ls stack (n ++ [as_layer t]).
Proof.
  induction t as [r | d f c IH] using ftree_ind'; intros Hwf i ls stack n.
  - destruct Hwf as [H1 H2]. cbn [flatten app build as_layer]. unfold is_folder, is_divider in *. rewrite H1, H2.
    f_equal.
  - apply wf_folder in Hwf. destruct Hwf as (Hd & Hf & Hc).
    cbn [flatten as_layer]. rewrite <- app_comm_cons. cbn [build].
    pose proof (divider_not_folder d Hd) as Hnd. unfold is_folder, is_divider in Hd, Hf, Hnd. rewrite Hnd, Hd.
    assert (H : forall c, Forall (fun t => wf_tree t -> forall i ls stack n,
        build i (flatten t ++ ls) stack n = build (i + zlen (flatten t)) ls stack (n ++ [as_layer t])) c ->
      wf_forest c -> forall i ls stack n,
        build i (flat_map flatten c ++ ls) stack n = build (i + zlen (flat_map flatten c)) ls stack (n ++ map as_layer c)).
    { clear. induction 1 as [|t c Ht Hc IH]; intros Hwf i ls stack n; cbn.
      - rewrite app_nil_r. f_equal. unfold zlen; cbn; lia.
      - destruct Hwf as [H1 H2]. rewrite <- app_assoc, Ht, IH by easy. rewrite <- app_assoc, zlen_app. f_equal. lia. }
    rewrite <- app_assoc, H by easy. cbn [app build]. rewrite Hf.
    rewrite !zlen_cons, !zlen_app, zlen_cons. f_equal. unfold zlen; cbn [length]. lia.
Qed.

Lemma build_forest_forward c : wf_forest c -> forall i ls stack n,
  build i (flat_map flatten c ++ ls) stack n = build (i + zlen (flat_map flatten c)) ls stack (n ++ map as_layer c).
Proof.
  induction c as [|t c IH]; intros Hwf i ls stack n; cbn.
  - rewrite app_nil_r. f_equal. unfold zlen; cbn; lia.
  - destruct Hwf as [H1 H2]. rewrite <- app_assoc, build_tree_forward, IH by easy. rewrite <- app_assoc, zlen_app. f_equal. lia.
Qed.

(** C11 *)
Lemma buildTree_forest c : wf_forest c -> buildTree (flat_map flatten c) = Ok (map as_layer c).
Proof.
  intros H. unfold buildTree. rewrite <- (app_nil_r (flat_map flatten c)), build_forest_forward by easy. reflexivity.
Qed.

(** * Every record list *)

(** An open folder: the forest below it and its divider. *)
Definition frame := (list ftree * lrec)%type.
Definition frame_recs (f : frame) : list lrec := flat_map flatten (fst f) ++ [snd f].
Definition frame_ok (f : frame) : Prop := wf_forest (fst f) /\ is_divider (snd f) = true.

Lemma count_app ls ls' : opened (ls ++ ls') = opened ls + opened ls' /\ closed (ls ++ ls') = closed ls + closed ls'.
Proof. unfold opened, closed. now rewrite !filter_app, !zlen_app. Qed.

Lemma count_one r : opened [r] = (if is_divider r then 1 else 0) /\ closed [r] = (if is_folder r then 1 else 0).
Proof. unfold opened, closed. cbn. destruct (is_divider r), (is_folder r); split; reflexivity. Qed.

Lemma count_tree t : wf_tree t -> opened (flatten t) = closed (flatten t).
Proof.
  induction t as [r|d f c IH] using ftree_ind'; intros Hwf.
  - destruct Hwf as [H1 H2]. cbn [flatten]. destruct (count_one r) as [-> ->]. now rewrite H1, H2.
  - apply wf_folder in Hwf. destruct Hwf as (Hd & Hf & Hc). cbn [flatten].
    change (d :: flat_map flatten c ++ [f]) with ([d] ++ flat_map flatten c ++ [f]).
    assert (opened (flat_map flatten c) = closed (flat_map flatten c)) as E.
    { clear - IH Hc. induction IH as [|t c Ht H IH]; [reflexivity|]. destruct Hc as [H1 H2].
      cbn. destruct (count_app (flatten t) (flat_map flatten c)) as [-> ->]. specialize (Ht H1). specialize (IH H2). lia. }
    destruct (count_app [d] (flat_map flatten c ++ [f])) as [-> ->].
    destruct (count_app (flat_map flatten c) [f]) as [-> ->].
    destruct (count_one d) as [-> ->]. destruct (count_one f) as [-> ->].
    rewrite Hd, Hf. rewrite (divider_not_folder d Hd).
    assert (is_divider f = false) as -> by (unfold is_divider, is_folder in *; lia). lia.
Qed.
Lemma count_forest c : wf_forest c -> opened (flat_map flatten c) = closed (flat_map flatten c).
Proof.
  induction c as [|t c IH]; intros H; [reflexivity|]. destruct H as [H1 H2]. cbn.
  destruct (count_app (flatten t) (flat_map flatten c)) as [-> ->]. rewrite (count_tree t H1), (IH H2). reflexivity.
Qed.
Lemma count_frames fs : Forall frame_ok fs ->
  opened (flat_map frame_recs fs) = closed (flat_map frame_recs fs) + zlen fs.
Proof.
  induction 1 as [|[c d] fs [H1 H2] H IH]; [reflexivity|]. cbn [flat_map]. rewrite zlen_cons.
  destruct (count_app (frame_recs (c, d)) (flat_map frame_recs fs)) as [-> ->]. unfold frame_recs at 1 3. cbn [fst snd] in *.
  destruct (count_app (flat_map flatten c) [d]) as [-> ->]. rewrite (count_forest c H1).
  destruct (count_one d) as [-> ->]. rewrite H2, (divider_not_folder d H2). lia.
Qed.

Lemma prefix_cases (p0 : list lrec) r p s : p0 ++ [r] = p ++ s -> s = [] \/ exists s', p0 = p ++ s'.
Proof.
  revert p. induction p0 as [|x p0 IH]; intros [|y p] H; cbn in *.
  - right. exists []. easy.
  - injection H as <- H. destruct p; [left; easy|discriminate].
  - right. exists (x :: p0). easy.
  - injection H as <- H. destruct (IH p H) as [->|[s' ->]]; [left; easy|right; exists s'; easy].
Qed.

Lemma balanced_snoc p r : balanced_prefixes p -> closed (p ++ [r]) <= opened (p ++ [r]) -> balanced_prefixes (p ++ [r]).
Proof.
  intros Hp Hr q s E. destruct (prefix_cases _ _ _ _ E) as [->|[s' ->]].
  - rewrite app_nil_r in E. now subst q.
  - eapply Hp. reflexivity.
Qed.

(** Invariant of the loop: what was read is a list of open folders (outermost
    first) and a forest. *)
Lemma build_inv ls : forall done frames forest,
  Forall frame_ok frames -> wf_forest forest ->
  done = flat_map frame_recs frames ++ flat_map flatten forest ->
  balanced_prefixes done ->
  match build (zlen done) ls (rev (map (fun f => map as_layer (fst f)) frames)) (map as_layer forest) with
  | Err e => exists p r s, ls = p ++ r :: s /\ e = EBrokenTree (zlen (done ++ p)) /\ is_folder r = true /\
      closed (done ++ p) = opened (done ++ p) /\ balanced_prefixes (done ++ p)
  | Ok t => balanced_prefixes (done ++ ls) /\
      exists frames' forest', Forall frame_ok frames' /\ wf_forest forest' /\
        done ++ ls = flat_map frame_recs frames' ++ flat_map flatten forest' /\ t = map as_layer forest'
  | Panic | NoFuel => False
  end.
Proof.
  induction ls as [|r ls IH]; intros done frames forest Hfr Hfo Hdone Hbal.
  - cbn. rewrite app_nil_r. split; [exact Hbal|]. exists frames, forest. auto.
  - cbn [build]. fold (is_folder r). fold (is_divider r).
    assert (Hc : opened done = closed done + zlen frames).
    { rewrite Hdone. destruct (count_app (flat_map frame_recs frames) (flat_map flatten forest)) as [-> ->].
      rewrite (count_frames _ Hfr), (count_forest _ Hfo). lia. }
    destruct (count_app done [r]) as [Ho' Hc']. destruct (count_one r) as [Ho1 Hc1]. rewrite Ho1 in Ho'. rewrite Hc1 in Hc'.
    pose proof (zlen_nonneg frames).
    replace (zlen done + 1) with (zlen (done ++ [r])) by (rewrite zlen_app; reflexivity).
    assert (Happ : forall l : list lrec, (done ++ [r]) ++ l = done ++ r :: l) by (intros; now rewrite <- app_assoc).
    assert (Hlift : forall (fr : list frame) fo,
      match build (zlen (done ++ [r])) ls (rev (map (fun f => map as_layer (fst f)) fr)) (map as_layer fo) with
      | Err e => exists p r' s, ls = p ++ r' :: s /\ e = EBrokenTree (zlen ((done ++ [r]) ++ p)) /\ is_folder r' = true /\
          closed ((done ++ [r]) ++ p) = opened ((done ++ [r]) ++ p) /\ balanced_prefixes ((done ++ [r]) ++ p)
      | Ok t => balanced_prefixes ((done ++ [r]) ++ ls) /\
          exists frames' forest', Forall frame_ok frames' /\ wf_forest forest' /\
            (done ++ [r]) ++ ls = flat_map frame_recs frames' ++ flat_map flatten forest' /\ t = map as_layer forest'
      | Panic | NoFuel => False
      end ->
      match build (zlen (done ++ [r])) ls (rev (map (fun f => map as_layer (fst f)) fr)) (map as_layer fo) with
      | Err e => exists p r' s, r :: ls = p ++ r' :: s /\ e = EBrokenTree (zlen (done ++ p)) /\ is_folder r' = true /\
          closed (done ++ p) = opened (done ++ p) /\ balanced_prefixes (done ++ p)
      | Ok t => balanced_prefixes (done ++ r :: ls) /\
          exists frames' forest', Forall frame_ok frames' /\ wf_forest forest' /\
            done ++ r :: ls = flat_map frame_recs frames' ++ flat_map flatten forest' /\ t = map as_layer forest'
      | Panic | NoFuel => False
      end).
    { intros fr fo. destruct (build _ ls _ _) as [t|e| |]; auto.
      - now rewrite Happ.
      - intros (p & r' & s & -> & H1). rewrite Happ in H1. exists (r :: p), r', s. auto. }
    destruct (is_folder r) eqn:Ef; [|destruct (is_divider r) eqn:Ed].
    + assert (Ed : is_divider r = false) by (unfold is_divider, is_folder in *; lia). rewrite Ed in *.
      destruct frames as [|f0 frames0] eqn:Efr using rev_ind.
      * cbn. exists [], r, ls. rewrite app_nil_r. change (zlen (@nil frame)) with 0 in Hc. repeat apply conj; auto. lia.
      * clear IHframes0. rewrite map_app, rev_app_distr. cbn [map rev app].
        destruct f0 as [below d]. cbn [fst].
        apply Forall_app in Hfr. destruct Hfr as [Hfr Hf0]. inversion Hf0 as [|? ? [Hbelow Hdiv] _]; subst. cbn [fst snd] in *.
        replace (map as_layer below ++ [Layer r (map as_layer forest)])
          with (map as_layer (below ++ [FFolder d r forest])) by (rewrite map_app; reflexivity).
        apply Hlift. apply IH; auto.
        -- apply wf_forest_app. split; [exact Hbelow|]. cbn [wf_forest]. split; [|exact I]. apply wf_folder. auto.
        -- rewrite !flat_map_app. cbn [flat_map flatten]. unfold frame_recs at 2. cbn [fst snd].
           rewrite !app_nil_r, <- !app_assoc. cbn [app]. reflexivity.
        -- apply balanced_snoc; [exact Hbal|]. rewrite zlen_app, zlen_cons in Hc. change (zlen (@nil frame)) with 0 in Hc.
           pose proof (zlen_nonneg frames0). lia.
    + replace (map as_layer forest :: rev (map (fun f => map as_layer (fst f)) frames))
        with (rev (map (fun f : frame => map as_layer (fst f)) (frames ++ [(forest, r)])))
        by (rewrite map_app, rev_app_distr; reflexivity).
      change (@nil layer) with (map as_layer []). apply Hlift. apply IH; auto.
      * apply Forall_app. split; [exact Hfr|]. constructor; [|constructor]. split; [exact Hfo|exact Ed].
      * exact I.
      * rewrite flat_map_app. cbn [flat_map]. unfold frame_recs at 2. cbn [fst snd]. rewrite !app_nil_r, Hdone, <- app_assoc. reflexivity.
      * apply balanced_snoc; [exact Hbal|]. lia.
    + replace (map as_layer forest ++ [Layer r []]) with (map as_layer (forest ++ [FLeaf r])) by (rewrite map_app; reflexivity).
      apply Hlift. apply IH; auto.
      * apply wf_forest_app. split; [exact Hfo|]. cbn. auto.
      * rewrite flat_map_app. cbn [flat_map flatten app]. rewrite Hdone, <- app_assoc. reflexivity.
      * apply balanced_snoc; [exact Hbal|]. lia.
Qed.

(** C12 *)
Lemma buildTree_spec ls :
  match buildTree ls with
  | Err e => exists p r s, ls = p ++ r :: s /\ e = EBrokenTree (zlen p) /\ is_folder r = true /\
      closed p = opened p /\ balanced_prefixes p
  | Ok t => balanced_prefixes ls /\
      exists frames forest, Forall (fun f => wf_forest (fst f) /\ is_divider (snd f) = true) frames /\ wf_forest forest /\
        ls = flat_map (fun f => flat_map flatten (fst f) ++ [snd f]) frames ++ flat_map flatten forest /\
        zlen frames = opened ls - closed ls /\
        t = map as_layer forest
  | Panic | NoFuel => False
  end.
Proof.
  pose proof (build_inv ls [] [] [] (Forall_nil _) I eq_refl) as B. cbn [map rev app] in B.
  unfold buildTree. change 0 with (zlen (@nil lrec)).
  destruct (build _ ls [] []) as [t|e| |].
  - destruct B as [H1 (fr & fo & H2 & H3 & H4 & H5)].
    { intros p s E. destruct p; [|discriminate]. unfold closed, opened, zlen; cbn; lia. }
    split; [exact H1|]. exists fr, fo. repeat apply conj; auto.
    rewrite H4. destruct (count_app (flat_map frame_recs fr) (flat_map flatten fo)) as [-> ->].
    rewrite (count_frames _ H2), (count_forest _ H3). unfold frame. lia.
  - apply B. intros p s E. destruct p; [|discriminate]. unfold closed, opened, zlen; cbn; lia.
  - apply B. intros p s E. destruct p; [|discriminate]. unfold closed, opened, zlen; cbn; lia.
  - apply B. intros p s E. destruct p; [|discriminate]. unfold closed, opened, zlen; cbn; lia.
Qed.

Lemma buildTree_ok_iff ls : (exists t, buildTree ls = Ok t) <-> balanced_prefixes ls.
Proof.
  pose proof (buildTree_spec ls) as S. destruct (buildTree ls) as [t|e| |].
  - split; [easy|eauto].
  - split; [now intros []|]. intros Hb. destruct S as (p & r & s & -> & _ & Hf & Hc & _).
    specialize (Hb (p ++ [r]) s ltac:(now rewrite <- app_assoc)).
    destruct (count_app p [r]) as [E1 E2]. destruct (count_one r) as [E3 E4]. rewrite Hf in E4.
    assert (is_divider r = false) as Ed by (unfold is_divider, is_folder in *; lia). rewrite Ed in E3. lia.
  - easy.
  - easy.
Qed.

Lemma records_as_layer t : wf_tree t -> records (as_layer t) = filter (fun r => negb (is_divider r)) (flatten t).
Proof.
  induction t as [r|d f c IH] using ftree_ind'; intros Hwf.
  - destruct Hwf as [H1 _]. cbn. now rewrite H1.
  - apply wf_folder in Hwf. destruct Hwf as (Hd & Hf & Hc). cbn [as_layer records flatten filter]. rewrite Hd. cbn [negb].
    rewrite filter_app. cbn [filter].
    assert (is_divider f = false) as -> by (unfold is_divider, is_folder in *; lia). cbn [negb]. f_equal.
    clear - IH Hc. induction IH as [|t c Ht H IH]; [reflexivity|]. destruct Hc as [H1 H2].
    cbn. rewrite filter_app, Ht, IH by easy. reflexivity.
Qed.

Lemma records_forest c : wf_forest c ->
  flat_map records (map as_layer c) = filter (fun r => negb (is_divider r)) (flat_map flatten c).
Proof.
  induction c as [|t c IH]; intros H; [reflexivity|]. destruct H as [H1 H2]. cbn.
  rewrite filter_app, records_as_layer, IH by easy. reflexivity.
Qed.

(** C13, the part that holds. *)
Lemma buildTree_complete ls t : buildTree ls = Ok t -> opened ls = closed ls ->
  flat_map records t = filter (fun r => negb (is_divider r)) ls.
Proof.
  intros H E. pose proof (buildTree_spec ls) as S. rewrite H in S. destruct S as (_ & fr & fo & H1 & H2 & H3 & H4 & ->).
  assert (fr = []) as -> by (apply zlen_0_nil; lia). subst ls. cbn. now apply records_forest.
Qed.

(** The general case: the records of the tree are those above the last open divider. *)
Lemma buildTree_suffix ls t : buildTree ls = Ok t ->
  exists lost kept, ls = lost ++ kept /\ flat_map records t = filter (fun r => negb (is_divider r)) kept /\
    (opened ls = closed ls <-> lost = []) /\
    (lost <> [] -> exists l d, lost = l ++ [d] /\ is_divider d = true).
Proof.
  intros H. pose proof (buildTree_spec ls) as S. rewrite H in S. destruct S as (_ & fr & fo & H1 & H2 & H3 & H4 & ->).
  exists (flat_map frame_recs fr), (flat_map flatten fo). split; [|split; [|split]].
  - exact H3.
  - now apply records_forest.
  - split.
    + intros E. assert (fr = []) as -> by (apply zlen_0_nil; lia). reflexivity.
    + intros E. destruct fr as [|[f d] fr]; [change (zlen (@nil (list ftree * lrec))) with 0 in H4; lia|].
      cbn in E. unfold frame_recs in E. cbn in E. destruct (flat_map flatten f); discriminate.
  - intros Hne. destruct fr as [|[f d] fr _] using rev_ind; [easy|].
    rewrite flat_map_app. cbn [flat_map]. unfold frame_recs at 2. cbn [fst snd]. rewrite app_nil_r, app_assoc. eexists _, d. split; [reflexivity|].
    apply Forall_app in H1. destruct H1 as [_ H1]. now inversion H1 as [|? ? [_ Hd] _].
Qed.

Lemma buildTree_lost : exists ls t, buildTree ls = Ok t /\
  exists r, In r ls /\ is_divider r = false /\ ~ In r (flat_map records t).
Proof.
  pose (leaf := LRec 0 [65] [] [65] ZR [] [] 255 false true 0 mask0 None [] 0 [] 0).
  pose (divider := LRec 1 [66] [] [66] ZR [] [] 255 false true 0 mask0 None [] 3 [] 0).
  exists [leaf; divider], []. split; [reflexivity|]. exists leaf. repeat apply conj; [now left|reflexivity|easy].
Qed.
