(** Proofs about the thumbnails of all layers and their sheet. *)
From Coq Require Import Permutation.
From Verif Require Import Base BaseFacts MRect MSched PSched MThumb SThumb PThumb MDraw MBlend SBlend MRender MTile STile PTile MLoad SLoad PLoad MTileRender STileRender PTileRender MThumbs SThumbs PThumbs.
From Verif Require MWait.
Open Scope Z_scope.

Local Notation z4 := (Px 0 0 0 0).

Definition fit_canvas (ts : Z) (li : limage) : Prop := forall m, liCanvas li = Some m -> goodImage ts m /\ no_blank m.

(** The loader makes such canvases. *)
Lemma loaded_fit cpus ts ls st q li : (1 <= cpus)%nat -> 0 < ts -> NoDup (map pseq ls) ->
  Forall (fun l => bytes_ok (pr_ l) /\ bytes_ok (pg_ l) /\ bytes_ok (pb_ l) /\ match pa_ l with Some a => bytes_ok a | None => True end) ls ->
  MWait.steps (lstep cpus ts) (lstart ls) st -> lended st -> m_get Z.eqb (ldImages st) q = Some li -> fit_canvas ts li.
Proof.
  intros Hc Ht N B S E G m Em. destruct (inv_end cpus ts ls N st S E) as (I1 & I2 & _). destruct (I2 q li G) as (i & l & Hl & <-).
  destruct (I1 i l Hl) as (l' & c & mk & G' & (l1 & C & _)). rewrite G in G'. injection G' as ->. cbn [liCanvas] in Em. subst c.
  unfold canvasOf in C. destruct (hasImage l && negb (rempty (prect l))); [|destruct C; discriminate].
  destruct C as (t & r & Bt & _ & Et & _). injection Et as <-. apply nth_error_In in Hl. rewrite Forall_forall in B. destruct (B l Hl) as (B1 & B2 & B3 & B4).
  split; [exact (built_goodImage _ _ _ _ _ _ _ _ _ Hc Ht B1 B2 B3 B4 Bt)|exact (built_no_blank _ _ _ _ _ _ _ _ _ Hc Ht Bt)].
Qed.

Section all.
  Variable downscale : rect -> img -> option (list px).
  Variables (ts size : Z).
  Hypothesis Ht : 0 < ts.
  Hypothesis Hs : 0 <= size.

  Lemma thumbnail_det layer : match layer with Some li => fit_canvas ts li | None => True end ->
    exists o, o <> ThPanic /\ forall cpus buf, (1 <= cpus)%nat -> forall o', thumbnail downscale cpus ts size layer buf o' <-> o' = o.
  Proof.
    destruct layer as [[c mk]|]; intros F.
    2:{ exists ThNotFound. split; [discriminate|]. intros; cbn; tauto. }
    destruct c as [m|]; [|exists ThNoCanvas; split; [discriminate|]; intros; cbn; tauto].
    destruct (F m eq_refl) as [G Nb]. destruct m as [|e m'] eqn:Em.
    - exists ThNoCanvas. split; [discriminate|]. intros cpus buf Hc o'. cbn [thumbnail liCanvas]. split.
      + intros (r & T & H). rewrite (tilesRect_nil ts r T) in H. exact H.
      + intros ->. destruct (tilesRect_ex ts ([] : tilemap px)) as [r T]. exists r. split; [exact T|]. rewrite (tilesRect_nil ts r T). reflexivity.
    - rewrite <- Em in *. assert (m <> []) as Hm by congruence.
      destruct (thumbnail_one downscale ts size m Ht G Nb Hm mk Hs) as (b & i & _ & _ & D).
      exists (if rdx b * rdy b =? 0 then ThNoCanvas else scaled downscale size b i). split.
      + unfold scaled. destruct (_ =? 0); [discriminate|]. destruct (downscale _ _); discriminate.
      + intros cpus buf Hc o'. destruct (D cpus buf Hc) as [[o Ho] D2]. split; [apply D2|]. intros ->. rewrite <- (D2 o Ho). exact Ho.
  Qed.

  Lemma m_get_thumbs s : (forall k a b, In (k, a) s -> In (k, b) s -> a = b) ->
    forall k v, m_get Z.eqb (exec putThumb s []) k = Some v <-> In (k, v) s.
  Proof.
    assert (forall m k v, (forall k a b, In (k, a) s -> In (k, b) s -> a = b) ->
      m_get Z.eqb (exec putThumb s m) k = Some v <-> In (k, v) s \/ ((forall v', ~ In (k, v') s) /\ m_get Z.eqb m k = Some v)) as H.
    { induction s as [|[j w] s IH]; intros m k v Hf.
      - cbn. split; [intros H; right; split; [intros v' []|exact H]|]. intros [[]|[_ H]]. exact H.
      - change (exec putThumb ((j, w) :: s) m) with (exec putThumb s (putThumb (j, w) m)).
        rewrite IH by (intros k' a b Ha Hb; apply (Hf k'); now right).
        unfold putThumb. cbn [fst snd]. rewrite (m_get_set Z.eqb Z.eqb_eq). destruct (Z.eqb_spec j k) as [->|N].
        + split.
          * intros [H|[_ H]]; [left; now right|]. injection H as ->. left; now left.
          * intros [[H|H]|[H _]]; [|now left|exfalso; apply (H w); now left]. injection H as ->.
            destruct (zkey_dec s k) as [[v' Hv']|Hn]; [|right; auto]. left. rewrite (Hf k v v' (or_introl eq_refl) (or_intror Hv')). exact Hv'.
        + split.
          * intros [H|[H1 H2]]; [left; now right|]. right. split; [|exact H2]. intros v' [E|E]; [congruence|exact (H1 v' E)].
          * intros [[H|H]|[H1 H2]]; [congruence|now left|]. right. split; [|exact H2]. intros v' E. apply (H1 v'). now right. }
    intros Hf k v. rewrite (H [] k v Hf). cbn [m_get]. split; [intros [?|[_ ?]]; [assumption|discriminate]|now left].
  Qed.
  Lemma thumbStores_concat ls : thumbStores (concat ls) = concat (map thumbStores ls).
  Proof. unfold thumbStores. induction ls as [|l ls IH]; [reflexivity|]. cbn [concat map]. now rewrite flat_map_app, IH. Qed.
  Lemma in_thumbStores qos q p : In (q, p) (thumbStores qos) <-> In (q, ThOk p) qos.
  Proof.
    unfold thumbStores. rewrite in_flat_map. split.
    - intros ([q' o] & H & Hp). destruct o; try contradiction. destruct Hp as [E|[]]. injection E as <- <-. exact H.
    - intros H. exists (q, ThOk p). split; [exact H|now left].
  Qed.

  Variable imgs : list (Z * limage).
  Hypothesis Fit : forall q li, m_get Z.eqb imgs q = Some li -> fit_canvas ts li.

  Lemma fit_at q : match m_get Z.eqb imgs q with Some li => fit_canvas ts li | None => True end.
  Proof. destruct (m_get Z.eqb imgs q) eqn:E; [exact (Fit q _ E)|exact I]. Qed.

  Lemma thumbnails_spec cpus qs : (1 <= cpus)%nat ->
    (exists res, thumbnails downscale cpus ts size imgs qs res) /\
    forall res, thumbnails downscale cpus ts size imgs qs res -> exists out, res = Some out /\
      forall q p, m_get Z.eqb out q = Some p <-> In q qs /\ thumbnail downscale cpus ts size (m_get Z.eqb imgs q) [] (ThOk p).
  Proof.
    intros Hc. split.
    - assert (exists qos, map fst qos = qs /\ Forall (fun '(q, o) => exists buf, thumbnail downscale cpus ts size (m_get Z.eqb imgs q) buf o) qos) as (qos & E1 & E2).
      { induction qs as [|q qs IH]; [exists []; split; [reflexivity|constructor]|]. destruct IH as (qos & <- & E2).
        destruct (thumbnail_det _ (fit_at q)) as (o & _ & D). exists ((q, o) :: qos). split; [reflexivity|]. constructor; [|exact E2]. exists []. now apply D. }
      destruct (existsb (fun qo => match snd qo with ThPanic => true | _ => false end) qos) eqn:Ex.
      + exists None, qos. rewrite Ex. auto.
      + eexists. exists qos. rewrite Ex. split; [exact E1|]. split; [exact E2|]. eexists. split; [apply interleave_concat|reflexivity].
    - intros res (qos & E1 & E2 & H). rewrite Forall_forall in E2.
      assert (forall q o, In (q, o) qos -> o <> ThPanic /\ forall o', thumbnail downscale cpus ts size (m_get Z.eqb imgs q) [] o' <-> o' = o) as D.
      { intros q o Ho. destruct (E2 _ Ho) as [buf Hb]. destruct (thumbnail_det _ (fit_at q)) as (o1 & N & D1). apply (D1 cpus buf Hc) in Hb. subst o1.
        split; [exact N|]. intros o'. now apply D1. }
      assert (existsb (fun qo => match snd qo with ThPanic => true | _ => false end) qos = false) as Ex.
      { destruct (existsb _ qos) eqn:Ex; [|reflexivity]. apply existsb_exists in Ex. destruct Ex as ([q o] & Ho & X). cbn [snd] in X.
        destruct (D q o Ho) as [N _]. destruct o; congruence. }
      rewrite Ex in H. destruct H as (s & Hi & ->). eexists. split; [reflexivity|].
      assert (forall q p, In (q, p) s <-> In (q, ThOk p) qos) as Ms.
      { intros q p. rewrite (interleave_in _ _ Hi). rewrite <- in_thumbStores.
        assert (thumbStores qos = concat (map (fun '(a, b) => thumbStores (sliceZ qos a b)) (indexWorkers cpus (zlen qs)))) as ->; [|reflexivity].
        transitivity (thumbStores (concat (map (fun '(a, b) => sliceZ qos a b) (indexWorkers cpus (zlen qos))))); [now rewrite (index_slices qos cpus Hc)|].
        assert (zlen qos = zlen qs) as -> by (unfold zlen; rewrite <- E1, map_length; reflexivity).
        rewrite thumbStores_concat, map_map. f_equal. apply map_ext. now intros [a b]. }
      assert (forall q a b, In (q, a) s -> In (q, b) s -> a = b) as Fs.
      { intros q a b Ha Hb. apply Ms in Ha, Hb. destruct (D q _ Ha) as [_ Da]. destruct (D q _ Hb) as [_ Db].
        assert (ThOk a = ThOk b) as X by (apply Db, Da; reflexivity). congruence. }
      intros q p. rewrite (m_get_thumbs s Fs), Ms. split.
      + intros Ho. split; [rewrite <- E1; apply in_map_iff; now exists (q, ThOk p)|]. now apply (D q _ Ho).
      + intros [Hq Hp]. rewrite <- E1 in Hq. apply in_map_iff in Hq. destruct Hq as ([q' o] & <- & Ho). cbn [fst] in *.
        destruct (D q' o Ho) as [_ Do]. apply Do in Hp. now subst o.
  Qed.
End all.

Lemma layer_all (P : layer -> Prop) : (forall a ks cs, Forall P ks -> Forall P cs -> P (Lay a ks cs)) -> forall l, P l.
Proof.
  intros H. fix IH 1. intros [a ks cs]. apply H.
  - induction ks as [|k ks IHk]; constructor; [apply IH|exact IHk].
  - induction cs as [|k cs IHk]; constructor; [apply IH|exact IHk].
Qed.
Lemma gatherLayer_spec q : forall l, In q (gatherLayer l) <-> exists l', layer_in l' l /\ lseq (latt l') = q.
Proof.
  pose (go := fix go (ls : list layer) := match ls with [] => [] | l :: ls => gatherLayer l ++ go ls end).
  assert (forall ls, In q (go ls) <-> exists k, In k ls /\ In q (gatherLayer k)) as G.
  { induction ls as [|k ls IH]; cbn [go In]; [split; [intros []|intros (k & [] & _)]|]. rewrite in_app_iff, IH. split.
    - intros [H|(k' & H & H')]; eauto.
    - intros (k' & [<-|H] & H'); eauto. }
  apply layer_all. intros a ks cs Fk Fc. change (gatherLayer (Lay a ks cs)) with (lseq a :: go ks ++ go cs). cbn [In]. rewrite in_app_iff, !G.
  rewrite Forall_forall in Fk, Fc. split.
  - intros [E|[(k & Hk & H)|(k & Hk & H)]].
    + exists (Lay a ks cs). split; [constructor|exact E].
    + apply (Fk k Hk) in H. destruct H as (l' & H & E). exists l'. split; [eapply li_kid; eauto|exact E].
    + apply (Fc k Hk) in H. destruct H as (l' & H & E). exists l'. split; [eapply li_group; eauto|exact E].
  - intros (l' & H & E). inversion H as [|a' ks' cs' k Hk H'|a' ks' cs' k Hk H'].
    + subst l'. left. exact E.
    + subst. right. left. exists k. split; [exact Hk|]. apply (Fk k Hk). eauto.
    + subst. right. right. exists k. split; [exact Hk|]. apply (Fc k Hk). eauto.
Qed.

(** * The sheet *)
Lemma in_combine_idx {A B} (l : list A) : forall (l' : list B) a b, In (a, b) (combine l l') <-> exists i, idx l i = Some a /\ idx l' i = Some b.
Proof.
  induction l as [|x l IH]; intros l' a b; cbn [combine].
  - split; [intros []|]. intros (i & E & _). apply idx_some_lt in E. cbn in E. lia.
  - destruct l' as [|y l'].
    + split; [intros []|]. intros (i & _ & E). apply idx_some_lt in E. cbn in E. lia.
    + cbn [In]. rewrite IH. split.
      * intros [E|(i & E1 & E2)]; [injection E as <- <-; exists 0; split; reflexivity|]. pose proof (idx_some_lt _ _ _ E1). exists (i + 1).
        rewrite !idx_cons_S by lia. replace (i + 1 - 1) with i by lia. auto.
      * intros (i & E1 & E2). pose proof (idx_some_lt _ _ _ E1). destruct (Z.eq_dec i 0) as [->|N].
        -- rewrite idx_cons_0 in E1. rewrite idx_cons_0 in E2. left. congruence.
        -- rewrite idx_cons_S in E1 by lia. rewrite idx_cons_S in E2 by lia. right. eauto.
Qed.
Lemma idx_combine {A B} (l : list A) (l' : list B) i a b : idx l i = Some a -> idx l' i = Some b -> idx (combine l l') i = Some (a, b).
Proof.
  revert l' i. induction l as [|x l IH]; intros l' i E1 E2; [apply idx_some_lt in E1; cbn in E1; lia|].
  pose proof (idx_some_lt _ _ _ E1). destruct l' as [|y l']; [apply idx_some_lt in E2; cbn in E2; lia|]. cbn [combine].
  destruct (Z.eq_dec i 0) as [->|N]; [rewrite idx_cons_0 in E1; rewrite idx_cons_0 in E2; rewrite idx_cons_0; congruence|]. rewrite idx_cons_S in E1 by lia. rewrite idx_cons_S in E2 by lia. rewrite idx_cons_S by lia. now apply IH.
Qed.

Lemma sheet_spec size m : 0 < size < 2 ^ 31 -> zlen m < 2 ^ 31 -> Forall (fun e => good_picture size (snd e)) m ->
  match thumbnailSheetPx size m with
  | None => room 4096 size < zlen m
  | Some (im, cells) => map fst cells = map fst m /\ exists side pics, 0 <= side <= 4096 /\ zlen im = side * side /\ zlen pics = zlen m /\
      (forall i q p, idx m i = Some (q, p) -> exists c pic, idx cells i = Some (q, c) /\ idx pics i = Some pic /\
         rdx c = size /\ rdy c = size /\ within c (Rct 0 0 side side) /\ within pic c /\ sheet_shows side im p pic) /\
      (forall i j c c', i <> j -> idx (map snd cells) i = Some c -> idx (map snd cells) j = Some c' -> apart c c') /\
      (forall x, pt_in x (Rct 0 0 side side) = true -> (forall i pic, idx pics i = Some pic -> pt_in x pic = false) ->
         image_at (Rct 0 0 side side) im x z4)
  end.
Proof.
  intros Hs Hl Hg. unfold thumbnailSheetPx. set (dims := map (fun e => (rdx (picRect (snd e)), rdy (picRect (snd e)))) m).
  assert (zlen dims = zlen m) as Ld by (unfold dims, zlen; now rewrite map_length).
  pose proof (thumbnailSheet_spec size dims Hs) as T. rewrite Ld in T.
  assert (Forall (fun d => 0 <= fst d <= size /\ 0 <= snd d <= size) dims) as Hd.
  { unfold dims. apply Forall_map. eapply Forall_impl; [|exact Hg]. intros [q p] (X0 & Y0 & X1 & Y1 & _). cbn [fst snd] in *. unfold rdx, rdy. lia. }
  specialize (T Hl Hd). destruct (thumbnailSheet size dims) as [| | |side cells pics]; try contradiction; [exact T|].
  destruct T as ((kk & Hkk & Eside & _) & Hside & Lc & Lp & T1 & T2 & T3). assert (0 <= side) as S0 by (subst side; apply Z.pow_nonneg; lia).
  rewrite Forall_forall in Hg.
  set (sheet := Rct 0 0 side side).
  assert (forall i q p, idx m i = Some (q, p) -> exists c pic, idx cells i = Some c /\ idx pics i = Some pic /\ within pic c /\ within c sheet /\
    rdx pic = rdx (picRect p) /\ rdy pic = rdy (picRect p)) as At.
  { intros i q p E. pose proof (idx_some_lt _ _ _ E) as R. destruct (idx_lt cells i ltac:(lia)) as [c Ec]. destruct (idx_lt pics i ltac:(lia)) as [pic Ep].
    exists c, pic. split; [exact Ec|]. split; [exact Ep|]. destruct (T3 i c pic Ec Ep) as [W D]. split; [exact W|]. split; [apply (T1 i c Ec)|].
    unfold dims in D. rewrite idx_map, E in D. cbn [option_map snd] in D. injection D as <- <-. auto. }
  assert (forall e pic, In (e, pic) (combine m pics) -> sheetDraw side (snd e) pic <> None) as Tot.
  { intros [q p] pic H. apply in_combine_idx in H. destruct H as (i & E1 & E2). destruct (At i q p E1) as (c & pic' & Ec & Ep & _ & _ & W & H).
    assert (pic' = pic) as -> by congruence. destruct (Hg (q, p) (idx_In _ _ _ E1)) as (X0 & Y0 & X1 & Y1 & Lpx & Ok). cbn [snd] in *. unfold sheetDraw. cbv zeta.
    destruct (allSome_map_total (fun x => let? v := idx (picPix p) (cellIx (picRect p) (Pt (MRect.px x - rx0 pic) (py x - ry0 pic))) in
      let? v := copyPx v in Some (cellIx (Rct 0 0 side side) x, v)) (rectPoints (rintersect pic (Rct 0 0 side side)))) as [l ->]; [|discriminate].
    intros x Hx. apply in_rectPoints, pt_in_inter in Hx. destruct Hx as [Hx _].
    assert (pt_in (Pt (MRect.px x - rx0 pic) (py x - ry0 pic)) (picRect p) = true) as Hx' by (unfold pt_in, rdx, rdy in *; cbn [MRect.px py]; lia).
    pose proof (cellIx_range _ _ Hx') as R. unfold rdx, rdy in R. rewrite X0, Y0, !Z.sub_0_r, <- Lpx in R. destruct (idx_lt _ _ R) as [v Ev]. rewrite Ev.
    rewrite Forall_forall in Ok. destruct (copyPx_spec v (Ok v (idx_In _ _ _ Ev))) as (w & -> & _). discriminate. }
  destruct (allSome_map_total (fun '(e, pic) => sheetDraw side (snd e) pic) (combine m pics)) as [ws Ews]; [intros [e pic] H; exact (Tot e pic H)|].
  rewrite Ews. cbn [option_map].
  assert (map fst (combine (map fst m) cells) = map fst m) as Mf.
  { clear - Lc. revert cells Lc. induction m as [|e m IH]; intros cells L; [reflexivity|]. destruct cells as [|c cells]; [unfold zlen in L; cbn in L; lia|].
    cbn [map combine fst]. f_equal. apply IH. rewrite !zlen_cons in L. lia. }
  assert (map snd (combine (map fst m) cells) = cells) as Ms.
  { clear - Lc. revert cells Lc. induction m as [|e m IH]; intros cells L; [destruct cells; [reflexivity|unfold zlen in L; cbn in L; lia]|]. destruct cells as [|c cells]; [unfold zlen in L; cbn in L; lia|].
    cbn [map combine snd]. f_equal. apply IH. rewrite !zlen_cons in L. lia. }
  split; [exact Mf|]. exists side, pics. rewrite Ms. set (z := zrepeat z4 (side * side)). assert (zlen z = side * side) as Lz by (apply zlen_zrepeat; nia).
  split; [lia|]. split; [unfold exec; fold (exec store (concat ws) z); rewrite zlen_exec_store; exact Lz|]. split; [lia|].
  (* every store *)
  assert (forall j v, In (j, v) (concat ws) <-> exists i q p pic x u, idx m i = Some (q, p) /\ idx pics i = Some pic /\ pt_in x pic = true /\ pt_in x sheet = true /\
    j = cellIx sheet x /\ image_at (picRect p) (picPix p) (Pt (MRect.px x - rx0 pic) (py x - ry0 pic)) u /\ copyPx u = Some v) as St.
  { intros j v. rewrite in_concat. split.
    - intros (l & Hl' & Hv). apply (allSome_in _ _ _ Ews) in Hl'. destruct Hl' as ([[q p] pic] & Hc & D). apply in_combine_idx in Hc. destruct Hc as (i & E1 & E2).
      cbn [snd] in D. unfold sheetDraw in D. cbv zeta in D. apply (allSome_in _ _ _ D) in Hv. destruct Hv as (x & Hx & X). apply in_rectPoints, pt_in_inter in Hx.
      destruct (idx (picPix p) _) as [u|] eqn:Eu; [|discriminate]. destruct (copyPx u) as [w|] eqn:Ew; [|discriminate]. injection X as <- <-.
      exists i, q, p, pic, x, u. destruct Hx. auto 10.
    - intros (i & q & p & pic & x & u & E1 & E2 & X1 & X2 & -> & Eu & Ew).
      assert (In ((q, p), pic) (combine m pics)) as Hc by (apply in_combine_idx; eauto).
      destruct (sheetDraw side p pic) as [l|] eqn:D; [|destruct (Tot (q, p) pic Hc D)]. exists l. split; [apply (allSome_in _ _ _ Ews); exists ((q, p), pic); auto|].
      unfold sheetDraw in D. cbv zeta in D. apply (allSome_in _ _ _ D). exists x. split; [apply in_rectPoints, pt_in_inter; auto|].
      unfold image_at in Eu. unfold cellIx at 1, rdx. rewrite Eu, Ew. reflexivity. }
  assert (forall j v v', In (j, v) (concat ws) -> In (j, v') (concat ws) -> v = v') as Fun.
  { intros j v v' H H'. apply St in H, H'. destruct H as (i & q & p & pic & x & u & E1 & E2 & X1 & X2 & -> & Eu & Ew).
    destruct H' as (i' & q' & p' & pic' & x' & u' & E1' & E2' & X1' & X2' & Ex & Eu' & Ew').
    assert (x' = x) as -> by (symmetry; exact (cellIx_inj sheet x x' X2 X2' Ex)).
    destruct (Z.eq_dec i i') as [<-|N].
    - rewrite E1 in E1'. injection E1' as <- <-. rewrite E2 in E2'. injection E2' as <-. unfold image_at in *. congruence.
    - exfalso. destruct (At i q p E1) as (c & pc & Ec & Ep & W & _). destruct (At i' q' p' E1') as (c' & pc' & Ec' & Ep' & W' & _).
      rewrite E2 in Ep. injection Ep as <-. rewrite E2' in Ep'. injection Ep' as <-. exact (T2 i i' c c' N Ec Ec' x (W x X1) (W' x X1')). }
  split; [|split; [exact T2|]].
  - intros i q p E. destruct (At i q p E) as (c & pic & Ec & Ep & W & Wc & Ew & Eh). exists c, pic.
    split; [apply idx_combine; [now rewrite idx_map, E|exact Ec]|]. split; [exact Ep|]. destruct (T1 i c Ec) as (_ & D1 & D2).
    split; [exact D1|]. split; [exact D2|]. split; [exact Wc|]. split; [exact W|]. split; [exact Ew|]. split; [exact Eh|].
    intros x Hx. destruct (Hg (q, p) (idx_In _ _ _ E)) as (X0 & Y0 & X1 & Y1 & Lpx & Ok). cbn [snd] in *.
    assert (pt_in (Pt (MRect.px x - rx0 pic) (py x - ry0 pic)) (picRect p) = true) as Hx' by (unfold pt_in, rdx, rdy in *; cbn [MRect.px py]; lia).
    pose proof (cellIx_range _ _ Hx') as R. unfold rdx, rdy in R. rewrite X0, Y0, !Z.sub_0_r, <- Lpx in R. destruct (idx_lt _ _ R) as [v Ev].
    rewrite Forall_forall in Ok. destruct (copyPx_spec v (Ok v (idx_In _ _ _ Ev))) as (w & Ewv & _ & N). exists v, w. split; [exact N|].
    assert (pt_in x sheet = true) as Hxs by (apply Wc, W, Hx). split; [|exact Ev].
    change (idx (exec store (concat ws) z) (cellIx sheet x) = Some w). apply exec_store_in; [exact Fun| |].
    + apply St. exists i, q, p, pic, x, v. auto 10.
    + pose proof (cellIx_range _ _ Hxs) as R'. unfold rdx, rdy, sheet in R'. cbn [rx0 rx1 ry0 ry1] in R'. rewrite Lz. rewrite !Z.sub_0_r in R'. exact R'.
  - intros x Hx Out. change (idx (exec store (concat ws) z) (cellIx sheet x) = Some z4). rewrite exec_store_out.
    + pose proof (cellIx_range _ _ Hx) as R'. unfold rdx, rdy, sheet in R'. cbn [rx0 rx1 ry0 ry1] in R'. rewrite !Z.sub_0_r in R'.
      unfold z, zrepeat, idx. replace (cellIx sheet x <? 0) with false by (unfold sheet; lia). apply nth_error_repeat. unfold sheet. lia.
    + intros v H. apply St in H. destruct H as (i & q & p & pic & x' & u & E1 & E2 & X1 & X2 & Ex & _).
      assert (x' = x) as -> by (symmetry; exact (cellIx_inj sheet x x' Hx X2 Ex)). rewrite (Out i pic E2) in X1. discriminate.
Qed.
