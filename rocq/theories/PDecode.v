(** The whole decoder: counts, callbacks, kinds of readers. *)
From Coq Require Import FinFun.
From Verif Require Import Base BaseFacts MUtil SUtil PUtil MRect MReader PReader MPicker MConfig SConfig PConfig
  MCompress MLayer MApi STree PTree SLayer PLayer.

Lemma makePicker_fuel c : makePicker c <> NoFuel.
Proof.
  unfold makePicker. destruct (cfg_mode c =? 2); [destruct (palette c); easy|]. destruct (cfg_mode c =? 0); [easy|].
  destruct (_ <? _).
  - destruct (hasAlphaID0 (cfg_res c)); cbn; [|easy]. destruct (findPicker _ _ _); easy.
  - destruct (findPicker _ _ _); easy.
Qed.

Lemma counted_decode_merged procs cfg : config_ok cfg -> counted (decode_merged procs cfg) snd.
Proof.
  intros (w & h & Hr & _ & Hch & Hw & Hh & _) n tr Hn. unfold decode_merged.
  assert (0 < rdx (cfg_rect cfg)) by (rewrite Hr; unfold rdx; cbn; lia).
  do 5 wstep. apply wp_of_outcome; [apply makePicker_fuel|]. intros k _. do 6 wstep.
  wstep. eapply wp_counted; [apply counted_decompress; [lia|now left]|lia|].
  intros [data l] n1 Hn1 E1. cbn [snd] in E1. wstep. wstep. wstep. cbn [snd]. repeat split; lia.
Qed.

(** The rest of the input never grows. *)
Lemma wp_le {Ev A} cr (p : prog Ev A) Q : forall n tr,
  wp cr p n tr Q -> wp cr p n tr (fun a n' tr' => Q a n' tr' /\ n' <= n).
Proof.
  induction p; cbn [wp]; intros m tr Hp; auto.
  - split; [easy|lia].
  - intros H1 b Hb Hl. pose proof (zlen_nonneg b). eapply wp_mono; [apply H; auto|]. intros ? ? ? [? ?]. split; [easy|lia].
  - intros b Hb H1 H2 H3. pose proof (zlen_nonneg b). eapply wp_mono; [apply H; auto|]. intros ? ? ? [? ?]. split; [easy|lia].
  - destruct Hp as [Hp1 Hp2]. split; intros Hn.
    + apply H. auto.
    + eapply wp_mono; [apply H; auto|]. intros ? ? ? [? ?]. split; [easy|lia].
  - intros b c H1 H2 H3. eapply wp_mono; [apply H; auto|]. intros ? ? ? [? ?]. split; [easy|lia].
Qed.

Section decode.
  Variable o : options.
  Notation skip := (o_skip_layer o).

  Definition decode_post (n : Z) (tr : list event) : psdfile * Z -> Z -> list event -> Prop :=
    fun a n' tr' => 0 <= n' <= n /\ snd a = n - n' /\ config_ok (f_config (fst a)) /\
      exists secs, Forall (section_ok skip) secs /\ buildTree (concat secs) = Ok (f_layer (fst a)) /\
        tr' = tr ++ flat_map (section_events skip) secs.

  Lemma wp_decode fuel procs n tr : 0 <= n < Z.of_nat fuel ->
    wp True (decode_prog fuel procs o) n tr (decode_post n tr).
  Proof.
    intros Hn. unfold decode_prog. wstep.
    eapply wp_mono; [apply wp_le, (wp_decodeConfig True fuel n tr (fun a n' tr' => 0 <= n' /\ snd a = n - n' /\ tr' = tr /\ config_ok (fst a)));
      [lia|now intros; repeat split]|].
    intros [cfg l] n1 tr1 ((Hn1 & E1 & -> & Hc) & Hn1'). cbn [fst snd] in *.
    wstep; [exact I|]. wstep. eapply wp_mono; [apply wp_readLayerAndMaskInfo; lia|].
    intros [[tree info] l2] n2 tr2 (Hn2 & E2 & secs & S1 & S2 & ->). cbn [fst snd] in *.
    wstep.
    - wstep. unfold decode_post. cbn [fst snd f_config f_layer]. repeat split; try lia; [exact Hc|]. exists secs. auto.
    - wstep. eapply wp_counted; [now apply counted_decode_merged|lia|].
      intros [[[data chm] pk] l3] n3 Hn3 E3. cbn [snd] in E3. wstep.
      unfold decode_post. cbn [fst snd f_config f_layer]. repeat split; try lia; [exact Hc|]. exists secs. auto.
  Qed.
End decode.

Lemma fuel_for_enough s : 0 <= zlen s < Z.of_nat (fuel_for s).
Proof. unfold fuel_for, zlen. lia. Qed.

Lemma run_suffix inflate {Ev A} kind (p : prog Ev A) :
  forall s a s' evs, run inflate kind p s = (Ok (a, s'), evs) -> exists pre, s = pre ++ s'.
Proof.
  assert (K : forall n (s s' : bytes), (exists pre, skipn n s = pre ++ s') -> exists pre, s = pre ++ s').
  { intros n s s' [pre E]. exists (firstn n s ++ pre). rewrite <- app_assoc, <- E. now rewrite firstn_skipn. }
  induction p; cbn [run]; intros s a1 s' evs; try easy.
  - intros [= <- <- <-]. now exists [].
  - destruct (zlen s <? n); [easy|]. intros R. eapply K, H, R.
  - destruct s as [|x t] eqn:Es; [easy|]. rewrite <- Es. clear Es. intros R. apply H in R. destruct R as [pre E].
    exists (ztake n s ++ pre). rewrite <- app_assoc, <- E. now rewrite ztake_zdrop.
  - destruct (n <? 0); [destruct kind; [eauto|easy]|]. destruct (zlen s <? n); [easy|]. intros R. eapply K, H, R.
  - destruct (inflate_ok _ _ _) as [[out c]|]; [|easy]. intros R. eapply K, H, R.
  - destruct (run inflate kind p s) as [[[a2 s2]|?| |] ?] eqn:E; intros [= <- <- <-]. eauto.
Qed.

Section api.
  Variable inflate : bytes -> Z -> option (bytes * Z).

  Lemma decode_wp kind procs o s : bytes_ok s ->
    match Decode inflate kind procs o s with
    | (Ok (a, s'), evs) => decode_post o (zlen s) [] a (zlen s') evs /\ exists pre, s = pre ++ s'
    | (NoFuel, _) => False
    | _ => True
    end.
  Proof.
    intros Hs. pose proof (wp_run inflate True kind _ _ s [] Hs (wp_decode o (fuel_for s) procs (zlen s) [] (fuel_for_enough s))) as H.
    unfold Decode. destruct (run _ _ _ _) as [[[a s']|e| |] evs]; auto.
  Qed.

  (** C18 *)
  Lemma decode_count kind procs o s f n rest evs : bytes_ok s ->
    Decode inflate kind procs o s = (Ok (f, n, rest), evs) ->
    exists taken, s = taken ++ rest /\ zlen taken = n.
  Proof.
    intros Hs H. pose proof (decode_wp kind procs o s Hs) as W. rewrite H in W.
    destruct W as [(H1 & H2 & _) [pre ->]]. exists pre. split; [reflexivity|]. cbn [snd] in H2. rewrite zlen_app in *. lia.
  Qed.

  (** C22, C23 *)
  Lemma decode_callbacks kind procs o s f n rest evs : bytes_ok s ->
    Decode inflate kind procs o s = (Ok (f, n, rest), evs) ->
    exists secs, Forall (section_ok (o_skip_layer o)) secs /\
      buildTree (concat secs) = Ok (f_layer f) /\
      evs = flat_map (section_events (o_skip_layer o)) secs.
  Proof.
    intros Hs H. pose proof (decode_wp kind procs o s Hs) as W. rewrite H in W.
    destruct W as [(_ & _ & _ & secs & H1 & H2 & H3) _]. exists secs. auto.
  Qed.

  (** Termination: the model never runs out of fuel. *)
  Lemma decode_terminates kind procs o s : bytes_ok s -> fst (Decode inflate kind procs o s) <> NoFuel.
  Proof.
    intros Hs. pose proof (decode_wp kind procs o s Hs) as W. destruct (Decode _ _ _ _ _) as [[?|?| |] ?]; easy.
  Qed.
End api.

(** * C17 *)

Lemma rets_run inflate {Ev A} kind (R : A -> Prop) (p : prog Ev A) : rets R p ->
  forall s a s' evs, run inflate kind p s = (Ok (a, s'), evs) -> R a.
Proof.
  induction p; cbn [rets run]; intros HR s a1 s' evs; try easy.
  - now intros [= <- <- <-].
  - destruct (zlen s <? n); [easy|]. eauto.
  - destruct s; [easy|]. eauto.
  - destruct (n <? 0); [destruct kind; [eauto|easy]|]. destruct (zlen s <? n); [easy|]. eauto.
  - destruct (inflate_ok _ _ _) as [[out c]|]; [|easy]. eauto.
  - destruct (run inflate kind p s) as [[[a2 s2]|?| |] ?] eqn:E; intros [= <- <- <-]. eauto.
Qed.

Lemma rets_layer_body procs cfg o fuel v :
  let ln := i64 v in let all := i64 (ln + intSize cfg) in
  rets (fun a : list layer * infomap * Z => snd a = if ln =? 0 then intSize cfg else all)
    (if ln =? 0 then Ret ([], [], intSize cfg) else
    let radd := fun n => readAdditional procs cfg o fuel n 0 [] [] in
    let rd := intSize cfg in
    ' (ls, rd) <-
      (if rd <? all then ' (ls, l) <- readLayerInfo procs cfg o radd ;; Ret (ls, rd + l)
       else Ret (None, rd)) ;;
    rd <-
      (if 4 <=? i64 (all - rd) then
         b <- rfull 4 ;;
         g <- lift (readUint32 b 0) ;;
         if 0 <? g then l <- rdiscard g ;; Ret (rd + 4 + l) else Ret (rd + 4)
       else Ret rd) ;;
    ' (info, ls, rd) <-
      (if 8 <=? i64 (all - rd) then
         ' (info, ls2, l) <- radd (i64 (all - rd)) ;;
         match ls, ls2 with
         | Some _, _ :: _ => Fail ELayerStructure
         | _, [] => Ret (info, ls, rd + l)
         | None, _ => Ret (info, Some ls2, rd + l)
         end
       else Ret ([], ls, rd)) ;;
    tree <- of_outcome (buildTree match ls with Some ls => ls | None => [] end) ;;
    let remain := i64 (all - rd) in
    rd <-
      (if negb (remain =? 0) && (remain <? intSize cfg) then l <- rdiscard remain ;; Ret (rd + l)
       else Ret rd) ;;
    if negb (rd =? all) then Fail ESizeMismatch else
    Ret (tree, info, rd)).
Proof.
  intros ln all. destruct (ln =? 0) eqn:E; [reflexivity|]. cbn zeta.
  apply rets_bind'. intros [ls rd]. apply rets_bind'. intros rd2. apply rets_bind'. intros [[info ls'] rd3].
  apply rets_bind'. intros tree. apply rets_bind'. intros rd4. destruct (negb (rd4 =? all)) eqn:E4; [exact I|]. cbn. lia.
Qed.

Lemma readUint_range b (large : bool) v : bytes_ok b -> readUint b 0 (get4or8 large) = Some v ->
  0 <= v < 18446744073709551616.
Proof.
  intros Hb H. destruct large; unfold readUint in H; cbn in H.
  - destruct (readUint64 b 0) eqn:E; [|discriminate]. injection H as <-. now apply readUint64_range in E.
  - destruct (readUint32 b 0) eqn:E; [|discriminate]. injection H as <-. apply readUint32_range in E; [lia|easy].
Qed.

Lemma readUint_value b (large : bool) v : bytes_ok b -> zlen b = get4or8 large ->
  readUint b 0 (get4or8 large) = Some v -> be_value b 0 = v.
Proof.
  intros Hb Hl H. destruct large; unfold readUint, get4or8 in H, Hl; cbn [Z.eqb Pos.eqb] in H.
  - apply readUint64_spec in H; [|easy].
    destruct H as (b0 & b1 & b2 & b3 & b4 & b5 & b6 & b7 & E0 & E1 & E2 & E3 & E4 & E5 & E6 & E7 & ->).
    do 8 (destruct b as [|? b]; [discriminate|]).
    assert (b = []) as -> by (apply zlen_0_nil; rewrite !zlen_cons in Hl; lia).
    injection E0 as ->. injection E1 as ->. injection E2 as ->. injection E3 as ->. injection E4 as ->.
    injection E5 as ->. injection E6 as ->. injection E7 as ->. reflexivity.
  - apply readUint32_spec in H; [|easy].
    destruct H as (b0 & b1 & b2 & b3 & E0 & E1 & E2 & E3 & ->).
    do 4 (destruct b as [|? b]; [discriminate|]).
    assert (b = []) as -> by (apply zlen_0_nil; rewrite !zlen_cons in Hl; lia).
    injection E0 as ->. injection E1 as ->. injection E2 as ->. injection E3 as ->. reflexivity.
Qed.

Lemma section_exact inflate kind procs cfg o s tree info c rest evs : bytes_ok s ->
  run inflate kind (readLayerAndMaskInfo procs cfg o (fuel_for s)) s = (Ok ((tree, info, c), rest), evs) ->
  exists lenfield body, s = lenfield ++ body ++ rest /\ zlen lenfield = (if psb cfg then 8 else 4) /\
    zlen body = be_value lenfield 0 /\ c = zlen lenfield + zlen body.
Proof.
  intros Hs H.
  pose proof (wp_run inflate True kind _ _ s [] Hs
    (wp_readLayerAndMaskInfo procs cfg o (fuel_for s) (zlen s) [] (fuel_for_enough s))) as W.
  rewrite H in W. destruct W as [(Hle & Hc & _) [pre Hpre]]. cbn [fst snd] in Hc.
  assert (Lpre : zlen pre = c) by (rewrite Hpre, zlen_app in Hc; lia).
  pose proof (intSize_cases cfg) as Hi.
  unfold readLayerAndMaskInfo in H. unfold rfull in H. cbn [bind run] in H.
  destruct (zlen s <? intSize cfg) eqn:El; [discriminate|].
  set (b := firstn (Z.to_nat (intSize cfg)) s) in *.
  assert (Hb : bytes_ok b) by (now apply Forall_firstn').
  assert (Lb : zlen b = intSize cfg) by (unfold b; rewrite zlen_firstn; lia).
  rewrite run_bind in H. destruct (readUint b 0 (intSize cfg)) as [v|] eqn:Ev; [|discriminate].
  cbn [lift run run_next] in H.
  pose proof (readUint_range _ _ _ Hb Ev) as Rv. pose proof (readUint_value _ _ _ Hb Lb Ev) as Vv.
  match type of H with (let (_, _) := run _ _ ?p ?s0 in _) = _ =>
    destruct (run inflate kind p s0) as [r0 e0] eqn:Er end.
  injection H as -> _.
  pose proof (rets_run inflate kind _ _ (rets_layer_body procs cfg o (fuel_for s) v) _ _ _ _ Er) as Hr. cbn [snd] in Hr.
  assert (Hge : intSize cfg <= c).
  { apply run_suffix in Er. destruct Er as [p2 E2]. apply (f_equal zlen) in E2. rewrite zlen_skipn, zlen_app in E2.
    rewrite Hpre, zlen_app in E2. pose proof (zlen_nonneg p2). rewrite Hpre, zlen_app in El. lia. }
  assert (Hcv : c = intSize cfg + v).
  { destruct (i64 v =? 0) eqn:E0.
    - unfold i64 in E0. lia.
    - unfold i64 in Hr. lia. }
  exists b, (skipn (Z.to_nat (intSize cfg)) pre).
  assert (Eb : b = firstn (Z.to_nat (intSize cfg)) pre).
  { unfold b. rewrite Hpre, firstn_app. replace (Z.to_nat (intSize cfg) - length pre)%nat with 0%nat by (unfold zlen in Lpre; lia).
    cbn. now rewrite app_nil_r. }
  repeat split.
  - rewrite Eb, app_assoc, firstn_skipn. exact Hpre.
  - rewrite Lb. unfold intSize, get4or8. reflexivity.
  - rewrite zlen_skipn, Vv. lia.
  - rewrite zlen_skipn, Lb. lia.
Qed.

(** * C23 *)

Lemma zseq_NoDup n : NoDup (zseq n).
Proof. unfold zseq. apply Injective_map_NoDup; [intros a b; lia|]. apply seq_NoDup. Qed.

Lemma NoDup_map_filter {A B} (f : A -> B) g l : NoDup (map f l) -> NoDup (map f (filter g l)).
Proof.
  induction l as [|a l IH]; cbn; auto. intros H. inversion_clear H. destruct (g a); cbn; auto.
  constructor; auto. intros Hin. apply H0. apply in_map_iff in Hin. destruct Hin as (x & E & Hx).
  apply filter_In in Hx. apply in_map_iff. exists x. tauto.
Qed.
Lemma NoDup_app_r {A} (a b : list A) : NoDup (a ++ b) -> NoDup b.
Proof. induction a; cbn; auto. intros H. inversion_clear H. auto. Qed.

Definition starts (evs : list event) : Z := zlen (filter (fun e => ev_index e =? 0) evs).

Lemma starts_app a b : starts (a ++ b) = starts a + starts b.
Proof. unfold starts. now rewrite filter_app, zlen_app. Qed.
Lemma starts_from total ls : forall i, 0 < i -> starts (events_from total i ls) = 0.
Proof.
  induction ls as [|l ls IH]; intros i Hi; [reflexivity|]. cbn [events_from]. unfold starts in *. cbn [filter ev_index].
  replace (i =? 0) with false by lia. apply IH. lia.
Qed.
Lemma starts_section sec : starts (section_events false sec) = match sec with [] => 0 | _ => 1 end.
Proof.
  destruct sec as [|l sec]; [reflexivity|]. cbn [section_events events_from].
  pose proof (starts_from (zlen (l :: sec)) sec (0 + 1) ltac:(lia)) as H. unfold starts in *. cbn [filter ev_index].
  change (0 =? 0) with true. cbn iota. rewrite zlen_cons. lia.
Qed.
Lemma starts_nonneg evs : 0 <= starts evs.
Proof. apply zlen_nonneg. Qed.

Lemma starts_zero secs : starts (flat_map (section_events false) secs) = 0 -> concat secs = [].
Proof.
  induction secs as [|s secs IH]; [reflexivity|]. cbn [flat_map concat]. rewrite starts_app, starts_section. intros H.
  pose proof (starts_nonneg (flat_map (section_events false) secs)). destruct s; [|lia]. apply IH. lia.
Qed.

Lemma starts_one secs : Forall (section_ok false) secs ->
  starts (flat_map (section_events false) secs) <= 1 -> NoDup (map l_seq (concat secs)).
Proof.
  induction 1 as [|s secs Hs H IH]; intros E; [constructor|].
  cbn [flat_map concat] in *. rewrite starts_app, starts_section in E.
  destruct s as [|l s]; [apply IH; lia|].
  rewrite starts_zero by (pose proof (starts_nonneg (flat_map (section_events false) secs)); lia).
  rewrite app_nil_r. destruct Hs as [-> _]. apply zseq_NoDup.
Qed.

Lemma tree_NoDup ls t : buildTree ls = Ok t -> NoDup (map l_seq ls) -> NoDup (map l_seq (flat_map records t)).
Proof.
  intros H Hn. destruct (buildTree_suffix ls t H) as (lost & kept & -> & -> & _).
  apply NoDup_map_filter. rewrite map_app in Hn. now apply NoDup_app_r in Hn.
Qed.

Lemma decode_seqids inflate kind procs o s f n rest evs : bytes_ok s -> o_skip_layer o = false ->
  Decode inflate kind procs o s = (Ok (f, n, rest), evs) ->
  zlen (filter (fun e => ev_index e =? 0) evs) <= 1 ->
  NoDup (map l_seq (flat_map records (f_layer f))).
Proof.
  intros Hs Ho H Hz. destruct (decode_callbacks _ _ _ _ _ _ _ _ _ Hs H) as (secs & H1 & H2 & ->).
  rewrite Ho in *. eapply tree_NoDup; [exact H2|]. now apply starts_one.
Qed.
