(** Files followed by other data, and incomplete files. *)
From Verif Require Import Base BaseFacts MUtil SUtil PUtil MRect MReader PReader MPicker MConfig SConfig PConfig PConfig2
  MCompress MLayer MApi SLayer PLayer PDecode STail PTail1.

Section zl.
  Variable inflate : bytes -> Z -> option (bytes * Z).
  Variable procs : nat.
  Variable cfg : config.
  Variable o : options.

  Lemma zl_channel l st chm chs j : zl inflate (read_channel procs cfg l st chm chs j).
  Proof.
    unfold read_channel. cbv zeta. do 4 (zstep; [repeat zstep|]).
    set (f := fun x : bytes * Z => _).
    assert (forall x, zl inflate (f x)) as Hf by (intros [data n1]; cbn [f]; repeat zstep).
    destruct (2 <? cd_len j) eqn:E; [|apply zl_bind; [exact I|exact Hf]].
    apply zl_decompress; [lia|exact Hf|].
    intros data n1. cbn [f]. apply claims_bind. replace (2 <=? cd_len j) with true by lia.
    intros kind s x rest evs. destruct (2 + n1 <? cd_len j) eqn:E1; cbn [rdiscard run].
    - replace (cd_len j - (2 + n1) <? 0) with false by lia. destruct (zlen s <? cd_len j - (2 + n1)) eqn:E2; [discriminate|]. lia.
    - intros _. pose proof (zlen_nonneg s). lia.
  Qed.
  Lemma zl_image total ls : forall i st rd, zl inflate (readLayerImage procs cfg total i st rd ls).
  Proof.
    induction ls as [|[l js] ls IH]; intros i st rd; cbn [readLayerImage]; [exact I|].
    assert (forall js st chm chs rd, zl inflate (read_channels procs cfg l st chm chs rd js)) as K.
    { clear. induction js as [|j js IH]; intros; cbn [read_channels]; [exact I|]. zstep; [apply zl_channel|]. repeat (apply IH || zstep). }
    repeat (apply K || apply IH || zstep).
  Qed.
  Section rec.
    Variable radd : Z -> P (infomap * list lrec * Z).
    Hypothesis zl_radd : forall n, zl inflate (radd n).
    Lemma zl_record i : zl inflate (read_record cfg radd i).
    Proof using zl_radd.
      assert (forall k, zl inflate (read_chdata cfg k)) as K by (induction k; cbn [read_chdata]; repeat (assumption || zstep)).
      unfold read_record, readLayerExtraData, readPascalString, adjustAlign4. cbv zeta.
      repeat (apply K || apply zl_rect_signed || apply zl_readLayerMask || apply zl_radd || zstep).
    Qed.
    Lemma zl_info : zl inflate (readLayerInfo procs cfg o radd).
    Proof using zl_radd.
      assert (forall k i, zl inflate (read_records cfg radd i k)) as K.
      { induction k as [|k IH]; intros i; cbn [read_records]; [exact I|]. zstep; [apply zl_record|]. repeat (apply IH || zstep). }
      unfold readLayerInfo. cbv zeta. repeat (apply K || apply zl_image || zstep).
    Qed.
  End rec.
  Lemma zl_additional f : forall n rd infos layers, zl inflate (readAdditional procs cfg o f n rd infos layers).
  Proof.
    induction f as [|f IH]; intros; cbn [readAdditional]; [exact I|]. unfold read_info_data. cbv zeta.
    repeat (apply IH || apply zl_scan || (apply zl_info; intros) || zstep).
  Qed.
  Lemma zl_section f : zl inflate (readLayerAndMaskInfo procs cfg o f).
  Proof.
    unfold readLayerAndMaskInfo. cbv zeta. repeat (apply zl_additional || (apply zl_info; intros) || zstep).
  Qed.
End zl.

(** * Programs that read with ReadFull only, on the way they take on [s] *)
Fixpoint onlyfull {Ev A} (p : prog Ev A) (s : bytes) : Prop :=
  match p with
  | RFull n k => n <= zlen s -> onlyfull (k (firstn (Z.to_nat n) s)) (skipn (Z.to_nat n) s)
  | RSome _ _ | RDiscard _ _ | RZlib _ _ _ => False
  | Emit _ k => onlyfull k s
  | _ => True
  end.
Lemma onlyfull_bind inflate kind {Ev A B} (p : prog Ev A) (f : A -> prog Ev B) : forall s, onlyfull p s ->
  (forall a rest evs, run inflate kind p s = (Ok (a, rest), evs) -> onlyfull (f a) rest) -> onlyfull (bind p f) s.
Proof.
  induction p; cbn [onlyfull bind]; intros s Hp Hf; auto.
  - eapply Hf. reflexivity.
  - intros Hn. apply H; [now apply Hp|]. intros a rest evs E. eapply Hf. cbn [run]. replace (zlen s <? n) with false by lia. exact E.
  - apply IHp; [exact Hp|]. intros a rest evs E. eapply Hf. cbn [run]. rewrite E. reflexivity.
Qed.
Lemma onlyfull_lift {Ev A} (x : option A) s : onlyfull (lift x : prog Ev A) s.
Proof. destruct x; exact I. Qed.
Lemma onlyfull_outcome {Ev A} (x : outcome A) s : onlyfull (of_outcome x : prog Ev A) s.
Proof. destruct x; exact I. Qed.
Lemma onlyfull_make {Ev} n s : onlyfull (make_ok n : prog Ev unit) s.
Proof. unfold make_ok. destruct (_ || _); exact I. Qed.
Lemma full_more inflate {Ev A} kind (p : prog Ev A) t : forall s a rest evs, onlyfull p s ->
  run inflate kind p s = (Ok (a, rest), evs) -> run inflate kind p (s ++ t) = (Ok (a, rest ++ t), evs).
Proof.
  induction p; cbn [onlyfull run]; intros s a1 rest evs Ho E; try discriminate; try easy.
  - injection E as <- <- <-. reflexivity.
  - destruct (zlen s <? n) eqn:El; [discriminate|]. rewrite zlen_app. pose proof (zlen_nonneg t). replace (zlen s + zlen t <? n) with false by lia.
    destruct (take_app n s t ltac:(lia)) as [-> ->]. apply H; [apply Ho; lia|exact E].
  - destruct (run inflate kind p s) as [[[a2 s2]|?| |] ev2] eqn:E2; try discriminate. injection E as -> -> <-.
    now rewrite (IHp _ _ _ _ Ho E2).
Qed.
Lemma full_less inflate {Ev A} kind (p : prog Ev A) u : forall s a rest evs a' rest' evs', onlyfull p (s ++ u) ->
  run inflate kind p (s ++ u) = (Ok (a, rest), evs) -> run inflate kind p s = (Ok (a', rest'), evs') -> zlen u <= zlen rest.
Proof.
  induction p; cbn [onlyfull run]; intros s a1 rest evs a' rest' evs' Ho E E'; try discriminate; try easy.
  - injection E as <- <- <-. rewrite zlen_app. pose proof (zlen_nonneg s). lia.
  - destruct (zlen s <? n) eqn:El; [discriminate|]. destruct (zlen (s ++ u) <? n) eqn:El2; [discriminate|].
    destruct (take_app n s u ltac:(lia)) as [F1 F2]. rewrite F1, F2 in *. eapply H; [apply Ho; lia|exact E|exact E'].
  - destruct (run inflate kind p (s ++ u)) as [[[a2 s2]|?| |] ev2] eqn:E2; try discriminate.
    destruct (run inflate kind p s) as [[[a3 s3]|?| |] ev3] eqn:E3; try discriminate. injection E as -> -> <-. injection E' as -> -> <-.
    eapply IHp; [exact Ho|exact E2|exact E3].
Qed.

(** The merged image is read with ReadFull only, unless it is compressed by zlib. *)
Lemma merged_full (inflate : bytes -> Z -> option (bytes * Z)) (kind : rkind) procs cfg m s : plain_method m -> onlyfull (decode_merged procs cfg) (0 :: m :: s).
Proof.
  intros Hm. unfold decode_merged. cbv zeta.
  apply (onlyfull_bind inflate kind); [apply onlyfull_make|]. intros [] r0 e0 E0.
  assert (r0 = 0 :: m :: s) as -> by (unfold make_ok in E0; destruct (_ || _); [discriminate|]; now injection E0).
  apply (onlyfull_bind inflate kind); [apply onlyfull_lift|]. intros gk r1 e1 E1.
  assert (r1 = 0 :: m :: s) as -> by (destruct (findGrayPicker _); cbn in E1; [|discriminate]; now injection E1).
  apply (onlyfull_bind inflate kind); [apply onlyfull_outcome|]. intros k r2 e2 E2.
  assert (r2 = 0 :: m :: s) as -> by (destruct (makePicker cfg); cbn in E2; try discriminate; now injection E2).
  apply (onlyfull_bind inflate kind); [apply onlyfull_lift|]. intros pk0 r3 e3 E3.
  assert (r3 = 0 :: m :: s) as -> by (destruct (setSource _ _ _); cbn in E3; [|discriminate]; now injection E3).
  apply (onlyfull_bind inflate kind); [cbn; auto|]. intros b r4 e4 E4.
  assert (b = [0; m] /\ r4 = s) as [-> ->].
  { unfold rfull in E4. cbn [run] in E4. replace (zlen (0 :: m :: s) <? 2) with false in E4 by (rewrite !zlen_cons; pose proof (zlen_nonneg s); lia).
    now injection E4. }
  apply (onlyfull_bind inflate kind); [apply onlyfull_lift|]. intros cm r5 e5 E5.
  assert (cm = m /\ r5 = s) as [-> ->].
  { destruct Hm as [-> | ->]; vm_compute in E5; now injection E5. }
  apply (onlyfull_bind inflate kind).
  - assert (i16 m = m) as -> by (destruct Hm as [-> | ->]; reflexivity). unfold decompress.
    destruct Hm as [-> | ->]; cbn [Z.eqb Pos.eqb].
    + cbn. auto.
    + unfold decodePackBits. cbv zeta. apply (onlyfull_bind inflate kind); [apply onlyfull_make|]. intros ? ? ? _.
      apply (onlyfull_bind inflate kind); [cbn; auto|]. intros ? ? ? _. apply (onlyfull_bind inflate kind); [apply onlyfull_lift|]. intros ? ? ? _.
      apply (onlyfull_bind inflate kind); [apply onlyfull_make|]. intros ? ? ? _. apply (onlyfull_bind inflate kind); [cbn; auto|]. intros ? ? ? _.
      apply (onlyfull_bind inflate kind); [apply onlyfull_outcome|]. intros. exact I.
  - intros [data l] r6 e6 _. apply (onlyfull_bind inflate kind); [apply onlyfull_lift|]. intros. exact I.
Qed.

(** * The parts of Decode *)
Definition merged_of inflate kind procs (o : options) cfg tree info l r1 (f : psdfile) n rest evs2 : Prop :=
  if o_skip_merged o then f = Psd cfg [] tree info [] None /\ n = l /\ rest = r1 /\ evs2 = []
  else exists data chm pk l3, run inflate kind (decode_merged procs cfg) r1 = (Ok ((data, chm, pk, l3), rest), evs2) /\
    f = Psd cfg chm tree info data (Some pk) /\ n = l + l3.

Lemma decode_parts inflate kind procs o fuel s f n rest evs :
  run inflate kind (decode_prog fuel procs o) s = (Ok (f, n, rest), evs) <->
  exists cfg l r0 e0 tree info l2 r1 e1 e2,
    run inflate kind (decodeConfig_prog fuel) s = (Ok ((cfg, l), r0), e0) /\ o_config_loaded o cfg = false /\
    run inflate kind (readLayerAndMaskInfo procs cfg o fuel) r0 = (Ok ((tree, info, l2), r1), e1) /\
    merged_of inflate kind procs o cfg tree info (l + l2) r1 f n rest e2 /\ evs = e0 ++ e1 ++ e2.
Proof.
  unfold decode_prog, merged_of. rewrite run_bind. split.
  - destruct (run inflate kind (decodeConfig_prog fuel) s) as [[[[cfg l] r0]|?| |] e0] eqn:E0; cbn [run_next]; try discriminate.
    destruct (o_config_loaded o cfg) eqn:Ec; [cbn; discriminate|]. rewrite run_bind.
    destruct (run inflate kind (readLayerAndMaskInfo procs cfg o fuel) r0) as [[[[[tree info] l2] r1]|?| |] e1] eqn:E1; cbn [run_next]; try discriminate.
    destruct (o_skip_merged o) eqn:Es.
    + cbn [run]. intros [= <- <- <- <-]. exists cfg, l, r0, e0, tree, info, l2, r1, e1, []. rewrite E1. auto 10.
    + rewrite run_bind. destruct (run inflate kind (decode_merged procs cfg) r1) as [[[[[[data chm] pk] l3] r2]|?| |] e2] eqn:E2; cbn [run_next]; try discriminate.
      cbn [run]. intros [= <- <- <- <-]. exists cfg, l, r0, e0, tree, info, l2, r1, e1, (e2 ++ []). rewrite E1. do 4 (split; [auto|]); [|reflexivity].
      exists data, chm, pk, l3. rewrite E2, app_nil_r. auto.
  - intros (cfg & l & r0 & e0 & tree & info & l2 & r1 & e1 & e2 & -> & Ec & E1 & Hm & ->). cbn [run_next]. rewrite Ec, run_bind, E1. cbn [run_next].
    destruct (o_skip_merged o).
    + destruct Hm as (-> & -> & -> & ->). reflexivity.
    + destruct Hm as (data & chm & pk & l3 & E2 & -> & ->). rewrite run_bind, E2. cbn [run_next run]. now rewrite app_nil_r.
Qed.

Lemma section_fuel inflate kind procs cfg o fuel s : bytes_ok s -> zlen s < Z.of_nat fuel ->
  run inflate kind (readLayerAndMaskInfo procs cfg o fuel) s = run inflate kind (readLayerAndMaskInfo procs cfg o (fuel_for s)) s.
Proof.
  intros Hs Hf. apply le_run; [apply le_section; unfold fuel_for, zlen in *; lia|].
  pose proof (wp_run inflate True kind _ _ s [] Hs
    (wp_readLayerAndMaskInfo procs cfg o (fuel_for s) (zlen s) [] (fuel_for_enough s))) as W.
  destruct (run _ _ _ _) as [[?|?| |] ?]; easy.
Qed.
Lemma section_nonempty inflate kind procs cfg o fuel s x evs : run inflate kind (readLayerAndMaskInfo procs cfg o fuel) s = (Ok x, evs) -> s <> [].
Proof.
  intros E ->. unfold readLayerAndMaskInfo, rfull in E. cbn [bind run] in E. rewrite zlen_nil in E. pose proof (intSize_cases cfg).
  replace (0 <? intSize cfg) with true in E by lia. discriminate.
Qed.
Lemma merged_nonempty inflate kind procs cfg s x evs : run inflate kind (decode_merged procs cfg) s = (Ok x, evs) -> 2 <= zlen s.
Proof.
  unfold decode_merged. cbv zeta. rewrite run_bind. unfold make_ok at 1. destruct (_ || _); cbn [run_next run]; [discriminate|].
  rewrite run_bind. destruct (findGrayPicker _); cbn [run_next run lift]; [|discriminate].
  rewrite run_bind. destruct (makePicker cfg); cbn [run_next run of_outcome]; try discriminate.
  rewrite run_bind. destruct (setSource _ _ _); cbn [run_next run lift]; [|discriminate].
  rewrite run_bind. unfold rfull at 1. cbn [run]. destruct (zlen s <? 2) eqn:E; [cbn; discriminate|]. lia.
Qed.

(** The unread part after the layers is determined by the length of the section. *)
Lemma section_rest inflate kind procs cfg o fuel s u tree info c r1 e1 tree' info' c' r1' e1' : bytes_ok (s ++ u) -> zlen (s ++ u) < Z.of_nat fuel ->
  run inflate kind (readLayerAndMaskInfo procs cfg o fuel) (s ++ u) = (Ok ((tree, info, c), r1), e1) ->
  run inflate kind (readLayerAndMaskInfo procs cfg o fuel) s = (Ok ((tree', info', c'), r1'), e1') -> r1 = r1' ++ u.
Proof.
  intros Hs Hf E E'. assert (bytes_ok s) as Hs' by (now apply Forall_app in Hs).
  rewrite section_fuel in E, E'; auto; [|rewrite zlen_app in Hf; pose proof (zlen_nonneg u); lia].
  apply section_exact in E as (lf & bd & Ea & L1 & L2 & _); [|exact Hs].
  apply section_exact in E' as (lf' & bd' & Eb & L1' & L2' & _); [|exact Hs'].
  rewrite Eb, <- !app_assoc in Ea.
  assert (lf' = lf) as ->.
  { apply (f_equal (firstn (length lf))) in Ea. rewrite !firstn_app in Ea. unfold zlen in L1, L1'.
    replace (length lf - length lf')%nat with 0%nat in Ea by (destruct (psb cfg); lia). rewrite Nat.sub_diag, !firstn_O, !app_nil_r, firstn_all in Ea.
    rewrite firstn_all2 in Ea by (destruct (psb cfg); lia). exact Ea. }
  apply app_inv_head in Ea.
  assert (length bd' = length bd) as Hb by (unfold zlen in *; lia).
  apply (f_equal (skipn (length bd))) in Ea. rewrite !skipn_app, Hb, Nat.sub_diag in Ea. rewrite skipn_all, skipn_all2 in Ea by lia. cbn in Ea. now rewrite Ea.
Qed.

Lemma method_rest inflate kind procs o fuel s m cfg l r0 e0 tree info l2 r1 e1 : fuel = fuel_for s ->
  merged_method inflate kind procs o s m ->
  run (Ev := event) inflate kind (decodeConfig_prog fuel) s = (Ok ((cfg, l), r0), e0) ->
  run inflate kind (readLayerAndMaskInfo procs cfg o fuel) r0 = (Ok ((tree, info, l2), r1), e1) ->
  exists r2, r1 = 0 :: m :: r2.
Proof.
  intros -> (f & n & rest & evs & D) E0 E1. unfold Decode in D. apply decode_parts in D as (cfg' & l' & r0' & e0' & tree' & info' & l2' & r1' & e1' & e2' & E0' & _ & E1' & Hm & _).
  rewrite E0 in E0'. injection E0' as <- <- <- <-.
  assert (run inflate kind (readLayerAndMaskInfo procs cfg (Opts (o_skip_layer o) true (o_config_loaded o)) (fuel_for s)) r0 =
    run inflate kind (readLayerAndMaskInfo procs cfg o (fuel_for s)) r0) as Eo.
  { clear. destruct o as [a b c]. cbn. assert (forall f n rd i ls, readAdditional procs cfg (Opts a true c) f n rd i ls = readAdditional procs cfg (Opts a b c) f n rd i ls) as K.
    { reflexivity. }
    reflexivity. }
  rewrite Eo, E1 in E1'. injection E1' as <- <- <- <- <-. unfold merged_of in Hm. cbn in Hm. destruct Hm as (_ & _ & <- & _). now exists rest.
Qed.
