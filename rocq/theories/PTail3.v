(** C85: files followed by other data, and incomplete files. *)
From Verif Require Import Base BaseFacts MUtil SUtil PUtil MRect MReader PReader MPicker MConfig SConfig PConfig PConfig2
  MCompress MLayer MApi SLayer PLayer PDecode STail PTail1 PTail2.

Lemma config_fuel inflate {Ev} kind f g s x evs : (f <= g)%nat -> run (Ev := Ev) inflate kind (decodeConfig_prog f) s = (Ok x, evs) ->
  run (Ev := Ev) inflate kind (decodeConfig_prog g) s = (Ok x, evs).
Proof. intros Hf E. rewrite (le_run inflate kind (decodeConfig_prog f) (decodeConfig_prog g) s); [exact E|now apply le_config|now rewrite E]. Qed.
Lemma section_fuel' inflate kind procs cfg o f g s x evs : (f <= g)%nat -> run inflate kind (readLayerAndMaskInfo procs cfg o f) s = (Ok x, evs) ->
  run inflate kind (readLayerAndMaskInfo procs cfg o g) s = (Ok x, evs).
Proof. intros Hf E. rewrite (le_run inflate kind (readLayerAndMaskInfo procs cfg o f) (readLayerAndMaskInfo procs cfg o g) s); [exact E|now apply le_section|now rewrite E]. Qed.
Lemma fuel_app s t : (fuel_for s <= fuel_for (s ++ t))%nat.
Proof. unfold fuel_for. rewrite app_length. lia. Qed.

Lemma trailing inflate kind procs o s t f n rest evs : Decode inflate kind procs o s = (Ok (f, n, rest), evs) ->
  (o_skip_merged o = true -> rest <> []) ->
  (o_skip_merged o = false -> exists m, plain_method m /\ merged_method inflate kind procs o s m) ->
  Decode inflate kind procs o (s ++ t) = (Ok (f, n, rest ++ t), evs).
Proof.
  intros D Hr Hm. unfold Decode in *. apply decode_parts in D as (cfg & l & r0 & e0 & tree & info & l2 & r1 & e1 & e2 & E0 & Ec & E1 & E2 & ->).
  apply decode_parts. exists cfg, l, (r0 ++ t), e0, tree, info, l2, (r1 ++ t), e1, e2.
  pose proof (fuel_app s t) as Hf. split; [|split; [exact Ec|split; [|split; [|reflexivity]]]].
  - apply run_more; [apply zl_config|now apply config_fuel with (f := fuel_for s)|now apply (section_nonempty _ _ _ _ _ _ _ _ _ E1)].
  - apply run_more; [apply zl_section|now apply section_fuel' with (f := fuel_for s)|].
    unfold merged_of in E2. destruct (o_skip_merged o).
    + destruct E2 as (_ & _ & -> & _). now apply Hr.
    + destruct E2 as (data & chm & pk & l3 & E2 & _). apply merged_nonempty in E2. intros ->. rewrite zlen_nil in E2. lia.
  - unfold merged_of in *. destruct (o_skip_merged o) eqn:Es.
    + destruct E2 as (-> & -> & -> & ->). auto.
    + destruct E2 as (data & chm & pk & l3 & E2 & -> & ->). exists data, chm, pk, l3. split; [|auto].
      destruct (Hm eq_refl) as (m & Pm & Mm). destruct (method_rest _ _ _ _ _ _ _ _ _ _ _ _ _ _ _ _ eq_refl Mm E0 E1) as [r2 ->].
      apply full_more; [|exact E2]. now apply merged_full.
Qed.

(** ** zlib *)
Lemma zlib_more inflate a t L w out c : steady inflate -> inflate_ok inflate (ztake L a) w = Some (out, c) ->
  exists c', inflate_ok inflate (ztake L (a ++ t)) w = Some (out, c').
Proof.
  intros Hst E. destruct (Z_le_gt_dec L (zlen a)) as [H|H].
  - exists c. now rewrite ztake_app.
  - assert (exists u, ztake L (a ++ t) = a ++ u) as [u ->].
    { unfold ztake. destruct (_ <=? _); [now exists t|]. rewrite firstn_app. rewrite firstn_all2 by (unfold zlen in *; lia). eauto. }
    assert (ztake L a = a) as Ea by (unfold ztake; now replace (zlen a <=? L) with true by lia). rewrite Ea in E.
    unfold inflate_ok in *. destruct (inflate a w) as [[o2 c2]|] eqn:Ei; [|discriminate]. destruct (_ && _ && _) eqn:E3; [|discriminate]. injection E as -> ->.
    destruct (Hst a u w out c Ei) as (c' & -> & Hc'). exists c'. replace ((zlen out =? w) && (0 <=? c') && (c' <=? zlen (a ++ u))) with true by lia. reflexivity.
Qed.
Lemma decompress_more inflate kind procs cm n hint r d ch large s t data l rest evs : steady inflate ->
  run inflate kind (decompress procs cm n hint r d ch large) s = (Ok ((data, l), rest), evs) ->
  exists l' rest', run inflate kind (decompress procs cm n hint r d ch large) (s ++ t) = (Ok ((data, l'), rest'), evs).
Proof.
  intros Hst. unfold decompress. destruct (cm =? 0) eqn:E0; [|destruct (cm =? 1) eqn:E1].
  - intros E. exists l, (rest ++ t). apply full_more; [|exact E]. cbn. auto.
  - intros E. exists l, (rest ++ t). apply full_more; [|exact E].
    unfold decodePackBits. cbv zeta. apply (onlyfull_bind inflate kind); [apply onlyfull_make|]. intros ? ? ? _.
    apply (onlyfull_bind inflate kind); [cbn; auto|]. intros ? ? ? _. apply (onlyfull_bind inflate kind); [apply onlyfull_lift|]. intros ? ? ? _.
    apply (onlyfull_bind inflate kind); [apply onlyfull_make|]. intros ? ? ? _. apply (onlyfull_bind inflate kind); [cbn; auto|]. intros ? ? ? _.
    apply (onlyfull_bind inflate kind); [apply onlyfull_outcome|]. intros. exact I.
  - destruct (cm =? 2).
    + unfold decodeZLIB. cbn [run]. destruct (inflate_ok inflate (ztake (zlib_limit hint) s) n) as [[out c]|] eqn:Ei; [|discriminate].
      intros [= <- <- <- <-]. destruct (zlib_more _ _ t _ _ _ _ Hst Ei) as [c' ->]. eauto.
    + destruct (cm =? 3); [|discriminate]. unfold decodeZLIB. cbn [bind run].
      destruct (inflate_ok inflate (ztake (zlib_limit hint) s) n) as [[out c]|] eqn:Ei; [|discriminate].
      destruct (zlib_more _ _ t _ _ _ _ Hst Ei) as [c' ->]. destruct (decodeDelta out (rdx r) d); cbn [of_outcome bind run]; try discriminate.
      intros [= <- <- <- <-]. eauto.
Qed.
Lemma merged_more inflate kind procs cfg s t data chm pk l rest evs : steady inflate ->
  run inflate kind (decode_merged procs cfg) s = (Ok ((data, chm, pk, l), rest), evs) ->
  exists l' rest', run inflate kind (decode_merged procs cfg) (s ++ t) = (Ok ((data, chm, pk, l'), rest'), evs).
Proof.
  intros Hst E. pose proof (merged_nonempty _ _ _ _ _ _ _ E) as L. revert E.
  unfold decode_merged. cbv zeta. rewrite !run_bind. unfold make_ok at 1 2. destruct (_ || _); cbn [run_next run]; [discriminate|].
  rewrite !run_bind. destruct (findGrayPicker _); cbn [run_next run lift]; [|discriminate].
  rewrite !run_bind. destruct (makePicker cfg); cbn [run_next run of_outcome]; try discriminate.
  rewrite !run_bind. destruct (setSource _ _ _); cbn [run_next run lift]; [|discriminate].
  rewrite !run_bind. unfold rfull at 1 2. cbn [run]. rewrite zlen_app. pose proof (zlen_nonneg t).
  replace (zlen s <? 2) with false by lia. replace (zlen s + zlen t <? 2) with false by lia. cbn [run_next].
  destruct (take_app 2 s t L) as [-> ->]. rewrite !run_bind. destruct (readUint16 _ 0); cbn [run_next run lift]; [|discriminate].
  rewrite !run_bind. match goal with |- context [run_next _ _ _ (run inflate kind ?p (skipn (Z.to_nat 2) s))] => destruct (run inflate kind p (skipn (Z.to_nat 2) s)) as [[[[dt l1] r1]|?| |] e1] eqn:E1 end; cbn [run_next]; try discriminate.
  destruct (decompress_more _ _ _ _ _ _ _ _ _ _ _ t _ _ _ _ Hst E1) as (l' & r' & ->). cbn [run_next]. rewrite !run_bind.
  destruct (setSource _ _ _); cbn [run_next run lift]; [|discriminate]. intros [= <- <- <- <- <- <-]. eauto.
Qed.
Lemma trailing_zip inflate kind procs o s t f n rest evs : steady inflate -> o_skip_merged o = false -> Decode inflate kind procs o s = (Ok (f, n, rest), evs) ->
  exists n' rest', Decode inflate kind procs o (s ++ t) = (Ok (f, n', rest'), evs).
Proof.
  intros Hst Hs D. unfold Decode in *. apply decode_parts in D as (cfg & l & r0 & e0 & tree & info & l2 & r1 & e1 & e2 & E0 & Ec & E1 & E2 & ->).
  unfold merged_of in E2. rewrite Hs in E2. destruct E2 as (data & chm & pk & l3 & E2 & -> & ->).
  destruct (merged_more _ _ _ _ _ t _ _ _ _ _ _ Hst E2) as (l3' & rest' & E3).
  exists (l + l2 + l3'), rest'. apply decode_parts. exists cfg, l, (r0 ++ t), e0, tree, info, l2, (r1 ++ t), e1, e2.
  pose proof (fuel_app s t) as Hf. split; [|split; [exact Ec|split; [|split; [|reflexivity]]]].
  - apply run_more; [apply zl_config|now apply config_fuel with (f := fuel_for s)|now apply (section_nonempty _ _ _ _ _ _ _ _ _ E1)].
  - apply run_more; [apply zl_section|now apply section_fuel' with (f := fuel_for s)|].
    apply merged_nonempty in E2. intros ->. rewrite zlen_nil in E2. lia.
  - unfold merged_of. rewrite Hs. exists data, chm, pk, l3'. auto.
Qed.

(** ** Incomplete files *)
Lemma truncated inflate kind procs o s k f n rest evs : bytes_ok s -> Decode inflate kind procs o s = (Ok (f, n, rest), evs) ->
  (o_skip_merged o = false -> exists m, plain_method m /\ merged_method inflate kind procs o s m) ->
  0 <= k < n -> forall x, fst (Decode inflate kind procs o (firstn (Z.to_nat k) s)) <> Ok x.
Proof.
  intros Hs D Hm Hk [[f' n'] rest'] D'. destruct (Decode inflate kind procs o (firstn (Z.to_nat k) s)) as [d' evs'] eqn:E'. cbn in D'. subst d'.
  destruct (decode_count _ _ _ _ _ _ _ _ _ Hs D) as (taken & Et & Lt).
  pose proof (firstn_skipn (Z.to_nat k) s) as Es. set (s' := firstn (Z.to_nat k) s) in *. set (u := skipn (Z.to_nat k) s) in *.
  assert (zlen rest < zlen u) as Hu.
  { assert (zlen u = zlen s - k) as ->. { unfold u. rewrite zlen_skipn. rewrite Et, zlen_app. pose proof (zlen_nonneg rest). lia. } rewrite Et, zlen_app. lia. }
  unfold Decode in *. apply decode_parts in D as (cfg & l & r0 & e0 & tree & info & l2 & r1 & e1 & e2 & E0 & Ec & E1 & E2 & ->).
  apply decode_parts in E' as (cfg' & l' & r0' & e0' & tree' & info' & l2' & r1' & e1' & e2' & E0' & Ec' & E1' & E2' & ->).
  pose proof (fuel_app s' u) as Hf. rewrite Es in Hf.
  assert (cfg' = cfg /\ r0 = r0' ++ u) as [-> ->].
  { apply (config_fuel _ _ _ (fuel_for s)) in E0'; [|exact Hf].
    pose proof (run_more inflate kind _ u (zl_config inflate _) _ _ _ _ E0' (section_nonempty _ _ _ _ _ _ _ _ _ E1')) as E3.
    rewrite Es, E0 in E3. injection E3 as -> _ -> _. auto. }
  assert (bytes_ok (r0' ++ u) /\ zlen (r0' ++ u) <= zlen s) as [Hb Hl].
  { apply run_suffix in E0 as [pre Ep]. rewrite Ep in Hs |- *. apply Forall_app in Hs as [_ Hs]. split; [exact Hs|]. rewrite (zlen_app pre). pose proof (zlen_nonneg pre). lia. }
  assert (r1 = r1' ++ u) as ->.
  { apply (section_fuel' _ _ _ _ _ _ (fuel_for s)) in E1'; [|exact Hf]. refine (section_rest _ _ _ _ _ (fuel_for s) _ _ _ _ _ _ _ _ _ _ _ _ Hb _ E1 E1'). pose proof (fuel_for_enough s). lia. }
  unfold merged_of in *. destruct (o_skip_merged o).
  - destruct E2 as (_ & _ & -> & _). rewrite zlen_app in Hu. pose proof (zlen_nonneg r1'). lia.
  - destruct E2 as (data & chm & pk & l3 & E2 & _ & _). destruct E2' as (data' & chm' & pk' & l3' & E2' & _ & _).
    destruct (Hm eq_refl) as (m & Pm & Mm). destruct (method_rest _ _ _ _ _ _ _ _ _ _ _ _ _ _ _ _ eq_refl Mm E0 E1) as [r2 Er].
    pose proof (full_less inflate kind (decode_merged procs cfg) u r1' _ _ _ _ _ _ ltac:(rewrite Er; now apply merged_full) E2 E2'). lia.
Qed.
