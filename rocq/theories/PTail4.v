(** Seekable readers: the count is the movement of the position, also for discards that
    go backwards or beyond the end. *)
From Verif Require Import Base BaseFacts MUtil SUtil PUtil MRect MReader PReader MPicker MConfig SConfig PConfig PConfig2
  MCompress MLayer MApi SLayer PLayer PDecode STail PTail1 PTail2 PTail3.

Fixpoint acc {Ev A} (Q : A -> Z -> Prop) (p : prog Ev A) (d : Z) : Prop :=
  match p with
  | Ret a => Q a d
  | RFull n k => forall b, bytes_ok b -> zlen b = Z.max 0 n -> acc Q (k b) (d + zlen b)
  | RSome _ k => forall b, acc Q (k b) (d + zlen b)
  | RDiscard n k => acc Q (k n) (d + n)
  | RZlib _ _ k => forall b c, acc Q (k b c) (d + c)
  | Emit _ k => acc Q k d
  | _ => True
  end.
Lemma acc_mono {Ev A} (Q Q' : A -> Z -> Prop) (p : prog Ev A) : forall d, acc Q p d -> (forall a d', Q a d' -> Q' a d') -> acc Q' p d.
Proof. induction p; cbn [acc]; auto. Qed.
Lemma acc_bind {Ev A B} (Q : B -> Z -> Prop) (p : prog Ev A) (f : A -> prog Ev B) : forall d, acc (fun a d' => acc Q (f a) d') p d -> acc Q (bind p f) d.
Proof. induction p; cbn [acc bind]; auto. Qed.
Lemma acc_run inflate {Ev A} (Q : A -> Z -> Prop) (p : prog Ev A) data : bytes_ok data -> forall pos a pos' evs, acc Q p pos ->
  run_seek inflate p data pos = (Ok (a, pos'), evs) -> Q a pos'.
Proof.
  intros Hd. induction p; cbn [acc run_seek]; intros pos a1 pos' evs Ha E; try discriminate.
  - now injection E as <- <- <-.
  - destruct (zlen (zdrop pos data) <? n) eqn:El; [discriminate|]. eapply H; [|exact E]. apply Ha; [pose proof (bytes_ok_zdrop pos data Hd) as Hz; rewrite <- (firstn_skipn (Z.to_nat n) (zdrop pos data)) in Hz; now apply Forall_bytes_app in Hz|]. rewrite zlen_firstn. pose proof (zlen_nonneg (zdrop pos data)). lia.
  - destruct (zdrop pos data) as [|x t] eqn:Ez; [discriminate|]. eapply H; [|exact E]. apply Ha.
  - destruct (_ <? 0); [discriminate|]. eapply H; [|exact E]. apply Ha.
  - destruct (inflate_ok _ _ _) as [[out c]|]; [|discriminate]. eapply H; [|exact E]. apply Ha.
  - destruct (run_seek inflate p data pos) as [[[? ?]|?| |] ?] eqn:E2; try discriminate. injection E as -> -> <-. eauto.
Qed.

(** [cnt a] is the movement. *)
Definition moves {Ev A} (cnt : A -> Z) (p : prog Ev A) : Prop := forall d, acc (fun a d' => d' = d + cnt a) p d.
Lemma acc_moves {Ev A B} (cnt : A -> Z) (Q : B -> Z -> Prop) (p : prog Ev A) f d : moves cnt p -> (forall a, acc Q (f a) (d + cnt a)) -> acc Q (bind p f) d.
Proof. intros Hp Hf. apply acc_bind. eapply acc_mono; [apply Hp|]. cbn. intros a d' ->. apply Hf. Qed.
Lemma acc_lift {Ev A} (Q : A -> Z -> Prop) (x : option A) d : (forall a, x = Some a -> Q a d) -> acc Q (lift x : prog Ev A) d.
Proof. destruct x; cbn; auto. Qed.
Lemma acc_outcome {Ev A} (Q : A -> Z -> Prop) (x : outcome A) d : (forall a, Q a d) -> acc Q (of_outcome x : prog Ev A) d.
Proof. destruct x; cbn; auto. Qed.
Lemma acc_make {Ev} (Q : unit -> Z -> Prop) n d : (0 <= n -> Q tt d) -> acc Q (make_ok n : prog Ev unit) d.
Proof. unfold make_ok. destruct ((n <? 0) || (max_alloc <? n)) eqn:E; cbn; [auto|]. intros H. apply H. lia. Qed.
Lemma acc_rfull {Ev} (Q : bytes -> Z -> Prop) n d : (forall b, bytes_ok b -> zlen b = Z.max 0 n -> Q b (d + zlen b)) -> acc Q (rfull n : prog Ev bytes) d.
Proof. intros H b Hb Hc. cbn. auto. Qed.

Ltac astep :=
  match goal with
  | |- acc _ (bind _ _) _ => apply acc_bind
  | |- acc _ (lift _) _ => apply acc_lift; intros
  | |- acc _ (byte_of _) _ => unfold byte_of; apply acc_lift; intros
  | |- acc _ (rfull _) _ => apply acc_rfull; intros
  | |- acc _ (rsome _) _ => cbn [rsome acc]; intros
  | |- acc _ (make_ok _) _ => apply acc_make; intros
  | |- acc _ (of_outcome _) _ => apply acc_outcome; intros
  | |- acc _ (rdiscard _) _ => cbn [rdiscard acc]
  | |- acc _ (emit _) _ => cbn [emit acc]
  | |- acc _ (if ?c then _ else _) _ => destruct c eqn:?
  | |- acc _ (Ret _) _ => cbn [acc]
  | |- acc _ (Fail _) _ => exact I
  | |- acc _ Crash _ => exact I
  | |- acc _ Starve _ => exact I
  | |- acc _ (match ?x with (_, _) => _ end) _ => destruct x
  end.
Ltac fin := try (cbn [fst snd] in *; cbn beta in *; lia).

Lemma mv_signed b : moves (fun _ => 0) (read_rect_signed b).
Proof. intros d. unfold read_rect_signed. repeat astep; fin. Qed.
Lemma mv_unsigned b : moves (fun _ => 0) (read_rect_unsigned b).
Proof. intros d. unfold read_rect_unsigned. repeat astep; fin. Qed.
Lemma mv_real ln rm m : moves (fun a => snd a - (4 + rm)) (read_real_mask ln rm m).
Proof.
  intros d. unfold read_real_mask. cbv zeta. repeat astep; fin.
  eapply acc_mono; [apply mv_unsigned|]. cbn. intros. subst. lia.
Qed.
Lemma mv_tail ln rm m : moves (fun a => snd a - (4 + rm)) (read_mask_tail ln rm m).
Proof. intros d. unfold read_mask_tail. repeat (apply mv_real || astep); fin. Qed.
Lemma mv_density pr ln rm m set k c : (forall rm m, moves (fun a => snd a - (c + rm)) (k rm m)) -> c = 4 -> moves (fun a => snd a - (c + rm)) (read_density pr ln rm m set k).
Proof.
  intros H -> d. unfold read_density. repeat astep; fin; try apply H.
  eapply acc_mono; [apply H|]. cbn. intros. subst. lia.
Qed.
Lemma mv_feather pr ln rm m set k c : (forall rm m, moves (fun a => snd a - (c + rm)) (k rm m)) -> c = 4 -> moves (fun a => snd a - (c + rm)) (read_feather pr ln rm m set k).
Proof.
  intros H -> d. unfold read_feather. repeat astep; fin; try apply H.
  eapply acc_mono; [apply H|]. cbn. intros. subst. lia.
Qed.
Lemma mv_mask : moves snd readLayerMask.
Proof.
  intros d. unfold readLayerMask. cbv zeta. do 4 astep. astep; [astep; fin|]. astep; [repeat astep; fin|]. astep. astep.
  apply (acc_moves (fun _ => 0)); [apply mv_signed|]. intros r. astep; [astep; fin|]. do 4 astep. astep; [astep; fin|]. do 4 astep. astep.
  - astep; [astep; fin|]. do 4 astep. eapply acc_mono.
    + apply mv_density; [|reflexivity]. intros. apply mv_feather; [|reflexivity]. intros. apply mv_density; [|reflexivity]. intros. apply mv_feather; [|reflexivity]. intros. apply mv_tail.
    + cbn. intros. subst. lia.
  - eapply acc_mono; [apply mv_tail|]. cbn. intros. subst. lia.
Qed.
Lemma mv_packbits procs dest w lines large : moves snd (decodePackBits procs dest w lines large).
Proof. intros d. unfold decodePackBits. cbv zeta. repeat astep; fin. Qed.
Lemma mv_decompress procs cm n hint r d ch large : 0 <= n -> moves snd (decompress procs cm n hint r d ch large).
Proof.
  intros Hn x. unfold decompress, decodeZLIB. cbv zeta. repeat (apply mv_packbits || astep); fin.
  - cbn [acc]. intros. fin.
  - cbn [acc]. intros. repeat astep; fin.
Qed.
Lemma mv_pascal {Ev} : moves snd (readPascalString : prog Ev (bytes * Z)).
Proof. intros d. unfold readPascalString. repeat astep; fin. Qed.
Lemma mv_align4 {Ev} l : moves (fun x => x) (adjustAlign4 l : prog Ev Z).
Proof. intros d. unfold adjustAlign4. cbv zeta. repeat astep; fin. Qed.

Section layers.
  Variable procs : nat.
  Variable cfg : config.
  Variable o : options.
  Lemma mv_channel l st chm chs j : moves snd (read_channel procs cfg l st chm chs j).
  Proof.
    intros d. unfold read_channel. cbv zeta.
    apply (acc_moves (fun _ => if 2 <=? cd_len j then 2 else 0)); [intros d'; destruct (2 <=? cd_len j); repeat astep; fin|]. intros b.
    do 7 astep. match goal with |- acc _ (if ?c then _ else _) _ => destruct c eqn:E end.
    - eapply acc_mono; [apply mv_decompress; assumption|]. intros [data n1] d' ->. cbn [snd].
      apply (acc_moves (fun x => x)); [intros d'; repeat astep; fin|]. intros n2. repeat astep; fin.
    - cbn [acc]. apply (acc_moves (fun x => x)); [intros d'; repeat astep; fin|]. intros n2. repeat astep; fin.
  Qed.
  Lemma mv_channels l js : forall st chm chs rd, moves (fun a => snd a - rd) (read_channels procs cfg l st chm chs rd js).
  Proof.
    induction js as [|j js IH]; intros st chm chs rd d; cbn [read_channels]; [cbn [acc]; fin|].
    apply (acc_moves snd); [apply mv_channel|]. intros [[[st' chm'] chs'] n]. eapply acc_mono; [apply IH|]. cbn. intros. subst. lia.
  Qed.
  Lemma mv_image total ls : forall i st rd, moves (fun a => snd a - rd) (readLayerImage procs cfg total i st rd ls).
  Proof.
    induction ls as [|[l js] ls IH]; intros i st rd d; cbn [readLayerImage]; [cbn [acc]; fin|].
    astep. astep. apply (acc_moves (fun a => snd a - 0)); [apply mv_channels|]. intros [[[st' chm'] chs'] n]. do 6 astep. cbn [snd].
    apply (acc_moves (fun a => snd a - (rd + n))); [apply IH|]. intros [rest rd']. cbn [acc snd]. lia.
  Qed.
  Lemma mv_scan f : forall n rd, moves (fun a => snd a - rd) (scan_sig f n rd).
  Proof.
    induction f as [|f IH]; intros n rd d; cbn [scan_sig]; repeat astep; fin. eapply acc_mono; [apply IH|]. cbn. intros. subst. lia.
  Qed.
  Lemma lenSize_cases key large : lenSize key large = 4 \/ lenSize key large = 8.
  Proof. unfold lenSize. destruct (_ && _); auto. Qed.
  Lemma mv_info_data key : moves snd (read_info_data (psb cfg) key).
  Proof. intros d. unfold read_info_data. cbv zeta. pose proof (lenSize_cases key (psb cfg)). repeat astep; fin. Qed.
  Section rec.
    Variable radd : Z -> P (infomap * list lrec * Z).
    Hypothesis mv_radd : forall n, moves snd (radd n).
    Lemma mv_extra : moves snd (readLayerExtraData radd).
    Proof using mv_radd.
      intros d. unfold readLayerExtraData. cbv zeta. do 5 astep; [astep; fin|].
      apply (acc_moves snd); [apply mv_mask|]. intros [m l]. do 4 astep.
      apply (acc_moves (fun x => x)); [intros d'; repeat astep; fin|]. intros l2.
      apply (acc_moves snd); [apply mv_pascal|]. intros [nm l3].
      apply (acc_moves (fun x => x)); [apply mv_align4|]. intros pad.
      apply (acc_moves (fun a => snd a - (4 + l + 4 + l2 + l3 + pad))).
      - intros d'. astep; [|cbn [acc]; fin]. apply (acc_moves snd); [apply mv_radd|]. intros [[info ls] l4]. repeat astep; fin.
      - intros [info rd]. repeat astep; fin.
    Qed.
    Lemma mv_chdata k : moves (fun _ => Z.of_nat k * (2 + intSize cfg)) (read_chdata cfg k).
    Proof using.
      clear mv_radd radd.
      pose proof (intSize_cases cfg) as Hi. induction k as [|k IH]; intros d; cbn [read_chdata]; [cbn [acc]; lia|].
      do 6 astep. apply (acc_moves _ _ _ _ _ IH). intros rest. cbn [acc]. lia.
    Qed.
    Lemma mv_record i : moves snd (read_record cfg radd i).
    Proof using mv_radd.
      pose proof (intSize_cases cfg) as Hi. intros d. unfold read_record. cbv zeta. astep. astep.
      apply (acc_moves (fun _ => 0)); [apply mv_signed|]. intros r. do 4 astep.
      apply (acc_moves _ _ _ _ _ (mv_chdata _)). intros cds. do 2 astep. astep; [exact I|]. do 6 astep.
      apply (acc_moves snd); [apply mv_extra|]. intros [[[m mbcs] info] l].
      apply (acc_moves (fun _ => 0)).
      { intros d'. destruct (m_get list_eqb info key_luni) as [[|c t]|]; repeat astep; fin. }
      intros [[un nm] inf]. destruct (match m_get list_eqb inf key_clbl with Some (c :: t) => _ | _ => _ end) as [bce inf'].
      do 3 astep. cbn [acc snd].
      match goal with E : readUint16 _ _ = Some ?v |- _ => apply readUint16_range in E; [|easy] end.
      astep. cbn [acc snd]. rewrite Z2Nat.id by lia. fin.
    Qed.
    Lemma mv_records k : forall i, moves snd (read_records cfg radd i k).
    Proof using mv_radd.
      induction k as [|k IH]; intros i d; cbn [read_records]; [astep; fin|].
      apply (acc_moves snd); [apply mv_record|]. intros [[l cds] c].
      apply (acc_moves snd); [apply IH|]. intros [rest c']. astep. fin.
    Qed.
    Lemma mv_layerinfo : moves snd (readLayerInfo procs cfg o radd).
    Proof using mv_radd.
      pose proof (intSize_cases cfg). intros d. unfold readLayerInfo. cbv zeta. do 4 astep. astep; [astep; fin|]. do 4 astep.
      apply (acc_moves snd); [apply mv_records|]. intros [recs c].
      apply (acc_moves (fun a => snd a - (intSize cfg + 2 + c))).
      - intros d'. destruct (o_skip_layer o); [astep; fin|]. apply (acc_moves (fun a => snd a - 0)); [apply mv_image|]. intros [ls c2]. astep. fin.
      - intros [ls rd]. repeat astep; fin.
    Qed.
  End rec.
  Lemma mv_additional fuel : forall infoLen rd infos layers, moves (fun a => snd a - rd) (readAdditional procs cfg o fuel infoLen rd infos layers).
  Proof.
    induction fuel as [|fuel IH]; intros infoLen rd infos layers d; cbn [readAdditional]; [exact I|].
    astep; [|repeat astep; fin]. apply (acc_moves (fun a => snd a - rd)); [apply mv_scan|]. intros [f rd1].
    astep; [repeat astep; fin|]. do 2 astep. astep; [exact I|]. astep.
    - apply (acc_moves snd); [apply mv_layerinfo; intros n d'; eapply acc_mono; [apply IH|]; cbn; intros; subst; lia|]. intros [ls l].
      eapply acc_mono; [apply IH|]. cbn. intros. subst. fin.
    - apply (acc_moves snd); [apply mv_info_data|]. intros [data l].
      eapply acc_mono; [apply IH|]. cbn. intros. subst. fin.
  Qed.
  Lemma mv_section fuel : moves snd (readLayerAndMaskInfo procs cfg o fuel).
  Proof.
    pose proof (intSize_cases cfg). intros d. unfold readLayerAndMaskInfo. cbv zeta. do 4 astep. astep; [astep; fin|].
    apply (acc_moves (fun a => snd a - intSize cfg)).
    { intros d'. astep; [|astep; fin]. apply (acc_moves snd); [apply mv_layerinfo; intros n d''; eapply acc_mono; [apply mv_additional|]; cbn; intros; subst; lia|]. intros [ls l]. astep. fin. }
    intros [ls rd]. apply (acc_moves (fun a => a - rd)).
    { intros d'. repeat astep; fin. }
    intros rd2. apply (acc_moves (fun a => snd a - rd2)).
    { intros d'. astep; [|astep; fin]. apply (acc_moves (fun a => snd a - 0)); [apply mv_additional|]. intros [[info ls2] c].
      destruct ls as [sec|], ls2 as [|x t]; repeat astep; fin. }
    intros [[info ls'] rd3]. repeat astep; fin.
  Qed.
End layers.

Lemma mv_align2 {Ev} l : moves (fun x => x) (adjustAlign2 l : prog Ev Z).
Proof. intros d. unfold adjustAlign2. repeat astep; fin. Qed.
Lemma mv_resource {Ev} fuel : forall ln rd m, moves (fun a => snd a - rd) (resource_loop fuel ln rd m : prog Ev _).
Proof.
  induction fuel as [|fuel IH]; intros ln rd m d; cbn [resource_loop]; (astep; [|repeat astep; fin]); [exact I|].
  do 2 astep. astep; [exact I|]. do 2 astep. apply (acc_moves snd); [apply mv_pascal|]. intros [nm l1].
  apply (acc_moves (fun x => x)); [apply mv_align2|]. intros l2. do 6 astep.
  apply (acc_moves (fun x => x)); [apply mv_align2|]. intros l3. eapply acc_mono; [apply IH|]. cbn. intros. subst. fin.
Qed.
Lemma mv_config {Ev} fuel : moves snd (decodeConfig_prog fuel : prog Ev _).
Proof.
  intros d. unfold decodeConfig_prog. do 2 astep. astep; [exact I|]. do 2 astep. astep; [exact I|]. do 2 astep. astep; [exact I|].
  do 4 astep. astep; [exact I|]. astep; [exact I|]. do 2 astep. astep; [exact I|]. do 4 astep.
  apply (acc_moves (fun x : bytes => zlen x)); [intros d'; repeat astep; rewrite ?zlen_nil; fin|]. intros cmd.
  apply (acc_moves snd).
  - intros d'. unfold readImageResource. do 4 astep. astep; [astep; fin|]. eapply acc_mono; [apply mv_resource|]. cbn. intros. subst. fin.
  - intros [res l]. astep. fin.
Qed.
Lemma mv_merged procs cfg : moves snd (decode_merged procs cfg).
Proof.
  intros d. unfold decode_merged. cbv zeta. do 13 astep. eapply acc_mono; [now apply mv_decompress|]. intros [data l] d' ->. cbn [snd].
  repeat astep; fin.
Qed.
Lemma mv_decode fuel procs o : moves snd (decode_prog fuel procs o).
Proof.
  intros d. unfold decode_prog. apply (acc_moves snd); [apply mv_config|]. intros [cfg l]. astep; [exact I|].
  apply (acc_moves snd); [apply mv_section|]. intros [[tree info] l2]. astep; [astep; fin|].
  apply (acc_moves snd); [apply mv_merged|]. intros [[[data chm] pk] l3]. astep. fin.
Qed.
(** The count reported for a seekable reader is its position, whatever the file. *)
Lemma seek_position inflate procs o s f n pos evs : bytes_ok s -> Decode_seek inflate procs o s = (Ok (f, n, pos), evs) -> pos = n.
Proof. intros Hs E. pose proof (acc_run inflate _ _ _ Hs _ _ _ _ (mv_decode (fuel_for s) procs o 0) E) as G. exact G. Qed.

(** * Incomplete files and seekable readers *)
Lemma seek_bind inflate {Ev A B} (p : prog Ev A) (f : A -> prog Ev B) data : forall pos b pos' evs,
  run_seek inflate (bind p f) data pos = (Ok (b, pos'), evs) ->
  exists a pos1 e1 e2, run_seek inflate p data pos = (Ok (a, pos1), e1) /\ run_seek inflate (f a) data pos1 = (Ok (b, pos'), e2).
Proof.
  induction p; cbn [bind run_seek]; intros pos b pos' evs E; try discriminate.
  - eexists _, _, _, _. split; [reflexivity|exact E].
  - destruct (_ <? n); [discriminate|]. eauto.
  - destruct (zdrop pos data); [discriminate|]. eauto.
  - destruct (_ <? 0); [discriminate|]. eauto.
  - destruct (inflate_ok _ _ _) as [[? ?]|]; [|discriminate]. eauto.
  - destruct (run_seek inflate (bind p f) data pos) as [r e'] eqn:E2. injection E as -> _. apply IHp in E2 as (a & pos1 & e1 & e2 & G1 & G2).
    rewrite G1. eauto 10.
Qed.
Lemma rets_seek inflate {Ev A} (R : A -> Prop) (p : prog Ev A) data : rets R p ->
  forall pos a pos' evs, run_seek inflate p data pos = (Ok (a, pos'), evs) -> R a.
Proof.
  induction p; cbn [rets run_seek]; intros HR pos a1 pos' evs E; try discriminate.
  - now injection E as <- _ _.
  - destruct (_ <? n); [discriminate|]. eauto.
  - destruct (zdrop pos data); [discriminate|]. eauto.
  - destruct (_ <? 0); [discriminate|]. eauto.
  - destruct (inflate_ok _ _ _) as [[? ?]|]; [|discriminate]. eauto.
  - destruct (run_seek inflate p data pos) as [r e'] eqn:E2. injection E as -> _. eauto.
Qed.
Definition section_size cfg (v : Z) : Z := if i64 v =? 0 then intSize cfg else i64 (i64 v + intSize cfg).
Lemma section_seek_size inflate procs cfg o fuel data pos tree info c pos' evs :
  run_seek inflate (readLayerAndMaskInfo procs cfg o fuel) data pos = (Ok ((tree, info, c), pos'), evs) ->
  intSize cfg <= zlen (zdrop pos data) /\ exists v, readUint (firstn (Z.to_nat (intSize cfg)) (zdrop pos data)) 0 (intSize cfg) = Some v /\ c = section_size cfg v.
Proof.
  unfold readLayerAndMaskInfo. intros E. apply seek_bind in E as (b & p1 & e1 & e2 & E1 & E2). cbn [rfull run_seek] in E1.
  destruct (_ <? intSize cfg) eqn:El; [discriminate|]. injection E1 as <- <- _. split; [lia|].
  apply seek_bind in E2 as (v & p2 & e3 & e4 & E1 & E2). exists v.
  destruct (readUint _ 0 (intSize cfg)) as [v'|]; cbn [lift run_seek] in E1; [|discriminate]. injection E1 as -> _ _. split; [reflexivity|].
  exact (rets_seek inflate _ _ _ (rets_layer_body procs cfg o fuel v) _ _ _ _ E2).
Qed.
Lemma section_run_size inflate kind procs cfg o fuel s tree info c rest evs :
  run inflate kind (readLayerAndMaskInfo procs cfg o fuel) s = (Ok ((tree, info, c), rest), evs) ->
  exists v, readUint (firstn (Z.to_nat (intSize cfg)) s) 0 (intSize cfg) = Some v /\ c = section_size cfg v.
Proof.
  unfold readLayerAndMaskInfo. rewrite run_bind. cbn [rfull run]. destruct (_ <? intSize cfg) eqn:El; [discriminate|]. cbn [run_next].
  rewrite run_bind. destruct (readUint _ 0 (intSize cfg)) as [v'|] eqn:Ev; cbn [lift run run_next]; [|discriminate].
  match goal with |- context [run inflate kind ?q ?t] => destruct (run inflate kind q t) as [r e'] eqn:E2 end. intros E.
  exists v'. split; [reflexivity|]. cbn [app] in E. injection E as -> _.
  exact (rets_run inflate kind _ _ (rets_layer_body procs cfg o fuel v') _ _ _ _ E2).
Qed.
Lemma merged_seek_some inflate procs cfg data pos x evs : run_seek inflate (decode_merged procs cfg) data pos = (Ok x, evs) -> 2 <= zlen (zdrop pos data).
Proof.
  destruct x as [x pos']. unfold decode_merged. cbv zeta. intros E.
  apply seek_bind in E as (a1 & p1 & e1 & e2 & E1 & E). unfold make_ok in E1. destruct (_ || _); cbn [run_seek] in E1; [discriminate|]. injection E1 as _ <- _.
  apply seek_bind in E as (a2 & p2 & e3 & e4 & E1 & E). destruct (findGrayPicker _); cbn [run_seek lift] in E1; [|discriminate]. injection E1 as _ <- _.
  apply seek_bind in E as (a3 & p3 & e5 & e6 & E1 & E). destruct (makePicker cfg); cbn [run_seek of_outcome] in E1; try discriminate. injection E1 as _ <- _.
  apply seek_bind in E as (a4 & p4 & e7 & e8 & E1 & E). destruct (setSource _ _ _); cbn [run_seek lift] in E1; [|discriminate]. injection E1 as _ <- _.
  apply seek_bind in E as (a5 & p5 & e9 & e10 & E1 & E). cbn [rfull run_seek] in E1. destruct (_ <? 2) eqn:El; [discriminate|]. lia.
Qed.
Lemma nodisc_merged procs cfg : nodisc (decode_merged procs cfg).
Proof.
  assert (forall {A} (x : outcome A), nodisc (of_outcome x : P A)) as Ho by (intros A []; exact I).
  assert (forall n, nodisc (make_ok n : P unit)) as Hm by (intros n; unfold make_ok; destruct (_ || _); exact I).
  unfold decode_merged. cbv zeta. apply nodisc_bind; [apply Hm|]. intros _. apply nodisc_bind; [apply nodisc_lift|]. intros gk.
  apply nodisc_bind; [apply Ho|]. intros k. apply nodisc_bind; [apply nodisc_lift|]. intros _.
  apply nodisc_bind; [cbn; auto|]. intros b. apply nodisc_bind; [apply nodisc_lift|]. intros cm.
  apply nodisc_bind.
  - unfold decompress, decodeZLIB, decodePackBits. cbv zeta.
    destruct (_ =? 0); [apply nodisc_bind; [cbn; auto|intros; exact I]|].
    destruct (_ =? 1). { apply nodisc_bind; [apply Hm|]. intros _. apply nodisc_bind; [cbn; auto|]. intros ?. apply nodisc_bind; [apply nodisc_lift|]. intros ?.
      apply nodisc_bind; [apply Hm|]. intros _. apply nodisc_bind; [cbn; auto|]. intros ?. apply nodisc_bind; [apply Ho|]. intros; exact I. }
    destruct (_ =? 2); [cbn; auto|]. destruct (_ =? 3); [|exact I].
    apply nodisc_bind; [cbn; auto|]. intros [? ?]. apply nodisc_bind; [apply Ho|]. intros; exact I.
  - intros [data l]. apply nodisc_bind; [apply nodisc_lift|]. intros; exact I.
Qed.

Lemma truncated_seek inflate kind procs o s k f n rest evs m : bytes_ok s -> Decode inflate kind procs o s = (Ok (f, n, rest), evs) ->
  o_skip_merged o = false -> plain_method m -> merged_method inflate kind procs o s m ->
  0 <= k < n -> forall x, fst (Decode_seek inflate procs o (firstn (Z.to_nat k) s)) <> Ok x.
Proof.
  intros Hs D Hm Pm Mm Hk [[f' n'] pos'] D'. destruct (Decode_seek inflate procs o (firstn (Z.to_nat k) s)) as [d' evs'] eqn:E'. cbn in D'. subst d'.
  destruct (decode_count _ _ _ _ _ _ _ _ _ Hs D) as (taken & Et & Lt).
  pose proof (firstn_skipn (Z.to_nat k) s) as Es. set (s' := firstn (Z.to_nat k) s) in *. set (u := skipn (Z.to_nat k) s) in *.
  assert (zlen rest < zlen u) as Hu.
  { assert (zlen u = zlen s - k) as ->. { unfold u. rewrite zlen_skipn. rewrite Et, zlen_app. pose proof (zlen_nonneg rest). lia. } rewrite Et, zlen_app. lia. }
  assert (bytes_ok s') as Hs'. { rewrite <- Es in Hs. now apply Forall_app in Hs. }
  unfold Decode in D. apply decode_parts in D as (cfg & l & r0 & e0 & tree & info & l2 & r1 & e1 & e2 & E0 & Ec & E1 & E2 & ->).
  unfold Decode_seek, decode_prog in E'. apply seek_bind in E' as ([cfg' l'] & p0 & e3 & e4 & E0' & E').
  destruct (o_config_loaded o cfg'); [discriminate|]. apply seek_bind in E' as ([[tree' info'] l2'] & p1 & e5 & e6 & E1' & E'). rewrite Hm in E'.
  apply seek_bind in E' as (x & p2 & e7 & e8 & E2' & _).
  pose proof (fuel_app s' u) as Hf. rewrite Es in Hf.
  assert (0 <= 0 <= zlen s') as H0 by (pose proof (zlen_nonneg s'); lia).
  destruct (nodisc_seek inflate (decodeConfig_prog (Ev := event) (fuel_for s')) s' (nodisc_decodeConfig (fuel_for s')) kind 0 H0) as [G _].
  rewrite E0' in G. cbn [fst] in G. rewrite (zdrop_skipn inflate 0 s') in G by exact H0. cbn [Z.to_nat skipn] in G.
  destruct (run (Ev := event) inflate kind (decodeConfig_prog (fuel_for s')) s') as [[[c0 r0']|?| |] e9] eqn:E3; cbn [fst same_outcome] in G; try easy.
  destruct G as (-> & Hp0 & ->).
  pose proof (section_seek_size _ _ _ _ _ _ _ _ _ _ _ _ E1') as (Hi & v & Hv & ->). pose proof (intSize_cases cfg') as Hi2.
  assert (cfg' = cfg /\ r0 = zdrop p0 s' ++ u) as [-> ->].
  { apply (config_fuel _ _ _ (fuel_for s)) in E3; [|exact Hf].
    assert (zdrop p0 s' <> []) as Hne by (intros Hn; rewrite Hn, zlen_nil in Hi; lia).
    pose proof (run_more inflate kind _ u (zl_config inflate _) _ _ _ _ E3 Hne) as E4.
    rewrite Es, E0 in E4. injection E4 as -> _ -> _. auto. }
  assert (bytes_ok (zdrop p0 s' ++ u) /\ zlen (zdrop p0 s' ++ u) <= zlen s) as [Hb Hl].
  { apply run_suffix in E0 as [pre Ep]. rewrite Ep in Hs |- *. apply Forall_app in Hs as [_ Hs]. split; [exact Hs|]. rewrite (zlen_app pre). pose proof (zlen_nonneg pre). lia. }
  destruct (section_run_size _ _ _ _ _ _ _ _ _ _ _ _ E1) as (v' & Hv' & ->).
  rewrite (proj1 (take_app (intSize cfg) (zdrop p0 s') u Hi)) in Hv'. rewrite Hv in Hv'. injection Hv' as <-.
  pose proof (acc_run inflate _ _ _ Hs' _ _ _ _ (mv_section procs cfg o (fuel_for s') p0) E1') as Hp1. cbn [snd] in Hp1.
  assert (zdrop p0 s' ++ u = firstn (Z.to_nat (section_size cfg v)) (zdrop p0 s' ++ u) ++ r1 /\ 0 <= section_size cfg v) as [Er1 Hsz].
  { rewrite section_fuel in E1; [|exact Hb|pose proof (fuel_for_enough s); lia].
    apply section_exact in E1 as (lf & bd & Ea & L1 & L2 & L3); [|exact Hb]. rewrite app_assoc in Ea. rewrite Ea, L3, <- zlen_app.
    split; [|apply zlen_nonneg]. unfold zlen. rewrite Nat2Z.id, firstn_app, Nat.sub_diag, firstn_O, app_nil_r, firstn_all. reflexivity. }
  pose proof (merged_seek_some _ _ _ _ _ _ _ E2') as H2.
  assert (0 <= p1 <= zlen s') as Hp.
  { rewrite (zdrop_zlen inflate) in H2 by lia. lia. }
  assert (r1 = zdrop p1 s' ++ u) as ->.
  { assert (zlen (zdrop p0 s') = zlen s' - p0) as Lz by (rewrite (zdrop_zlen inflate) by lia; lia).
    rewrite <- (firstn_skipn (Z.to_nat (section_size cfg v)) (zdrop p0 s' ++ u)) in Er1 at 1. apply app_inv_head in Er1. rewrite <- Er1, skipn_app.
    replace (Z.to_nat (section_size cfg v) - length (zdrop p0 s'))%nat with 0%nat by (unfold zlen in Lz, Hp; lia).
    cbn [skipn]. f_equal. rewrite <- (zdrop_skipn inflate (section_size cfg v) (zdrop p0 s')) by lia.
    rewrite (zdrop_zdrop inflate) by lia. now rewrite Hp1. }
  unfold merged_of in E2. rewrite Hm in E2. destruct E2 as (data & chm & pk & l3 & E2 & _ & _).
  destruct (method_rest _ _ _ _ _ _ _ _ _ _ _ _ _ _ _ _ eq_refl Mm E0 E1) as [r2 Er].
  destruct (nodisc_seek inflate _ s' (nodisc_merged procs cfg) kind p1 Hp) as [G _]. rewrite E2' in G. cbn [fst] in G.
  destruct (run inflate kind (decode_merged procs cfg) (zdrop p1 s')) as [[[c0 r0']|?| |] e10] eqn:E5; cbn [fst same_outcome] in G; try easy.
  pose proof (full_less inflate kind (decode_merged procs cfg) u (zdrop p1 s') _ _ _ _ _ _ ltac:(rewrite Er; now apply merged_full) E2 E5). lia.
Qed.

Lemma stored_steady : steady stored_zlib.
Proof.
  intros a t w out c. unfold stored_zlib.
  do 7 (destruct a as [|? a]; [discriminate|]). cbn [app].
  match goal with |- (if ?x && ?y then _ else _) = _ -> _ => destruct x eqn:Ex; [|discriminate] end. cbn [andb].
  destruct (w <=? zlen a) eqn:Ew; [|discriminate]. intros [= <- _].
  rewrite zlen_app. replace (w <=? zlen a + zlen t) with true by (pose proof (zlen_nonneg t); lia).
  eexists. split; [f_equal; f_equal; rewrite firstn_app; replace (Z.to_nat w - length a)%nat with 0%nat by (unfold zlen in Ew; lia); cbn; now rewrite app_nil_r|].
  split; [apply zlen_nonneg|lia].
Qed.
