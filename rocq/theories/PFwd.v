(** The decoder only discards forward, unless it fails. *)
From Verif Require Import Base BaseFacts MUtil SUtil PUtil MRect MReader PReader MPicker MConfig SConfig PConfig
  MCompress MLayer MApi SLayer PLayer PDecode.

Lemma fwd_rfull {Ev A} n (f : bytes -> prog Ev A) : (forall b, bytes_ok b -> fwd (f b)) -> fwd (bind (rfull n) f).
Proof. auto. Qed.
Lemma fwd_rsome {Ev A} n (f : bytes -> prog Ev A) : (forall b, bytes_ok b -> fwd (f b)) -> fwd (bind (rsome n) f).
Proof. auto. Qed.
Lemma fwd_lift {Ev A B} (x : option A) (f : A -> prog Ev B) : (forall a, x = Some a -> fwd (f a)) -> fwd (bind (lift x) f).
Proof. destruct x; cbn; auto. Qed.
Lemma fwd_outcome {Ev A B} (x : outcome A) (f : A -> prog Ev B) : (forall a, fwd (f a)) -> fwd (bind (of_outcome x) f).
Proof. destruct x; cbn; auto. Qed.
Lemma fwd_make_ok {Ev B} n (f : unit -> prog Ev B) : fwd (f tt) -> fwd (bind (make_ok n) f).
Proof. unfold make_ok. destruct (_ || _); cbn; auto. Qed.
Lemma fwd_rdiscard {Ev B} n (f : Z -> prog Ev B) : 0 <= n -> fwd (f n) -> fwd (bind (rdiscard n) f).
Proof. intros H H1. cbn. split; [lia|auto]. Qed.
Lemma fwd_emit {Ev B} (ev : Ev) (f : unit -> prog Ev B) : fwd (f tt) -> fwd (bind (emit ev) f).
Proof. auto. Qed.
Lemma fwd_ret {Ev A} (a : A) : fwd (Ev := Ev) (Ret a).
Proof. exact I. Qed.

Ltac fstep :=
  match goal with
  | |- fwd (Ret _) => exact I
  | |- fwd (Fail _) => exact I
  | |- fwd Crash => exact I
  | |- fwd Starve => exact I
  | |- fwd (lift _) => destruct (_ : option _) eqn:?
  | |- fwd (bind (rfull _) _) => apply fwd_rfull; intros
  | |- fwd (bind (rsome _) _) => apply fwd_rsome; intros
  | |- fwd (bind (lift _) _) => apply fwd_lift; intros
  | |- fwd (bind (byte_of _) _) => apply fwd_lift; intros
  | |- fwd (bind (of_outcome _) _) => apply fwd_outcome; intros
  | |- fwd (bind (make_ok _) _) => apply fwd_make_ok
  | |- fwd (bind (emit _) _) => apply fwd_emit
  | |- fwd (bind (rdiscard _) _) => apply fwd_rdiscard; [lia|]
  | |- fwd (bind (Ret _) _) => cbn [bind]
  | |- fwd (bind _ _) => apply fwd_bind; [|intros]
  | |- fwd (if ?c then _ else _) => destruct c eqn:?
  | |- fwd (match ?x with (_, _) => _ end) => destruct x
  | |- fwd (match ?x with Some _ => _ | None => _ end) => destruct x
  | |- fwd (rdiscard _) => cbn; split; [lia|easy]
  | |- fwd (rfull _) => cbn; auto
  end.

Lemma fwd_lift' {Ev A} (x : option A) : fwd (Ev := Ev) (lift x).
Proof. destruct x; exact I. Qed.

Lemma fwd_rect_signed b : fwd (read_rect_signed b).
Proof. unfold read_rect_signed. repeat fstep. Qed.
Lemma fwd_rect_unsigned b : fwd (read_rect_unsigned b).
Proof. unfold read_rect_unsigned. repeat fstep. Qed.

Lemma fwd_real_mask ln rm m : fwd (read_real_mask ln rm m).
Proof. unfold read_real_mask. repeat (apply fwd_rect_unsigned || fstep). Qed.
Lemma fwd_mask_tail ln rm m : fwd (read_mask_tail ln rm m).
Proof. unfold read_mask_tail. repeat (apply fwd_real_mask || fstep). Qed.
Lemma fwd_density pr ln rm m set k : (forall rm m, fwd (k rm m)) -> fwd (read_density pr ln rm m set k).
Proof. intros H. unfold read_density. repeat (apply H || fstep). Qed.
Lemma fwd_feather pr ln rm m set k : (forall rm m, fwd (k rm m)) -> fwd (read_feather pr ln rm m set k).
Proof. intros H. unfold read_feather. repeat (apply H || fstep). Qed.
Lemma fwd_readLayerMask : fwd readLayerMask.
Proof.
  unfold readLayerMask. fstep. fstep. pose proof (readUint32_range _ _ _ H H0). fstep; [fstep|].
  fstep; [fstep; fstep|]. fstep. fstep; [apply fwd_rect_signed|].
  do 3 (fstep; try exact I). fstep; [exact I|]. do 3 fstep.
  - fstep; [exact I|]. fstep. fstep.
    apply fwd_density; intros. apply fwd_feather; intros. apply fwd_density; intros. apply fwd_feather; intros. apply fwd_mask_tail.
  - apply fwd_mask_tail.
Qed.

Lemma fwd_decodePackBits procs dest w lines large : fwd (decodePackBits procs dest w lines large).
Proof. unfold decodePackBits. repeat fstep. Qed.
Lemma fwd_decodeZLIB d l : fwd (decodeZLIB d l).
Proof. cbn. auto. Qed.
Lemma fwd_decompress procs cm n sh r d c large : fwd (decompress procs cm n sh r d c large).
Proof.
  unfold decompress. fstep; [repeat fstep|]. fstep; [apply fwd_decodePackBits|]. fstep; [apply fwd_decodeZLIB|].
  fstep; [|exact I]. apply fwd_bind; [apply fwd_decodeZLIB|]. intros [b c0]. repeat fstep.
Qed.

Lemma fwd_readPascalString {Ev} : fwd (Ev := Ev) readPascalString.
Proof. unfold readPascalString. repeat fstep. Qed.
Lemma fwd_adjustAlign4 {Ev} l : fwd (Ev := Ev) (adjustAlign4 l).
Proof. unfold adjustAlign4. repeat fstep. Qed.
Lemma fwd_adjustAlign2 {Ev} l : fwd (Ev := Ev) (adjustAlign2 l).
Proof. unfold adjustAlign2. repeat fstep. Qed.

Lemma fwd_resource_loop {Ev} fuel : forall ln rd m, fwd (Ev := Ev) (resource_loop fuel ln rd m).
Proof.
  induction fuel as [|fuel IH]; intros ln rd m; cbn [resource_loop]; [repeat fstep|].
  fstep; [|exact I]. fstep. fstep; [exact I|]. fstep.
  fstep; [apply fwd_readPascalString|]. fstep. fstep; [apply fwd_adjustAlign2|].
  fstep. fstep. fstep. fstep; [apply fwd_adjustAlign2|]. apply IH.
Qed.
Lemma fwd_readImageResource {Ev} fuel : fwd (Ev := Ev) (readImageResource fuel).
Proof. unfold readImageResource. repeat (apply fwd_resource_loop || fstep). Qed.
Lemma fwd_decodeConfig {Ev} fuel : fwd (Ev := Ev) (decodeConfig_prog fuel).
Proof. unfold decodeConfig_prog. repeat (apply fwd_readImageResource || fstep). Qed.

Section layers.
  Variable procs : nat.
  Variable cfg : config.
  Variable o : options.

  Lemma fwd_chdata k : fwd (read_chdata cfg k).
  Proof. induction k; cbn [read_chdata]; [exact I|]. do 3 fstep. fstep; [exact IHk|exact I]. Qed.

  Lemma fwd_read_channel l st chm chs j : fwd (read_channel procs cfg l st chm chs j).
  Proof.
    unfold read_channel. fstep; [destruct (2 <=? cd_len j); cbn; auto|]. fstep. fstep. fstep.
    apply fwd_bind; [destruct (2 <? cd_len j); [apply fwd_decompress|exact I]|]. intros [data n1].
    apply fwd_bind; [fstep; fstep|]. intros n2. fstep; [exact I|]. fstep.
    apply fwd_bind; [destruct (0 <=? cd_index j); [apply fwd_lift'|destruct (cd_index j =? -1); exact I]|]. intros. exact I.
  Qed.
  Lemma fwd_read_channels l js : forall st chm chs rd, fwd (read_channels procs cfg l st chm chs rd js).
  Proof.
    induction js as [|j js IH]; intros st chm chs rd; cbn [read_channels]; [exact I|].
    apply fwd_bind; [apply fwd_read_channel|]. intros [[[st' chm'] chs'] n]. apply IH.
  Qed.
  Lemma fwd_readLayerImage total ls : forall i st rd, fwd (readLayerImage procs cfg total i st rd ls).
  Proof.
    induction ls as [|[l js] ls IH]; intros i st rd; cbn [readLayerImage]; [exact I|].
    fstep. apply fwd_bind; [apply fwd_read_channels|]. intros [[[st' chm'] chs'] n].
    fstep. fstep. fstep. apply fwd_bind; [apply IH|]. intros [rest rd']. exact I.
  Qed.

  Lemma fwd_scan fuel : forall n rd, fwd (scan_sig fuel n rd).
  Proof. induction fuel; intros n rd; cbn [scan_sig]; repeat (apply IHfuel || fstep). Qed.
  Lemma fwd_info_data key : fwd (read_info_data (psb cfg) key).
  Proof. unfold read_info_data. repeat fstep. Qed.

  Section rec.
    Variable radd : Z -> P (infomap * list lrec * Z).
    Hypothesis fwd_radd : forall n, fwd (radd n).

    Lemma fwd_extra : fwd (readLayerExtraData radd).
    Proof using fwd_radd.
      unfold readLayerExtraData. fstep. fstep. fstep; [exact I|].
      fstep; [apply fwd_readLayerMask|]. fstep. fstep. fstep.
      match goal with Hx : readUint32 _ _ = Some ?v |- context [rdiscard ?v] => pose proof (readUint32_range _ _ _ ltac:(eassumption) Hx) end.
      apply fwd_bind; [fstep; fstep|]. intros l. apply fwd_bind; [apply fwd_readPascalString|]. intros [nm l2].
      apply fwd_bind; [apply fwd_adjustAlign4|]. intros pad.
      apply fwd_bind.
      - fstep; [|exact I]. apply fwd_bind; [apply fwd_radd|]. intros [[info ls] l3]. repeat fstep.
      - intros [info rd]. repeat fstep.
    Qed.

    Lemma fwd_record i : fwd (read_record cfg radd i).
    Proof using fwd_radd.
      unfold read_record. fstep. fstep; [apply fwd_rect_signed|]. fstep. fstep.
      fstep; [apply fwd_chdata|]. fstep. fstep; [exact I|]. do 3 fstep.
      apply fwd_bind; [apply fwd_extra|]. intros [[[m mbcs] info] l].
      apply fwd_bind.
      - destruct (m_get list_eqb info key_luni) as [[|c t]|]; repeat fstep.
      - intros [[un nm] inf].
        destruct (match m_get list_eqb inf key_clbl with Some (c :: t) => _ | _ => _ end) as [bce inf'].
        fstep. repeat fstep.
    Qed.
    Lemma fwd_records k : forall i, fwd (read_records cfg radd i k).
    Proof using fwd_radd.
      induction k as [|k IH]; intros i; cbn [read_records]; [exact I|].
      apply fwd_bind; [apply fwd_record|]. intros [[l cds] c]. apply fwd_bind; [apply IH|]. intros [rest c']. exact I.
    Qed.
    Lemma fwd_layerInfo : fwd (readLayerInfo procs cfg o radd).
    Proof using fwd_radd.
      unfold readLayerInfo. fstep. fstep. fstep; [exact I|]. fstep. fstep.
      apply fwd_bind; [apply fwd_records|]. intros [recs c].
      apply fwd_bind.
      - fstep; [exact I|]. apply fwd_bind; [apply fwd_readLayerImage|]. intros [ls c2]. exact I.
      - intros [ls rd]. repeat fstep.
    Qed.
  End rec.

  Lemma fwd_additional fuel : forall n rd infos layers, fwd (readAdditional procs cfg o fuel n rd infos layers).
  Proof.
    induction fuel as [|fuel IH]; intros n rd infos layers; cbn [readAdditional]; [exact I|].
    fstep; [|repeat fstep]. apply fwd_bind; [apply fwd_scan|]. intros [found rd'].
    fstep; [repeat fstep|]. fstep. fstep; [exact I|]. fstep.
    - apply fwd_bind; [apply fwd_layerInfo; intros; apply IH|]. intros [ls l]. apply IH.
    - apply fwd_bind; [apply fwd_info_data|]. intros [data l]. apply IH.
  Qed.

  Lemma fwd_layerSection fuel : fwd (readLayerAndMaskInfo procs cfg o fuel).
  Proof.
    unfold readLayerAndMaskInfo. fstep. fstep. fstep; [exact I|].
    set (all := i64 (i64 a + intSize cfg)).
    apply fwd_bind.
    { fstep; [|exact I]. apply fwd_bind; [apply fwd_layerInfo; intros; apply fwd_additional|]. intros [ls l]. exact I. }
    intros [ls rd]. apply fwd_bind.
    { fstep; [|exact I]. fstep. fstep.
      match goal with Hx : readUint32 _ _ = Some ?v |- context [rdiscard ?v] => pose proof (readUint32_range _ _ _ ltac:(eassumption) Hx) end.
      repeat fstep. }
    intros rd2. apply fwd_bind.
    { fstep; [|exact I]. apply fwd_bind; [apply fwd_additional|]. intros [[info ls2] l].
      destruct ls; destruct ls2; exact I. }
    intros [[info ls'] rd3]. fstep.
    (* the only discard that can be negative *)
    destruct (negb (i64 (all - rd3) =? 0) && (i64 (all - rd3) <? intSize cfg)) eqn:E; [|repeat fstep].
    cbn [rdiscard bind fwd]. split.
    - intros Hneg. replace (negb (rd3 + 0 =? all)) with true; [exact I|].
      destruct (rd3 + 0 =? all) eqn:E1; [|reflexivity]. exfalso.
      replace (all - rd3) with 0 in Hneg by lia. cbv in Hneg. easy.
    - intros _. repeat fstep.
  Qed.

  Lemma fwd_merged : fwd (decode_merged procs cfg).
  Proof.
    unfold decode_merged. do 6 fstep. apply fwd_bind; [apply fwd_decompress|]. intros [data l]. repeat fstep.
  Qed.
End layers.

Lemma fwd_decode fuel procs o : fwd (decode_prog fuel procs o).
Proof.
  unfold decode_prog. apply fwd_bind; [apply fwd_decodeConfig|]. intros [cfg l]. fstep; [exact I|].
  apply fwd_bind; [apply fwd_layerSection|]. intros [[tree info] l2]. fstep; [exact I|].
  apply fwd_bind; [apply fwd_merged|]. intros [[[data chm] pk] l3]. exact I.
Qed.

Lemma decode_readers inflate procs o s f n rest evs : bytes_ok s -> zlen s < 9223372036854775808 ->
  Decode inflate Plain procs o s = (Ok (f, n, rest), evs) ->
  Decode inflate Discarder procs o s = (Ok (f, n, rest), evs) /\
  Decode_seek inflate procs o s = (Ok (f, n, n), evs).
Proof.
  intros Hs Hl H. split.
  - unfold Decode in *. apply fwd_discarder; auto. apply fwd_decode.
  - pose proof (decode_count _ _ _ _ _ _ _ _ _ Hs H) as (taken & Ht & Ln).
    unfold Decode in H. pose proof (zlen_nonneg s).
    assert (E0 : s = zdrop 0 s). { rewrite (zdrop_skipn inflate 0 s) by lia. reflexivity. }
    rewrite E0 in H at 2.
    apply (fwd_seek inflate (decode_prog (fuel_for s) procs o) s 0) in H; [|apply fwd_decode|easy|lia|easy].
    destruct H as (pos' & R & Hp & Er). unfold Decode_seek. rewrite R. repeat f_equal.
    apply (f_equal zlen) in Ht, Er.
    rewrite (zdrop_zlen inflate) in Er by lia. rewrite zlen_app in Ht. lia.
Qed.

(** No seek of a run that succeeds on a plain reader goes backwards. *)
Lemma fwd_seeks inflate {Ev A} (p : prog Ev A) (data : bytes) : forall pos a s' evs,
  fwd p -> bytes_ok data -> 0 <= pos <= zlen data -> zlen data < 9223372036854775808 ->
  run inflate Plain p (zdrop pos data) = (Ok (a, s'), evs) ->
  Forall (fun n => 0 <= n) (seeks inflate p data pos).
Proof.
  assert (Dead : forall (q : prog Ev A) kind s a s' evs, dead q -> run inflate kind q s = (Ok (a, s'), evs) -> False).
  { clear. induction q; intros kind s a1 s' evs Hd; cbn [dead run] in *; try easy.
    - destruct (zlen s <? n); [easy|]. eauto.
    - destruct s; [easy|]. eauto.
    - destruct (n <? 0); [destruct kind; [eauto|easy]|]. destruct (zlen s <? n); [easy|]. eauto.
    - destruct (inflate_ok _ _ _) as [[? ?]|]; [|easy]. eauto.
    - destruct (run inflate kind q s) as [[[? ?]|?| |] ?] eqn:E; intros [= <- <- <-]. eauto. }
  induction p; intros pos a1 s' evs Hf Hby Hpos Hlen; cbn [fwd run seeks] in *; try easy.
  - rewrite (zdrop_zlen inflate) by lia. replace (Z.max 0 (zlen data - pos)) with (zlen data - pos) by lia.
    destruct (zlen data - pos <? n) eqn:E; [easy|]. intros R.
    set (b := firstn (Z.to_nat n) (zdrop pos data)) in *.
    assert (Lb : zlen b = Z.max 0 n).
    { pose proof (zdrop_zlen inflate pos data ltac:(lia)). unfold b. unfold zlen in *. rewrite firstn_length. lia. }
    assert (Es : skipn (Z.to_nat n) (zdrop pos data) = zdrop (pos + zlen b) data).
    { rewrite <- (zdrop_zdrop inflate) by lia. rewrite (zdrop_skipn inflate (zlen b)) by (rewrite (zdrop_zlen inflate); lia). f_equal. lia. }
    assert (Hbb : bytes_ok b) by (unfold b; apply Forall_firstn'; now apply bytes_ok_zdrop).
    rewrite Es in R. eapply H; [auto|easy|lia|easy|exact R].
  - destruct (zdrop pos data) as [|x t] eqn:Ez; [easy|]. rewrite <- Ez in *. intros R.
    pose proof (zdrop_zlen inflate pos data ltac:(lia)) as Lz.
    assert (Lt : zlen (ztake n (zdrop pos data)) + zlen (zdrop n (zdrop pos data)) = zlen (zdrop pos data)).
    { rewrite <- zlen_app, ztake_zdrop. reflexivity. }
    assert (Es : zdrop n (zdrop pos data) = zdrop (pos + zlen (ztake n (zdrop pos data))) data).
    { pose proof (zlen_nonneg (ztake n (zdrop pos data))).
      rewrite <- (zdrop_zdrop inflate) by lia. rewrite ztake_zlen.
      destruct (Z_le_gt_dec (zlen (zdrop pos data)) n).
      - rewrite Z.min_l by lia. unfold zdrop at 1 3.
        now replace (zlen (zdrop pos data) <=? n) with true by lia;
            replace (zlen (zdrop pos data) <=? zlen (zdrop pos data)) with true by lia.
      - rewrite Z.min_r by lia. unfold zdrop at 1 3.
        replace (zlen (zdrop pos data) <=? n) with false by lia.
        replace (zlen (zdrop pos data) <=? Z.max 0 n) with (zlen (zdrop pos data) <=? 0) by lia.
        assert (0 < zlen (zdrop pos data)) by (rewrite Ez, zlen_cons; pose proof (zlen_nonneg t); lia).
        replace (zlen (zdrop pos data) <=? 0) with false by lia. f_equal. lia. }
    assert (Hbb : bytes_ok (ztake n (zdrop pos data))) by (apply bytes_ok_ztake; now apply bytes_ok_zdrop).
    rewrite Es in R. pose proof (zlen_nonneg (ztake n (zdrop pos data))).
    pose proof (zlen_nonneg (zdrop n (zdrop pos data))).
    eapply H; [auto|easy|lia|easy|exact R].
  - destruct Hf as [Hd Hf]. destruct (n <? 0) eqn:En.
    + intros R. exfalso. eapply Dead; [apply Hd; lia | exact R].
    + rewrite (zdrop_zlen inflate) by lia. destruct (Z.max 0 (zlen data - pos) <? n) eqn:E; [easy|]. intros R.
      rewrite <- (zdrop_skipn inflate n), (zdrop_zdrop inflate) in R by (rewrite ?(zdrop_zlen inflate); lia).
      rewrite i64_small by lia. replace (pos + n <? 0) with false by lia. constructor; [lia|].
      eapply H; [auto with zarith|easy|lia|easy|exact R].
  - destruct (inflate_ok inflate (ztake limit (zdrop pos data)) want) as [[out c]|] eqn:Ei; [|easy].
    intros R. unfold inflate_ok in Ei.
    destruct (inflate (ztake limit (zdrop pos data)) want) as [[o' c']|]; [|easy].
    destruct (_ && _) eqn:Eb in Ei; [|easy]. injection Ei as <- <-.
    rewrite ztake_zlen, (zdrop_zlen inflate) in Eb by lia.
    rewrite <- (zdrop_skipn inflate c'), (zdrop_zdrop inflate) in R by (rewrite ?(zdrop_zlen inflate); lia).
    eapply H; [auto|easy|lia|easy|exact R].
  - destruct (run inflate Plain p (zdrop pos data)) as [[[a2 s2]|?| |] ?] eqn:E; intros [= <- <- <-].
    eapply IHp; [easy|easy|easy|easy|exact E].
Qed.

Lemma decode_seeks inflate procs o s f n rest evs : bytes_ok s -> zlen s < 9223372036854775808 ->
  Decode inflate Plain procs o s = (Ok (f, n, rest), evs) ->
  Forall (fun n => 0 <= n) (seeks inflate (decode_prog (fuel_for s) procs o) s 0).
Proof.
  intros Hs Hl H. unfold Decode in H. pose proof (zlen_nonneg s).
  assert (E0 : s = zdrop 0 s). { rewrite (zdrop_skipn inflate 0 s) by lia. reflexivity. }
  rewrite E0 in H at 2. eapply fwd_seeks; [apply fwd_decode|easy|lia|easy|exact H].
Qed.
