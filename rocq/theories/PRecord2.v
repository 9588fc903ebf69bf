(** Encoded layer records decode to what was encoded, continued: layer
    records. *)
From Coq Require Import String Ascii.
From Verif Require Import Base BaseFacts MUtil SUtil PUtil MRect MReader PReader MPicker MConfig SConfig PConfig PConfig2
  MCompress SCompress PCompress PCompress2 PCompress3 MLayer SLayer SRecord PLayer PRecord.

Lemma divider_data_spec d typ bm sub : divider_is d typ bm sub ->
  divider_data d = Ok (typ, match bm with Some b => b | None => [] end, sub).
Proof.
  intros (Ht & [(-> & -> & t & Hl & ->)|[(b & t & -> & -> & Hb & Hl & ->)|(b & t & -> & Hs & Hb & ->)]]); unfold divider_data.
  - rewrite (readUint32_be [] t typ 0 eq_refl Ht : readUint32 (be 4 typ ++ t) 0 = Some typ). cbn [chk obind].
    rewrite zlen_app, zlen_be. now replace (Z.of_nat 4 + zlen t <? 12) with true by lia.
  - rewrite (readUint32_be [] (ascii "8BIM" ++ b ++ t) typ 0 eq_refl Ht : readUint32 (be 4 typ ++ ascii "8BIM" ++ b ++ t) 0 = Some typ). cbn [chk obind].
    rewrite !zlen_app, zlen_be, Hb. change (zlen (ascii "8BIM")) with 4. pose proof (zlen_nonneg t).
    replace (Z.of_nat 4 + (4 + (4 + zlen t)) <? 12) with false by lia.
    rewrite skipn_app_exact by (now rewrite be_length). rewrite firstn_app_exact by reflexivity.
    change (list_eqb (ascii "8BIM") sig_8BIM) with true. cbn [negb].
    replace (Z.of_nat 4 + (4 + (4 + zlen t)) <? 16) with true by lia.
    rewrite app_assoc, skipn_app_exact by (rewrite app_length, be_length; reflexivity).
    rewrite firstn_app_exact by (unfold zlen in Hb; lia). reflexivity.
  - rewrite (readUint32_be [] (ascii "8BIM" ++ b ++ be 4 sub ++ t) typ 0 eq_refl Ht : readUint32 (be 4 typ ++ ascii "8BIM" ++ b ++ be 4 sub ++ t) 0 = Some typ). cbn [chk obind].
    rewrite !zlen_app, !zlen_be, Hb. change (zlen (ascii "8BIM")) with 4. pose proof (zlen_nonneg t).
    replace (Z.of_nat 4 + (4 + (4 + (Z.of_nat 4 + zlen t))) <? 12) with false by lia.
    rewrite skipn_app_exact by (now rewrite be_length). rewrite firstn_app_exact by reflexivity.
    change (list_eqb (ascii "8BIM") sig_8BIM) with true. cbn [negb].
    replace (Z.of_nat 4 + (4 + (4 + (Z.of_nat 4 + zlen t))) <? 16) with false by lia.
    assert (readUint32 (be 4 typ ++ ascii "8BIM" ++ b ++ be 4 sub ++ t) 12 = Some sub) as ->.
    { rewrite !app_assoc, <- app_assoc. apply readUint32_be; [|easy]. rewrite !zlen_app, !zlen_be, Hb. reflexivity. }
    cbn [chk obind].
    rewrite app_assoc, skipn_app_exact by (rewrite app_length, be_length; reflexivity).
    rewrite firstn_app_exact by (unfold zlen in Hb; lia). reflexivity.
Qed.

Lemma luni_spec d rs : luni_is d rs -> readUnicodeString d = Some (flat_map utf8_of rs).
Proof.
  intros (H1 & H2 & post & ->). unfold enc_luni. cbv zeta. rewrite <- app_assoc. now apply readUnicodeString_correct.
Qed.

Section prog.
  Variable inflate : bytes -> Z -> option (bytes * Z).
  Notation parses := (@parses inflate event _).
  Notation yields := (@yields inflate event _).
  Ltac pfull := eapply parses_bind; [apply parses_rfull|].
  Ltac plift := eapply parses_bind0; [apply parses_lift|].

  Lemma parses_align4 l pad : 0 <= l -> 0 <= zlen pad < 4 -> (l + zlen pad) mod 4 = 0 ->
    parses (adjustAlign4 l) pad (zlen pad).
  Proof.
    intros H0 H1 H2. unfold adjustAlign4. change 3 with (Z.ones 2). rewrite Z.land_ones by lia. change (2 ^ 2) with 4.
    destruct (0 <? l mod 4) eqn:E.
    - rewrite <- (app_nil_r pad) at 1. eapply parses_bind; [apply parses_rsome; lia|]. apply parses_ret.
    - assert (pad = []) as -> by (apply zlen_0_nil; lia). apply parses_ret.
  Qed.

  Definition info0 (sl : slayer) : infomap := fold_left add_info (sl_info sl) [].
  Definition infos_enc (large : bool) (sl : slayer) : bytes := enc_infos large (sl_info sl) (sl_tail sl).

  (** [radd] on the information of [sl]. *)
  Definition radd_on (large : bool) (radd : Z -> P (infomap * list lrec * Z)) (sl : slayer) : Prop :=
    parses (radd (zlen (infos_enc large sl))) (infos_enc large sl) (info0 sl, [], zlen (infos_enc large sl)).

  Lemma parses_extra large radd sl : smask_valid (sl_mask sl) -> zlen (sl_ranges sl) < 4294967296 ->
    zlen (sl_name sl) <= 255 -> 0 <= zlen (sl_npad sl) < 4 -> (1 + zlen (sl_name sl) + zlen (sl_npad sl)) mod 4 = 0 ->
    zlen (enc_extra large sl) < 4294967296 ->
    radd_on large radd sl ->
    parses (readLayerExtraData radd) (enc_extra large sl)
      (mask_of (sl_mask sl), sl_name sl, info0 sl, zlen (enc_extra large sl)).
  Proof.
    intros Hm Hr Hn Hp Hp4 Hl Ha. unfold enc_extra in *. unfold enc_block at 1 3. unfold enc_block at 1 in Hl.
    set (body := enc_mask (sl_mask sl) ++ enc_block (sl_ranges sl) ++ (zlen (sl_name sl) :: sl_name sl) ++ sl_npad sl ++
      enc_infos large (sl_info sl) (sl_tail sl)) in *.
    fold (infos_enc large sl) in *.
    assert (Lb : zlen body = zlen (enc_mask (sl_mask sl)) + (4 + zlen (sl_ranges sl)) + (1 + zlen (sl_name sl)) +
       zlen (sl_npad sl) + zlen (infos_enc large sl)).
    { unfold body, enc_block. rewrite !zlen_app, zlen_be, zlen_cons. fold (infos_enc large sl). lia. }
    assert (4 <= zlen (enc_mask (sl_mask sl))).
    { unfold enc_mask, enc_block. rewrite zlen_app, zlen_be. pose proof (zlen_nonneg (mask_body (sl_mask sl))). lia. }
    pose proof (zlen_nonneg (sl_ranges sl)). pose proof (zlen_nonneg (sl_name sl)). pose proof (zlen_nonneg (infos_enc large sl)).
    rewrite zlen_app, zlen_be in *. remember (zlen body) as lb eqn:Elb. unfold readLayerExtraData.
    pfull; [apply zlen_be|]. plift; [apply readUint32_be_nil; lia|].
    apply parses_if_false; [lia|]. unfold body.
    eapply parses_bind; [now apply parses_mask|]. cbn beta iota. unfold enc_block. rewrite <- app_assoc.
    pfull; [apply zlen_be|]. plift; [apply readUint32_be_nil; lia|].
    eapply parses_bind with (a := zlen (sl_ranges sl)).
    { destruct (0 <? zlen (sl_ranges sl)) eqn:E; [now apply parses_rdiscard|].
      assert (sl_ranges sl = []) as -> by (apply zlen_0_nil; lia). apply parses_ret. }
    eapply parses_bind; [apply parses_pascal; lia|]. cbn beta iota.
    eapply parses_bind; [apply parses_align4; [lia|lia|]|].
    { replace (zlen (sl_name sl) + 1 + zlen (sl_npad sl)) with (1 + zlen (sl_name sl) + zlen (sl_npad sl)) by lia. easy. }
    rewrite <- (app_nil_r (infos_enc large sl)).
    eapply parses_bind with (a := (info0 sl, Z.of_nat 4 + lb)).
    - destruct (_ <? _) eqn:E.
      + rewrite <- (app_nil_r (infos_enc large sl)).
        eapply parses_bind with (a := (info0 sl, [], zlen (infos_enc large sl))).
        { match goal with |- PReader.parses _ (radd ?n) _ _ => replace n with (zlen (infos_enc large sl)) by lia end. exact Ha. }
        cbn beta iota. change (0 <? zlen []) with false. cbn iota.
        match goal with |- PReader.parses _ (Ret (_, ?n)) _ _ => replace n with (Z.of_nat 4 + lb) by lia end. apply parses_ret.
      + assert (E0 : zlen (infos_enc large sl) = 0) by lia.
        assert (info0 sl = []) as ->.
        { unfold info0. destruct (sl_info sl) as [|b bs] eqn:Eb; [reflexivity|].
          exfalso. unfold infos_enc, enc_infos in E0. rewrite Eb in E0. cbn [flat_map] in E0. rewrite !zlen_app in E0.
          unfold enc_iblock at 1 in E0. rewrite !zlen_app, zlen_be in E0.
          pose proof (zlen_nonneg (ib_pre b)). pose proof (zlen_nonneg (ib_data b)). pose proof (zlen_nonneg (ib_key b)).
          pose proof (zlen_nonneg (ascii (if ib_64 b then "8B64" else "8BIM"))).
          pose proof (zlen_nonneg (flat_map (enc_iblock large) bs)). pose proof (zlen_nonneg (sl_tail sl)).
          revert E0. destruct (is_long large (ib_key b)); lia. }
        assert (infos_enc large sl = []) as -> by (now apply zlen_0_nil).
        match goal with |- PReader.parses _ (Ret (_, ?n)) _ _ => replace n with (Z.of_nat 4 + lb) by lia end. apply parses_ret.
    - cbn beta iota. apply parses_if_false; [lia|]. apply parses_ret.
  Qed.

  Definition chdata_of (large : bool) (c : Z * payload) : chdata :=
    ChData (fst c) (zlen (enc_payload large (snd c))).

  Lemma parses_chdata cfg cs :
    Forall (fun c => -32768 <= fst c < 32768 /\
      zlen (enc_payload (psb cfg) (snd c)) < if psb cfg then 9223372036854775808 else 4294967296) cs ->
    parses (read_chdata cfg (length cs))
      (flat_map (fun c => be 2 (fst c) ++ be (if psb cfg then 8 else 4) (zlen (enc_payload (psb cfg) (snd c)))) cs)
      (map (chdata_of (psb cfg)) cs).
  Proof.
    induction 1 as [|c cs [H1 H2] H IH]; [apply parses_ret|]. cbn [length read_chdata flat_map map].
    set (p := enc_payload (psb cfg) (snd c)) in *. pose proof (zlen_nonneg p).
    pfull.
    { rewrite zlen_app, !zlen_be. unfold intSize. destruct (psb cfg); reflexivity. }
    plift; [apply (readUint16_beZ [] _ (fst c) 0 eq_refl)|].
    plift.
    { instantiate (1 := zlen p). unfold intSize. unfold readUint. destruct (psb cfg); cbn [get4or8].
      - change (8 =? 8) with true. cbn iota. pose proof (readUint64_be (be 2 (fst c)) [] (zlen p) 2 eq_refl ltac:(lia) (be_bytes _ _) ltac:(constructor)) as R.
        rewrite app_nil_r in R. exact R.
      - change (4 =? 8) with false. change (4 =? 4) with true. cbn iota.
        pose proof (readUint32_be (be 2 (fst c)) [] (zlen p) 2 eq_refl ltac:(lia)) as R.
        rewrite app_nil_r in R. exact R. }
    rewrite <- (app_nil_r (flat_map _ cs)).
    eapply parses_bind; [exact IH|]. rewrite i16_mod by lia. rewrite i64_small by (destruct (psb cfg); lia). apply parses_ret.
  Qed.

  Lemma key_neq a b : list_eqb a b = false -> a <> b.
  Proof. intros H ->. rewrite list_eqb_refl in H. discriminate. Qed.
  Lemma neq_key (a b : bytes) : a <> b -> list_eqb a b = false.
  Proof. intros H. apply not_true_is_false. intros E. apply list_eqb_eq in E. auto. Qed.

  Lemma info0_get sl k : m_get list_eqb (info0 sl) k = last_info (sl_info sl) k.
  Proof. unfold info0. rewrite fold_last. cbn. destruct (last_info _ _); reflexivity. Qed.

  Lemma parses_record cfg depth nch sl i : nch <= 32768 -> slayer_valid inflate (psb cfg) depth nch sl ->
    exists l, attributes_are i sl l /\ l_channels l = [] /\ l_picker l = None /\
      forall radd, radd_on (psb cfg) radd sl ->
      parses (read_record cfg radd i) (enc_record (psb cfg) sl)
        (l, map (chdata_of (psb cfg)) (sl_channels sl), zlen (enc_record (psb cfg) sl)).
  Proof.
    intros Hnch (H1 & H2 & H3 & H4 & H5 & H6 & H7 & H8 & H9 & H10 & H11 & H12 & H13 & H14 & H15).
    (* the name *)
    assert (exists un nm (inf1 : infomap),
      (forall (B : Type) (f : bytes * bytes * infomap -> P B) e b,
        parses (f (un, nm, inf1)) e b ->
        parses (bind (match m_get list_eqb (info0 sl) key_luni with
          | Some (c :: t) => u <- lift (readUnicodeString (c :: t)) ;; Ret (u, u, m_del list_eqb (info0 sl) key_luni)
          | _ => Ret ([], sl_name sl, info0 sl)
          end) f) e b) /\
      match last_info (sl_info sl) (ascii "luni") with
      | None | Some [] => nm = sl_name sl /\ un = []
      | Some d => forall rs, luni_is d rs -> nm = flat_map utf8_of rs /\ un = flat_map utf8_of rs
      end /\
      forall k, k <> ascii "luni" -> m_get list_eqb inf1 k = last_info (sl_info sl) k) as (un & nm & inf1 & Pn & Sn & Gn).
    { rewrite info0_get. change key_luni with (ascii "luni").
      destruct (last_info (sl_info sl) (ascii "luni")) as [[|c t]|] eqn:E.
      - exists [], (sl_name sl), (info0 sl). split; [|split; [split; reflexivity|]].
        + intros B f e b Hf. eapply parses_bind0; [apply parses_ret|]. exact Hf.
        + intros k _. apply info0_get.
      - destruct H14 as [rs Hrs]. exists (flat_map utf8_of rs), (flat_map utf8_of rs), (m_del list_eqb (info0 sl) (ascii "luni")).
        split; [|split].
        + intros B f e b Hf. rewrite (luni_spec _ _ Hrs). cbn [lift bind]. exact Hf.
        + intros rs' Hrs'. pose proof (luni_spec _ _ Hrs) as A. rewrite (luni_spec _ _ Hrs') in A. injection A as ->. split; reflexivity.
        + intros k Hk. rewrite (m_get_del list_eqb list_eqb_eq), (neq_key _ _ (not_eq_sym Hk)). apply info0_get.
      - exists [], (sl_name sl), (info0 sl). split; [|split; [split; reflexivity|]].
        + intros B f e b Hf. eapply parses_bind0; [apply parses_ret|]. exact Hf.
        + intros k _. apply info0_get. }
    (* clipped elements *)
    assert (exists bce (inf2 : infomap),
      match m_get list_eqb inf1 key_clbl with
      | Some (c :: t) => (negb (c =? 0), m_del list_eqb inf1 key_clbl)
      | _ => (true, inf1)
      end = (bce, inf2) /\
      bce = match last_info (sl_info sl) (ascii "clbl") with Some (c :: _) => negb (c =? 0) | _ => true end /\
      forall k, k <> ascii "luni" -> k <> ascii "clbl" -> m_get list_eqb inf2 k = last_info (sl_info sl) k)
      as (bce & inf2 & Ec & Sc & Gc).
    { change key_clbl with (ascii "clbl"). rewrite Gn by (apply key_neq; reflexivity).
      destruct (last_info (sl_info sl) (ascii "clbl")) as [[|c t]|]; eexists; eexists; (split; [reflexivity|]); (split; [reflexivity|]);
        intros k K1 K2; auto.
      rewrite (m_get_del list_eqb list_eqb_eq), (neq_key _ _ (not_eq_sym K2)). auto. }
    (* section divider *)
    assert (exists typ sdb sub, readSectionDividerSetting inf2 = Ok (typ, sdb, sub) /\
      let sdb' := match sdb with [] => sl_blend sl | _ => sdb end in
      match divider_info (sl_info sl) with
      | None => typ = 0 /\ sdb' = sl_blend sl /\ sub = 0
      | Some d => forall typ' bm sub', divider_is d typ' bm sub' ->
          typ = typ' /\ sdb' = match bm with Some b => b | None => sl_blend sl end /\ sub = sub'
      end) as (typ & sdb & sub & Ed & Sd).
    { unfold readSectionDividerSetting. change key_lsct with (ascii "lsct"). change key_lsdk with (ascii "lsdk").
      rewrite !Gc by (apply key_neq; reflexivity). unfold divider_info in *.
      assert (X : forall d, (exists typ bm sub, divider_is d typ bm sub) ->
        exists typ sdb sub, divider_data d = Ok (typ, sdb, sub) /\ forall typ' bm sub', divider_is d typ' bm sub' ->
          typ = typ' /\ match sdb with [] => sl_blend sl | _ => sdb end = match bm with Some b => b | None => sl_blend sl end /\ sub = sub').
      { intros d (t & bm & sb & D). rewrite (divider_data_spec _ _ _ _ D). eexists; eexists; eexists. split; [reflexivity|].
        intros t' bm' sb' D'. pose proof (divider_data_spec _ _ _ _ D) as A. rewrite (divider_data_spec _ _ _ _ D') in A.
        injection A as -> A2 ->. split; [reflexivity|]. split; [|reflexivity]. rewrite <- A2.
        destruct bm' as [b'|]; [|reflexivity]. assert (zlen b' = 4) as L4.
        { destruct D' as (_ & [(? & _)|[(? & ? & E1 & ? & ? & _)|(? & ? & E1 & ? & ? & _)]]); [discriminate|congruence|congruence]. }
        destruct b'; [rewrite zlen_nil in L4; discriminate|reflexivity]. }
      destruct (last_info (sl_info sl) (ascii "lsct")) as [d|]; [auto|].
      destruct (last_info (sl_info sl) (ascii "lsdk")) as [d|]; [auto|].
      eexists; eexists; eexists. split; [reflexivity|]. split; [reflexivity|]. split; reflexivity. }
    exists (LRec i nm un (sl_name sl) (sl_rect sl) [] (sl_blend sl) (sl_opacity sl) (negb (sl_clip sl =? 0)) bce (sl_flags sl)
      (mask_of (sl_mask sl)) None (m_del list_eqb inf2 key_lsct) typ match sdb with [] => sl_blend sl | _ => sdb end sub).
    split; [|split; [reflexivity|split; [reflexivity|]]].
    { unfold attributes_are. cbn [l_seq l_rect l_blend l_opacity l_clipping l_flags l_mask l_mbcs l_name l_uname l_blendclip l_sdtype l_sdblend l_sdsub l_info].
      do 8 (split; [reflexivity|]). split; [|split; [|split]].
      - exact Sn.
      - exact Sc.
      - exact Sd.
      - intros k K1 K2 K3. change key_lsct with (ascii "lsct"). rewrite (m_get_del list_eqb list_eqb_eq), (neq_key _ _ (not_eq_sym K3)). auto. }
    intros radd Ha. unfold enc_record.
    set (chs := flat_map _ (sl_channels sl)).
    assert (Lc : zlen chs = zlen (sl_channels sl) * (2 + intSize cfg)).
    { unfold chs, intSize. clear. induction (sl_channels sl) as [|c cs IH]; [reflexivity|]. cbn [flat_map].
      rewrite !zlen_app, !zlen_be, zlen_cons, IH. destruct (psb cfg); cbn [get4or8]; lia. }
    pose proof (zlen_nonneg (sl_channels sl)).
    unfold read_record.
    pfull; [apply enc_rect_zlen|]. eapply parses_bind0; [now apply parses_rect_signed|].
    pfull; [apply zlen_be|].
    plift; [rewrite <- (app_nil_r (be 2 _)); apply (readUint16_be [] [] _ 0 eq_refl); lia|].
    replace (Z.to_nat (zlen (sl_channels sl))) with (length (sl_channels sl)) by (unfold zlen; lia).
    eapply parses_bind.
    { apply parses_chdata. eapply Forall_impl; [|exact H4]. intros c (A & _ & B). split; [|exact B]. lia. }
    rewrite (app_assoc (ascii "8BIM")), (app_assoc (ascii "8BIM" ++ sl_blend sl)).
    set (hdr := (ascii "8BIM" ++ sl_blend sl) ++ [sl_opacity sl; sl_clip sl; sl_flags sl; sl_filler sl]).
    pfull; [unfold hdr; rewrite !zlen_app, H5; reflexivity|].
    destruct (sl_blend sl) as [|b0 [|b1 [|b2 [|b3 [|]]]]] eqn:Eb; try (exfalso; unfold zlen in H5; cbn in H5; lia).
    apply parses_if_false; [reflexivity|].
    plift; [reflexivity|]. plift; [reflexivity|]. plift; [reflexivity|].
    rewrite <- (app_nil_r (enc_extra (psb cfg) sl)).
    eapply parses_bind; [now apply parses_extra|]. cbn beta iota.
    apply Pn. cbn beta iota. rewrite Ec. rewrite Ed. cbn [of_outcome bind].
    match goal with |- PReader.parses _ (Ret (_, _, ?n)) _ (_, _, ?n') => replace n with n' end.
    { apply parses_ret. }
    rewrite app_nil_r. rewrite !zlen_app, enc_rect_zlen, zlen_be, Lc. unfold hdr. rewrite !zlen_app. cbn [zlen ascii].
    unfold zlen at 3 4 5. cbn. lia.
  Qed.
End prog.
