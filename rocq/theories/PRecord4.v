(** The layer section encodes and decodes: C14, C15, C21, proofs, part 4. *)
From Coq Require Import String.
From Verif Require Import Base BaseFacts MUtil MReader MRect MPicker MConfig MCompress MLayer MApi.
From Verif Require Import PUtil PReader SUtil SConfig SCompress SLayer STree PTree PConfig2 PLayer SRecord PRecord PRecord2 PRecord3.

Lemma layers_are_length skip mode depth nch sls : forall i ls, layers_are skip mode depth nch i sls ls -> length ls = length sls.
Proof. induction sls as [|sl sls IH]; intros i [|l ls]; cbn [layers_are]; try easy. intros [_ H]. cbn. f_equal. eauto. Qed.

Section prog.
  Variable inflate : bytes -> Z -> option (bytes * Z).
  Notation parses := (@parses inflate event _).
  Notation yields := (@yields inflate event _).
  Ltac pfull := eapply parses_bind; [apply parses_rfull|].
  Ltac plift := eapply parses_bind0; [apply parses_lift|].
  Ltac yfull := eapply yields_pbind; [apply parses_rfull|].
  Ltac ylift := eapply yields_pbind0; [apply parses_lift|].

  Lemma infos_enc_le large sl : zlen (infos_enc large sl) <= zlen (enc_record large sl).
  Proof.
    unfold infos_enc, enc_record, enc_extra, enc_block. rewrite !zlen_app.
    repeat match goal with |- context [zlen ?a] => lazymatch goal with _ : 0 <= zlen a |- _ => fail | _ => pose proof (zlen_nonneg a) end end. lia.
  Qed.
  Lemma flat_map_in_le {A} (f : A -> bytes) l a : In a l -> zlen (f a) <= zlen (flat_map f l).
  Proof.
    induction l as [|b l IH]; [easy|]. cbn [flat_map]. rewrite zlen_app. pose proof (zlen_nonneg (f b)). pose proof (zlen_nonneg (flat_map f l)).
    intros [->|H']; [lia|]. specialize (IH H'). lia.
  Qed.

  Lemma parses_records cfg depth nch : nch <= 32768 -> forall sls i, Forall (slayer_valid inflate (psb cfg) depth nch) sls ->
    exists rcs, recs_match (psb cfg) i sls rcs /\
      forall radd, Forall (radd_on inflate (psb cfg) radd) sls ->
      parses (read_records cfg radd i (length sls)) (flat_map (enc_record (psb cfg)) sls)
        (rcs, zlen (flat_map (enc_record (psb cfg)) sls)).
  Proof.
    intros Hn. induction sls as [|sl sls IH]; intros i Hv.
    - exists []. split; [exact I|]. intros radd _. apply parses_ret.
    - inversion_clear Hv as [|? ? Hs Hv']. destruct (IH (i + 1) Hv') as (rcs & Hm & P).
      destruct (parses_record inflate cfg depth nch sl i Hn Hs) as (l & Ha & Hc & Hp & P1).
      exists ((l, map (chdata_of (psb cfg)) (sl_channels sl)) :: rcs). split.
      + cbn [recs_match]. split; [|exact Hm]. repeat split; auto; apply Ha.
      + intros radd Hr. inversion_clear Hr. cbn [length read_records flat_map]. rewrite zlen_app.
        eapply parses_bind; [apply P1; auto|]. cbn beta iota. rewrite <- (app_nil_r (flat_map _ sls)) at 1.
        eapply parses_bind; [apply P; auto|]. cbn beta iota. apply parses_ret.
  Qed.

  Lemma layer_count_spec (neg : bool) n : 0 <= n < 32768 -> layer_count ((if neg then - n else n) mod 65536) = n.
  Proof.
    intros H. unfold layer_count.
    assert (B : forall v, 0 <= v < 65536 -> (Z.land v 32768 =? 0) = (v <? 32768)).
    { intros v Hv. pose proof (bit_testbit inflate v 15 ltac:(lia)) as E. unfold bit in E. change (Z.shiftl 1 15) with 32768 in E.
      apply (f_equal negb) in E. rewrite negb_involutive in E. rewrite E.
      pose proof (Z.testbit_spec' v 15 ltac:(lia)) as T. change (2 ^ 15) with 32768 in T.
      destruct (Z.testbit v 15); cbn [negb Z.b2z] in *; lia. }
    rewrite B by lia. destruct neg.
    - destruct (Z.eq_dec n 0) as [->|]; [reflexivity|].
      replace (- n mod 65536) with (65536 - n) by lia. replace (65536 - n <? 32768) with false by lia.
      rewrite u16_small; lia.
    - rewrite Z.mod_small by lia. now replace (n <? 32768) with true by lia.
  Qed.

  Lemma isz_Z cfg : Z.of_nat (if psb cfg then 8 else 4) = intSize cfg.
  Proof. unfold intSize, get4or8. destruct (psb cfg); reflexivity. Qed.
  Lemma intSize_if cfg : intSize cfg = if psb cfg then 8 else 4.
  Proof. unfold intSize, get4or8. destruct (psb cfg); reflexivity. Qed.

  Lemma layers_skip large mode depth nch : forall sls i rcs, recs_match large i sls rcs ->
    layers_are true mode depth nch i sls (map fst rcs).
  Proof.
    induction sls as [|sl sls IH]; intros i [|rc rcs]; cbn [recs_match layers_are map]; try easy.
    intros [(Ha & Hc & Hp & _) Hm]. split; [|auto]. split; [exact Ha|]. split; [exact Hp|exact Hc].
  Qed.

  Lemma yields_layer_info procs cfg nch sls : (1 <= procs)%nat ->
    mode_depth_ok (cfg_mode cfg) (cfg_depth cfg) -> colour_planes (cfg_mode cfg) = Some nch ->
    Forall (slayer_valid inflate (psb cfg) (cfg_depth cfg) nch) sls -> zlen sls < 32768 ->
    exists full skipped, layers_are false (cfg_mode cfg) (cfg_depth cfg) nch 0 sls full /\
      layers_are true (cfg_mode cfg) (cfg_depth cfg) nch 0 sls skipped /\
      map (fun l => with_image l [] None) full = skipped /\
      forall o radd neg pad, Forall (radd_on inflate (psb cfg) radd) sls ->
        zlen (enc_layer_info (psb cfg) neg sls pad) < (if psb cfg then 281474976710656 else 4294967300) ->
        yields (readLayerInfo procs cfg o radd) (enc_layer_info (psb cfg) neg sls pad)
          (Some (if o_skip_layer o then skipped else full), zlen (enc_layer_info (psb cfg) neg sls pad))
          (section_events (o_skip_layer o) full).
  Proof.
    intros Hpr Hmd Hnch Hv Hn. destruct (mode_channels_spec inflate _ _ Hnch) as [_ Hn4].
    destruct (parses_records cfg (cfg_depth cfg) nch ltac:(lia) sls 0 Hv) as (rcs & Hm & PR).
    destruct (yields_images inflate procs cfg nch (zlen sls) Hpr Hmd Hnch sls 0 rcs [0; 0] 0 Hv Hm) as (full & Y & L & S).
    exists full, (map fst rcs). split; [exact L|]. split; [eapply layers_skip; eauto|]. split; [exact S|].
    intros o radd neg pad Hr Hb. unfold readLayerInfo.
    assert (Lr : zlen rcs = zlen sls).
    { apply (f_equal (@length _)) in S. rewrite !map_length in S. apply layers_are_length in L. unfold zlen. lia. }
    assert (Lf : zlen full = zlen sls).
    { apply layers_are_length in L. unfold zlen. lia. }
    unfold enc_layer_info in *. cbv zeta in *.
    set (im := flat_map (enc_images (psb cfg)) sls) in *. set (re := flat_map (enc_record (psb cfg)) sls) in *.
    set (cnt := be 2 (if neg then - zlen sls else zlen sls)) in *.
    assert (Lc : zlen cnt = 2) by (unfold cnt; apply zlen_be).
    assert (Lb : zlen (cnt ++ re ++ im ++ pad) = 2 + zlen re + zlen im + zlen pad) by (rewrite !zlen_app; lia).
    set (ln := zlen (cnt ++ re ++ im ++ pad)) in *.
    rewrite zlen_app, zlen_be, (isz_Z cfg) in *. fold ln in Hb. fold ln.
    pose proof (zlen_nonneg re). pose proof (zlen_nonneg im). pose proof (zlen_nonneg pad). pose proof (zlen_nonneg sls).
    clearbody ln.
    pose proof (intSize_if cfg) as Ei.
    assert (4 <= intSize cfg <= 8) by (destruct (psb cfg); lia).
    assert (Hln : 0 <= ln < if psb cfg then 9223372036854775808 else 4294967296) by (destruct (psb cfg); lia).
    assert (Hln2 : ln < 281474976710656) by (destruct (psb cfg); lia).
    yfull; [rewrite zlen_be; apply isz_Z|].
    ylift. { pose proof (readUint_be inflate (psb cfg) ln Hln) as R. rewrite Ei. exact R. }
    rewrite i64_small by lia. apply yields_if_false; [lia|].
    yfull; [exact Lc|]. ylift. { unfold cnt. rewrite <- (app_nil_r (be 2 _)). apply (readUint16_beZ [] []); reflexivity. }
    rewrite layer_count_spec by lia. replace (Z.to_nat (zlen sls)) with (length sls) by (unfold zlen; lia).
    eapply yields_pbind; [apply PR; exact Hr|]. cbn beta iota. fold re. rewrite i64_small by lia.
    unfold section_events. rewrite Lr, Lf. destruct (o_skip_layer o).
    - change (im ++ pad) with ([] ++ (im ++ pad)). change (@nil event) with ([] ++ @nil event).
      eapply yields_bind; [apply yields_ret|]. cbn beta iota. destruct (_ <? _) eqn:E.
      + rewrite <- (app_nil_r (im ++ pad)). eapply yields_pbind; [apply parses_rdiscard; rewrite zlen_app; lia|].
        match goal with |- yields (Ret (_, ?k)) _ (_, ?m) _ => replace m with k by lia end. apply yields_ret.
      + assert (im = []) as -> by (apply zlen_0_nil; lia). assert (pad = []) as -> by (apply zlen_0_nil; lia).
        match goal with |- yields (Ret (_, ?k)) _ (_, ?m) _ => replace m with k by (change (zlen (@nil Z)) with 0 in *; lia) end. apply yields_ret.
    - rewrite <- (app_nil_r (events_from _ _ _)). eapply yields_bind.
      + rewrite <- (app_nil_r im). rewrite <- (app_nil_r (events_from _ _ _)). eapply yields_bind; [exact Y|]. cbn beta iota. apply yields_ret.
      + cbn beta iota. fold im. destruct (_ <? _) eqn:E.
        * rewrite <- (app_nil_r pad). eapply yields_pbind; [apply parses_rdiscard; lia|].
          match goal with |- yields (Ret (_, ?k)) _ (_, ?m) _ => replace m with k by lia end. apply yields_ret.
        * assert (pad = []) as -> by (apply zlen_0_nil; lia).
          match goal with |- yields (Ret (_, ?k)) _ (_, ?m) _ => replace m with k by (change (zlen (@nil Z)) with 0 in *; lia) end. apply yields_ret.
  Qed.

  (** The reader of additional information behind blocks of data. *)
  Lemma yields_blocks procs cfg o enc2 a evs bs : Forall (iblock_valid (psb cfg)) bs ->
    forall fuel infoLen rd infos layers,
    rd + zlen (flat_map (enc_iblock (psb cfg)) bs) < infoLen ->
    zlen (flat_map (enc_iblock (psb cfg)) bs) + zlen enc2 < Z.of_nat fuel ->
    (forall fuel', zlen enc2 < Z.of_nat fuel' ->
      yields (readAdditional procs cfg o fuel' infoLen (rd + zlen (flat_map (enc_iblock (psb cfg)) bs)) (fold_left add_info bs infos) layers)
        enc2 a evs) ->
    yields (readAdditional procs cfg o fuel infoLen rd infos layers) (flat_map (enc_iblock (psb cfg)) bs ++ enc2) a evs.
  Proof.
    induction 1 as [|b bs Hb Hv IH]; intros fuel infoLen rd infos layers Hl Hf K.
    - cbn [flat_map app fold_left] in *. rewrite zlen_nil in *. rewrite Z.add_0_r in K. apply K. lia.
    - destruct Hb as (Hb1 & Hb2 & Hb3 & Hb4).
      cbn [flat_map] in *. rewrite zlen_app in *. rewrite enc_iblock_zlen in * by easy.
      set (sz := if is_long (psb cfg) (ib_key b) then 8 else 4) in *.
      assert (4 <= sz <= 8) by (subst sz; destruct (is_long _ _); lia).
      pose proof (zlen_nonneg (ib_pre b)). pose proof (zlen_nonneg (ib_data b)).
      pose proof (zlen_nonneg (flat_map (enc_iblock (psb cfg)) bs)). pose proof (zlen_nonneg enc2).
      rewrite <- app_assoc. destruct fuel as [|fuel]; [lia|]. cbn [readAdditional fold_left] in *.
      apply yields_if_true; [lia|].
      unfold enc_iblock at 1. set (sg := if ib_64 b then [66; 54; 52] else [66; 73; 77]).
      assert (Es : ascii (if ib_64 b then "8B64" else "8BIM") = [56] ++ sg) by (subst sg; destruct (ib_64 b); reflexivity).
      rewrite Es. rewrite <- !app_assoc. rewrite (app_assoc (ib_pre b)).
      eapply yields_pbind; [apply parses_scan_found; [easy|lia|lia]|].
      cbn [negb]. cbn iota. rewrite (app_assoc sg).
      assert (Ls : zlen sg = 3) by (subst sg; destruct (ib_64 b); reflexivity).
      yfull; [rewrite zlen_app; lia|].
      assert (F3 : firstn 3 (sg ++ ib_key b) = sg) by (apply firstn_app_exact; unfold zlen in Ls; lia).
      assert (S3 : skipn 3 (sg ++ ib_key b) = ib_key b) by (apply skipn_app_exact; unfold zlen in Ls; lia).
      rewrite F3, S3.
      apply yields_if_false.
      { subst sg. destruct (ib_64 b); reflexivity. }
      rewrite (layer_key_spec inflate _ Hb3). rewrite (app_assoc (be _ _)).
      eapply yields_pbind; [apply parses_info_data; exact Hb4|]. cbn beta iota.
      apply IH; fold sz; [lia|lia|].
      intros fuel' Hf'.
      replace (rd + zlen (ib_pre b) + 1 + 7 + (sz + zlen (ib_data b)) + zlen (flat_map (enc_iblock (psb cfg)) bs))
        with (rd + (zlen (ib_pre b) + 8 + sz + zlen (ib_data b) + zlen (flat_map (enc_iblock (psb cfg)) bs))) by lia.
      apply K. exact Hf'.
  Qed.

  Lemma radd_on_additional procs cfg o depth nch fuel sl : slayer_valid inflate (psb cfg) depth nch sl ->
    zlen (enc_record (psb cfg) sl) < Z.of_nat fuel ->
    radd_on inflate (psb cfg) (fun n => readAdditional procs cfg o fuel n 0 [] []) sl.
  Proof.
    intros (_ & _ & _ & _ & _ & _ & _ & _ & _ & _ & Hi & Ht & _) Hf. unfold radd_on. pose proof (infos_enc_le (psb cfg) sl).
    unfold infos_enc in *. apply parses_additional; auto; lia.
  Qed.
  Lemma radd_on_all procs cfg o depth nch fuel neg sls pad : Forall (slayer_valid inflate (psb cfg) depth nch) sls ->
    zlen (enc_layer_info (psb cfg) neg sls pad) <= Z.of_nat fuel ->
    Forall (radd_on inflate (psb cfg) (fun n => readAdditional procs cfg o fuel n 0 [] [])) sls.
  Proof.
    intros Hv Hf. rewrite Forall_forall in *. intros sl Hs. eapply radd_on_additional; [eauto|].
    pose proof (flat_map_in_le (enc_record (psb cfg)) sls sl Hs).
    unfold enc_layer_info in Hf. cbv zeta in Hf. rewrite !zlen_app, !zlen_be in Hf.
    pose proof (zlen_nonneg (flat_map (enc_images (psb cfg)) sls)). pose proof (zlen_nonneg pad).
    destruct (psb cfg); lia.
  Qed.

  Lemma holds_layers_key key : holds_layers key -> is_layer_key key = true /\ zlen key = 4.
  Proof. intros [<-|[<-|[<-|[]]]]; split; reflexivity. Qed.

  Lemma events_same_length skip ls ls' : ls = ls' -> section_events skip ls = section_events skip ls'.
  Proof. now intros ->. Qed.

  (** The whole section. *)
  Lemma yields_section procs cfg nch pl sls : (1 <= procs)%nat ->
    mode_depth_ok (cfg_mode cfg) (cfg_depth cfg) -> colour_planes (cfg_mode cfg) = Some nch ->
    Forall (slayer_valid inflate (psb cfg) (cfg_depth cfg) nch) sls -> zlen sls < 32768 ->
    exists full skipped, layers_are false (cfg_mode cfg) (cfg_depth cfg) nch 0 sls full /\
      layers_are true (cfg_mode cfg) (cfg_depth cfg) nch 0 sls skipped /\
      map (fun l => with_image l [] None) full = skipped /\
      forall o neg pad gmask bs tail fuel,
        section_valid inflate (psb cfg) neg (cfg_depth cfg) nch pl sls pad gmask bs tail ->
        zlen (enc_section (psb cfg) neg pl sls pad gmask bs tail) < Z.of_nat fuel ->
        forall tree, buildTree (if o_skip_layer o then skipped else full) = Ok tree ->
        exists info, (forall k, m_get list_eqb info k = last_info (blocks_of pl ++ bs) k) /\
          yields (readLayerAndMaskInfo procs cfg o fuel) (enc_section (psb cfg) neg pl sls pad gmask bs tail)
            (tree, info, zlen (enc_section (psb cfg) neg pl sls pad gmask bs tail))
            (section_events (o_skip_layer o) full).
  Proof.
    intros Hpr Hmd Hnch Hv Hn.
    destruct (yields_layer_info procs cfg nch sls Hpr Hmd Hnch Hv Hn) as (full & skipped & Lf & Ls & Hmap & Y).
    exists full, skipped. split; [exact Lf|]. split; [exact Ls|]. split; [exact Hmap|].
    intros o neg pad gmask bs tail fuel (_ & _ & Hpl & Hg & Hbs & Htl & Hsz) Hf tree Ht.
    exists (fold_left add_info (blocks_of pl ++ bs) []). split.
    { intros k. rewrite fold_last. cbn [m_get]. destruct (last_info _ _); reflexivity. }
    unfold enc_section in *. cbv zeta in *.
    set (body := enc_body (psb cfg) neg pl sls pad gmask bs tail) in *.
    assert (Eb : body = enc_body (psb cfg) neg pl sls pad gmask bs tail) by reflexivity.
    rewrite zlen_app, zlen_be, (isz_Z cfg) in *.
    set (ls := if o_skip_layer o then skipped else full) in *.
    pose proof (intSize_if cfg) as Ei. pose proof (zlen_nonneg body). pose proof (zlen_nonneg gmask).
    assert (4 <= intSize cfg <= 8) by (destruct (psb cfg); lia).
    assert (Hb1 : 0 <= zlen body < if psb cfg then 9223372036854775808 else 4294967296) by (destruct (psb cfg); lia).
    assert (Hb2 : zlen body < 281474976710656) by (destruct (psb cfg); lia).
    (* the front: layer info, or its empty form *)
    set (li := match pl with InPlace => enc_layer_info (psb cfg) neg sls pad | InBlock _ _ _ _ => be (if psb cfg then 8 else 4) 0 end).
    set (infos := match pl with InPlace => enc_infos (psb cfg) bs tail
      | InBlock bs1 pre sig64 key => flat_map (enc_iblock (psb cfg)) bs1 ++
        (pre ++ ascii (if sig64 then "8B64" else "8BIM") ++ key ++ enc_layer_info (psb cfg) neg sls pad) ++ enc_infos (psb cfg) bs tail end).
    assert (El : body = li ++ enc_block gmask ++ infos) by (unfold body, li, infos, enc_body; destruct pl; reflexivity).
    assert (Lb : zlen body = zlen li + 4 + zlen gmask + zlen infos).
    { rewrite El. unfold enc_block. rewrite !zlen_app, zlen_be. lia. }
    pose proof (zlen_nonneg li). pose proof (zlen_nonneg infos).
    clearbody body. unfold readLayerAndMaskInfo.
    yfull; [rewrite zlen_be; apply isz_Z|].
    ylift. { pose proof (readUint_be inflate (psb cfg) (zlen body) Hb1) as R. rewrite Ei. exact R. }
    rewrite i64_small by lia. apply yields_if_false; [lia|]. rewrite i64_small by lia.
    remember (zlen body) as lb eqn:Elb. rewrite El. clear El.
    set (lsx := match pl with InPlace => Some ls | _ => None end).
    set (ev1 := match pl with InPlace => section_events (o_skip_layer o) full | _ => [] end).
    set (ev2 := match pl with InPlace => [] | _ => section_events (o_skip_layer o) full end).
    assert (Ee : section_events (o_skip_layer o) full = ev1 ++ ev2) by (unfold ev1, ev2; destruct pl; [now rewrite app_nil_r|reflexivity]).
    rewrite Ee. eapply yields_bind with (a := (lsx, intSize cfg + zlen li)).
    { apply yields_if_true; [lia|]. rewrite <- (app_nil_r li) at 1. rewrite <- (app_nil_r ev1).
      eapply yields_bind with (a := (lsx, zlen li)); [|cbn beta iota; apply yields_ret].
      assert (Hli : zlen li <= lb) by lia. clear Lb. unfold lsx, ev1, ls. unfold li in *. destruct pl; cbn iota in Hli; cbn iota.
      - apply Y; [|destruct (psb cfg); lia]. eapply (radd_on_all _ _ _ _ _ _ neg _ pad); [eauto|]. lia.
      - unfold readLayerInfo. rewrite <- (app_nil_r (be _ _)) at 1. eapply yields_pbind; [apply parses_rfull; rewrite zlen_be; apply isz_Z|].
        eapply yields_pbind0; [apply parses_lift; rewrite Ei; apply (readUint_be inflate (psb cfg) 0); destruct (psb cfg); lia|].
        apply yields_if_true; [reflexivity|]. rewrite zlen_be, (isz_Z cfg). apply yields_ret. }
    cbn beta iota.
    eapply yields_pbind with (a := intSize cfg + zlen li + 4 + zlen gmask).
    { apply parses_if_true; [rewrite i64_small by lia; lia|]. unfold enc_block. pfull; [apply zlen_be|].
      plift; [rewrite <- (app_nil_r (be 4 _)); apply (readUint32_be [] [] (zlen gmask) 0 eq_refl); lia|].
      destruct (0 <? zlen gmask) eqn:E.
      - rewrite <- (app_nil_r gmask) at 2. eapply parses_bind; [apply parses_rdiscard; reflexivity|]. apply parses_ret.
      - assert (gmask = []) as -> by (apply zlen_0_nil; lia). change (zlen (@nil Z)) with 0. rewrite Z.add_0_r. apply parses_ret. }
    rewrite i64_small by lia.
    replace (lb + intSize cfg - (intSize cfg + zlen li + 4 + zlen gmask)) with (zlen infos) by lia.
    (* the additional information *)
    set (inf := fold_left add_info (blocks_of pl ++ bs) []).
    set (lsr := match pl, ls with InBlock _ _ _ _, [] => None | _, _ => Some ls end).
    assert (Elr : match lsr with Some l => l | None => [] end = ls) by (unfold lsr; destruct pl, ls; reflexivity).
    destruct (8 <=? zlen infos) eqn:E8.
    - rewrite <- (app_nil_r infos), <- (app_nil_r ev2).
      eapply yields_bind with (a := (inf, lsr, intSize cfg + zlen li + 4 + zlen gmask + zlen infos)).
      { rewrite <- (app_nil_r infos) at 2. rewrite <- (app_nil_r ev2).
        eapply yields_bind with (a := (inf, match pl with InPlace => [] | _ => ls end, zlen infos)).
        - rewrite zlen_app. change (zlen (@nil Z)) with 0. rewrite Z.add_0_r.
          unfold infos, inf, ev2 in *. destruct pl as [|bs1 pre sig64 key].
          + cbn [blocks_of app]. apply parses_yields. apply parses_additional; [auto|apply Htl|lia|lia].
          + destruct Hpl as (Hbs1 & Hpre & Hkey). destruct (holds_layers_key key Hkey) as [Hk1 Hk2]. destruct Htl as [Htl _].
            set (lie := enc_layer_info (psb cfg) neg sls pad) in *.
            set (sg := if sig64 then [66; 54; 52] else [66; 73; 77]).
            assert (Es : ascii (if sig64 then "8B64" else "8BIM") = [56] ++ sg) by (subst sg; destruct sig64; reflexivity).
            rewrite Es in *. assert (Lsg : zlen sg = 3) by (subst sg; destruct sig64; reflexivity).
            pose proof (zlen_nonneg pre). pose proof (zlen_nonneg lie). pose proof (zlen_nonneg (enc_infos (psb cfg) bs tail)).
            pose proof (zlen_nonneg (flat_map (enc_iblock (psb cfg)) bs1)).
            set (enc2 := (pre ++ ([56] ++ sg) ++ key ++ lie) ++ enc_infos (psb cfg) bs tail) in *.
            assert (L2 : zlen enc2 = zlen pre + 8 + zlen lie + zlen (enc_infos (psb cfg) bs tail)).
            { unfold enc2. rewrite !zlen_app. change (zlen [56]) with 1. lia. }
            rewrite zlen_app in *.
            remember (zlen enc2) as l2 eqn:El2.
            apply yields_blocks; [auto|lia|lia|]. intros fuel' Hf'. rewrite Z.add_0_l.
            destruct fuel' as [|fuel']; [lia|]. cbn [readAdditional].
            apply yields_if_true; [lia|].
            unfold enc2. rewrite <- !app_assoc. rewrite (app_assoc pre).
            eapply yields_pbind; [apply parses_scan_found; [easy|lia|lia]|].
            cbn [negb]. cbn iota. rewrite (app_assoc sg).
            yfull; [rewrite zlen_app; lia|].
            assert (F3 : firstn 3 (sg ++ key) = sg) by (apply firstn_app_exact; unfold zlen in Lsg; lia).
            assert (S3 : skipn 3 (sg ++ key) = key) by (apply skipn_app_exact; unfold zlen in Lsg; lia).
            rewrite F3, S3. apply yields_if_false; [subst sg; destruct sig64; reflexivity|].
            rewrite Hk1. rewrite <- (app_nil_r (section_events _ _)).
            eapply yields_bind; [apply Y; [eapply (radd_on_all _ _ _ _ _ _ neg _ pad); [eauto|fold lie; lia]|fold lie; destruct (psb cfg); lia]|].
            cbn beta iota. cbn [app]. apply parses_yields. rewrite fold_left_app. fold ls.
            apply parses_additional; [auto|auto| |lia]. fold lie. lia.
        - cbn beta iota. unfold lsx, lsr. destruct pl; [destruct ls; apply yields_ret|]. destruct ls; apply yields_ret. }
      cbn beta iota. rewrite Elr, Ht. change (@nil event) with ([] ++ @nil event).
      eapply yields_pbind0 with (a := tree); [apply parses_ret|].
      replace (lb + intSize cfg - (intSize cfg + zlen li + 4 + zlen gmask + zlen infos)) with 0 by lia.
      eapply yields_pbind0; [apply parses_if_false; [reflexivity|]; apply parses_ret|].
      apply yields_if_false; [lia|].
      match goal with |- yields (Ret (_, ?k)) _ (_, ?m) _ => replace m with k by lia end. apply yields_ret.
    - assert (Epl : pl = InPlace).
      { destruct pl as [|bs1 pre sig64 key]; [reflexivity|]. exfalso. unfold infos in *. rewrite !zlen_app in *.
        destruct Hpl as (_ & _ & Hk). apply holds_layers_key in Hk as [_ Hk].
        assert (zlen (ascii (if sig64 then "8B64" else "8BIM")) = 4) by (destruct sig64; reflexivity).
        repeat match goal with |- context [zlen ?a] => idtac end.
        pose proof (zlen_nonneg pre). pose proof (zlen_nonneg (enc_layer_info (psb cfg) neg sls pad)).
        pose proof (zlen_nonneg (enc_infos (psb cfg) bs tail)). pose proof (zlen_nonneg (flat_map (enc_iblock (psb cfg)) bs1)). lia. }
      assert (Ebs : bs = [] /\ infos = tail).
      { subst pl. unfold infos in *. destruct bs as [|b bs]; [split; reflexivity|]. exfalso.
        inversion_clear Hbs as [|? ? (? & Hk & ?) ?]. unfold enc_infos in E8. cbn [flat_map] in E8. rewrite !zlen_app, enc_iblock_zlen in E8 by auto.
        pose proof (zlen_nonneg (flat_map (enc_iblock (psb cfg)) bs)). pose proof (zlen_nonneg tail). pose proof (zlen_nonneg (ib_pre b)). pose proof (zlen_nonneg (ib_data b)).
        revert E8. destruct (is_long _ _); lia. }
      destruct Ebs as [-> Ein]. rewrite Ein in *. subst pl. cbn [blocks_of app] in inf. unfold lsx, ev2 in *.
      assert (Ei' : inf = []) by reflexivity. rewrite Ei'.
      eapply yields_pbind0 with (a := ([], Some ls, intSize cfg + zlen li + 4 + zlen gmask)); [apply parses_ret|].
      cbn beta iota. rewrite Ht. eapply yields_pbind0 with (a := tree); [apply parses_ret|].
      replace (lb + intSize cfg - (intSize cfg + zlen li + 4 + zlen gmask)) with (zlen tail) by lia.
      rewrite <- (app_nil_r tail). eapply yields_pbind with (a := intSize cfg + lb).
      + rewrite app_nil_r. rewrite i64_small by lia. destruct Htl as [_ Htl].
        assert (zlen tail < intSize cfg).
        { rewrite Ei. destruct Htl as [Htl|[Htl|Htl]]; [easy|exact Htl|lia]. }
        destruct (zlen tail =? 0) eqn:E0.
        * assert (tail = []) as Et by (apply zlen_0_nil; lia). rewrite Et. apply parses_if_false; [reflexivity|].
          match goal with |- parses (Ret ?k) _ ?m => replace m with k by lia end. apply parses_ret.
        * apply parses_if_true; [cbn [negb andb]; lia|]. rewrite <- (app_nil_r tail) at 2.
          eapply parses_bind; [apply parses_rdiscard; reflexivity|].
          match goal with |- parses (Ret ?k) _ ?m => replace m with k by lia end. apply parses_ret.
      + apply yields_if_false; [lia|]. apply yields_ret.
  Qed.
End prog.

(** ** Trees *)

Lemma layers_are_app skip mode depth nch a : forall i b ls, layers_are skip mode depth nch i (a ++ b) ls ->
  exists la lb, ls = la ++ lb /\ layers_are skip mode depth nch i a la /\ layers_are skip mode depth nch (i + zlen a) b lb.
Proof.
  induction a as [|x a IH]; intros i b ls H.
  - exists [], ls. rewrite zlen_nil, Z.add_0_r. repeat split. exact H.
  - destruct ls as [|l ls]; [easy|]. cbn [app layers_are] in H. destruct H as [H1 H2].
    destruct (IH _ _ _ H2) as (la & lb & -> & H3 & H4). exists (l :: la), lb. cbn [app layers_are]. rewrite zlen_cons.
    replace (i + (1 + zlen a)) with (i + 1 + zlen a) by lia. auto.
Qed.

Lemma has_type_is i sl l t : attributes_are i sl l -> has_type sl t -> l_sdtype l = t.
Proof.
  intros (_ & _ & _ & _ & _ & _ & _ & _ & _ & _ & H & _). unfold has_type. destruct (divider_info (sl_info sl)) as [d|].
  - intros (bm & sub & Hd). apply (H _ _ _ Hd).
  - intros ->. apply H.
Qed.

Section trees.
  Variables (skip : bool) (mode depth nch : Z).
  Notation layers_are := (layers_are skip mode depth nch).
  Notation tree_is := (tree_is skip mode depth nch).
  Notation trees_are := (trees_are skip mode depth nch).

  Fixpoint ssize (t : stree) : nat :=
    match t with
    | SLeaf _ => 1%nat
    | SFolder _ _ c => S (list_sum (map ssize c))
    end.

  Lemma forest_of n : forall sf i ls, (list_sum (map ssize sf) <= n)%nat -> Forall stree_valid sf ->
    layers_are i (flat_map sflatten sf) ls ->
    exists ft, flat_map flatten ft = ls /\ wf_forest ft /\ trees_are i sf (map as_layer ft).
  Proof.
    induction n as [|n IH]; intros sf i ls Hs Hv Hl.
    - destruct sf as [|[l|d f c] sf]; cbn in Hs; try lia. destruct ls; [|easy]. exists []. repeat split. constructor.
    - destruct sf as [|t sf].
      + destruct ls; [|easy]. exists []. repeat split. constructor.
      + inversion_clear Hv as [|? ? Ht Hv']. cbn [flat_map] in Hl.
        apply layers_are_app in Hl as (la & lb & -> & Ha & Hb).
        assert (Hs1 : (ssize t + list_sum (map ssize sf) <= S n)%nat) by exact Hs.
        assert (Hs2 : (list_sum (map ssize sf) <= n)%nat) by (destruct t; cbn [ssize] in Hs1; lia).
        destruct (IH sf _ lb Hs2 Hv' Hb) as (ft & <- & W & T).
        destruct t as [l|d f c]; inversion_clear Ht as [? ty Hty H1 H2 H3|? ? ? ty Hd3 Hty Hty12 Hc].
        * cbn [sflatten SRecord.layers_are] in Ha. destruct la as [|r [|]]; [easy| |now destruct Ha]. destruct Ha as [Ha _].
          exists (FLeaf r :: ft). split; [reflexivity|]. split.
          -- cbn [wf_forest wf_tree]. split; [|exact W]. unfold is_divider, is_folder. rewrite (has_type_is _ _ _ _ (proj1 Ha) Hty). lia.
          -- cbn [map as_layer]. constructor; [now constructor|exact T].
        * cbn [sflatten SRecord.layers_are] in Ha. destruct la as [|rd la]; [easy|]. destruct Ha as [Hrd Ha].
          apply layers_are_app in Ha as (lc & lf & -> & Hcc & Hf). destruct lf as [|rf [|]]; [easy| |now destruct Hf]. destruct Hf as [Hf _].
          cbn [ssize] in Hs1.
          assert (Hs3 : (list_sum (map ssize c) <= n)%nat) by lia.
          destruct (IH c _ lc Hs3 Hc Hcc) as (fc & <- & Wc & Tc).
          exists (FFolder rd rf fc :: ft). split; [cbn [flat_map flatten app]; rewrite <- app_assoc; reflexivity|]. split.
          -- cbn [wf_forest]. split; [|exact W]. apply wf_folder. unfold is_divider, is_folder.
             rewrite (has_type_is _ _ _ _ (proj1 Hrd) Hd3), (has_type_is _ _ _ _ (proj1 Hf) Hty). split; [reflexivity|]. split; [lia|exact Wc].
          -- cbn [map as_layer]. constructor; [|exact T]. constructor; [exact Tc|exact Hf].
  Qed.

  Lemma tree_of_layers sf i ls : Forall stree_valid sf -> layers_are i (flat_map sflatten sf) ls ->
    exists tree, buildTree ls = Ok tree /\ trees_are i sf tree.
  Proof.
    intros Hv Hl. destruct (forest_of _ sf i ls (le_n _) Hv Hl) as (ft & <- & W & T).
    exists (map as_layer ft). split; [now apply buildTree_forest|exact T].
  Qed.
End trees.

Section decode.
  Variable inflate : bytes -> Z -> option (bytes * Z).

  Lemma decode_layers kind procs o h rsv cmd res nch neg pl sf pad gmask bs tail rest : (1 <= procs)%nat ->
    header_valid h -> zlen rsv = 6 -> zlen cmd < 4294967296 ->
    Forall rblock_valid res -> zlen (enc_rblocks res) < 4294967296 ->
    mode_depth_ok (h_mode h) (h_depth h) -> colour_planes (h_mode h) = Some nch ->
    o_skip_merged o = true -> o_config_loaded o (config_of h cmd res) = false ->
    let large := h_version h =? 2 in
    section_valid inflate large neg (h_depth h) nch pl (flat_map sflatten sf) pad gmask bs tail ->
    Forall stree_valid sf ->
    let enc := enc_config h rsv cmd res ++ enc_section large neg pl (flat_map sflatten sf) pad gmask bs tail in
    exists f evs, Decode inflate kind procs o (enc ++ rest) = (Ok (f, zlen enc, rest), evs) /\
      f_config f = config_of h cmd res /\
      trees_are (o_skip_layer o) (h_mode h) (h_depth h) nch 0 sf (f_layer f) /\
      (forall k, m_get list_eqb (f_info f) k = last_info (blocks_of pl ++ bs) k) /\
      f_data f = [] /\ f_picker f = None /\ f_channel f = [] /\
      exists full, evs = section_events (o_skip_layer o) full /\ layers_are false (h_mode h) (h_depth h) nch 0 (flat_map sflatten sf) full.
  Proof.
    intros Hpr Hh Hr Hc Hres Hrl Hmd Hnch Hsm Hcl large Hs Hsf enc. unfold Decode.
    set (cfg := config_of h cmd res) in *.
    assert (El : psb cfg = large) by reflexivity.
    assert (Ed : cfg_depth cfg = h_depth h) by reflexivity.
    assert (Em : cfg_mode cfg = h_mode h).
    { cbn [cfg config_of cfg_mode]. unfold signed16. destruct Hmd as [[[E|E] _]|[E _]]; rewrite E; reflexivity. }
    set (sls := flat_map sflatten sf) in *.
    rewrite <- El, <- Ed, <- Em in *. clear El Ed Em.
    destruct (yields_section inflate procs cfg nch pl sls Hpr Hmd Hnch (proj1 Hs) (proj1 (proj2 Hs))) as (full & skipped & Lf & Ls & _ & Y).
    assert (exists tree, buildTree (if o_skip_layer o then skipped else full) = Ok tree /\
      trees_are (o_skip_layer o) (cfg_mode cfg) (cfg_depth cfg) nch 0 sf tree) as (tree & Ht & HT).
    { apply tree_of_layers; [exact Hsf|]. destruct (o_skip_layer o); [exact Ls|exact Lf]. }
    assert (Hfu : zlen enc + zlen rest < Z.of_nat (fuel_for (enc ++ rest))).
    { unfold fuel_for. rewrite app_length. unfold zlen. lia. }
    set (ec := enc_config h rsv cmd res) in *.
    set (es := enc_section (psb cfg) neg pl sls pad gmask bs tail) in *.
    assert (Le : zlen enc = zlen ec + zlen es) by apply zlen_app.
    pose proof (zlen_nonneg ec). pose proof (zlen_nonneg es). pose proof (zlen_nonneg rest).
    destruct (Y o neg pad gmask bs tail (fuel_for (enc ++ rest)) Hs ltac:(fold es; lia) tree Ht) as (info & Hi & Y2).
    exists (Psd cfg [] tree info [] None), (section_events (o_skip_layer o) full).
    split; [|split; [reflexivity|split; [exact HT|split; [exact Hi|split; [reflexivity|split; [reflexivity|split; [reflexivity|exists full; split; [reflexivity|exact Lf]]]]]]]].
    assert (Hlres : (length res <= fuel_for (enc ++ rest))%nat).
    { pose proof (enc_rblocks_length inflate res Hres). unfold fuel_for. apply Nat.le_trans with (length (enc ++ rest)); [|lia].
      unfold enc. rewrite !app_length. unfold ec, enc_config, enc_resources, enc_block. rewrite !app_length. unfold zlen in *. lia. }
    assert (YY : yields inflate (decode_prog (fuel_for (enc ++ rest)) procs o) (ec ++ es)
      (Psd cfg [] tree info [] None, zlen ec + zlen es) (section_events (o_skip_layer o) full)).
    { unfold decode_prog. eapply yields_pbind; [apply parses_decodeConfig; eauto|]. cbn beta iota.
      fold cfg. rewrite Hcl. cbn iota. rewrite <- (app_nil_r es) at 1. rewrite <- (app_nil_r (section_events _ _)).
      eapply yields_bind; [exact Y2|]. cbn beta iota. rewrite Hsm. apply yields_ret. }
    specialize (YY kind rest). rewrite Le. exact YY.
  Qed.
End decode.

(** ** As runs *)
Section runs.
  Variable inflate : bytes -> Z -> option (bytes * Z).

  Lemma additional_run kind procs cfg o bs tail rest fuel : Forall (iblock_valid (psb cfg)) bs -> no8 tail ->
    zlen (enc_infos (psb cfg) bs tail) < Z.of_nat fuel ->
    exists m, run inflate kind (readAdditional procs cfg o fuel (zlen (enc_infos (psb cfg) bs tail)) 0 [] [])
        (enc_infos (psb cfg) bs tail ++ rest) = (Ok ((m, [], zlen (enc_infos (psb cfg) bs tail)), rest), []) /\
      forall k, m_get list_eqb m k = last_info bs k.
  Proof.
    intros H1 H2 H3. eexists. split; [apply parses_additional; auto; lia|].
    intros k. rewrite fold_last. cbn [m_get]. destruct (last_info bs k); reflexivity.
  Qed.

  Lemma record_run kind procs cfg o depth nch sl i rest fuel : nch <= 32768 -> slayer_valid inflate (psb cfg) depth nch sl ->
    zlen (enc_record (psb cfg) sl) < Z.of_nat fuel ->
    exists l cds, run inflate kind (read_record cfg (fun n => readAdditional procs cfg o fuel n 0 [] []) i)
        (enc_record (psb cfg) sl ++ rest) = (Ok ((l, cds, zlen (enc_record (psb cfg) sl)), rest), []) /\
      attributes_are i sl l /\
      map (fun c => (cd_index c, cd_len c)) cds = map (fun c => (fst c, zlen (enc_payload (psb cfg) (snd c)))) (sl_channels sl).
  Proof.
    intros H1 H2 H3. destruct (parses_record inflate cfg depth nch sl i H1 H2) as (l & Ha & _ & _ & P).
    exists l, (map (chdata_of (psb cfg)) (sl_channels sl)). split; [|split; [exact Ha|]].
    - apply P. eapply radd_on_additional; eauto.
    - rewrite map_map. reflexivity.
  Qed.

  Lemma mask_run kind m rest : smask_valid m ->
    run inflate kind readLayerMask (enc_mask m ++ rest) = (Ok ((mask_of m, zlen (enc_mask m)), rest), []).
  Proof. intros H. apply parses_mask, H. Qed.

  Lemma mask_sign_lost : exists r rr : rect, rect_valid r /\ rect_valid rr /\
    forall kind, exists m n, run inflate kind readLayerMask (enc_mask (SLong r 255 0 None 0 255 rr)) = (Ok ((m, n), []), []) /\
      mk_rect m = r /\ mk_rrect m <> rr /\ mk_rrect m = Rct 1 1 4294967295 4294967295.
  Proof.
    exists (Rct (-1) (-1) 1 1), (Rct (-1) (-1) 1 1). split; [|split].
    1, 2: unfold rect_valid, int32; cbn; lia.
    intros kind. eexists. eexists. split; [vm_compute; reflexivity|]. split; [reflexivity|]. split; [intros E; discriminate E|reflexivity].
  Qed.

  Lemma last_info_in bs k d : last_info bs k = Some d -> exists b, In b bs /\ ib_data b = d.
  Proof.
    induction bs as [|b bs IH]; [easy|]. cbn [last_info]. destruct (last_info bs k) as [d'|].
    - intros [= ->]. destruct (IH eq_refl) as (b' & H1 & H2). exists b'. split; [now right|exact H2].
    - destruct (list_eqb _ _); [|easy]. intros [= <-]. exists b. split; [now left|reflexivity].
  Qed.

  Lemma record_name kind procs cfg o depth nch sl i rest fuel : nch <= 32768 -> slayer_valid inflate (psb cfg) depth nch sl ->
    zlen (enc_record (psb cfg) sl) < Z.of_nat fuel ->
    exists l cds, run inflate kind (read_record cfg (fun n => readAdditional procs cfg o fuel n 0 [] []) i)
        (enc_record (psb cfg) sl ++ rest) = (Ok ((l, cds, zlen (enc_record (psb cfg) sl)), rest), []) /\
    (forall rs, last_info (sl_info sl) (ascii "luni") = Some (enc_luni rs) -> Forall is_scalar rs ->
       l_name l = flat_map utf8_of rs) /\
    (last_info (sl_info sl) (ascii "luni") = None -> l_name l = sl_name sl).
  Proof.
    intros H1 H2 H3. destruct (record_run kind procs cfg o depth nch sl i rest fuel H1 H2 H3) as (l & cds & R & A & _).
    exists l, cds. split; [exact R|]. destruct A as (_ & _ & _ & _ & _ & _ & _ & _ & N & _).
    destruct H2 as (_ & _ & _ & _ & _ & _ & _ & _ & _ & _ & _ & _ & Hx & Hlu & _).
    split.
    - intros rs E Hr. rewrite E in N, Hlu. destruct (enc_luni rs) as [|x d] eqn:El.
      + apply (f_equal zlen) in El. unfold enc_luni in El. cbv zeta in El. rewrite zlen_app, zlen_be in El. change (zlen (@nil Z)) with 0 in El.
        pose proof (zlen_nonneg (flat_map (be 2) (flat_map utf16_of rs))). lia.
      + apply N. split; [exact Hr|]. split; [|exists []; now rewrite app_nil_r].
        assert (Hd : zlen (x :: d) < 4294967296).
        { apply last_info_in in E as (b & Hb & E). pose proof (flat_map_in_le (enc_iblock (psb cfg)) (sl_info sl) b Hb) as L1.
          unfold enc_iblock at 1 in L1. rewrite E, !zlen_app in L1.
          unfold enc_extra, enc_block, enc_infos in Hx. rewrite !zlen_app in Hx.
          repeat match type of L1 with context [zlen ?a] => lazymatch goal with _ : 0 <= zlen a |- _ => fail | _ => pose proof (zlen_nonneg a) end end.
          repeat match type of Hx with context [zlen ?a] => lazymatch goal with _ : 0 <= zlen a |- _ => fail | _ => pose proof (zlen_nonneg a) end end.
          lia. }
        rewrite <- El in Hd. unfold enc_luni in Hd. cbv zeta in Hd. rewrite zlen_app, zlen_be in Hd.
        rewrite (flat_map_be_zlen 2) in Hd. pose proof (zlen_nonneg (flat_map utf16_of rs)). lia.
    - intros E. rewrite E in N. apply N.
  Qed.
End runs.

Section decode2.
  Variable inflate : bytes -> Z -> option (bytes * Z).
  Lemma decode_layers_config kind procs o h rsv cmd res nch neg pl sf pad gmask bs tail rest : (1 <= procs)%nat ->
    header_valid h -> zlen rsv = 6 -> zlen cmd < 4294967296 ->
    Forall rblock_valid res -> zlen (enc_rblocks res) < 4294967296 ->
    mode_depth_ok (h_mode h) (h_depth h) -> colour_planes (h_mode h) = Some nch ->
    o_skip_merged o = true -> (forall c, o_config_loaded o c = false) ->
    let large := h_version h =? 2 in
    section_valid inflate large neg (h_depth h) nch pl (flat_map sflatten sf) pad gmask bs tail ->
    Forall stree_valid sf ->
    let enc := enc_config h rsv cmd res ++ enc_section large neg pl (flat_map sflatten sf) pad gmask bs tail in
    exists f evs, Decode inflate kind procs o (enc ++ rest) = (Ok (f, zlen enc, rest), evs) /\
      DecodeConfig inflate kind (enc ++ rest) =
        Ok (f_config f, zlen (enc_config h rsv cmd res), enc_section large neg pl (flat_map sflatten sf) pad gmask bs tail ++ rest) /\
      trees_are (o_skip_layer o) (h_mode h) (h_depth h) nch 0 sf (f_layer f) /\
      (forall k, m_get list_eqb (f_info f) k = last_info (blocks_of pl ++ bs) k) /\
      f_data f = [] /\ f_picker f = None /\ f_channel f = [].
  Proof.
    intros Hpr Hh Hr Hc Hres Hrl Hmd Hnch Hsm Hcl large Hs Hsf enc.
    destruct (decode_layers inflate kind procs o h rsv cmd res nch neg pl sf pad gmask bs tail rest Hpr Hh Hr Hc Hres Hrl Hmd Hnch Hsm (Hcl _) Hs Hsf)
      as (f & evs & D & E & T & I & F1 & F2 & F3 & _). exists f, evs. split; [exact D|]. split; [|split; [exact T|split; [exact I|auto]]].
    unfold enc. rewrite <- app_assoc. unfold DecodeConfig. rewrite parses_decodeConfig; auto.
    - rewrite E. reflexivity.
    - pose proof (enc_rblocks_length inflate res Hres). unfold fuel_for, enc_config, enc_resources, enc_block.
      rewrite !app_length. unfold zlen in *. lia.
  Qed.
End decode2.
