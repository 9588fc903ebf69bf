(** Encoded layer records decode to what was encoded, continued: images and
    the whole section. *)
From Coq Require Import String Ascii.
From Verif Require Import Base BaseFacts MUtil SUtil PUtil MRect MReader PReader MPicker MConfig SConfig PConfig PConfig2
  MCompress SCompress PCompress PCompress2 PCompress3 MLayer SLayer SRecord PLayer PRecord PRecord2.

Lemma idx_zseq n i : 0 <= i < Z.of_nat n -> idx (zseq n) i = Some i.
Proof.
  intros H. unfold zseq. rewrite idx_map. unfold idx. replace (i <? 0) with false by lia.
  rewrite nth_error_nth' with (d := 0%nat) by (rewrite seq_length; lia). rewrite seq_nth by lia. cbn. f_equal. lia.
Qed.
Lemma zlen_zseq n : zlen (zseq n) = Z.of_nat n.
Proof. unfold zseq. rewrite zlen_map. unfold zlen. now rewrite seq_length. Qed.

Definition lk (depth : Z) (cs : list (Z * payload)) (id : Z) : option bytes :=
  match find (fun c => fst c =? id) cs with Some c => Some (payload_data depth (snd c)) | None => None end.
Definition planes_of (depth : Z) (nch : Z) (cs : list (Z * payload)) : list bytes :=
  map (fun i => match lk depth cs i with Some d => d | None => [] end) (zseq (Z.to_nat nch)) ++
  match lk depth cs (-1) with Some d => [d] | None => [] end.

Lemma lk_snoc depth done c id : ~ In (fst c) (map fst done) ->
  lk depth (done ++ [c]) id = if fst c =? id then Some (payload_data depth (snd c)) else lk depth done id.
Proof.
  intros Hn. unfold lk. induction done as [|a done IH]; cbn [app find].
  - destruct (fst c =? id); reflexivity.
  - cbn [map In] in Hn. destruct (fst a =? id) eqn:E.
    + destruct (fst c =? id) eqn:E'; [exfalso; apply Hn; left; lia|reflexivity].
    + apply IH. tauto.
Qed.

Lemma planes_of_upd depth nch done c : 0 <= fst c < nch -> ~ In (fst c) (map fst done) ->
  upd (planes_of depth nch done) (fst c) (payload_data depth (snd c)) = Some (planes_of depth nch (done ++ [c])).
Proof.
  intros H Hn.
  assert (L : forall cs, zlen (map (fun i => match lk depth cs i with Some d => d | None => [] end) (zseq (Z.to_nat nch))) = nch).
  { intros. rewrite zlen_map, zlen_zseq. lia. }
  assert (La : lk depth (done ++ [c]) (-1) = lk depth done (-1)).
  { rewrite lk_snoc by auto. now replace (fst c =? -1) with false by lia. }
  assert (0 <= fst c < zlen (planes_of depth nch done)) as Hr.
  { unfold planes_of. rewrite zlen_app, L. pose proof (zlen_nonneg (match lk depth done (-1) with Some d => [d] | None => [] end)). lia. }
  destruct (upd_inbounds _ _ (payload_data depth (snd c)) Hr) as (l' & E). rewrite E. f_equal.
  pose proof (upd_zlen _ _ _ _ E) as Lz.
  apply idx_ext_in.
  { rewrite Lz. unfold planes_of. rewrite !zlen_app, !L, La. reflexivity. }
  intros j Hj. rewrite (idx_upd _ _ _ _ _ E). unfold planes_of in *. rewrite La.
  destruct (Z_lt_le_dec j nch).
  - rewrite !(idx_app_l _ _ j) by (now rewrite L). rewrite !idx_map, !idx_zseq by lia. cbn [option_map].
    rewrite lk_snoc by auto. destruct (fst c =? j) eqn:Ej; reflexivity.
  - rewrite !(idx_app_r _ _ j) by (now rewrite L). rewrite !L.
    destruct (_ =? _) eqn:Ej; [exfalso; lia|]. reflexivity.
Qed.

Lemma planes_of_alpha depth nch done c : fst c = -1 -> ~ In (fst c) (map fst done) ->
  planes_of depth nch done ++ [payload_data depth (snd c)] = planes_of depth nch (done ++ [c]).
Proof.
  intros H Hn. unfold planes_of. rewrite (lk_snoc _ _ _ (-1)) by auto. replace (fst c =? -1) with true by lia.
  assert (lk depth done (-1) = None) as ->.
  { unfold lk. destruct (find _ done) as [a|] eqn:E; [|reflexivity]. exfalso. apply find_some in E. destruct E as [E1 E2].
    apply Hn. rewrite H. replace (-1) with (fst a) by lia. now apply in_map. }
  rewrite app_nil_r. f_equal. apply map_ext_in. intros i Hi. rewrite lk_snoc by auto.
  unfold zseq in Hi. apply in_map_iff in Hi. destruct Hi as (k & <- & _). now replace (fst c =? Z.of_nat k) with false by lia.
Qed.
Lemma planes_of_other depth nch done c : fst c < -1 -> ~ In (fst c) (map fst done) ->
  planes_of depth nch done = planes_of depth nch (done ++ [c]).
Proof.
  intros H Hn. unfold planes_of. rewrite (lk_snoc _ _ _ (-1)) by auto. replace (fst c =? -1) with false by lia.
  f_equal. apply map_ext_in. intros i Hi. rewrite lk_snoc by auto.
  unfold zseq in Hi. apply in_map_iff in Hi. destruct Hi as (k & <- & _). now replace (fst c =? Z.of_nat k) with false by lia.
Qed.
Lemma planes_of_zlen depth nch cs : 0 <= nch ->
  zlen (planes_of depth nch cs) = nch + match lk depth cs (-1) with Some _ => 1 | None => 0 end.
Proof. intros. unfold planes_of. rewrite zlen_app, zlen_map, zlen_zseq. destruct (lk _ _ _); unfold zlen; cbn; lia. Qed.

Lemma plane_bytes_shift r depth : Z.shiftr (rdx r * depth + 7) 3 * rdy r = plane_bytes r depth.
Proof. unfold plane_bytes, row_bytes. rewrite Z.shiftr_div_pow2 by lia. reflexivity. Qed.

Lemma gray_kind_found depth : depth = 1 \/ depth = 8 \/ depth = 16 \/ depth = 32 -> findGrayPicker depth = Some (gray_kind depth).
Proof. intros [->|[->|[->| ->]]]; reflexivity. Qed.
Lemma gray_kind_planes depth : planes (gray_kind depth) = 1.
Proof. unfold gray_kind. repeat (destruct (_ =? _); try reflexivity). Qed.

Section prog.
  Variable inflate : bytes -> Z -> option (bytes * Z).
  Notation parses := (@parses inflate event _).
  Notation yields := (@yields inflate event _).
  Ltac pfull := eapply parses_bind; [apply parses_rfull|].
  Ltac plift := eapply parses_bind0; [apply parses_lift|].

  Lemma parses_zlib z d : unzips inflate z d -> parses (decodeZLIB (zlen d) (zlen z)) z (d, zlen z).
  Proof.
    intros [H0 H] kind rest. unfold decodeZLIB, zlib_limit. replace (zlen z =? 0) with false by lia.
    cbn [run]. rewrite (ztake_app_exact inflate). unfold inflate_ok. rewrite H. pose proof (zlen_nonneg z).
    rewrite Z.eqb_refl. replace (0 <=? zlen z) with true by lia. replace (zlen z <=? zlen z) with true by lia. cbn [andb].
    rewrite skipn_app_exact by (unfold zlen; lia). reflexivity.
  Qed.

  Lemma enc_rows_zlen n rows w : Forall (fun row : list Z => zlen row = w) rows -> zlen (enc_rows n rows) = zlen rows * w * Z.of_nat n.
  Proof.
    induction 1 as [|row rows H Hr IH]; [reflexivity|]. unfold enc_rows in *. cbn [flat_map]. rewrite zlen_app, IH, zlen_cons.
    rewrite (flat_map_be_zlen n row). rewrite H. lia.
  Qed.
  Lemma row_diff_zlen m row : forall d, zlen (row_diff m d row) = zlen row.
  Proof. induction row; intros; [reflexivity|]. cbn [row_diff]. rewrite !zlen_cons, IHrow. reflexivity. Qed.

  Lemma parses_payload_body procs large r depth p body cm : (1 <= procs)%nat ->
    payload_valid inflate large r depth p -> 0 <= rdx r -> 0 <= rdy r ->
    enc_payload large p = be 2 cm ++ body -> 0 <= cm <= 3 ->
    parses (if 2 <? zlen (enc_payload large p)
            then decompress procs cm (plane_bytes r depth) (zlen (enc_payload large p) - 2) r depth 1 large
            else Ret (zrepeat 0 (plane_bytes r depth), 0)) body (payload_data depth p, zlen body).
  Proof.
    intros Hpr [Hsz Hv] Hx Hy He Hcm. rewrite He. rewrite zlen_app, zlen_be. change (Z.of_nat 2) with 2.
    pose proof (zlen_nonneg body).
    assert (Hbe : forall k, 0 <= k <= 3 -> be 2 k = [0; k]).
    { intros k Hk. assert (k = 0 \/ k = 1 \/ k = 2 \/ k = 3) as [->|[->|[->| ->]]] by lia; reflexivity. }
    destruct p as [d|ls|z d|z rows]; cbn [enc_payload] in He; rewrite !Hbe in He by lia; injection He as <- <-.
    - cbn [payload_data]. destruct (2 <? 2 + zlen d) eqn:E.
      + unfold decompress. change (0 =? 0) with true. cbn iota. rewrite <- Hv. rewrite <- (app_nil_r d) at 2. pfull; [reflexivity|]. apply parses_ret.
      + assert (d = []) as -> by (apply zlen_0_nil; lia). rewrite <- Hv. apply parses_ret.
    - destruct Hv as (Hd & Hn & Hf & Hl & Hm). cbn [payload_data].
      assert (Hw : (if depth =? 1 then (rdx r + 7) / 8 else rdx r) = row_bytes (rdx r) depth).
      { unfold row_bytes. destruct Hd as [-> | ->]; cbn; [f_equal; lia|]. lia. }
      assert (0 <= row_bytes (rdx r) depth) by (unfold row_bytes; destruct Hd as [-> | ->]; lia).
      destruct (2 <? _) eqn:E.
      + unfold plane_bytes. rewrite <- Hn, (Z.mul_comm (row_bytes _ _)).
        rewrite <- Hw at 1. apply parses_rle; auto; rewrite ?Hw; auto. lia.
      + assert (ls = []) as ->.
        { destruct ls as [|l ls]; [reflexivity|]. exfalso. unfold enc_rle in *. cbn [flat_map] in *. rewrite !zlen_app in *.
          rewrite zlen_be in *. pose proof (zlen_nonneg (flat_map (fun l => be (if large then 4 else 2) (zlen (enc_line l))) ls)).
          pose proof (zlen_nonneg (flat_map enc_line ls)). pose proof (zlen_nonneg (enc_line l)).
          revert E. destruct large; lia. }
        rewrite zlen_nil in Hn. unfold plane_bytes. replace (rdy r) with 0 by lia. rewrite Z.mul_0_r. apply parses_ret.
    - destruct Hv as [Hd Hz]. cbn [payload_data]. replace (2 <? 2 + zlen z) with true by (destruct Hz; lia).
      unfold decompress. change (2 =? 0) with false. change (2 =? 1) with false. change (2 =? 2) with true. cbn iota.
      replace (2 + zlen z - 2) with (zlen z) by lia. rewrite <- Hd. now apply parses_zlib.
    - destruct Hv as (Hd & Hw & Hn & Hr & Hz). cbn [payload_data].
      replace (2 <? 2 + zlen z) with true by (destruct Hz; lia).
      unfold decompress. change (3 =? 0) with false. change (3 =? 1) with false. change (3 =? 2) with false. change (3 =? 3) with true. cbn iota.
      replace (2 + zlen z - 2) with (zlen z) by lia.
      assert (Lz : zlen (enc_rows (Z.to_nat (depth / 8)) (map (row_diff (2 ^ depth) 0) rows)) = plane_bytes r depth).
      { rewrite (enc_rows_zlen _ _ (rdx r)).
        - rewrite zlen_map, Hn. unfold plane_bytes, row_bytes. destruct Hd as [-> | ->].
          + change (Z.of_nat (Z.to_nat (16 / 8))) with 2. replace ((rdx r * 16 + 7) / 8) with (rdx r * 2) by lia. lia.
          + change (Z.of_nat (Z.to_nat (32 / 8))) with 4. replace ((rdx r * 32 + 7) / 8) with (rdx r * 4) by lia. lia.
        - apply Forall_forall. intros x Hin. apply in_map_iff in Hin. destruct Hin as (row & <- & Hin).
          rewrite Forall_forall in Hr. rewrite row_diff_zlen. apply Hr. exact Hin. }
      rewrite <- Lz. rewrite <- (app_nil_r z) at 2. eapply parses_bind; [now apply parses_zlib|]. cbn beta iota.
      rewrite (decodeDelta_correct depth (Z.to_nat (depth / 8)) (2 ^ depth) (rdx r) rows).
      + cbn [of_outcome bind]. apply parses_ret.
      + destruct Hd as [-> | ->]; [left|right]; repeat split; reflexivity.
      + lia.
      + exact Hr.
  Qed.

  Lemma chan_rect_nonneg sl id : rect_valid (sl_rect sl) -> smask_valid (sl_mask sl) ->
    0 <= rdx (chan_rect sl id) /\ 0 <= rdy (chan_rect sl id).
  Proof.
    intros (? & ? & ? & ? & ? & ?) Hm. unfold chan_rect, rdx, rdy.
    destruct (sl_mask sl) as [|r c f p pad|r c f p rf rc rr]; cbn [mask_of mk_rect mk_rrect mask0 smask_valid] in *.
    - destruct (_ =? _); [cbn; lia|]. destruct (_ =? _); [cbn; lia|lia].
    - destruct Hm as ((? & ? & ? & ? & ? & ?) & _). destruct (_ =? _); [lia|]. destruct (_ =? _); [cbn; lia|lia].
    - destruct Hm as ((? & ? & ? & ? & ? & ?) & _ & (? & ? & ? & ? & ? & ?) & _). destruct (_ =? _); [lia|]. destruct (_ =? _); lia.
  Qed.

  Lemma payload_split large p : exists cm body, 0 <= cm <= 3 /\ enc_payload large p = be 2 cm ++ body.
  Proof. destruct p; eexists; eexists; (split; [|reflexivity]); lia. Qed.

  Definition pick_step (chs : list bytes) (id : Z) (d : bytes) : option (list bytes) :=
    if 0 <=? id then upd chs id d else if id =? -1 then Some (chs ++ [d]) else Some chs.

  Lemma parses_channel procs cfg sl l st chm chs chs' c : (1 <= procs)%nat ->
    rect_valid (sl_rect sl) -> smask_valid (sl_mask sl) ->
    l_rect l = sl_rect sl -> l_mask l = mask_of (sl_mask sl) ->
    (cfg_depth cfg = 8 \/ cfg_depth cfg = 16 \/ cfg_depth cfg = 32) ->
    payload_valid inflate (psb cfg) (chan_rect sl (fst c)) (cfg_depth cfg) (snd c) ->
    let d := payload_data (cfg_depth cfg) (snd c) in
    pick_step chs (fst c) d = Some chs' ->
    exists st', parses (read_channel procs cfg l st chm chs (chdata_of (psb cfg) c)) (enc_payload (psb cfg) (snd c))
      (st', m_set Z.eqb chm (fst c) (Chan d (Picker (gray_kind (cfg_depth cfg)) (chan_rect sl (fst c)) [d])),
       chs', zlen (enc_payload (psb cfg) (snd c))).
  Proof.
    intros Hpr Hr Hm El Em Hd Hv d Hs.
    destruct (payload_split (psb cfg) (snd c)) as (cm & body & Hcm & He).
    destruct (chan_rect_nonneg sl (fst c) Hr Hm) as [Hx Hy].
    pose proof (parses_payload_body procs (psb cfg) _ _ (snd c) body cm Hpr Hv Hx Hy He Hcm) as PB.
    set (n := zlen (enc_payload (psb cfg) (snd c))) in *.
    assert (Hn : n = 2 + zlen body) by (unfold n; rewrite He, zlen_app, zlen_be; reflexivity).
    pose proof (zlen_nonneg body). exists (be 2 cm). rewrite He. unfold read_channel. cbn [cd_len cd_index chdata_of].
    fold n. replace (2 <=? n) with true by lia.
    pfull; [apply zlen_be|].
    plift; [rewrite <- (app_nil_r (be 2 cm)); apply (readUint16_be [] [] cm 0 eq_refl); lia|].
    rewrite i16_small by lia.
    assert (Er : (if fst c =? -3 then mk_rrect (l_mask l) else if fst c =? -2 then mk_rect (l_mask l) else l_rect l) = chan_rect sl (fst c)).
    { unfold chan_rect. rewrite El, Em. destruct (fst c =? -3) eqn:E3, (fst c =? -2) eqn:E2; try reflexivity. lia. }
    rewrite Er, plane_bytes_shift.
    assert (0 <= plane_bytes (chan_rect sl (fst c)) (cfg_depth cfg)).
    { unfold plane_bytes, row_bytes. apply Z.mul_nonneg_nonneg; [|lia]. apply Z.div_pos; [|lia]. nia. }
    destruct Hv as [Hsz Hv]. rewrite i64_small by lia.
    eapply parses_bind0; [apply parses_make_ok; unfold max_alloc; lia|].
    plift; [apply gray_kind_found; lia|].
    rewrite <- (app_nil_r body).
    eapply parses_bind; [exact PB|]. cbn beta iota. fold d.
    eapply parses_bind0 with (a := 0).
    { apply parses_if_false; [lia|]. apply parses_ret. }
    apply parses_if_false; [lia|].
    plift; [unfold setSource; rewrite gray_kind_planes; reflexivity|].
    eapply parses_bind0 with (a := chs').
    { unfold pick_step in Hs. destruct (0 <=? fst c); [now apply parses_lift|].
      destruct (fst c =? -1); injection Hs as <-; apply parses_ret. }
    replace (2 + zlen body + 0) with n by lia. apply parses_ret.
  Qed.

  (** All channels of a layer. *)
  Lemma parses_channels procs cfg sl l nch : (1 <= procs)%nat ->
    rect_valid (sl_rect sl) -> smask_valid (sl_mask sl) ->
    l_rect l = sl_rect sl -> l_mask l = mask_of (sl_mask sl) ->
    (cfg_depth cfg = 8 \/ cfg_depth cfg = 16 \/ cfg_depth cfg = 32) ->
    forall cs done st chm rd,
    NoDup (map fst (done ++ cs)) ->
    Forall (fun c => (fst c = -1 \/ fst c = -2 \/ fst c = -3 \/ 0 <= fst c < nch) /\
      payload_valid inflate (psb cfg) (chan_rect sl (fst c)) (cfg_depth cfg) (snd c)) cs ->
    (forall id, m_get Z.eqb chm id =
      match lk (cfg_depth cfg) done id with
      | Some d => Some (Chan d (Picker (gray_kind (cfg_depth cfg)) (chan_rect sl id) [d]))
      | None => None
      end) ->
    exists st' chm', parses (read_channels procs cfg l st chm (planes_of (cfg_depth cfg) nch done) rd (map (chdata_of (psb cfg)) cs))
      (flat_map (fun c => enc_payload (psb cfg) (snd c)) cs)
      (st', chm', planes_of (cfg_depth cfg) nch (done ++ cs), rd + zlen (flat_map (fun c => enc_payload (psb cfg) (snd c)) cs)) /\
      forall id, m_get Z.eqb chm' id =
      match lk (cfg_depth cfg) (done ++ cs) id with
      | Some d => Some (Chan d (Picker (gray_kind (cfg_depth cfg)) (chan_rect sl id) [d]))
      | None => None
      end.
  Proof.
    intros Hpr Hr Hm El Em Hd. induction cs as [|c cs IH]; intros done st chm rd Hnd Hcs Hg.
    - exists st, chm. rewrite app_nil_r. split; [|exact Hg]. cbn [map read_channels flat_map]. rewrite zlen_nil, Z.add_0_r. apply parses_ret.
    - inversion_clear Hcs as [|? ? [Hid Hp] Hcs'].
      assert (Hni : ~ In (fst c) (map fst done)).
      { rewrite map_app in Hnd. cbn [map] in Hnd. intros Hin. apply NoDup_remove_2 in Hnd. apply Hnd. apply in_or_app. now left. }
      assert (Hst : pick_step (planes_of (cfg_depth cfg) nch done) (fst c) (payload_data (cfg_depth cfg) (snd c)) =
                    Some (planes_of (cfg_depth cfg) nch (done ++ [c]))).
      { unfold pick_step. destruct (0 <=? fst c) eqn:E.
        - apply planes_of_upd; [lia|auto].
        - destruct (fst c =? -1) eqn:E1; f_equal; [apply planes_of_alpha; [lia|auto]|apply planes_of_other; [lia|auto]]. }
      destruct (parses_channel procs cfg sl l st chm _ _ c Hpr Hr Hm El Em Hd Hp Hst) as (st1 & P1).
      destruct (IH (done ++ [c]) st1 (m_set Z.eqb chm (fst c) (Chan (payload_data (cfg_depth cfg) (snd c))
        (Picker (gray_kind (cfg_depth cfg)) (chan_rect sl (fst c)) [payload_data (cfg_depth cfg) (snd c)])))
        (rd + zlen (enc_payload (psb cfg) (snd c)))) as (st' & chm' & P2 & G2).
      + rewrite <- app_assoc. exact Hnd.
      + exact Hcs'.
      + intros id. rewrite (m_get_set Z.eqb Z.eqb_eq), lk_snoc by auto. destruct (fst c =? id) eqn:E.
        * apply Z.eqb_eq in E. rewrite E. reflexivity.
        * apply Hg.
      + rewrite <- app_assoc in P2, G2. exists st', chm'. split; [|exact G2].
        cbn [map read_channels flat_map]. rewrite zlen_app, Z.add_assoc.
        eapply parses_bind; [exact P1|]. cbn beta iota. exact P2.
  Qed.

  Lemma layer_kind_found mode depth (alpha : bool) : mode_depth_ok mode depth ->
    findPicker depth mode alpha = Some (layer_kind mode depth alpha).
  Proof. intros [[[->| ->] [->|[->| ->]]]|[-> [->| ->]]]; destruct alpha; reflexivity. Qed.
  Lemma layer_kind_planes mode depth (alpha : bool) nch : mode_depth_ok mode depth -> colour_planes mode = Some nch ->
    planes (layer_kind mode depth alpha) = nch + if alpha then 1 else 0.
  Proof. intros [[[->| ->] [->|[->| ->]]]|[-> [->| ->]]] E; injection E as <-; destruct alpha; reflexivity. Qed.
  Lemma mode_channels_spec mode nch : colour_planes mode = Some nch -> mode_channels mode = nch /\ 1 <= nch <= 4.
  Proof.
    unfold colour_planes, mode_channels. destruct (mode =? 1) eqn:E1; [|destruct (mode =? 3) eqn:E3; [|destruct (mode =? 4) eqn:E4]]; intros [= <-].
    - replace (mode =? 0) with false by lia. cbn. lia.
    - replace (mode =? 0) with false by lia. replace (mode =? 2) with false by lia. cbn. lia.
    - replace (mode =? 0) with false by lia. replace (mode =? 2) with false by lia. cbn. lia.
  Qed.

  Lemma attributes_with_image i sl l chm pk : attributes_are i sl l -> attributes_are i sl (with_image l chm pk).
  Proof. auto. Qed.

  (** The images of all layers. *)
  Definition rec_matches (large : bool) (i : Z) (sl : slayer) (rc : lrec * list chdata) : Prop :=
    attributes_are i sl (fst rc) /\ l_channels (fst rc) = [] /\ l_picker (fst rc) = None /\
    snd rc = map (chdata_of large) (sl_channels sl).
  Fixpoint recs_match (large : bool) (i : Z) (sls : list slayer) (rcs : list (lrec * list chdata)) : Prop :=
    match sls, rcs with
    | [], [] => True
    | sl :: sls, rc :: rcs => rec_matches large i sl rc /\ recs_match large (i + 1) sls rcs
    | _, _ => False
    end.

  Lemma yields_images procs cfg nch total : (1 <= procs)%nat ->
    mode_depth_ok (cfg_mode cfg) (cfg_depth cfg) -> colour_planes (cfg_mode cfg) = Some nch ->
    forall sls i rcs st rd, Forall (slayer_valid inflate (psb cfg) (cfg_depth cfg) nch) sls ->
    recs_match (psb cfg) i sls rcs ->
    exists ls, yields (readLayerImage procs cfg total i st rd rcs) (flat_map (enc_images (psb cfg)) sls)
        (ls, rd + zlen (flat_map (enc_images (psb cfg)) sls)) (events_from total i ls) /\
      layers_are false (cfg_mode cfg) (cfg_depth cfg) nch i sls ls /\
      map (fun l => with_image l [] None) ls = map fst rcs.
  Proof.
    intros Hpr Hmd Hnch. destruct (mode_channels_spec _ _ Hnch) as [Emc Hn4].
    induction sls as [|sl sls IH]; intros i [|rc rcs] st rd Hv Hm; cbn [recs_match] in Hm; try easy.
    - exists []. split; [|split; [exact I|reflexivity]]. cbn [readLayerImage flat_map]. rewrite zlen_nil, Z.add_0_r. apply yields_ret.
    - destruct Hm as [(Ha & Hc0 & Hp0 & Hcd) Hm]. inversion_clear Hv as [|? ? Hs Hv']. destruct rc as [l js]. cbn [fst snd] in *. subst js.
      destruct Hs as (H1 & H2 & H3 & H4 & H5 & H6 & _).
      assert (El : l_rect l = sl_rect sl) by (apply Ha).
      assert (Em : l_mask l = mask_of (sl_mask sl)) by (apply Ha).
      assert (Hd : cfg_depth cfg = 8 \/ cfg_depth cfg = 16 \/ cfg_depth cfg = 32) by (destruct Hmd as [[_ ?]|[_ ?]]; tauto).
      destruct (parses_channels procs cfg sl l nch Hpr H1 H6 El Em Hd (sl_channels sl) [] st [] 0) as (st' & chm & P1 & G1).
      { exact H3. }
      { eapply Forall_impl; [|exact H4]. cbn beta. tauto. }
      { reflexivity. }
      cbn [app] in P1, G1. fold (enc_images (psb cfg) sl) in P1. rewrite Z.add_0_l in P1.
      set (alpha := match lk (cfg_depth cfg) (sl_channels sl) (-1) with Some _ => true | None => false end).
      set (chs := planes_of (cfg_depth cfg) nch (sl_channels sl)) in *.
      assert (Lc : zlen chs = nch + if alpha then 1 else 0).
      { unfold chs. rewrite planes_of_zlen by lia. unfold alpha. destruct (lk _ _ _); reflexivity. }
      set (pk := Picker (layer_kind (cfg_mode cfg) (cfg_depth cfg) alpha) (sl_rect sl) chs).
      destruct (IH (i + 1) rcs st' (rd + zlen (enc_images (psb cfg) sl)) Hv' Hm) as (ls & Y & L & M).
      exists (with_image l chm (Some pk) :: ls). split; [|split].
      + cbn [readLayerImage flat_map events_from]. rewrite zlen_app, Z.add_assoc.
        assert (Ez : zrepeat [] (mode_channels (cfg_mode cfg)) = planes_of (cfg_depth cfg) nch []).
        { unfold planes_of. cbn [lk find]. rewrite app_nil_r, Emc. unfold zrepeat. apply nth_ext with (d := []) (d' := []).
          - rewrite repeat_length, map_length. unfold zseq. now rewrite map_length, seq_length.
          - intros k Hk. rewrite nth_repeat. rewrite repeat_length in Hk. erewrite nth_indep.
            + rewrite map_nth with (d := 0). reflexivity.
            + rewrite map_length. unfold zseq. now rewrite map_length, seq_length. }
        eapply yields_pbind0; [apply parses_make_ok; unfold max_alloc; lia|].
        rewrite Ez. eapply yields_pbind; [exact P1|]. cbn beta iota.
        eapply yields_pbind0; [apply parses_lift|].
        { rewrite Emc. replace (nch <? zlen chs) with alpha by (rewrite Lc; destruct alpha; lia). now apply layer_kind_found. }
        eapply yields_pbind0; [apply parses_lift|].
        { unfold setSource. rewrite (layer_kind_planes _ _ _ nch) by auto. rewrite Lc.
          replace (nch + (if alpha then 1 else 0) <? nch + (if alpha then 1 else 0)) with false by lia.
          rewrite <- Lc. unfold zlen. rewrite Nat2Z.id, firstn_all. rewrite El. reflexivity. }
        fold pk. apply yields_emit. rewrite <- (app_nil_r (flat_map _ sls)), <- (app_nil_r (events_from _ _ ls)).
        eapply yields_bind; [exact Y|]. cbn beta iota. rewrite app_nil_r. apply yields_ret.
      + cbn [layers_are]. split; [|exact L]. split; [now apply attributes_with_image|].
        unfold image_is. cbn [l_picker l_channels with_image]. split; [|exact G1].
        unfold pk, chs, alpha, planes_of, chan_data. reflexivity.
      + cbn [map fst]. f_equal; [|exact M]. destruct l. cbn in *. unfold with_image. cbn. subst. reflexivity.
  Qed.
End prog.
