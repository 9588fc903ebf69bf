(** The merged image, proofs. *)
From Verif Require Import Base BaseFacts MUtil SUtil PUtil MRect MReader PReader MPicker MConfig SConfig PConfig PConfig2 MCompress SCompress PCompress3 MLayer MApi SPicker SRecord PRecord PRecord3 PRecord4 PPicker SMerged.

Section merged.
  Variable inflate : bytes -> Z -> option (bytes * Z).
  Notation parses := (parses inflate).
  Notation yields := (yields inflate).

  Lemma layer_part_read procs cfg o sec fuel : (1 <= procs)%nat -> layer_part inflate (psb cfg) (cfg_mode cfg) (cfg_depth cfg) sec ->
    zlen sec < Z.of_nat fuel ->
    exists tree info evs, yields (readLayerAndMaskInfo procs cfg o fuel) sec (tree, info, zlen sec) evs.
  Proof.
    intros Hpr H. inversion H as [E|nch neg pl sf pad gmask bs tail Hmd Hnch Hs Hsf E]; subst sec; clear H; intros Hf.
    - exists [], [], []. apply parses_yields. unfold readLayerAndMaskInfo, intSize. set (n := if psb cfg then 8%nat else 4%nat).
      rewrite <- (app_nil_r (be _ 0)) at 1. eapply parses_bind; [apply parses_rfull; rewrite zlen_be; unfold n; destruct (psb cfg); reflexivity|].
      eapply parses_bind0; [apply parses_lift; instantiate (1 := 0); unfold n; destruct (psb cfg); reflexivity|].
      cbv zeta. apply parses_if_true; [reflexivity|]. replace (zlen (be n 0)) with (if psb cfg then 8 else 4) by (rewrite zlen_be; unfold n; destruct (psb cfg); reflexivity). apply parses_ret.
    - destruct (yields_section inflate procs cfg nch pl (flat_map sflatten sf) Hpr Hmd Hnch (proj1 Hs) (proj1 (proj2 Hs))) as (full & skipped & Lf & Ls & _ & Y).
      destruct (tree_of_layers (o_skip_layer o) (cfg_mode cfg) (cfg_depth cfg) nch sf 0 (if o_skip_layer o then skipped else full) Hsf) as (tree & Ht & _).
      { destruct (o_skip_layer o); [exact Ls|exact Lf]. }
      destruct (Y o neg pad gmask bs tail fuel Hs Hf tree Ht) as (info & _ & Y2). eauto.
  Qed.

  (** ** Colour table and alpha *)
  Lemma palette_from_ok tr cmd : zlen cmd = 768 -> forall n i, 0 <= i -> i + Z.of_nat n <= 256 ->
    exists p, palette_from n i tr cmd = Some p /\ zlen p = Z.of_nat n /\
      forall j, 0 <= j < Z.of_nat n -> exists r g b, idx cmd (i + j) = Some r /\ idx cmd (i + j + 256) = Some g /\ idx cmd (i + j + 512) = Some b /\
        idx p j = Some (CNRGBA r g b (if i + j =? tr then 0 else 255)).
  Proof.
    intros Hc. induction n as [|n IH]; intros i Hi Hn; [exists []; repeat split; lia|]. cbn [palette_from].
    destruct (idx_in cmd i) as [r Er]; [lia|]. destruct (idx_in cmd (i + 256)) as [g Eg]; [lia|]. destruct (idx_in cmd (i + 512)) as [b Eb]; [lia|].
    rewrite Er, Eg, Eb. destruct (IH (i + 1)) as (p & Ep & Lp & Hp); [lia|lia|]. rewrite Ep. cbn [option_map].
    eexists. split; [reflexivity|]. rewrite zlen_cons. split; [lia|]. intros j Hj. destruct (Z.eq_dec j 0) as [->|Hj0].
    - rewrite Z.add_0_r, idx_cons_0. eauto 8.
    - destruct (Hp (j - 1)) as (r' & g' & b' & H1 & H2 & H3 & H4); [lia|]. rewrite idx_cons_S by lia. rewrite H4.
      replace (i + 1 + (j - 1)) with (i + j) in * by lia. eauto 8.
  Qed.

  Lemma table_colour_idx cmd t i r g b : zlen cmd = 768 -> 0 <= i < 256 ->
    idx cmd i = Some r -> idx cmd (i + 256) = Some g -> idx cmd (i + 512) = Some b ->
    table_colour cmd t i (CNRGBA r g b (match t with Some j => if i =? j then 0 else 255 | None => 255 end)).
  Proof.
    intros Hc Hi Er Eg Eb. exists (firstn 256 cmd), (firstn 256 (skipn 256 cmd)), (skipn 512 cmd), r, g, b.
    split.
    { rewrite <- (firstn_skipn 256 cmd) at 1. f_equal. rewrite <- (firstn_skipn 256 (skipn 256 cmd)) at 1. f_equal. now rewrite skipn_skipn. }
    rewrite !zlen_firstn, !zlen_skipn. repeat split; try lia.
    - rewrite idx_firstn by lia. exact Er.
    - rewrite idx_firstn, idx_skipn by lia. rewrite Z.add_comm. exact Eg.
    - rewrite idx_skipn by lia. rewrite Z.add_comm. exact Eb.
  Qed.

  Lemma alpha_search_ids ids : Forall (fun i => 0 <= i < 4294967296) ids -> forall fuel pre, (length ids <= fuel)%nat ->
    alpha_search fuel (pre ++ flat_map (be 4) ids) (zlen pre) = Some (existsb (fun i => i =? 0) ids).
  Proof.
    induction 1 as [|i ids Hi H IH]; intros fuel pre Hf.
    - cbn [flat_map existsb]. rewrite app_nil_r. destruct fuel; cbn [alpha_search]; now rewrite Z.ltb_irrefl.
    - destruct fuel as [|fuel]; [cbn in Hf; lia|]. cbn [alpha_search flat_map existsb].
      pose proof (zlen_nonneg (flat_map (be 4) ids)).
      rewrite !zlen_app, zlen_be. replace (zlen pre <? _) with true by lia.
      rewrite readUint32_be by (reflexivity || lia).
      destruct (i =? 0); [reflexivity|]. cbn [orb]. cbn [length] in Hf. specialize (IH fuel (pre ++ be 4 i) ltac:(lia)).
      rewrite <- app_assoc, zlen_app, zlen_be in IH. exact IH.
  Qed.

  Lemma has_alpha_found res n channels a m : (forall id, m_get Z.eqb m id = last_res res id) -> has_alpha channels n res a -> n < channels ->
    hasAlphaID0 m = Some a.
  Proof.
    intros Hm H Hn. unfold hasAlphaID0. rewrite Hm. destruct H as [(? & _)|[(_ & -> & ->)|(_ & r & ids & -> & E & Hi & Ha)]]; [lia|reflexivity|].
    rewrite E. pose proof (alpha_search_ids ids Hi (length (flat_map (be 4) ids)) []) as S. cbn [app] in S. change (zlen (@nil Z)) with 0 in S.
    rewrite S.
    - f_equal. destruct a.
      + apply existsb_exists. exists 0. split; [now apply Ha|reflexivity].
      + apply Bool.not_true_is_false. intros X. apply existsb_exists in X. destruct X as (x & Hx & X). apply Z.eqb_eq in X. subst x.
        apply Ha in Hx. discriminate Hx.
    - clear. induction ids as [|i ids IH]; [cbn; lia|]. cbn [flat_map length]. rewrite app_length. pose proof (zlen_be 4 i). unfold zlen in *. lia.
  Qed.

  Definition kind_is (mode depth : Z) (cmd : bytes) (t : option Z) (a : bool) (k : pkind) : Prop :=
    if mode =? 0 then k = PkGray1
    else if mode =? 2 then exists pal, k = PkPalette pal /\ forall i, 0 <= i < 256 -> exists c, idx pal i = Some c /\ table_colour cmd t i c
    else findPicker depth mode a = Some k.

  Lemma makePicker_is h cmd res t a : header_valid h -> image_mode (h_mode h) (h_depth h) cmd ->
    colour_channels (h_mode h) <= h_channels h -> has_alpha (h_channels h) (colour_channels (h_mode h)) res a -> clear_index res t ->
    exists k, makePicker (config_of h cmd res) = Ok k /\ kind_is (h_mode h) (h_depth h) cmd t a k /\ planes k <= h_channels h.
  Proof.
    intros Hh Hm Hn Ha Ht. pose proof (config_of_res h cmd res) as Hg.
    assert (Em : cfg_mode (config_of h cmd res) = h_mode h).
    { cbn. unfold signed16. destruct Hm as [[E _]|[[E _]|[[[E|E] _]|[E _]]]]; rewrite E; reflexivity. }
    unfold makePicker, kind_is. rewrite Em. destruct Hh as (_ & Hch & _).
    destruct Hm as [[E Ed]|[(E & Ed & Hc)|Hmd]].
    - rewrite E in *. cbn [Z.eqb Pos.eqb]. exists PkGray1. cbn. repeat split; lia.
    - rewrite E in *. cbn [Z.eqb Pos.eqb]. unfold palette. rewrite Em. cbn [Z.eqb Pos.eqb negb].
      rewrite Hg. cbn [cfg_cmd config_of]. rewrite Hc. change (Z.to_nat (768 / 3)) with 256%nat.
      assert (X : forall tr, (forall i, 0 <= i < 256 -> (if i =? tr then 0 else 255) = match t with Some j => if i =? j then 0 else 255 | None => 255 end) ->
        exists k, match match palette_from 256 0 tr cmd with Some p => Some p | None => None end with Some p => Ok (PkPalette p) | None => Panic end = Ok k /\
          (exists pal, k = PkPalette pal /\ forall i, 0 <= i < 256 -> exists c, idx pal i = Some c /\ table_colour cmd t i c) /\ planes k <= h_channels h).
      { intros tr Hi. destruct (palette_from_ok tr cmd Hc 256 0) as (p & Ep & _ & Hp); [lia|lia|]. rewrite Ep.
        exists (PkPalette p). split; [reflexivity|]. split; [|cbn; lia]. exists p. split; [reflexivity|]. intros i Hi2.
        destruct (Hp i) as (r & g & b & H1 & H2 & H3 & H4); [lia|]. rewrite H4. cbn [Z.add] in *. eexists. split; [reflexivity|]. rewrite Hi by lia.
        now apply table_colour_idx. }
      destruct Ht as [(Et & ->)|(r & i & post & Et & Hi & Ed' & ->)]; rewrite Et.
      + destruct (X (-1)) as (k & H1 & H2); [intros i Hi; replace (i =? -1) with false by lia; reflexivity|]. exists k. split; [|exact H2].
        destruct (palette_from _ _ _ _); exact H1.
      + rewrite Ed', readUint16_be0 by lia. destruct (X i) as (k & H1 & H2); [reflexivity|]. exists k. split; [|exact H2].
        destruct (palette_from _ _ _ _); exact H1.
    - assert (E0 : h_mode h =? 0 = false /\ h_mode h =? 2 = false) by (destruct Hmd as [[[E|E] _]|[E _]]; rewrite E; split; reflexivity).
      destruct E0 as [E0 E2]. rewrite E0, E2.
      assert (En : mode_channels (h_mode h) = colour_channels (h_mode h)) by (destruct Hmd as [[[E|E] _]|[E _]]; rewrite E; reflexivity).
      rewrite En. cbn [cfg_channels cfg_depth config_of].
      assert (K : exists k, findPicker (h_depth h) (h_mode h) a = Some k /\ planes k = colour_channels (h_mode h) + (if a then 1 else 0)).
      { destruct Hmd as [[[E|E] [D|[D|D]]]|[E [D|D]]]; rewrite E, D; destruct a; eexists; (split; [reflexivity|reflexivity]). }
      destruct K as (k & Ek & Pk). exists k. split; [|split; [exact Ek|]].
      + destruct (colour_channels (h_mode h) <? h_channels h) eqn:El.
        * rewrite (has_alpha_found res (colour_channels (h_mode h)) (h_channels h) a); [|exact Hg|exact Ha|lia]. cbn [chk obind]. now rewrite Ek.
        * destruct Ha as [(_ & ->)|[(Hlt & _)|(Hlt & _)]]; [|lia|lia]. now rewrite Ek.
      + rewrite Pk. destruct a; [|lia]. destruct Ha as [(_ & X)|[(Hlt & _)|(Hlt & _)]]; [discriminate X|lia|lia].
  Qed.

  (** ** Planes *)
  Lemma firstn_plane {A} (g : A -> bytes) size l : Forall (fun a => zlen (g a) = size) l -> forall i a, idx l i = Some a ->
    firstn (Z.to_nat size) (skipn (Z.to_nat (size * i)) (flat_map g l)) = g a.
  Proof.
    induction 1 as [|b l Hb H IH]; intros i a E.
    - apply idx_some_lt in E. unfold zlen in E. cbn in E. lia.
    - pose proof (idx_some_lt _ _ _ E) as Hr. pose proof (zlen_nonneg (g b)). cbn [flat_map]. destruct (Z.eq_dec i 0) as [->|Hi].
      + rewrite idx_cons_0 in E. injection E as ->. rewrite Z.mul_0_r. cbn [Z.to_nat skipn]. apply firstn_app_exact. unfold zlen in Hb. lia.
      + rewrite idx_cons_S in E by lia. replace (Z.to_nat (size * i)) with (length (g b) + Z.to_nat (size * (i - 1)))%nat by (unfold zlen in Hb; nia).
        rewrite <- skipn_skipn. rewrite skipn_app_exact by reflexivity. now apply IH.
  Qed.
  Lemma merged_planes_flat {A} (g : A -> bytes) size l : Forall (fun a => zlen (g a) = size) l ->
    merged_planes (flat_map g l) size (zlen l) = map g l.
  Proof.
    intros H. unfold merged_planes. apply idx_ext_in.
    - rewrite !zlen_map, zlen_zseq. unfold zlen. lia.
    - intros i Hi. rewrite zlen_map, zlen_zseq in Hi. rewrite !idx_map, idx_zseq by lia. cbn [option_map].
      destruct (idx_in l i) as [a Ea]; [unfold zlen in *; lia|]. rewrite Ea. cbn [option_map]. f_equal. eapply firstn_plane; eauto.
  Qed.

  Lemma enc_plane_len depth w h f : (depth = 1 \/ depth = 8 \/ depth = 16 \/ depth = 32) -> 0 <= w -> 0 <= h ->
    zlen (enc_plane depth w h f) = (w * depth + 7) / 8 * h.
  Proof.
    intros Hd Hw Hh. unfold enc_plane. rewrite (flat_map_len _ (PPicker.row_bytes depth w)).
    - rewrite zlen_zseq. unfold PPicker.row_bytes. nia.
    - apply Forall_forall. intros y _. now apply enc_samples_len.
  Qed.

  Section file.
    Variables (h : header) (cmd : bytes) (res : list rblock) (fs : list (Z -> Z -> Z)).
    Let cfg := config_of h cmd res.
    Let r := Rct 0 0 (h_width h) (h_height h).
    Let ps := map (enc_plane (h_depth h) (h_width h) (h_height h)) fs.
    Hypothesis Hh : header_valid h.
    Hypothesis Hfs : zlen fs = h_channels h.

    Lemma planes_len : Forall (fun f => zlen (enc_plane (h_depth h) (h_width h) (h_height h) f) = (h_width h * h_depth h + 7) / 8 * h_height h) fs.
    Proof. destruct Hh as (_ & _ & Hw & Hg & Hd & _). apply Forall_forall. intros f _. apply enc_plane_len; [exact Hd|lia|lia]. Qed.

    Lemma parses_decompress procs img : (1 <= procs)%nat -> image_part (h_version h =? 2) (h_depth h) (h_width h) (h_height h) fs img ->
      exists cm body, img = be 2 cm ++ body /\ 0 <= cm <= 1 /\
        parses (decompress procs cm ((h_width h * h_depth h + 7) / 8 * h_height h * h_channels h) 0 r (h_depth h) (h_channels h) (h_version h =? 2))
          body (concat ps, zlen body).
    Proof.
      intros Hpr H. pose proof Hh as (_ & Hch & Hw & Hg & Hd & _). inversion H as [E|ls Hd1 Hx Hn Hl Hs Ha E]; subst img; clear H.
      - exists 0, (flat_map (enc_plane (h_depth h) (h_width h) (h_height h)) fs). split; [reflexivity|]. split; [lia|].
        unfold decompress. change (0 =? 0) with true. cbn iota.
        assert (L : zlen (flat_map (enc_plane (h_depth h) (h_width h) (h_height h)) fs) = (h_width h * h_depth h + 7) / 8 * h_height h * h_channels h).
        { rewrite (flat_map_len _ _ _ planes_len), Hfs. reflexivity. }
        rewrite <- (app_nil_r (flat_map _ fs)) at 1. eapply parses_bind; [apply parses_rfull; exact L|]. rewrite L.
        unfold ps. rewrite <- flat_map_concat_map. apply parses_ret.
      - exists 1, (enc_rle (h_version h =? 2) ls). split; [reflexivity|]. split; [lia|].
        pose proof (parses_rle inflate procs 0 r (h_depth h) (h_channels h) (h_version h =? 2) ls) as P. cbv zeta in P.
        assert (Ew : (if h_depth h =? 1 then (rdx r + 7) / 8 else rdx r) = (h_width h * h_depth h + 7) / 8).
        { unfold rdx, r. cbn [rx0 rx1]. destruct Hd1 as [-> | ->]; cbn [Z.eqb Pos.eqb]; [f_equal; lia|]. lia. }
        rewrite Ew in P. unfold rdy in P. cbn [ry0 ry1] in P. unfold ps. rewrite <- flat_map_concat_map, <- Hx.
        replace ((h_width h * h_depth h + 7) / 8 * h_height h * h_channels h) with (zlen ls * ((h_width h * h_depth h + 7) / 8)) by (rewrite Hn, Hfs; lia).
        apply P; auto.
        + apply Z.div_pos; [|lia]. destruct Hd1 as [-> | ->]; lia.
        + unfold r. cbn [ry0 ry1]. rewrite Hn, Hfs. lia.
    Qed.

    Lemma parses_merged procs img k : (1 <= procs)%nat -> image_part (h_version h =? 2) (h_depth h) (h_width h) (h_height h) fs img ->
      makePicker cfg = Ok k -> planes k <= h_channels h ->
      exists chm pk, setSource k r ps = Some pk /\
        (forall i p, idx ps i = Some p -> exists gk, findGrayPicker (h_depth h) = Some gk /\ idx chm i = Some (i, Chan p (Picker gk r [p]))) /\ zlen chm = h_channels h /\
        parses (decode_merged procs cfg) img (concat ps, chm, pk, zlen img).
    Proof.
      intros Hpr Hi Hk Hp. destruct (parses_decompress procs img Hpr Hi) as (cm & body & -> & Hcm & P).
      pose proof Hh as (_ & Hch & Hw & Hg & Hd & _).
      assert (G : exists gk, findGrayPicker (h_depth h) = Some gk) by (destruct Hd as [-> |[-> |[-> | ->]]]; eexists; reflexivity).
      destruct G as [gk Egk].
      assert (Lp : zlen ps = h_channels h) by (unfold ps; now rewrite zlen_map).
      assert (S : setSource k r ps = Some (Picker k r (firstn (Z.to_nat (planes k)) ps))) by (unfold setSource; rewrite Lp; replace (_ <? _) with false by lia; reflexivity).
      exists (map (fun '(i, d) => (i, Chan d (Picker gk r [d]))) (combine (zseq (Z.to_nat (h_channels h))) ps)), (Picker k r (firstn (Z.to_nat (planes k)) ps)).
      split; [exact S|]. split; [|split].
      - intros i p Ei. exists gk. split; [exact Egk|]. rewrite idx_map. pose proof (idx_some_lt _ _ _ Ei) as Hr.
        assert (Ec : idx (combine (zseq (Z.to_nat (h_channels h))) ps) i = Some (i, p)).
        { pose proof (idx_zseq (Z.to_nat (h_channels h)) i ltac:(lia)) as Z1. revert Z1 Ei. unfold idx. replace (i <? 0) with false by lia.
          generalize (Z.to_nat i) as j. generalize (zseq (Z.to_nat (h_channels h))) as zs. generalize ps as qs.
          induction qs as [|q qs IH]; intros [|z zs] [|j] H1 H2; cbn [nth_error combine] in *; try discriminate; [congruence|]. now apply IH. }
        rewrite Ec. reflexivity.
      - rewrite zlen_map. unfold zlen in *. rewrite combine_length. unfold zseq. rewrite map_length, seq_length. lia.
      - unfold decode_merged. cbv zeta. rewrite Z.shiftr_div_pow2 by lia. change (2 ^ 3) with 8.
        change (cfg_rect cfg) with r. change (cfg_depth cfg) with (h_depth h). change (cfg_channels cfg) with (h_channels h). change (psb cfg) with (h_version h =? 2).
        replace (rdx r) with (h_width h) by (unfold rdx, r; cbn; lia). replace (rdy r) with (h_height h) by (unfold rdy, r; cbn; lia).
        set (size := (h_width h * h_depth h + 7) / 8 * h_height h) in *.
        assert (Hsz : 0 <= size * h_channels h <= max_alloc).
        { assert (dim_limit (h_version h) <= 300000) by (unfold dim_limit; destruct (h_version h =? 1); lia).
          assert (0 <= (h_width h * h_depth h + 7) / 8 <= 1200000) by (destruct Hd as [-> |[-> |[-> | ->]]]; lia). unfold max_alloc, size.
          assert (0 <= (h_width h * h_depth h + 7) / 8 * h_height h <= 1200000 * 300000) by (split; [apply Z.mul_nonneg_nonneg; lia|apply Z.mul_le_mono_nonneg; lia]).
          split; [apply Z.mul_nonneg_nonneg; lia|]. apply Z.le_trans with (1200000 * 300000 * 56); [apply Z.mul_le_mono_nonneg; lia|lia]. }
        eapply parses_bind0; [apply parses_make_ok; exact Hsz|].
        eapply parses_bind0; [apply parses_lift; exact Egk|].
        eapply parses_bind0; [rewrite Hk; cbn [of_outcome]; apply parses_ret|].
        eapply parses_bind0; [apply parses_lift; unfold setSource; unfold zlen, zrepeat; rewrite repeat_length; replace (_ <? _) with false by lia; reflexivity|].
        eapply parses_bind; [apply parses_rfull; apply zlen_be|].
        eapply parses_bind0; [apply parses_lift; rewrite <- (app_nil_r (be 2 cm)); apply readUint16_be0; lia|].
        rewrite i16_small by lia. rewrite <- (app_nil_r body) at 1.
        eapply parses_bind; [exact P|]. cbn beta iota zeta.
        assert (Em : merged_planes (concat ps) size (h_channels h) = ps).
        { unfold ps at 1. rewrite <- flat_map_concat_map, <- Hfs. apply merged_planes_flat. exact planes_len. }
        rewrite Em. eapply parses_bind0; [apply parses_lift; exact S|].
        rewrite zlen_app, zlen_be. apply parses_ret.
    Qed.

    Variables (rsv sec img : bytes) (t : option Z) (a : bool).
    Hypothesis Hrsv : zlen rsv = 6.
    Hypothesis Hcmd : zlen cmd < 4294967296.
    Hypothesis Hres : Forall rblock_valid res.
    Hypothesis Hresl : zlen (enc_rblocks res) < 4294967296.
    Hypothesis Hm : image_mode (h_mode h) (h_depth h) cmd.
    Hypothesis Hn : colour_channels (h_mode h) <= h_channels h.
    Hypothesis Ha : has_alpha (h_channels h) (colour_channels (h_mode h)) res a.
    Hypothesis Ht : clear_index res t.
    Hypothesis Hsec : layer_part inflate (h_version h =? 2) (h_mode h) (h_depth h) sec.
    Hypothesis Himg : image_part (h_version h =? 2) (h_depth h) (h_width h) (h_height h) fs img.

    Lemma merged_decode kind procs o rest : (1 <= procs)%nat -> o_skip_merged o = false -> o_config_loaded o cfg = false ->
      let enc := enc_config h rsv cmd res ++ sec ++ img in
      exists f evs k pk, Decode inflate kind procs o (enc ++ rest) = (Ok (f, zlen enc, rest), evs) /\ f_config f = cfg /\ f_data f = concat ps /\
        f_picker f = Some pk /\ setSource k r ps = Some pk /\ kind_is (h_mode h) (h_depth h) cmd t a k /\ zlen (f_channel f) = h_channels h /\
        forall i p, idx ps i = Some p -> exists gk, findGrayPicker (h_depth h) = Some gk /\ idx (f_channel f) i = Some (i, Chan p (Picker gk r [p])).
    Proof.
      intros Hpr Hsm Hcl enc. destruct (makePicker_is h cmd res t a Hh Hm Hn Ha Ht) as (k & Ek & Hk & Pk).
      destruct (parses_merged procs img k Hpr Himg Ek Pk) as (chm & pk & Hs & Hc & Lc & PM).
      pose proof (zlen_nonneg sec). pose proof (zlen_nonneg img). pose proof (zlen_nonneg rest). pose proof (zlen_nonneg (enc_config h rsv cmd res)).
      assert (Le : zlen enc = zlen (enc_config h rsv cmd res) + zlen sec + zlen img) by (unfold enc; rewrite !zlen_app; lia).
      assert (Hfu : zlen enc + zlen rest < Z.of_nat (fuel_for (enc ++ rest))).
      { unfold fuel_for. rewrite app_length. unfold zlen. lia. }
      assert (Em : cfg_mode cfg = h_mode h).
      { cbn. unfold signed16. destruct Hm as [[E _]|[[E _]|[[[E|E] _]|[E _]]]]; rewrite E; reflexivity. }
      destruct (layer_part_read procs cfg o sec (fuel_for (enc ++ rest)) Hpr) as (tree & info & evs & YL); [rewrite Em; exact Hsec|lia|].
      exists (Psd cfg chm tree info (concat ps) (Some pk)), evs, k, pk. split; [|repeat split; assumption || reflexivity].
      assert (Hlres : (length res <= fuel_for (enc ++ rest))%nat).
      { pose proof (enc_rblocks_length inflate res Hres). unfold fuel_for. apply Nat.le_trans with (length (enc ++ rest)); [|lia].
        unfold enc. rewrite !app_length. unfold enc_config, enc_resources, enc_block. rewrite !app_length. unfold zlen in *. lia. }
      assert (YY : yields (decode_prog (fuel_for (enc ++ rest)) procs o) enc (Psd cfg chm tree info (concat ps) (Some pk), zlen enc) evs).
      { rewrite Le. unfold decode_prog, enc at 2. eapply yields_pbind; [apply parses_decodeConfig; eauto|]. cbn beta iota.
        fold cfg. rewrite Hcl. cbn iota. rewrite <- (app_nil_r evs). eapply yields_bind; [exact YL|]. cbn beta iota. rewrite Hsm.
        rewrite <- (app_nil_r img) at 1. eapply yields_pbind; [exact PM|]. cbn beta iota. apply yields_ret. }
      exact (YY kind rest).
    Qed.

    Hypothesis Hok : Forall (samples_ok (h_depth h)) fs.

    Lemma merged_at k pk x y : setSource k r ps = Some pk -> kind_is (h_mode h) (h_depth h) cmd t a k -> 0 <= x < h_width h -> 0 <= y < h_height h ->
      exists c, picker_at pk x y = Some c /\ merged_colour (h_depth h) (h_mode h) cmd t a (map (fun f => f x y) fs) c.
    Proof.
      intros Hs Hk Hx Hy.
      assert (Hin : pt_in (Pt x y) r = true) by (unfold pt_in, r; cbn; lia).
      assert (Hps : ps = map (enc_plane (h_depth h) (rdx r) (rdy r)) fs).
      { unfold ps, rdx, rdy, r. cbn [rx0 rx1 ry0 ry1]. now rewrite !Z.sub_0_r. }
      rewrite Hps in Hs. unfold kind_is in Hk. unfold merged_colour.
      assert (F0 : exists f0 fs', fs = f0 :: fs').
      { destruct fs as [|f0 fs']; [|eauto]. destruct Hh as (_ & Hch & _). cbn in Hfs. lia. }
      destruct F0 as (f0 & fs' & E0).
      assert (Hf0 : samples_ok (h_depth h) f0) by (rewrite E0 in Hok; now inversion Hok).
      destruct (h_mode h =? 0) eqn:M0; [|destruct (h_mode h =? 2) eqn:M2].
      - subst k. assert (Ed : h_depth h = 1) by (destruct Hm as [[_ E]|[[E _]|[[[E|E] _]|[E _]]]]; lia).
        rewrite E0 in *. cbn [map] in Hs |- *. rewrite Ed in Hs, Hf0.
        rewrite (channel_samples 1 PkGray1 r f0 _ pk x y eq_refl Hf0 Hs Hin). unfold r. cbn [rx0 ry0]. rewrite !Z.sub_0_r.
        eexists. split; [reflexivity|]. exists (f0 x y). split; reflexivity.
      - destruct Hk as (pal & -> & Hp). assert (Ed : h_depth h = 8) by (destruct Hm as [[E _]|[(_ & E & _)|[[[E|E] _]|[E _]]]]; lia).
        rewrite E0 in *. cbn [map] in Hs |- *. rewrite Ed in Hs, Hf0.
        rewrite (palette_samples pal r f0 pk _ x y Hf0 Hs Hin). unfold r. cbn [rx0 ry0]. rewrite !Z.sub_0_r.
        destruct (Hp (f0 x y)) as (c & Ec & Hc); [apply (Hf0 x y)|]. exists c. split; [exact Ec|]. exists (f0 x y). split; [reflexivity|exact Hc].
      - destruct (picker_samples (h_depth h) (h_mode h) a k r fs pk x y Hk Hok Hs Hin) as (c & Ec & Hc). cbv zeta in Hc.
        exists c. split; [exact Ec|]. unfold r in Hc. cbn [rx0 ry0] in Hc. rewrite !Z.sub_0_r in Hc.
        set (n := if h_mode h =? 3 then 3 else if h_mode h =? 4 then 4 else 1) in *.
        assert (Hnn : colour_planes (h_mode h) = Some n) by (unfold n; destruct Hm as [[E _]|[[E _]|[[[E|E] _]|[E _]]]]; rewrite E in *; easy).
        assert (En : colour_channels (h_mode h) = n) by reflexivity.
        exists n, (if a then nth (Z.to_nat n) (map (fun f => f x y) fs) 0 else opaque (h_depth h)). split; [exact Hnn|]. split.
        + destruct a; [|reflexivity]. apply nth_error_nth'. rewrite map_length.
          destruct Ha as [(_ & X)|[(Hlt & _)|(Hlt & _)]]; [discriminate X| |]; rewrite En in Hlt; assert (0 <= n) by (unfold n; destruct (h_mode h =? 3), (h_mode h =? 4); lia); unfold zlen in Hfs; lia.
        + rewrite firstn_map. destruct a; [|exact Hc]. rewrite <- (map_nth (fun f : Z -> Z -> Z => f x y)) in Hc. exact Hc.
    Qed.
  End file.
End merged.

Lemma merged_shown inflate kind procs o h cmd res fs t a s rest : (1 <= procs)%nat -> o_skip_merged o = false -> (forall c, o_config_loaded o c = false) ->
  merged_file inflate h cmd res fs t a s ->
  exists f evs pk, Decode inflate kind procs o (s ++ rest) = (Ok (f, zlen s, rest), evs) /\
    f_picker f = Some pk /\ image_shown h cmd t a fs pk /\ channels_shown h fs (f_channel f).
Proof.
  intros Hpr Hsm Hcl (rsv & sec & img & -> & Hh & Hr & Hc & Hres & Hrl & Hm & Hn & Hfs & Hok & Hsec & Himg & Ha & Ht).
  destruct (merged_decode inflate h cmd res fs Hh Hfs rsv sec img t a Hr Hc Hres Hrl Hm Hn Ha Ht Hsec Himg kind procs o rest Hpr Hsm (Hcl _)) as (f & evs & k & pk & D & _ & _ & Fp & Hs & Hk & Lc & Hch).
  exists f, evs, pk. split; [exact D|]. split; [exact Fp|]. split; [split|split; [exact Lc|]].
  - unfold setSource in Hs. destruct (_ <? _); [discriminate Hs|]. now injection Hs as <-.
  - intros x y Hx Hy. eapply merged_at; eauto.
  - intros i g Ei. destruct (Hch i (enc_plane (h_depth h) (h_width h) (h_height h) g)) as (gk & Egk & Ec); [rewrite idx_map, Ei; reflexivity|].
    eexists. eexists. split; [exact Ec|]. split; [reflexivity|]. intros x y Hx Hy.
    assert (Hg : samples_ok (h_depth h) g).
    { rewrite Forall_forall in Hok. apply Hok. unfold idx in Ei. destruct (i <? 0); [discriminate Ei|]. eapply nth_error_In; eauto. }
    pose proof (channel_samples (h_depth h) gk (Rct 0 0 (h_width h) (h_height h)) g [] (Picker gk (Rct 0 0 (h_width h) (h_height h)) [enc_plane (h_depth h) (h_width h) (h_height h) g]) x y Egk Hg) as C.
    cbn [rx0 ry0] in C. rewrite !Z.sub_0_r in C. apply C.
    + unfold rdx, rdy. cbn [rx0 rx1 ry0 ry1]. rewrite !Z.sub_0_r. unfold setSource. assert (Pg : planes gk = 1).
      { destruct Hh as (_ & _ & _ & _ & Hd & _). clear - Egk Hd. destruct Hd as [E|[E|[E|E]]]; rewrite E in Egk; injection Egk as <-; reflexivity. }
      rewrite Pg. reflexivity.
    + unfold pt_in. cbn. lia.
Qed.

Lemma hook_of_decode inflate kind procs s f n rest evs : Decode inflate kind procs (Opts true false (fun _ => false)) s = (Ok (f, n, rest), evs) ->
  image_Decode inflate kind procs s = Ok (f_picker f, rest).
Proof. unfold Decode, image_Decode, decode_hook. intros H. rewrite run_bind. unfold run_next. rewrite H. reflexivity. Qed.

Lemma hooks_shown inflate kind procs h cmd res fs t a s rest : (1 <= procs)%nat ->
  merged_file inflate h cmd res fs t a s -> bytes_ok (s ++ rest) ->
  exists pk rest', image_Decode inflate kind procs (s ++ rest) = Ok (Some pk, rest) /\ image_shown h cmd t a fs pk /\
    image_DecodeConfig inflate kind (s ++ rest) = Ok (h_width h, h_height h, colorModel (pk_kind pk), rest').
Proof.
  intros Hpr Hf Hb. destruct (merged_shown inflate kind procs (Opts true false (fun _ => false)) h cmd res fs t a s rest Hpr eq_refl (fun _ => eq_refl) Hf) as (f & evs & pk & D & Fp & S & _).
  apply hook_of_decode in D. rewrite Fp in D. destruct (hooks_agree_some inflate kind procs _ _ _ Hb D) as (pk' & rest' & [= <-] & C).
  exists pk, rest'. split; [exact D|]. split; [exact S|]. rewrite C. destruct S as [-> _]. unfold rdx, rdy. cbn [rx0 rx1 ry0 ry1]. now rewrite !Z.sub_0_r.
Qed.
