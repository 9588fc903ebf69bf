(** The checks of SGuard: merged image and Decode. *)
From Verif Require Import Base BaseFacts SUtil MUtil MRect MReader MPicker MConfig MCompress MLayer MApi SGuard PUtil PReader PConfig PDecode PLayer PCompress PCompress2 PGuard PGuard2 PGuard3.

Lemma palette_from_fits tr cmd : forall n i, 0 <= i -> i + Z.of_nat n + 512 <= zlen cmd -> palette_from n i tr cmd <> None.
Proof.
  induction n as [|n IH]; intros i Hi Hl; cbn [palette_from]; [discriminate|]. destruct (idx_in cmd i) as [? ->]; [lia|]. destruct (idx_in cmd (i + 256)) as [? ->]; [lia|]. destruct (idx_in cmd (i + 512)) as [? ->]; [lia|].
  specialize (IH (i + 1) ltac:(lia) ltac:(lia)). destruct (palette_from n (i + 1) tr cmd); [discriminate|contradiction].
Qed.
Lemma palette_from_beyond tr cmd : forall n i, 0 <= i -> (0 < n)%nat -> zlen cmd < i + Z.of_nat n + 512 -> palette_from n i tr cmd = None.
Proof.
  induction n as [|n IH]; intros i Hi Hn Hl; [lia|]. cbn [palette_from]. destruct (Nat.eq_dec n 0) as [->|N].
  - replace (idx cmd (i + 512)) with (@None Z) by (symmetry; apply idx_none; lia). destruct (idx cmd i), (idx cmd (i + 256)); reflexivity.
  - rewrite (IH (i + 1)) by lia. destruct (idx cmd i), (idx cmd (i + 256)), (idx cmd (i + 512)); reflexivity.
Qed.
Lemma palette_size tr cmd : if (zlen cmd <? 3) || (767 <=? zlen cmd) then palette_from (Z.to_nat (zlen cmd / 3)) 0 tr cmd <> None else palette_from (Z.to_nat (zlen cmd / 3)) 0 tr cmd = None.
Proof.
  pose proof (zlen_nonneg cmd) as Hn. assert (zlen cmd = 3 * (zlen cmd / 3) + zlen cmd mod 3) as D by (apply Z.div_mod; lia). pose proof (Z.mod_pos_bound (zlen cmd) 3 ltac:(lia)) as B.
  destruct (_ || _) eqn:E.
  - destruct (Z.lt_ge_cases (zlen cmd) 3) as [L|L].
    + replace (zlen cmd / 3) with 0 by lia. cbn. discriminate.
    + apply palette_from_fits; lia.
  - apply palette_from_beyond; lia.
Qed.

Lemma ids_search : forall fuel d i, 0 <= i <= zlen d -> zlen d - i <= Z.of_nat fuel -> bytes_ok d ->
  if ids_ok (skipn (Z.to_nat i) d) then alpha_search fuel d i <> None else alpha_search fuel d i = None.
Proof.
  induction fuel as [|fuel IH]; intros d i Hi Hf Hd; cbn [alpha_search].
  - replace (i <? zlen d) with false by lia. rewrite skipn_all2 by (unfold zlen in *; lia). cbn. discriminate.
  - destruct (Z.ltb_spec i (zlen d)) as [L|L]; [|rewrite skipn_all2 by (unfold zlen in *; lia); cbn; discriminate].
    assert (forall k, 0 <= k -> idx (skipn (Z.to_nat i) d) k = idx d (i + k)) as Hx by (intros k Hk; rewrite idx_skipn by lia; f_equal; lia).
    pose proof (bytes_ok_skipn (Z.to_nat i) d Hd) as Hs. assert (zlen (skipn (Z.to_nat i) d) = zlen d - i) as Hl by (unfold zlen in *; rewrite skipn_length; lia).
    destruct (Z.le_gt_cases (i + 4) (zlen d)) as [F|F].
    + specialize (IH d (i + 4) ltac:(lia) ltac:(lia) Hd). assert (skipn (Z.to_nat (i + 4)) d = skipn 4 (skipn (Z.to_nat i) d)) as Es4 by (rewrite skipn_skipn; f_equal; lia). rewrite Es4 in IH. clear Es4.
      destruct (skipn (Z.to_nat i) d) as [|a [|b [|c [|e t]]]] eqn:Es; try (rewrite ?zlen_cons in Hl; change (zlen (@nil Z)) with 0 in Hl; lia). cbn [skipn] in IH.
      assert (readUint32 d i = readUint32 (a :: b :: c :: e :: t) 0) as Er by (unfold readUint32; rewrite !Hx by lia; now rewrite Z.add_0_r).
      assert (readUint32 (a :: b :: c :: e :: t) 0 = Some (a * 16777216 + b * 65536 + c * 256 + e)) as Ev.
      { inversion Hs as [|? ? Ha Hs1]; subst. inversion Hs1 as [|? ? Hb Hs2]; subst. inversion Hs2 as [|? ? Hc Hs3]; subst. inversion Hs3 as [|? ? He Hs4]; subst.
        destruct (readUint32_total (a :: b :: c :: e :: t) 0) as [v Ev]; [lia|rewrite !zlen_cons; pose proof (zlen_nonneg t); lia|]. rewrite Ev. f_equal.
        apply readUint32_spec in Ev; [|assumption]. destruct Ev as (b0 & b1 & b2 & b3 & E0 & E1 & E2 & E3 & ->). cbn in E0, E1, E2, E3. injection E0 as <-. injection E1 as <-. injection E2 as <-. injection E3 as <-. cbn [be_value]. lia. }
      rewrite Er, Ev. cbn [ids_ok]. inversion Hs as [|? ? Ha Hs1]; subst. inversion Hs1 as [|? ? Hb Hs2]; subst. inversion Hs2 as [|? ? Hc Hs3]; subst. inversion Hs3 as [|? ? He Hs4]; subst. unfold is_byte in *.
      destruct (a * 16777216 + b * 65536 + c * 256 + e =? 0) eqn:Ez.
      * replace ((a =? 0) && (b =? 0) && (c =? 0) && (e =? 0)) with true by lia. cbn [orb]. discriminate.
      * replace ((a =? 0) && (b =? 0) && (c =? 0) && (e =? 0)) with false by lia. cbn [orb]. exact IH.
    + replace (readUint32 d i) with (@None Z).
      * destruct (skipn (Z.to_nat i) d) as [|a [|b [|c [|e t]]]] eqn:Es; rewrite ?zlen_cons in Hl; change (zlen (@nil Z)) with 0 in Hl; cbn [ids_ok]; try reflexivity; [lia|]. pose proof (zlen_nonneg t). lia.
      * symmetry. unfold readUint32. replace (idx d (i + 3)) with (@None Z) by (symmetry; apply idx_none; lia). destruct (idx d i), (idx d (i + 1)), (idx d (i + 2)); reflexivity.
Qed.

Lemma res_get m k r : res_ok m -> m_get Z.eqb m k = Some r -> bytes_ok (res_data r).
Proof.
  induction 1 as [|[k' b'] m Hb _ IH]; cbn [m_get]; [discriminate|]. destruct (k =? k') eqn:E; [|exact IH]. intros Eq. injection Eq as <-. exact Hb.
Qed.

(** Planes of the picker of the merged image *)
Definition enough_for (c : config) (k : pkind) : Prop := (planes k <=? cfg_channels c) = enough_channels c.

Lemma picker_merged cfg : sane cfg ->
  (makePicker cfg = Panic <-> (indexed cfg = true /\ (transparent_ok cfg = false \/ palette_ok cfg = false)) \/
     (indexed cfg = false /\ bitmap cfg = false /\ extra_channels cfg = true /\ alpha_ok cfg = false)) /\
  (forall e, makePicker cfg = Err e -> real_error e) /\ makePicker cfg <> NoFuel /\
  (forall k, makePicker cfg = Ok k -> enough_for cfg k).
Proof.
  intros (Hd & Hc & Hx & Hy & Hres). unfold makePicker, indexed, bitmap, enough_for. destruct (cfg_mode cfg =? 2) eqn:M2.
  - unfold palette. rewrite M2. cbn [negb].
    assert (match m_get Z.eqb (cfg_res cfg) 1047 with
            | Some r => match readUint16 (res_data r) 0 with None => None | Some tr => palette_from (Z.to_nat (zlen (cfg_cmd cfg) / 3)) 0 tr (cfg_cmd cfg) end
            | None => palette_from (Z.to_nat (zlen (cfg_cmd cfg) / 3)) 0 (-1) (cfg_cmd cfg) end = None <-> transparent_ok cfg = false \/ palette_ok cfg = false) as H.
    { unfold transparent_ok, palette_ok. destruct (m_get Z.eqb (cfg_res cfg) 1047) as [r|].
      - destruct (Z.leb_spec 2 (zlen (res_data r))) as [L|L].
        + destruct (readUint16_total (res_data r) 0) as [v ->]; try lia. pose proof (palette_size v (cfg_cmd cfg)) as P. destruct (_ || _); split; intros; try tauto; try (destruct H; congruence); auto.
        + replace (readUint16 (res_data r) 0) with (@None Z); [tauto|]. symmetry. unfold readUint16. replace (idx (res_data r) (0 + 1)) with (@None Z) by (symmetry; apply idx_none; lia). destruct (idx (res_data r) 0); reflexivity.
      - pose proof (palette_size (-1) (cfg_cmd cfg)) as P. destruct (_ || _); split; intros; try tauto; try (destruct H; congruence); auto. }
    destruct (match m_get Z.eqb (cfg_res cfg) 1047 with Some _ => _ | None => _ end) as [pal|].
    + split; [|split; [discriminate|split; [discriminate|]]].
      * split; [discriminate|]. intros [[_ C]|[C _]]; [|discriminate]. apply H in C. discriminate.
      * intros k E. injection E as <-. cbn [planes]. unfold enough_channels. replace (cfg_mode cfg =? 3) with false by lia. replace (cfg_mode cfg =? 4) with false by lia. reflexivity.
    + split; [|split; [discriminate|split; discriminate]]. split; [|reflexivity]. intros _. left. split; [reflexivity|]. now apply H.
  - destruct (cfg_mode cfg =? 0) eqn:M0.
    + split; [|split; [discriminate|split; [discriminate|]]].
      * split; [discriminate|]. intros [[C _]|(_ & C & _)]; discriminate.
      * intros k E. injection E as <-. cbn [planes]. unfold enough_channels. replace (cfg_mode cfg =? 3) with false by lia. replace (cfg_mode cfg =? 4) with false by lia. reflexivity.
    + set (found := fun a : bool => match findPicker (cfg_depth cfg) (cfg_mode cfg) a with Some k => Ok k | None => Err ENoPicker end).
      assert (extra_channels cfg = (mode_channels (cfg_mode cfg) <? cfg_channels cfg)) as Ex.
      { unfold extra_channels, mode_channels. rewrite M0, M2. destruct (cfg_mode cfg =? 1), (cfg_mode cfg =? 3), (cfg_mode cfg =? 4); cbn; lia. }
      assert (forall a, found a <> Panic /\ (forall e, found a = Err e -> real_error e) /\ found a <> NoFuel /\
                (forall k, found a = Ok k -> (a = true -> mode_channels (cfg_mode cfg) < cfg_channels cfg) -> enough_for cfg k)) as Hf.
      { intros a. unfold found. pose proof (picker_guard 1 cfg (le_n 1) a) as G. destruct (layer_picker_ok cfg) eqn:EL.
        - destruct G as (k & -> & Pk). split; [discriminate|]. split; [discriminate|]. split; [discriminate|]. intros k' E Ha. injection E as <-. unfold enough_for. rewrite Pk.
          unfold layer_picker_ok in EL. rewrite M0 in EL. unfold enough_channels. unfold mode_channels in *. rewrite M0, M2 in *.
          destruct (cfg_mode cfg =? 1) eqn:M1, (cfg_mode cfg =? 3) eqn:M3, (cfg_mode cfg =? 4) eqn:M4; cbn [orb andb] in *; try lia; destruct a; try specialize (Ha eq_refl); lia.
        - rewrite G. split; [discriminate|]. split; [intros e E; injection E as <-; exact I|]. split; discriminate. }
      rewrite Ex. destruct (mode_channels (cfg_mode cfg) <? cfg_channels cfg) eqn:Em.
      * unfold hasAlphaID0, alpha_ok. destruct (m_get Z.eqb (cfg_res cfg) 1053) as [r|] eqn:Er.
        -- pose proof (ids_search (length (res_data r)) (res_data r) 0 ltac:(pose proof (zlen_nonneg (res_data r)); lia) ltac:(unfold zlen; lia) (res_get _ _ _ Hres Er)) as G. cbn [Z.to_nat skipn] in G.
           destruct (ids_ok (res_data r)).
           ++ destruct (alpha_search _ _ _) as [a|]; [|contradiction]. cbn [chk obind]. destruct (Hf a) as (F1 & F2 & F3 & F4). split; [|split; [exact F2|split; [exact F3|]]].
              ** split; [intros C; contradiction|]. intros [[C _]|(_ & _ & _ & C)]; discriminate.
              ** intros k E. apply F4; [exact E|]. intros _. lia.
           ++ rewrite G. cbn [chk obind]. split; [|split; [discriminate|split; discriminate]]. split; [|reflexivity]. intros _. right. repeat split; reflexivity.
        -- cbn [chk obind]. destruct (Hf true) as (F1 & F2 & F3 & F4). split; [|split; [exact F2|split; [exact F3|]]].
           ++ split; [intros C; contradiction|]. intros [[C _]|(_ & _ & _ & C)]; discriminate.
           ++ intros k E. apply F4; [exact E|]. intros _. lia.
      * destruct (Hf false) as (F1 & F2 & F3 & F4). split; [|split; [exact F2|split; [exact F3|]]].
        -- split; [intros C; contradiction|]. intros [[C _]|(_ & _ & C & _)]; discriminate.
        -- intros k E. apply F4; [exact E|]. discriminate.
Qed.

Lemma picker_checks {Ev A} cfg (Q : A -> Prop) (f g : pkind -> prog Ev A) : sane cfg -> (forall k, makePicker cfg = Ok k -> hard Q (f k) (g k)) ->
  hard Q (k <- of_outcome (makePicker cfg) ;; f k)
    (_ <- guard (negb (indexed cfg) || transparent_ok cfg) c_transparent ;; _ <- guard (negb (indexed cfg) || palette_ok cfg) c_palette ;;
     _ <- guard (indexed cfg || bitmap cfg || negb (extra_channels cfg) || alpha_ok cfg) c_alpha ;; k <- of_outcome (makePicker cfg) ;; g k).
Proof.
  intros Hs Hfg. destruct (picker_merged cfg Hs) as (P1 & P2 & P3 & P4).
  assert (makePicker cfg = Panic -> (k <- of_outcome (makePicker cfg) ;; f k) = Crash) as Hcr by (intros E; rewrite E; reflexivity).
  apply hard_guard; [|intros E; apply Hcr, P1; destruct (indexed cfg); [|discriminate]; cbn in E; auto]. intros G1.
  apply hard_guard; [|intros E; apply Hcr, P1; destruct (indexed cfg); [|discriminate]; cbn in E; auto]. intros G2.
  apply hard_guard; [|intros E; apply Hcr, P1; right; destruct (indexed cfg), (bitmap cfg), (extra_channels cfg), (alpha_ok cfg); try discriminate; auto]. intros G3.
  eapply hard_bind; [|exact Hfg]. apply hard_outcome; [|exact P2].
  intros C. apply P1 in C. destruct C as [[Ci [Ct|Cp]]|(Ci & Cb & Ce & Ca)].
  - rewrite Ci, Ct in G1. discriminate.
  - rewrite Ci, Cp in G2. discriminate.
  - rewrite Ci, Cb, Ce, Ca in G3. discriminate.
Qed.

Lemma merged_guard procs cfg : (1 <= procs)%nat -> sane cfg -> hard (fun _ => True) (decode_merged procs cfg) (decode_merged' procs cfg).
Proof.
  intros Hp Hs. pose proof Hs as (Hd & Hc & Hx & Hy & Hres). unfold decode_merged, decode_merged'. cbv zeta.
  set (rb := Z.shiftr (rdx (cfg_rect cfg) * cfg_depth cfg + 7) 3).
  assert (0 <= rb <= 1200001) as Hrb. { unfold rb. rewrite Z.shiftr_div_pow2 by lia. split; [apply Z.div_pos; nia|]. apply Z.div_le_upper_bound; nia. }
  clearbody rb. assert (0 <= rb * rdy (cfg_rect cfg) <= 1200001 * 300000) as Hsz by nia. assert (0 <= rb * rdy (cfg_rect cfg) * cfg_channels cfg <= 1200001 * 300000 * 56) as Hall by nia.
  eapply hard_bind; [apply hard_make; unfold max_alloc; lia|]. intros [] _. destruct (gray_some cfg Hs) as (gk & Eg & Pg). rewrite Eg. cbn [lift bind].
  destruct (picker_merged cfg Hs) as (P1 & P2 & P3 & P4).
  apply (picker_checks cfg _ _ _ Hs). intros k Ek. specialize (P4 k Ek). unfold enough_for in P4.
  assert (forall ps, zlen ps = cfg_channels cfg -> setSource k (cfg_rect cfg) ps = if enough_channels cfg then Some (Picker k (cfg_rect cfg) (firstn (Z.to_nat (planes k)) ps)) else None) as Hset.
  { intros ps Hps. unfold setSource. rewrite Hps. rewrite <- P4. destruct (Z.ltb_spec (cfg_channels cfg) (planes k)), (Z.leb_spec (planes k) (cfg_channels cfg)); try lia; reflexivity. }
  assert (zlen (zrepeat (@nil Z) (cfg_channels cfg)) = cfg_channels cfg) as Hz by (unfold zlen, zrepeat; rewrite repeat_length; lia).
  rewrite (Hset _ Hz). apply hard_guard; [|intros E; rewrite E; reflexivity]. intros E. rewrite E in *. cbn [lift bind].
  hstep. hstep. eapply (hard_bind (fun _ => True)). { apply decompress_guard; try assumption; try lia. nia. } intros [data l] _.
  rewrite Hset; [cbn [lift bind]; hstep|]. unfold merged_planes. unfold zlen. unfold zseq. rewrite !map_length, seq_length. lia.
Qed.

Lemma decode_guard fuel procs o : (1 <= procs)%nat -> hard (fun _ => True) (decode_prog fuel procs o) (guarded_prog fuel procs o).
Proof.
  intros Hp. unfold decode_prog, guarded_prog. eapply hard_bind; [apply config_safe|]. intros [cfg l] Hs. cbn [fst] in Hs. hstep; [hstep|].
  eapply hard_bind; [now apply mask_info_guard|]. intros [[tree info] l2] _. hstep; [hstep|]. eapply hard_bind; [now apply merged_guard|]. intros [[[data chm] pk] l3] _. hstep.
Qed.
Lemma config_hook_guard {Ev} fuel : hard (fun _ => True) (decodeConfig_hook fuel : prog Ev _) (guarded_config_hook fuel).
Proof.
  unfold decodeConfig_hook, guarded_config_hook. eapply hard_bind; [apply config_safe|]. intros [cfg l] Hs. cbn [fst] in Hs.
  apply (picker_checks cfg _ _ _ Hs). intros k _. now apply hard_ret.
Qed.
Lemma hook_guard fuel procs : (1 <= procs)%nat -> hard (fun _ => True) (decode_hook fuel procs) (guarded_hook fuel procs).
Proof. intros Hp. unfold decode_hook, guarded_hook. eapply hard_bind; [now apply decode_guard|]. intros [f l] _. hstep. Qed.

Definition exactly_checked {A Ev} (d g : outcome A * list Ev) : Prop :=
  (fst d = Panic <-> exists c, fst g = Err (EGuard c)) /\ fst g <> Panic /\ snd g = snd d /\ (fst d <> Panic -> g = d).
Lemma verdict_exact {A Ev} (x y : outcome A * list Ev) : verdict x y -> exactly_checked x y.
Proof.
  unfold exactly_checked. intros [[H (c & ->)]|(H & H' & ->)]; cbn [fst snd].
  - split; [split; [eauto|auto]|]. split; [discriminate|]. split; [reflexivity|contradiction].
  - split; [|auto]. split; [contradiction|]. intros [c E]. destruct (H' c E).
Qed.

Lemma checks_run inflate kind procs o s : (1 <= procs)%nat -> bytes_ok s -> exactly_checked (Decode inflate kind procs o s) (Guarded inflate kind procs o s).
Proof. intros Hp Hs. apply verdict_exact. unfold Decode, Guarded. eapply hard_run; [exact Hs|]. now apply decode_guard. Qed.
Lemma checks_seek inflate procs o s : (1 <= procs)%nat -> bytes_ok s -> exactly_checked (Decode_seek inflate procs o s) (Guarded_seek inflate procs o s).
Proof. intros Hp Hs. apply verdict_exact. unfold Decode_seek, Guarded_seek. eapply hard_run_seek; [exact Hs|]. now apply decode_guard. Qed.
Lemma checks_chunks inflate eager procs o cs : (1 <= procs)%nat -> Forall bytes_ok cs -> exactly_checked (Decode_chunks inflate eager procs o cs) (Guarded_chunks inflate eager procs o cs).
Proof. intros Hp Hs. apply verdict_exact. unfold Decode_chunks, Guarded_chunks. eapply hard_run_chunks; [exact Hs|]. now apply decode_guard. Qed.

Definition exactly_checked1 {A} (d g : outcome A) : Prop := (d = Panic <-> exists c, g = Err (EGuard c)) /\ g <> Panic /\ (d <> Panic -> g = d).
Lemma exact_fst {A Ev} (d g : outcome A * list Ev) : exactly_checked d g -> exactly_checked1 (fst d) (fst g).
Proof. intros (H1 & H2 & _ & H4). split; [exact H1|]. split; [exact H2|]. intros H. now rewrite (H4 H). Qed.
Lemma checks_image_config inflate kind s : bytes_ok s -> exactly_checked1 (image_DecodeConfig inflate kind s) (Guarded_image_DecodeConfig inflate kind s).
Proof. intros Hs. apply exact_fst, verdict_exact. eapply hard_run; [exact Hs|]. apply config_hook_guard. Qed.
Lemma checks_image inflate kind procs s : (1 <= procs)%nat -> bytes_ok s -> exactly_checked1 (image_Decode inflate kind procs s) (Guarded_image_Decode inflate kind procs s).
Proof. intros Hp Hs. apply exact_fst, verdict_exact. eapply hard_run; [exact Hs|]. now apply hook_guard. Qed.
