(** The checks of SGuard: which of them can fail under which options. *)
From Verif Require Import Base BaseFacts MUtil MRect MReader MPicker MConfig MCompress MLayer MApi SGuard PUtil PReader PConfig PLayer PCompress2 PGuard PGuard2 PGuard3 PGuard4.

Definition allowed (C : Z -> Prop) (e : error) : Prop := match e with EGuard c => C c | _ => True end.
Fixpoint fails {Ev A} (C : Z -> Prop) (Q : A -> Prop) (p : prog Ev A) : Prop :=
  match p with
  | Ret a => Q a
  | Fail e => allowed C e
  | RFull n k => forall b, bytes_ok b -> zlen b = Z.max 0 n -> fails C Q (k b)
  | RSome _ k => forall b, bytes_ok b -> fails C Q (k b)
  | RDiscard _ k => forall n, fails C Q (k n)
  | RZlib w _ k => forall b c, zlen b = w -> fails C Q (k b c)
  | Emit _ k => fails C Q k
  | _ => True
  end.
Notation TT := (fun _ => True).
Lemma fails_bind {Ev A B} C R (Q : B -> Prop) (p : prog Ev A) (f : A -> prog Ev B) : fails C R p -> (forall a, R a -> fails C Q (f a)) -> fails C Q (bind p f).
Proof. intros H Hf. revert H. induction p; cbn [fails bind]; auto. Qed.
Lemma fails_mono {Ev A} (C C' : Z -> Prop) (R Q : A -> Prop) (p : prog Ev A) : fails C R p -> (forall c, C c -> C' c) -> (forall a, R a -> Q a) -> fails C' Q p.
Proof. intros H HC HQ. revert H. induction p; cbn [fails]; auto. destruct e; cbn; auto. Qed.
Lemma fails_any {Ev A B} C (Q : B -> Prop) (p : prog Ev A) (f : A -> prog Ev B) : fails C TT p -> (forall a, fails C Q (f a)) -> fails C Q (bind p f).
Proof. intros H Hf. eapply fails_bind; [exact H|]. auto. Qed.
Lemma fails_lift {Ev A} C (x : option A) : fails C TT (lift x : prog Ev A).
Proof. destruct x; exact I. Qed.
Lemma fails_make {Ev} C n : fails C TT (make_ok n : prog Ev unit).
Proof. unfold make_ok. destruct (_ || _); exact I. Qed.
Lemma fails_guard {Ev} (C : Z -> Prop) (ok : bool) c : (ok = false -> C c) -> fails C (fun _ => ok = true) (guard ok c : prog Ev unit).
Proof. destruct ok; cbn; auto. Qed.
Lemma fails_rfull {Ev} C n : fails C (fun b => bytes_ok b /\ zlen b = Z.max 0 n) (rfull n : prog Ev bytes).
Proof. cbn. auto. Qed.
Lemma fails_rsome {Ev} C n : fails C bytes_ok (rsome n : prog Ev bytes).
Proof. cbn. auto. Qed.
Lemma fails_rdiscard {Ev} C n : fails C TT (rdiscard n : prog Ev Z).
Proof. cbn. auto. Qed.
Lemma hard_fails {Ev A} C (Q : A -> Prop) (p : prog Ev A) : hard Q p p -> fails C Q p.
Proof.
  induction p; intros H0; cbn [hard fails] in *.
  - apply H0.
  - destruct H0 as [_ H0]. destruct e; cbn in *; tauto.
  - exact I.
  - exact I.
  - destruct H0 as (k' & E & H0). injection E as <-. auto.
  - destruct H0 as (k' & E & H0). injection E as <-. auto.
  - destruct H0 as (k' & E & H0). injection E as <-. auto.
  - destruct H0 as (k' & E & H0). injection E as <-. auto.
  - destruct H0 as (k' & E & H0). injection E as <-. auto.
Qed.
Lemma fails_run inflate kind {Ev A} C Q (p : prog Ev A) : forall s e, bytes_ok s -> fails C Q p -> fst (run inflate kind p s) = Err e -> allowed C e.
Proof.
  induction p; intros s e0 Hs H0 E; cbn [fails run] in *.
  - discriminate.
  - injection E as <-. exact H0.
  - discriminate.
  - discriminate.
  - destruct (zlen s <? n) eqn:L.
    + cbn [fst] in E. injection E as <-. destruct s; exact I.
    + eapply H; [| |exact E]; [now apply bytes_ok_skipn|]. apply H0; [now apply bytes_ok_firstn|]. unfold zlen in *. rewrite firstn_length. lia.
  - destruct s as [|x t]; [injection E as <-; exact I|]. eapply H; [| |exact E]; [now apply bytes_ok_zdrop|]. apply H0. now apply bytes_ok_ztake.
  - destruct (n <? 0); [destruct kind; [|injection E as <-; exact I]; eapply H; eauto|]. destruct (zlen s <? n); [injection E as <-; exact I|]. eapply H; [| |exact E]; [now apply bytes_ok_skipn|auto].
  - destruct (inflate_ok inflate _ want) as [[out c]|] eqn:Ei; [|injection E as <-; exact I]. eapply H; [| |exact E]; [now apply bytes_ok_skipn|]. apply H0. eapply inflate_ok_zlen, Ei.
  - destruct (run inflate kind p s) as [r evs] eqn:Er. eapply IHp; [exact Hs|exact H0|]. rewrite Er. exact E.
Qed.

Ltac fstep :=
  match goal with
  | |- fails _ _ (if ?c then _ else _) => destruct c eqn:?
  | |- fails _ _ (Fail _) => exact I
  | |- fails _ TT (Ret _) => exact I
  | |- fails _ _ (bind (lift _) _) => eapply fails_any; [apply fails_lift|intros ?; cbv beta]
  | |- fails _ _ (bind (make_ok _) _) => eapply fails_any; [apply fails_make|intros ?; cbv beta]
  | |- fails _ _ (bind (rfull _) _) => eapply fails_bind; [apply fails_rfull|cbv beta; intros ? [? ?]]
  | |- fails _ _ (bind (rsome _) _) => eapply fails_bind; [apply fails_rsome|cbv beta; intros ? ?]
  | |- fails _ _ (bind (rdiscard _) _) => eapply fails_any; [apply fails_rdiscard|cbv beta; intros ?]
  | |- fails _ _ (bind (guard _ _) _) => eapply fails_bind; [apply fails_guard; intros ?|cbv beta; intros ? ?]
  end.

Definition C_records (c : Z) : Prop := c = c_divider \/ c = c_unicode \/ c = c_block.
Definition C_images (c : Z) : Prop := c_mode <= c <= c_rows.
Definition C_merged (c : Z) : Prop := c = c_lengths \/ c_transparent <= c <= c_channels.

Lemma data_real procs dest buf width lines lens e : (1 <= procs)%nat -> bytes_ok buf -> Forall (fun l => 0 <= l) lens -> zsum lens <= zlen buf -> zlen lens = lines -> 0 <= width ->
  decodePackBits_data procs dest buf width lines lens = Err e -> real_error e.
Proof.
  intros Hp Hb Hl Hs Hn Hw E. pose proof (data_guard procs dest buf width lines lens Hp Hb Hl Hs Hn Hw) as T. destruct (rows_ok _ _ _ _); [destruct T as [[d T]|T]|]; rewrite E in T; try discriminate.
  injection T as ->. exact I.
Qed.
Lemma real_allowed C e : real_error e -> allowed C e.
Proof. destruct e; cbn; tauto. Qed.
Lemma fails_outcome {Ev A} C (x : outcome A) : (forall e, x = Err e -> real_error e) -> fails C TT (of_outcome x : prog Ev A).
Proof. intros H. destruct x as [a|e| |]; try exact I. apply real_allowed. auto. Qed.

Lemma packbits_fails (C : Z -> Prop) procs dest width lines large : (1 <= procs)%nat -> 0 <= width -> 0 <= lines -> C c_lengths -> (rows_ok procs (zlen dest) width lines = false -> C c_rows) ->
  fails C TT (decodePackBits' procs dest width lines large).
Proof.
  intros Hp Hw Hl C8 C9. unfold decodePackBits'. set (ws := Z.shiftr (get4or8 large) 1). assert (ws = if large then 4 else 2) as Hws by (destruct large; reflexivity). cbv zeta. fstep. fstep.
  match goal with H : bytes_ok ?x |- _ => rename x into b end. destruct (read_lens_total large b ltac:(assumption) (Z.to_nat lines) 0 ltac:(lia)) as (lens & E & L & F). { destruct large; lia. }
  rewrite E. cbn [lift bind]. pose proof (zsum_nonneg _ F) as Hn. fstep; [exact C8|]. fstep. fstep. fstep; [auto|]. eapply fails_any; [|intros; exact I]. apply fails_outcome. intros e. apply data_real; auto; lia.
Qed.
Lemma decompress_fails (C : Z -> Prop) procs cm n hint r depth channels large : (1 <= procs)%nat -> 0 <= n -> 0 <= rdx r -> 0 <= rdy r * channels -> depth = 1 \/ depth = 8 \/ depth = 16 \/ depth = 32 ->
  C c_lengths -> (rows_ok procs n (if depth =? 1 then Z.shiftr (rdx r + 7) 3 else rdx r) (rdy r * channels) = false -> C c_rows) ->
  ((depth <? 16) || (n mod (rdx r * (depth / 8)) =? 0) = false -> C c_prediction) ->
  fails C TT (decompress' procs cm n hint r depth channels large).
Proof.
  intros Hp Hn Hx Hy Hd C8 C9 C7. unfold decompress'. fstep; [fstep; exact I|]. fstep.
  { apply packbits_fails; auto.
    - destruct (depth =? 1); [|lia]. rewrite Z.shiftr_div_pow2 by lia. apply Z.div_pos; lia.
    - replace (zlen (zrepeat 0 n)) with n by (unfold zlen, zrepeat; rewrite repeat_length; lia). exact C9. }
  fstep; [cbn; auto|]. fstep; [|fstep]. cbn [decodeZLIB bind fails]. intros b c Hb. rewrite Hb. fstep; [auto|]. eapply fails_any; [|intros; exact I].
  apply fails_outcome. intros e E. destruct (delta_guard b (rdx r) depth Hx Hd) as (_ & _ & G). destruct (G e E).
Qed.

Section layers.
  Variable procs : nat.
  Variable cfg : config.
  Variable o : options.
  Variable C : Z -> Prop.
  Hypothesis Hprocs : (1 <= procs)%nat.
  Hypothesis Hcfg : sane cfg.
  Hypothesis Crec : forall c, C_records c -> C c.
  Hypothesis Cimg : o_skip_layer o = false -> forall c, C_images c -> C c.

  Lemma info_data_fails large key : fails C (fun a => bytes_ok (fst a)) (read_info_data' large key).
  Proof. unfold read_info_data'. cbv zeta. fstep. fstep. fstep; [|constructor]. fstep; [apply Crec; unfold C_records; auto|]. fstep. fstep. assumption. Qed.

  Lemma channel_fails l st chm chs j : o_skip_layer o = false -> rec_ub l -> fails C TT (read_channel' procs cfg l st chm chs j).
  Proof.
    intros Ho Hl. specialize (Cimg Ho). unfold read_channel'. eapply fails_any; [fstep; [|exact I]; cbn; auto|]. intros st'. cbv zeta. fstep.
    set (r := if cd_index j =? -3 then _ else _). assert (ub r) as Hr. { unfold r. destruct Hl as [? [? ?]]. destruct (_ =? -3); [assumption|]. destruct (_ =? -2); assumption. }
    clearbody r. fstep; [apply Cimg; unfold C_images; cbv; intuition discriminate|]. fstep. fstep.
    eapply fails_any.
    { fstep; [|exact I]. destruct Hr as [Hx Hy]. apply decompress_fails; try assumption; try lia; try apply Hcfg; intros; apply Cimg; unfold C_images; cbv; intuition discriminate. }
    intros [data n1]. eapply fails_any; [fstep; cbn; auto|]. intros n2. fstep; [exact I|]. fstep.
    eapply fails_any; [|intros; exact I]. fstep; [|fstep; exact I]. fstep; [apply Cimg; unfold C_images; cbv; intuition discriminate|]. apply fails_lift.
  Qed.
  Lemma channels_fails l : o_skip_layer o = false -> rec_ub l -> forall js st chm chs rd, fails C TT (read_channels' procs cfg l st chm chs rd js).
  Proof.
    intros Ho Hl. induction js as [|j js IH]; intros st chm chs rd; cbn [read_channels']; [exact I|].
    eapply fails_any; [now apply channel_fails|]. intros [[[st' chm'] chs'] n]. apply IH.
  Qed.
  Lemma image_fails total : o_skip_layer o = false -> forall ls i st rd, Forall (fun x => rec_ub (fst x)) ls -> fails C TT (readLayerImage' procs cfg total i st rd ls).
  Proof.
    intros Ho. induction ls as [|[l js] ls IH]; intros i st rd Hf; cbn [readLayerImage']; [exact I|]. inversion Hf as [|? ? Hl Hf']; subst. cbv zeta.
    fstep; [apply Cimg; [assumption|]; unfold C_images; cbv; intuition discriminate|]. fstep. eapply fails_any; [now apply channels_fails|]. intros [[[st' chm] chs] n].
    fstep; [apply Cimg; [assumption|]; unfold C_images; cbv; intuition discriminate|]. fstep. fstep. cbn [emit bind fails]. eapply fails_any; [now apply IH|]. intros [rest rd']. exact I.
  Qed.

  Section rec.
    Variable radd : Z -> P (infomap * list lrec * Z).
    Hypothesis Hradd : forall n, fails C TT (radd n).

    Lemma extra_fails : fails C (fun a => ubm (fst (fst (fst a)))) (readLayerExtraData radd).
    Proof.
      unfold readLayerExtraData. fstep. fstep. fstep; [split; apply ub_ZR|]. eapply fails_bind; [apply hard_fails, layer_mask_safe|]. intros [m l] Hm. cbv zeta. fstep. fstep.
      eapply fails_any; [fstep; cbn; auto|]. intros l'. eapply fails_any; [apply hard_fails, pascal_safe|]. intros [name l2]. eapply fails_any; [apply hard_fails, align4_safe|]. intros pad.
      eapply fails_any. { fstep; [|exact I]. eapply fails_any; [apply Hradd|]. intros [[info ls] l3]. fstep; exact I. } intros [info rd]. fstep; [exact I|]. exact Hm.
    Qed.
    Lemma record_fails i : fails C (fun a => rec_ub (fst (fst a))) (read_record' cfg radd i).
    Proof.
      unfold read_record'. eapply fails_bind; [apply fails_rfull|]. cbv beta. intros b [Hb Hbl]. eapply fails_bind; [apply hard_fails, rect_signed_safe; [assumption|lia]|]. intros r Hr. fstep. fstep.
      eapply fails_any; [apply hard_fails, (chdata_safe procs); assumption|]. intros cds. fstep. fstep; [exact I|]. cbv zeta. fstep. fstep. fstep.
      eapply fails_bind; [apply extra_fails|]. intros [[[m mbcs] info] l] Hm. cbn [fst] in Hm.
      eapply fails_any. { destruct (m_get list_eqb info key_luni) as [[|c t]|]; [exact I| |exact I]. fstep; [apply Crec; unfold C_records; auto|]. fstep. exact I. }
      intros [[uname name] info2]. destruct (match m_get list_eqb info2 key_clbl with Some (c :: _) => _ | _ => _ end) as [bce info3].
      pose proof (divider_guard info3) as D. eapply fails_bind with (R := fun _ => divider_ok info3 = true). { destruct (divider_ok info3); cbn; [reflexivity|]. apply Crec. unfold C_records. auto. }
      intros [] G. rewrite G in D. eapply fails_any; [apply fails_outcome, D|]. intros [[typ sdb] sub]. split; assumption.
    Qed.
    Lemma records_fails : forall n i, fails C (fun a => Forall (fun x => rec_ub (fst x)) (fst a)) (read_records' cfg radd i n).
    Proof.
      induction n as [|n IH]; intros i; cbn [read_records']; [constructor|].
      eapply fails_bind; [apply record_fails|]. intros [[l cds] c] Hl. eapply fails_bind; [apply IH|]. intros [rest c'] Hf. constructor; assumption.
    Qed.
    Lemma layer_info_fails : fails C TT (readLayerInfo' procs cfg o radd).
    Proof.
      unfold readLayerInfo'. fstep. fstep. cbv zeta. fstep; [exact I|]. fstep. fstep. eapply fails_bind; [apply records_fails|]. intros [recs c] Hf. cbn [fst] in Hf.
      assert (o_skip_layer o = false -> fails C TT (readLayerImage' procs cfg (zlen recs) 0 [0; 0] 0 recs)) as Hi by (intros; now apply image_fails).
      eapply fails_any. { destruct (o_skip_layer o); [exact I|]. eapply fails_any; [now apply Hi|]. intros [ls c2]. exact I. } intros [ls rd]. fstep; [fstep|]; exact I.
    Qed.
  End rec.

  Lemma additional_fails : forall fuel ln rd infos layers, fails C TT (readAdditional' procs cfg o fuel ln rd infos layers).
  Proof.
    induction fuel as [|fuel IH]; intros ln rd infos layers; cbn [readAdditional']; [exact I|].
    fstep; [|fstep; exact I]. eapply fails_any; [apply hard_fails, scan_safe|]. intros [found rd2].
    fstep; [fstep; exact I|]. fstep. cbv zeta. fstep; [exact I|]. fstep.
    - eapply fails_any; [apply layer_info_fails; intros n; apply IH|]. intros [ls l]. apply IH.
    - eapply fails_bind; [apply info_data_fails|]. intros [data l] _. apply IH.
  Qed.
  Lemma mask_info_fails fuel : fails C TT (readLayerAndMaskInfo' procs cfg o fuel).
  Proof.
    unfold readLayerAndMaskInfo'. fstep. fstep. cbv zeta. fstep; [exact I|].
    eapply fails_any. { fstep; [|exact I]. eapply fails_any; [apply layer_info_fails; intros n; apply additional_fails|]. intros [ls l]. exact I. } intros [ls rd].
    eapply fails_any. { fstep; [|exact I]. fstep. fstep. fstep; [fstep|]; exact I. } intros rd2.
    eapply fails_any. { fstep; [|exact I]. eapply fails_any; [apply additional_fails|]. intros [[info ls2] l]. destruct ls, ls2; exact I. } intros [[info ls2] rd3].
    eapply fails_any; [apply fails_outcome; apply build_errors|]. intros tree. eapply fails_any; [fstep; [fstep|]; exact I|]. intros rd4. fstep; exact I.
  Qed.
End layers.

Lemma merged_fails (C : Z -> Prop) procs cfg : (1 <= procs)%nat -> sane cfg -> (forall c, C_merged c -> C c) -> fails C TT (decode_merged' procs cfg).
Proof.
  intros Hp Hs HC. pose proof Hs as (Hd & Hc & Hx & Hy & Hres). unfold decode_merged'. cbv zeta. fstep. fstep.
  fstep; [apply HC; unfold C_merged; cbv; intuition discriminate|]. fstep; [apply HC; unfold C_merged; cbv; intuition discriminate|]. fstep; [apply HC; unfold C_merged; cbv; intuition discriminate|].
  eapply fails_any; [apply fails_outcome, (picker_merged cfg Hs)|]. intros k. fstep; [apply HC; unfold C_merged; cbv; intuition discriminate|]. fstep. fstep. fstep.
  set (rb := Z.shiftr (rdx (cfg_rect cfg) * cfg_depth cfg + 7) 3).
  assert (0 <= rb) as Hrb by (unfold rb; rewrite Z.shiftr_div_pow2 by lia; apply Z.div_pos; nia).
  eapply fails_any.
  { apply decompress_fails; try assumption; try lia; try nia.
    - apply HC. left. reflexivity.
    - intros E. exfalso. unfold rows_ok in E. apply Z.leb_gt in E.
      set (w := if cfg_depth cfg =? 1 then _ else _) in E. assert (0 <= w <= rb) as Hw.
      { unfold w, rb. destruct Hd as [-> | [-> | [-> | ->] ] ]; cbn [Z.eqb Pos.eqb]; rewrite ?Z.shiftr_div_pow2 by lia; change (2 ^ 3) with 8.
        - rewrite Z.mul_1_r. split; [apply Z.div_pos; lia|lia].
        - replace (rdx (cfg_rect cfg) * 8 + 7) with (7 + rdx (cfg_rect cfg) * 8) by lia. rewrite Z.div_add by lia. change (7 / 8) with 0. lia.
        - replace (rdx (cfg_rect cfg) * 16 + 7) with (7 + (rdx (cfg_rect cfg) * 2) * 8) by lia. rewrite Z.div_add by lia. change (7 / 8) with 0. lia.
        - replace (rdx (cfg_rect cfg) * 32 + 7) with (7 + (rdx (cfg_rect cfg) * 4) * 8) by lia. rewrite Z.div_add by lia. change (7 / 8) with 0. lia. }
      set (ln := rdy (cfg_rect cfg) * cfg_channels cfg) in *. assert (0 <= ln) by (unfold ln; nia).
      destruct (worker_count_spec procs ln Hp) as [W _]. set (n := worker_count procs ln) in *.
      pose proof (Z.mul_div_le ln (Z.of_nat n) ltac:(lia)) as M. assert (0 <= ln / Z.of_nat n) as Hq by (apply Z.div_pos; lia).
      assert ((Z.of_nat n - 1) * (ln / Z.of_nat n) <= ln) as M2 by nia. assert (0 <= (Z.of_nat n - 1) * (ln / Z.of_nat n)) as M3 by nia.
      replace (rb * rdy (cfg_rect cfg) * cfg_channels cfg) with (rb * ln) in E by (unfold ln; lia). nia.
    - intros E. exfalso. unfold rb in E. destruct Hd as [Hd|[Hd|[Hd|Hd] ] ]; rewrite Hd in E; try discriminate; cbn [Z.ltb Z.compare Pos.compare Pos.compare_cont orb] in E;
        rewrite Z.shiftr_div_pow2 in E by lia; change (2 ^ 3) with 8 in E.
      + change (16 / 8) with 2 in E. replace (rdx (cfg_rect cfg) * 16 + 7) with (7 + (rdx (cfg_rect cfg) * 2) * 8) in E by lia. rewrite Z.div_add in E by lia. change (7 / 8) with 0 in E.
        apply Z.eqb_neq in E. apply E. rewrite Z.add_0_l. replace (rdx (cfg_rect cfg) * 2 * rdy (cfg_rect cfg) * cfg_channels cfg) with ((rdy (cfg_rect cfg) * cfg_channels cfg) * (rdx (cfg_rect cfg) * 2)) by lia. apply Z_mod_mult.
      + change (32 / 8) with 4 in E. replace (rdx (cfg_rect cfg) * 32 + 7) with (7 + (rdx (cfg_rect cfg) * 4) * 8) in E by lia. rewrite Z.div_add in E by lia. change (7 / 8) with 0 in E.
        apply Z.eqb_neq in E. apply E. rewrite Z.add_0_l. replace (rdx (cfg_rect cfg) * 4 * rdy (cfg_rect cfg) * cfg_channels cfg) with ((rdy (cfg_rect cfg) * cfg_channels cfg) * (rdx (cfg_rect cfg) * 4)) by lia. apply Z_mod_mult. }
  intros [data l]. fstep. exact I.
Qed.

Lemma guarded_causes inflate kind procs o s c : (1 <= procs)%nat -> bytes_ok s -> fst (Guarded inflate kind procs o s) = Err (EGuard c) ->
  C_records c \/ (o_skip_layer o = false /\ C_images c) \/ (o_skip_merged o = false /\ C_merged c).
Proof.
  intros Hp Hs E. set (C := fun c => C_records c \/ (o_skip_layer o = false /\ C_images c) \/ (o_skip_merged o = false /\ C_merged c)).
  apply (fails_run inflate kind C TT (guarded_prog (fuel_for s) procs o) s (EGuard c) Hs); [|exact E].
  unfold guarded_prog. eapply fails_bind; [apply hard_fails, config_safe|]. intros [cfg l] Hc. cbn [fst] in Hc. fstep; [exact I|].
  eapply fails_any; [apply mask_info_fails; auto; unfold C; auto|]. intros [[tree info] l2]. destruct (o_skip_merged o) eqn:Em; [exact I|].
  eapply fails_any; [apply merged_fails; auto; unfold C; auto|]. intros [[[data chm] pk] l3]. exact I.
Qed.
