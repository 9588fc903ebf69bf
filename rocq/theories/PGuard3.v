(** The checks of SGuard: configuration, records, channels, blocks. *)
From Verif Require Import Base BaseFacts MUtil MRect MReader MPicker MConfig MCompress MLayer SGuard PUtil PReader PConfig PDecode PLayer PCompress PCompress2 PGuard PGuard2.

Definition ub (r : rect) : Prop := 0 <= rdx r <= 2 ^ 32 /\ 0 <= rdy r <= 2 ^ 32.
Definition ubm (m : mask) : Prop := ub (mk_rect m) /\ ub (mk_rrect m).

Lemma ub_signed a b c d : 0 <= a < 2 ^ 32 -> 0 <= b < 2 ^ 32 -> 0 <= c < 2 ^ 32 -> 0 <= d < 2 ^ 32 -> ub (mkRect (i32 a) (i32 b) (i32 c) (i32 d)).
Proof.
  intros. assert (forall v, 0 <= v < 2 ^ 32 -> - 2 ^ 31 <= i32 v < 2 ^ 31) as R by (intros v Hv; unfold i32; pose proof (Z.mod_pos_bound (v + 2147483648) 4294967296 ltac:(lia)); lia).
  pose proof (R a ltac:(assumption)). pose proof (R b ltac:(assumption)). pose proof (R c ltac:(assumption)). pose proof (R d ltac:(assumption)).
  unfold ub, rdx, rdy, mkRect. cbn [rx0 ry0 rx1 ry1]. lia.
Qed.
Lemma ub_unsigned a b c d : 0 <= a < 2 ^ 32 -> 0 <= b < 2 ^ 32 -> 0 <= c < 2 ^ 32 -> 0 <= d < 2 ^ 32 -> ub (mkRect a b c d).
Proof. intros. unfold ub, rdx, rdy, mkRect. cbn [rx0 ry0 rx1 ry1]. lia. Qed.
Lemma ub_ZR : ub ZR.
Proof. unfold ub, rdx, rdy, ZR. cbn. lia. Qed.

Lemma u16_safe {Ev} b i : bytes_ok b -> 0 <= i -> i + 2 <= zlen b -> hard (fun v => 0 <= v < 2 ^ 16) (lift (readUint16 b i) : prog Ev Z) (lift (readUint16 b i)).
Proof. intros Hb H1 H2. destruct (readUint16_total b i) as [v E]; try lia. pose proof (readUint16_range b i v Hb E). rewrite E. cbn. split; [reflexivity|lia]. Qed.
Lemma u32_safe {Ev} b i : bytes_ok b -> 0 <= i -> i + 4 <= zlen b -> hard (fun v => 0 <= v < 2 ^ 32) (lift (readUint32 b i) : prog Ev Z) (lift (readUint32 b i)).
Proof. intros Hb H1 H2. destruct (readUint32_total b i) as [v E]; try lia. pose proof (readUint32_range b i v Hb E). rewrite E. cbn. split; [reflexivity|lia]. Qed.
Lemma idx_safe {Ev} b i : bytes_ok b -> 0 <= i < zlen b -> hard (fun v => 0 <= v < 256) (lift (idx b i) : prog Ev Z) (lift (idx b i)).
Proof. intros Hb H1. destruct (idx_in b i H1) as [v E]. rewrite E. cbn. split; [reflexivity|]. apply (bytes_ok_idx b i v Hb E). Qed.
Lemma u64_some b i : 0 <= i -> i + 8 <= zlen b -> readUint64 b i <> None.
Proof.
  intros H1 H2. unfold readUint64. destruct (idx_in b i) as [? ->]; [lia|]. destruct (idx_in b (i + 1)) as [? ->]; [lia|]. destruct (idx_in b (i + 2)) as [? ->]; [lia|]. destruct (idx_in b (i + 3)) as [? ->]; [lia|].
  destruct (idx_in b (i + 4)) as [? ->]; [lia|]. destruct (idx_in b (i + 5)) as [? ->]; [lia|]. destruct (idx_in b (i + 6)) as [? ->]; [lia|]. destruct (idx_in b (i + 7)) as [? ->]; [lia|]. discriminate.
Qed.
Lemma uint_safe {Ev} b i size : (size = 4 \/ size = 8) -> 0 <= i -> i + size <= zlen b -> hard (fun _ => True) (lift (readUint b i size) : prog Ev Z) (lift (readUint b i size)).
Proof.
  intros Hs H1 H2. eapply hard_mono; [apply hard_lift|auto]. unfold readUint. destruct Hs as [-> | ->]; cbn [Z.eqb Pos.eqb].
  - destruct (readUint32_total b i) as [v ->]; try lia. discriminate.
  - apply u64_some; lia.
Qed.

Ltac hstep :=
  match goal with
  | |- hard _ (bind (if ?c then _ else _) _) _ => eapply (hard_bind (fun _ => True)); [destruct c|intros ? _]
  | |- hard _ (if ?c then _ else _) _ => destruct c eqn:?
  | |- hard _ (Fail _) _ => apply hard_fail; exact I
  | |- hard _ (bind (rfull _) _) _ => eapply hard_bind; [apply hard_rfull; try lia|cbv beta; intros ? [? ?]]
  | |- hard _ (bind (rsome _) _) _ => eapply hard_bind; [apply hard_rsome|cbv beta; intros ? ?]
  | |- hard _ (bind (rdiscard _) _) _ => eapply hard_bind; [apply hard_rdiscard|cbv beta; intros ? _]
  | |- hard _ (bind (lift (readUint16 _ _)) _) _ => eapply hard_bind; [apply u16_safe; [assumption|lia|lia]|cbv beta; intros ? ?]
  | |- hard _ (bind (lift (readUint32 _ _)) _) _ => eapply hard_bind; [apply u32_safe; [assumption|lia|lia]|cbv beta; intros ? ?]
  | |- hard _ (bind (lift (idx _ _)) _) _ => eapply hard_bind; [apply idx_safe; [assumption|lia]|cbv beta; intros ? ?]
  | |- hard _ (bind (byte_of _) _) _ => unfold byte_of; eapply hard_bind; [apply idx_safe; [assumption|lia]|cbv beta; intros ? ?]
  | |- hard _ (rdiscard _) _ => eapply hard_mono; [apply hard_rdiscard|auto]
  | |- hard (fun _ => True) (Ret _) _ => apply hard_ret; exact I
  end.

(** ** Configuration *)
Lemma align2_safe {Ev} l : hard (fun _ => True) (adjustAlign2 l : prog Ev Z) (adjustAlign2 l).
Proof. unfold adjustAlign2. repeat hstep. Qed.
Lemma align4_safe {Ev} l : hard (fun _ => True) (adjustAlign4 l : prog Ev Z) (adjustAlign4 l).
Proof. unfold adjustAlign4. cbv zeta. repeat hstep. Qed.
Lemma pascal_safe {Ev} : hard (fun _ => True) (readPascalString : prog Ev (bytes * Z)) readPascalString.
Proof. unfold readPascalString. repeat hstep. Qed.
Definition res_ok (m : resmap) : Prop := Forall (fun x => bytes_ok (res_data (snd x))) m.
Lemma res_set m k r : res_ok m -> bytes_ok (res_data r) -> res_ok (m_set Z.eqb m k r).
Proof. intros H Hb. unfold m_set. constructor; [exact Hb|]. unfold m_del. apply Forall_forall. intros x Hx. apply filter_In in Hx as [Hx _]. revert x Hx. now apply Forall_forall. Qed.
Lemma resource_safe {Ev} : forall fuel ln rd m, res_ok m -> hard (fun a => res_ok (fst a)) (resource_loop fuel ln rd m : prog Ev (resmap * Z)) (resource_loop fuel ln rd m).
Proof.
  induction fuel as [|fuel IH]; intros ln rd m Hm; cbn [resource_loop]; (hstep; [|now apply hard_ret]); [reflexivity|].
  hstep. hstep; [hstep|]. hstep. eapply hard_bind; [apply pascal_safe|]. intros [name l1] _. eapply hard_bind; [apply align2_safe|]. intros l2 _. do 3 hstep.
  eapply hard_bind; [apply align2_safe|]. intros l3 _. apply IH. now apply res_set.
Qed.

Definition sane (c : config) : Prop :=
  (cfg_depth c = 1 \/ cfg_depth c = 8 \/ cfg_depth c = 16 \/ cfg_depth c = 32) /\ 1 <= cfg_channels c <= 56 /\
  1 <= rdx (cfg_rect c) <= 300000 /\ 1 <= rdy (cfg_rect c) <= 300000 /\ res_ok (cfg_res c).
Lemma config_safe {Ev} fuel : hard (fun a => sane (fst a)) (decodeConfig_prog fuel : prog Ev (config * Z)) (decodeConfig_prog fuel).
Proof.
  unfold decodeConfig_prog. hstep. hstep; [hstep|]. hstep. hstep; [hstep|]. hstep. hstep; [hstep|]. hstep. hstep. hstep; [hstep|]. hstep; [hstep|]. hstep. hstep; [hstep|]. hstep. hstep.
  eapply (hard_bind (fun _ => True)). { hstep; [|hstep]. eapply hard_mono; [apply hard_rfull; lia|auto]. } intros cmd _.
  eapply (hard_bind (fun a => res_ok (fst a))). { unfold readImageResource. hstep. hstep. hstep; [apply hard_ret; constructor|]. apply resource_safe. constructor. } intros [res l] Hres.
  apply hard_ret. unfold sane. cbn [fst cfg_depth cfg_channels cfg_rect cfg_res]. unfold rdx, rdy, mkRect. cbn [rx0 ry0 rx1 ry1]. split; [lia|]. split; [lia|]. split; [lia|]. split; [lia|exact Hres].
Qed.

(** ** Masks *)
Lemma rect_signed_safe b : bytes_ok b -> zlen b = 16 -> hard ub (read_rect_signed b) (read_rect_signed b).
Proof. intros Hb Hl. unfold read_rect_signed. do 4 hstep. apply hard_ret. now apply ub_signed. Qed.
Lemma rect_unsigned_safe b : bytes_ok b -> zlen b = 16 -> hard ub (read_rect_unsigned b) (read_rect_unsigned b).
Proof. intros Hb Hl. unfold read_rect_unsigned. do 4 hstep. apply hard_ret. now apply ub_unsigned. Qed.
Definition umk (a : mask * Z) : Prop := ubm (fst a).
Lemma real_mask_safe ln rm m : ubm m -> hard umk (read_real_mask ln rm m) (read_real_mask ln rm m).
Proof.
  intros H. unfold read_real_mask. hstep; [now apply hard_ret|]. hstep. hstep. cbv zeta. hstep; [now apply hard_ret|]. hstep. hstep.
  hstep; [hstep; [hstep|]; now apply hard_ret|]. hstep. eapply hard_bind; [now apply rect_unsigned_safe|]. intros r Hr. apply hard_ret. split; [apply H|exact Hr].
Qed.
Lemma mask_tail_safe ln rm m : ubm m -> hard umk (read_mask_tail ln rm m) (read_mask_tail ln rm m).
Proof. intros H. unfold read_mask_tail. hstep; [hstep; [hstep|]; now apply hard_ret|]. now apply real_mask_safe. Qed.
Lemma density_safe pr ln rm m set k : ubm m -> (forall m v, ubm m -> ubm (set m v)) -> (forall rm m, ubm m -> hard umk (k rm m) (k rm m)) -> hard umk (read_density pr ln rm m set k) (read_density pr ln rm m set k).
Proof. intros H Hs Hk. unfold read_density. hstep; [hstep; [now apply hard_ret|]; hstep; hstep|]; auto. Qed.
Lemma feather_safe pr ln rm m set k : ubm m -> (forall m v, ubm m -> ubm (set m v)) -> (forall rm m, ubm m -> hard umk (k rm m) (k rm m)) -> hard umk (read_feather pr ln rm m set k) (read_feather pr ln rm m set k).
Proof.
  intros H Hs Hk. unfold read_feather. hstep; [|now apply Hk]. hstep; [hstep; [hstep|]; now apply hard_ret|]. hstep.
  eapply hard_bind; [apply hard_lift; apply u64_some; lia|]. cbv beta. intros v _. auto.
Qed.
Lemma layer_mask_safe : hard umk readLayerMask readLayerMask.
Proof.
  pose proof ub_ZR as HZ. unfold readLayerMask. hstep. hstep. hstep; [apply hard_ret; now split|]. hstep; [hstep; apply hard_ret; now split|].
  hstep. eapply hard_bind; [now apply rect_signed_safe|]. intros r Hr. cbv zeta.
  hstep; [apply hard_ret; now split|]. hstep. hstep. hstep; [apply hard_ret; now split|]. hstep. hstep. hstep.
  - hstep; [apply hard_ret; now split|]. hstep. hstep.
    apply density_safe; [now split|easy|]. intros. apply feather_safe; [easy|easy|]. intros.
    apply density_safe; [easy|easy|]. intros. apply feather_safe; [easy|easy|]. intros. now apply mask_tail_safe.
  - apply mask_tail_safe. now split.
Qed.

(** ** Blocks *)
Lemma lenSize_cases key large : lenSize key large = 4 \/ lenSize key large = 8.
Proof. unfold lenSize. destruct (_ && _); auto. Qed.
Lemma get4or8_cases large : get4or8 large = 4 \/ get4or8 large = 8.
Proof. destruct large; [right|left]; reflexivity. Qed.
Lemma info_data_guard large key : hard (fun a => bytes_ok (fst a)) (read_info_data large key) (read_info_data' large key).
Proof.
  unfold read_info_data, read_info_data'. cbv zeta. pose proof (lenSize_cases key large) as Hs. hstep.
  eapply hard_bind; [apply uint_safe; lia|]. cbv beta. intros v _. hstep; [|apply hard_ret; constructor].
  apply guard_make; [|lia]. intros G. split; [lia|]. hstep. now apply hard_ret.
Qed.
Lemma scan_safe : forall fuel ln rd, hard (fun _ => True) (scan_sig fuel ln rd) (scan_sig fuel ln rd).
Proof. induction fuel as [|fuel IH]; intros ln rd; cbn [scan_sig]; (hstep; [|hstep]); [reflexivity|]. hstep. hstep. hstep; [hstep|apply IH]. Qed.

(** ** Records *)
Definition info_ok (m : infomap) : Prop := Forall (fun x => bytes_ok (snd x)) m.
Lemma info_get m k b : info_ok m -> m_get list_eqb m k = Some b -> bytes_ok b.
Proof.
  induction 1 as [|[k' b'] m Hb _ IH]; cbn [m_get]; [discriminate|]. destruct (list_eqb k k') eqn:E; [|exact IH]. intros Eq. injection Eq as <-. exact Hb.
Qed.
Lemma info_del m k : info_ok m -> info_ok (m_del list_eqb m k).
Proof. intros H. unfold m_del. apply Forall_forall. intros x Hx. apply filter_In in Hx as [Hx _]. revert x Hx. now apply Forall_forall. Qed.
Lemma info_set m k b : info_ok m -> bytes_ok b -> info_ok (m_set list_eqb m k b).
Proof. intros H Hb. unfold m_set. constructor; [exact Hb|now apply info_del]. Qed.

Lemma unicode_guard b : bytes_ok b -> (unicode_ok b = true -> readUnicodeString b <> None) /\ (unicode_ok b = false -> readUnicodeString b = None).
Proof.
  intros Hb. pose proof (readUnicodeString_panics b Hb) as [P1 P2]. unfold unicode_ok. destruct (readUint32 b 0) as [n|] eqn:E.
  - split.
    + intros G N. destruct (P1 N) as [L|(ln & E' & L & Z')]; [|injection E' as <-; lia].
      unfold readUint32 in E. destruct (idx b 0), (idx b (0 + 1)), (idx b (0 + 2)), (idx b (0 + 3)) eqn:E3; try discriminate. apply idx_some_lt in E3. lia.
    + intros G. apply P2. right. exists n. repeat split; lia.
  - split; [discriminate|]. intros _. apply P2. left. destruct (Z.lt_ge_cases (zlen b) 4) as [L|L]; [exact L|]. destruct (readUint32_total b 0) as [v Ev]; try lia. congruence.
Qed.
Lemma divider_data_guard b : if 4 <=? zlen b then divider_data b <> Panic /\ (forall e, divider_data b = Err e -> real_error e) else divider_data b = Panic.
Proof.
  unfold divider_data. destruct (Z.leb_spec 4 (zlen b)) as [L|L].
  - destruct (readUint32_total b 0) as [v ->]; try lia. cbn [chk obind]. destruct (zlen b <? 12) eqn:?; [split; discriminate|].
    destruct (negb _); [split; [discriminate|]; intros e E; injection E as <-; exact I|]. destruct (zlen b <? 16) eqn:?; [split; discriminate|].
    destruct (readUint32_total b 12) as [w ->]; try lia. split; discriminate.
  - destruct (readUint32 b 0) as [v|] eqn:E; [|reflexivity]. exfalso. unfold readUint32 in E.
    destruct (idx b 0), (idx b (0 + 1)), (idx b (0 + 2)), (idx b (0 + 3)) eqn:E3; try discriminate. apply idx_some_lt in E3. lia.
Qed.
Lemma divider_guard info : if divider_ok info then readSectionDividerSetting info <> Panic /\ (forall e, readSectionDividerSetting info = Err e -> real_error e) else readSectionDividerSetting info = Panic.
Proof.
  unfold divider_ok, readSectionDividerSetting. destruct (m_get list_eqb info key_lsct); [apply divider_data_guard|]. destruct (m_get list_eqb info key_lsdk); [apply divider_data_guard|]. split; discriminate.
Qed.

Section layers.
  Variable procs : nat.
  Variable cfg : config.
  Variable o : options.
  Hypothesis Hprocs : (1 <= procs)%nat.
  Hypothesis Hcfg : sane cfg.

  Lemma chdata_safe n : hard (fun _ => True) (read_chdata cfg n) (read_chdata cfg n).
  Proof.
    induction n as [|n IH]; cbn [read_chdata]; [hstep|]. pose proof (get4or8_cases (psb cfg)) as Hs. fold (intSize cfg) in Hs. hstep. hstep.
    eapply hard_bind; [apply uint_safe; lia|]. cbv beta. intros v _. eapply hard_bind; [exact IH|]. intros rest _. hstep.
  Qed.

  Lemma gray_some : exists k, findGrayPicker (cfg_depth cfg) = Some k /\ planes k = 1.
  Proof. destruct Hcfg as [[E|[E|[E|E]]] _]; rewrite E; eexists; split; reflexivity. Qed.

  Definition rec_ub (l : lrec) : Prop := ub (l_rect l) /\ ubm (l_mask l).
  Definition chan_post (a : bytes * list (Z * channel) * list bytes * Z) : Prop := 2 <= zlen (fst (fst (fst a))) /\ mode_channels (cfg_mode cfg) <= zlen (snd (fst a)).

  Lemma channel_guard l st chm chs j : rec_ub l -> 2 <= zlen st -> mode_channels (cfg_mode cfg) <= zlen chs ->
    hard chan_post (read_channel procs cfg l st chm chs j) (read_channel' procs cfg l st chm chs j).
  Proof.
    intros Hl Hst Hch. unfold read_channel, read_channel'.
    eapply (hard_bind (fun st => 2 <= zlen st)). { destruct (2 <=? cd_len j); [|now apply hard_ret]. eapply hard_mono; [apply hard_rfull; lia|]. cbv beta. intros a [_ E]. lia. }
    clear st Hst. intros st Hst. cbv zeta.
    eapply (hard_bind (fun _ => True)). { eapply hard_mono; [apply hard_lift|auto]. destruct (readUint16_total st 0) as [v ->]; try lia. discriminate. } intros cm _.
    set (r := if cd_index j =? -3 then _ else _). assert (ub r) as Hr. { unfold r. destruct Hl as [? [? ?]]. destruct (_ =? -3); [assumption|]. destruct (_ =? -2); assumption. }
    clearbody r. set (size := i64 (Z.shiftr (rdx r * cfg_depth cfg + 7) 3 * rdy r)).
    assert (rdx r = 0 -> size = 0) as Hz by (intros E; unfold size; rewrite E; reflexivity). clearbody size.
    apply guard_make; [|lia]. intros G. split; [lia|]. destruct gray_some as (gk & Eg & Pg). rewrite Eg. cbn [lift bind].
    eapply (hard_bind (fun _ => True)).
    { destruct (2 <? cd_len j); [|now apply hard_ret]. destruct Hr as [Hx Hy]. apply decompress_guard; try assumption; try lia. apply Hcfg. }
    intros [data n1] _. eapply (hard_bind (fun _ => True)). { destruct (_ <? cd_len j); hstep. } intros n2 _.
    hstep; [hstep|]. replace (setSource gk r [data]) with (Some (Picker gk r (firstn (Z.to_nat (planes gk)) [data]))) by (unfold setSource; rewrite Pg; reflexivity). cbn [lift bind].
    eapply (hard_bind (fun chs => mode_channels (cfg_mode cfg) <= zlen chs)).
    { destruct (Z.leb_spec 0 (cd_index j)) as [L|L].
      - apply hard_guard.
        + intros E. destruct (upd_total chs (cd_index j) data) as (l' & -> & L'); [lia|]. cbn. split; [reflexivity|lia].
        + intros E. unfold upd. replace ((0 <=? cd_index j) && (cd_index j <? zlen chs)) with false by lia. reflexivity.
      - destruct (_ =? -1); apply hard_ret; [|assumption]. rewrite zlen_app. pose proof (zlen_nonneg [data]). lia. }
    intros chs' Hc'. apply hard_ret. split; assumption.
  Qed.

  Lemma channels_guard l : rec_ub l -> forall js st chm chs rd, 2 <= zlen st -> mode_channels (cfg_mode cfg) <= zlen chs ->
    hard chan_post (read_channels procs cfg l st chm chs rd js) (read_channels' procs cfg l st chm chs rd js).
  Proof.
    intros Hl. induction js as [|j js IH]; intros st chm chs rd Hst Hch; cbn [read_channels read_channels']; [apply hard_ret; split; assumption|].
    eapply hard_bind; [now apply channel_guard|]. intros [[[st' chm'] chs'] n] [H1 H2]. now apply IH.
  Qed.

  Lemma picker_guard a : if layer_picker_ok cfg then exists k, findPicker (cfg_depth cfg) (cfg_mode cfg) a = Some k /\ planes k = mode_channels (cfg_mode cfg) + (if a then 1 else 0)
    else findPicker (cfg_depth cfg) (cfg_mode cfg) a = None.
  Proof.
    unfold layer_picker_ok, findPicker, mode_channels, findNGrayPicker, findNRGBAPicker, findNCMYKAPicker.
    destruct (cfg_mode cfg =? 0) eqn:M0, (cfg_mode cfg =? 1) eqn:M1, (cfg_mode cfg =? 2) eqn:M2, (cfg_mode cfg =? 3) eqn:M3, (cfg_mode cfg =? 4) eqn:M4; try lia; cbn [orb andb];
      destruct (cfg_depth cfg =? 8), (cfg_depth cfg =? 16), (cfg_depth cfg =? 32); cbn [orb andb]; try reflexivity; destruct a; eexists; split; reflexivity.
  Qed.
  Lemma mode_guard : if known_mode cfg then 1 <= mode_channels (cfg_mode cfg) <= 4 else mode_channels (cfg_mode cfg) < 0.
  Proof.
    unfold known_mode, mode_channels. destruct (_ && _) eqn:E.
    - assert (cfg_mode cfg = 0 \/ cfg_mode cfg = 1 \/ cfg_mode cfg = 2 \/ cfg_mode cfg = 3 \/ cfg_mode cfg = 4) as C by lia. destruct C as [-> | [-> | [-> | [-> | ->] ] ] ]; cbn; lia.
    - destruct (cfg_mode cfg =? 0) eqn:M0, (cfg_mode cfg =? 1) eqn:M1, (cfg_mode cfg =? 2) eqn:M2, (cfg_mode cfg =? 3) eqn:M3, (cfg_mode cfg =? 4) eqn:M4; cbn; lia.
  Qed.

  Lemma image_guard total : forall ls i st rd, Forall (fun x => rec_ub (fst x)) ls -> 2 <= zlen st ->
    hard (fun _ => True) (readLayerImage procs cfg total i st rd ls) (readLayerImage' procs cfg total i st rd ls).
  Proof.
    induction ls as [|[l js] ls IH]; intros i st rd Hf Hst; cbn [readLayerImage readLayerImage']; [hstep|]. inversion Hf as [|? ? Hl Hf']; subst. cbv zeta. pose proof mode_guard as Hm.
    apply guard_make; [|intros E; rewrite E in Hm; lia]. intros E. rewrite E in Hm. split; [unfold max_alloc; lia|].
    eapply hard_bind; [apply channels_guard; [exact Hl|exact Hst|]|].
    { unfold zrepeat. unfold zlen. rewrite repeat_length. lia. }
    intros [[[st' chm] chs] n] [H1 H2]. cbn [fst snd] in H1, H2. pose proof (picker_guard (mode_channels (cfg_mode cfg) <? zlen chs)) as Hk.
    apply guard_lift; [|intros G; now rewrite G in Hk]. intros G. rewrite G in Hk. destruct Hk as (k & Ek & Pk). split; [congruence|]. intros k' E'. rewrite Ek in E'. injection E' as <-.
    eapply (hard_bind (fun _ => True)). { eapply hard_mono; [apply hard_lift|auto]. unfold setSource. destruct (_ <? zlen chs) eqn:L in Pk; replace (zlen chs <? planes k) with false by lia; discriminate. }
    intros pk _. cbn [emit bind hard]. eexists. split; [reflexivity|]. eapply hard_bind; [now apply IH|]. intros [rest rd'] _. hstep.
  Qed.

  Section rec.
    Variables radd radd' : Z -> P (infomap * list lrec * Z).
    Hypothesis Hradd : forall n, hard (fun a => info_ok (fst (fst a))) (radd n) (radd' n).

    Definition extra_post (a : mask * bytes * infomap * Z) : Prop := ubm (fst (fst (fst a))) /\ info_ok (snd (fst a)).
    Lemma extra_guard : hard extra_post (readLayerExtraData radd) (readLayerExtraData radd').
    Proof.
      unfold readLayerExtraData. hstep. hstep. hstep; [apply hard_ret; split; [split; apply ub_ZR|constructor]|].
      eapply hard_bind; [apply layer_mask_safe|]. intros [m l] Hm. cbv zeta. hstep. hstep. hstep; [hstep|hstep|].
      eapply hard_bind; [apply pascal_safe|]. intros [name l2] _. eapply hard_bind; [apply align4_safe|]. intros pad _.
      eapply (hard_bind (fun a => info_ok (fst a))).
      { hstep; [|apply hard_ret; constructor]. eapply hard_bind; [apply Hradd|]. intros [[info ls] l3] Hi. hstep; [hstep|]. now apply hard_ret. }
      intros [info rd] Hi. hstep; [hstep|]. apply hard_ret. split; assumption.
    Qed.

    Lemma record_guard i : hard (fun a => rec_ub (fst (fst a))) (read_record cfg radd i) (read_record' cfg radd' i).
    Proof.
      unfold read_record, read_record'. hstep. eapply hard_bind; [now apply rect_signed_safe|]. intros r Hr. hstep. hstep.
      eapply hard_bind; [apply chdata_safe|]. intros cds _. hstep. hstep; [hstep|]. cbv zeta. hstep. hstep. hstep.
      eapply hard_bind; [apply extra_guard|]. intros [[[m mbcs] info] l] [Hm Hi]. cbn [fst snd] in Hm, Hi.
      eapply (hard_bind (fun a => True)).
      { destruct (m_get list_eqb info key_luni) as [[|c t]|] eqn:E; [hstep| |hstep].
        destruct (unicode_guard (c :: t) (info_get _ _ _ Hi E)) as [U1 U2]. apply guard_lift; [|exact U2]. intros G. split; [now apply U1|]. intros u _. hstep. }
      intros [[uname name] info2] _.
      destruct (match m_get list_eqb info2 key_clbl with Some (c :: _) => _ | _ => _ end) as [bce info3]. pose proof (divider_guard info3) as D.
      apply guard_outcome; [|intros G; now rewrite G in D]. intros G. rewrite G in D. destruct D as [D1 D2]. split; [exact D1|]. split; [exact D2|]. intros [[typ sdb] sub] _.
      apply hard_ret. split; assumption.
    Qed.
    Lemma records_guard : forall n i, hard (fun a => Forall (fun x => rec_ub (fst x)) (fst a)) (read_records cfg radd i n) (read_records' cfg radd' i n).
    Proof.
      induction n as [|n IH]; intros i; cbn [read_records read_records']; [apply hard_ret; constructor|].
      eapply hard_bind; [apply record_guard|]. intros [[l cds] c] Hl. eapply hard_bind; [apply IH|]. intros [rest c'] Hf. apply hard_ret. constructor; assumption.
    Qed.
    Lemma layer_info_guard : hard (fun _ => True) (readLayerInfo procs cfg o radd) (readLayerInfo' procs cfg o radd').
    Proof.
      unfold readLayerInfo, readLayerInfo'. pose proof (get4or8_cases (psb cfg)) as Hs. fold (intSize cfg) in Hs. hstep. eapply hard_bind; [apply uint_safe; lia|]. cbv beta. intros v _. cbv zeta.
      hstep; [hstep|]. hstep. hstep. eapply hard_bind; [apply records_guard|]. intros [recs c] Hf. cbn [fst] in Hf.
      eapply (hard_bind (fun _ => True)). { hstep; [hstep|]. eapply hard_bind; [now apply image_guard|]. intros [ls c2] _. hstep. }
      intros [ls rd] _. hstep; [hstep|]; hstep.
    Qed.
  End rec.

  Lemma additional_guard : forall fuel ln rd infos layers, info_ok infos ->
    hard (fun a => info_ok (fst (fst a))) (readAdditional procs cfg o fuel ln rd infos layers) (readAdditional' procs cfg o fuel ln rd infos layers).
  Proof.
    induction fuel as [|fuel IH]; intros ln rd infos layers Hi; cbn [readAdditional readAdditional']; [reflexivity|].
    hstep; [|hstep; [hstep|now apply hard_ret]]. eapply hard_bind; [apply scan_safe|]. intros [found rd2] _.
    hstep; [hstep; [hstep|now apply hard_ret]|]. hstep. cbv zeta. hstep; [hstep|]. hstep.
    - eapply hard_bind; [apply layer_info_guard; intros n; apply IH; constructor|]. intros [ls l] _. now apply IH.
    - eapply hard_bind; [apply info_data_guard|]. intros [data l] Hd. apply IH. now apply info_set.
  Qed.

  Lemma build_errors : forall ls i stack n, build i ls stack n <> Panic /\ (forall e, build i ls stack n = Err e -> real_error e).
  Proof.
    induction ls as [|l ls IH]; intros i stack n; cbn [build]; [split; discriminate|]. destruct (_ || _); [destruct stack; [|apply IH]|destruct (_ =? 3); apply IH].
    split; [discriminate|]. intros e E. injection E as <-. exact I.
  Qed.

  Lemma mask_info_guard fuel : hard (fun _ => True) (readLayerAndMaskInfo procs cfg o fuel) (readLayerAndMaskInfo' procs cfg o fuel).
  Proof.
    unfold readLayerAndMaskInfo, readLayerAndMaskInfo'. pose proof (get4or8_cases (psb cfg)) as Hs. fold (intSize cfg) in Hs. hstep. eapply hard_bind; [apply uint_safe; lia|]. cbv beta. intros v _. cbv zeta.
    hstep; [hstep|].
    assert (forall n, hard (fun a => info_ok (fst (fst a))) (readAdditional procs cfg o fuel n 0 [] []) (readAdditional' procs cfg o fuel n 0 [] [])) as Ha by (intros n; apply additional_guard; constructor).
    eapply (hard_bind (fun _ => True)). { hstep; [|hstep]. eapply hard_bind; [apply layer_info_guard; exact Ha|]. intros [ls l] _. hstep. } intros [ls rd] _.
    eapply (hard_bind (fun _ => True)). { hstep; [|hstep]. hstep. hstep. hstep; [hstep|]; hstep. } intros rd2 _.
    eapply (hard_bind (fun _ => True)). { hstep; [|hstep]. eapply hard_bind; [apply Ha|]. intros [[info ls2] l] _. destruct ls, ls2; hstep. } intros [[info ls2] rd3] _.
    eapply (hard_bind (fun _ => True)). { eapply hard_mono; [apply hard_outcome; apply build_errors|auto]. } intros tree _.
    eapply (hard_bind (fun _ => True)). { hstep; [hstep|]; hstep. } intros rd4 _. hstep; hstep.
  Qed.
End layers.
