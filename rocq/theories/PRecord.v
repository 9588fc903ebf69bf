(** Encoded layer records decode to what was encoded. *)
From Coq Require Import String Ascii.
From Verif Require Import Base BaseFacts MUtil SUtil PUtil MRect MReader PReader MPicker MConfig SConfig PConfig PConfig2
  MCompress SCompress PCompress PCompress2 PCompress3 MLayer SLayer SRecord PLayer.

(** Like [parses], with callbacks. *)
Definition yields inflate {Ev A} (p : prog Ev A) (enc : bytes) (a : A) (evs : list Ev) : Prop :=
  forall kind rest, run inflate kind p (enc ++ rest) = (Ok (a, rest), evs).

Section yields.
  Variable inflate : bytes -> Z -> option (bytes * Z).
  Context {Ev : Type}.
  Lemma parses_yields {A} (p : prog Ev A) enc a : parses inflate p enc a -> yields inflate p enc a [].
  Proof. auto. Qed.
  Lemma yields_bind {A B} (p : prog Ev A) (f : A -> prog Ev B) e1 e2 a b v1 v2 :
    yields inflate p e1 a v1 -> yields inflate (f a) e2 b v2 -> yields inflate (bind p f) (e1 ++ e2) b (v1 ++ v2).
  Proof. intros H1 H2 kind rest. rewrite run_bind, <- app_assoc, H1. cbn. rewrite H2. reflexivity. Qed.
  Lemma yields_pbind {A B} (p : prog Ev A) (f : A -> prog Ev B) e1 e2 a b v2 :
    parses inflate p e1 a -> yields inflate (f a) e2 b v2 -> yields inflate (bind p f) (e1 ++ e2) b v2.
  Proof. intros H1 H2. apply (yields_bind p f e1 e2 a b [] v2); auto. Qed.
  Lemma yields_pbind0 {A B} (p : prog Ev A) (f : A -> prog Ev B) e a b v2 :
    parses inflate p [] a -> yields inflate (f a) e b v2 -> yields inflate (bind p f) e b v2.
  Proof. intros H1 H2. change e with ([] ++ e). eapply yields_pbind; eauto. Qed.
  Lemma yields_ret {A} (a : A) : yields inflate (Ret (Ev := Ev) a) [] a [].
  Proof. intros kind rest. reflexivity. Qed.
  Lemma yields_emit {B} ev (f : unit -> prog Ev B) e b vs :
    yields inflate (f tt) e b vs -> yields inflate (bind (emit ev) f) e b (ev :: vs).
  Proof. intros H kind rest. cbn. rewrite H. reflexivity. Qed.
  Lemma yields_if_false {A} (c : bool) (p q : prog Ev A) e a v :
    c = false -> yields inflate q e a v -> yields inflate (if c then p else q) e a v.
  Proof. intros ->; auto. Qed.
  Lemma yields_if_true {A} (c : bool) (p q : prog Ev A) e a v :
    c = true -> yields inflate p e a v -> yields inflate (if c then p else q) e a v.
  Proof. intros ->; auto. Qed.
End yields.

(** * Numbers *)

Lemma be_mod n v : be n (v mod 256 ^ Z.of_nat n) = be n v.
Proof.
  assert (H : forall m, (m <= n)%nat -> be m (v mod 256 ^ Z.of_nat n) = be m v); [|auto].
  induction m as [|m IH]; intros Hm; [reflexivity|]. cbn [be]. f_equal; [|apply IH; lia].
  replace (Z.of_nat n) with (Z.of_nat m + (1 + Z.of_nat (n - S m))) by lia.
  rewrite !Z.pow_add_r by lia. change (256 ^ 1) with 256.
  set (a := 256 ^ Z.of_nat m). set (c := 256 ^ Z.of_nat (n - S m)).
  assert (0 < a) by (apply Z.pow_pos_nonneg; lia). assert (0 < c) by (apply Z.pow_pos_nonneg; lia).
  rewrite Z.rem_mul_r by nia. rewrite (Z.mul_comm a ((v / a) mod _)), Z.div_add by lia.
  rewrite Z.div_small by (apply Z.mod_pos_bound; lia). rewrite Z.add_0_l.
  rewrite Z.rem_mul_r by nia. rewrite Z.mul_comm, Z.mod_add by lia. apply Z.mod_mod. lia.
Qed.

Lemma readUint32_beZ pre post v o : o = zlen pre -> readUint32 (pre ++ be 4 v ++ post) o = Some (v mod 4294967296).
Proof.
  intros E. rewrite <- be_mod. change (256 ^ Z.of_nat 4) with 4294967296.
  pose proof (Z.mod_pos_bound v 4294967296 ltac:(lia)). now apply readUint32_be.
Qed.
Lemma readUint16_beZ pre post v o : o = zlen pre -> readUint16 (pre ++ be 2 v ++ post) o = Some (v mod 65536).
Proof.
  intros E. rewrite <- be_mod. change (256 ^ Z.of_nat 2) with 65536.
  pose proof (Z.mod_pos_bound v 65536 ltac:(lia)). now apply readUint16_be.
Qed.
Lemma i32_mod v : int32 v -> i32 (v mod 4294967296) = v.
Proof. unfold int32, i32. intros H. rewrite Zplus_mod_idemp_l. rewrite Z.mod_small; lia. Qed.
Lemma i16_mod v : -32768 <= v < 32768 -> i16 (v mod 65536) = v.
Proof. unfold i16. intros H. rewrite Zplus_mod_idemp_l. rewrite Z.mod_small; lia. Qed.

Lemma enc_rect_zlen r : zlen (enc_rect r) = 16.
Proof. unfold enc_rect. now rewrite !zlen_app, !zlen_be. Qed.
Lemma mkRect_valid r : rx0 r <= rx1 r -> ry0 r <= ry1 r -> mkRect (rx0 r) (ry0 r) (rx1 r) (ry1 r) = r.
Proof. intros. destruct r; unfold mkRect; cbn in *. f_equal; lia. Qed.

Lemma enc_rect_reads r :
  readUint32 (enc_rect r) 0 = Some (ry0 r mod 4294967296) /\
  readUint32 (enc_rect r) 4 = Some (rx0 r mod 4294967296) /\
  readUint32 (enc_rect r) 8 = Some (ry1 r mod 4294967296) /\
  readUint32 (enc_rect r) 12 = Some (rx1 r mod 4294967296).
Proof.
  unfold enc_rect. split; [|split; [|split]].
  - apply (readUint32_beZ []). reflexivity.
  - apply (readUint32_beZ (be 4 (ry0 r))). now rewrite zlen_be.
  - rewrite app_assoc. apply (readUint32_beZ (be 4 (ry0 r) ++ be 4 (rx0 r))). now rewrite zlen_app, !zlen_be.
  - rewrite !app_assoc. rewrite <- (app_nil_r (be 4 (rx1 r))).
    apply readUint32_beZ. now rewrite !zlen_app, !zlen_be.
Qed.

Section prog.
  Variable inflate : bytes -> Z -> option (bytes * Z).
  Notation parses := (@parses inflate event _).
  Notation yields := (@yields inflate event _).

  Ltac pfull := eapply parses_bind; [apply parses_rfull|].
  Ltac plift := eapply parses_bind0; [apply parses_lift|].

  Lemma parses_rect_signed r : rect_valid r -> parses (read_rect_signed (enc_rect r)) [] r.
  Proof.
    intros (H1 & H2 & H3 & H4 & H5 & H6). destruct (enc_rect_reads r) as (E1 & E2 & E3 & E4).
    unfold read_rect_signed. rewrite E1, E2, E3, E4. cbn [lift bind].
    rewrite !i32_mod by auto. rewrite mkRect_valid by auto. apply parses_ret.
  Qed.
  Lemma parses_rect_unsigned r : rect_valid r -> 0 <= rx0 r -> 0 <= ry0 r -> parses (read_rect_unsigned (enc_rect r)) [] r.
  Proof.
    intros (H1 & H2 & H3 & H4 & H5 & H6) H7 H8. destruct (enc_rect_reads r) as (E1 & E2 & E3 & E4). unfold int32 in *.
    unfold read_rect_unsigned. rewrite E1, E2, E3, E4. cbn [lift bind].
    rewrite !Z.mod_small by lia. rewrite mkRect_valid by auto. apply parses_ret.
  Qed.

  (** * Masks *)

  Definition is_some {A} (o : option A) : bool := match o with Some _ => true | None => false end.

  Lemma bit_cases h (a b c d : option Z) : 0 <= h < 16 ->
    let p := 16 * h + present a 1 + present b 2 + present c 4 + present d 8 in
    bit p 0 = is_some a /\ bit p 1 = is_some b /\ bit p 2 = is_some c /\ bit p 3 = is_some d.
  Proof.
    intros H p. subst p.
    assert (h = 0 \/ h = 1 \/ h = 2 \/ h = 3 \/ h = 4 \/ h = 5 \/ h = 6 \/ h = 7 \/ h = 8 \/ h = 9 \/ h = 10 \/
            h = 11 \/ h = 12 \/ h = 13 \/ h = 14 \/ h = 15) as D by lia.
    destruct a, b, c, d; cbn [present is_some];
      repeat (destruct D as [-> | D]; [vm_compute; auto|]); subst h; vm_compute; auto.
  Qed.

  Lemma bit_testbit v i : 0 <= i -> bit v i = Z.testbit v i.
  Proof.
    intros Hi. unfold bit. rewrite Z.shiftl_1_l.
    destruct (Z.testbit v i) eqn:E.
    - assert (Z.testbit (Z.land v (2 ^ i)) i = true) as T by (rewrite Z.land_spec, E, Z.pow2_bits_true by lia; easy).
      destruct (Z.land v (2 ^ i) =? 0) eqn:Z0; [|easy]. apply Z.eqb_eq in Z0. rewrite Z0, Z.bits_0 in T. easy.
    - replace (Z.land v (2 ^ i)) with 0; [easy|]. symmetry. apply Z.bits_inj'. intros n Hn.
      rewrite Z.land_spec, Z.bits_0. destruct (Z.eq_dec n i) as [-> |]; [now rewrite E|].
      rewrite Z.pow2_bits_false by lia. apply andb_false_r.
  Qed.

  Lemma parses_density o ln rm m set k e b : in_range o 256 -> rm + zlen (enc_opt 1 o) <= ln ->
    parses (k (rm + zlen (enc_opt 1 o)) match o with Some v => set m v | None => m end) e b ->
    parses (read_density (is_some o) ln rm m set k) (enc_opt 1 o ++ e) b.
  Proof.
    intros Hr Hl H. destruct o as [v|]; cbn [is_some enc_opt read_density] in *; unfold read_density.
    - rewrite zlen_be in *. apply parses_if_false; [lia|]. pfull; [apply zlen_be|].
      cbn in Hr. assert (be 1 v = [v]) as ->. { cbn [be]. f_equal. change (256 ^ Z.of_nat 0) with 1. rewrite Z.div_1_r. apply Z.mod_small. lia. }
      plift; [reflexivity|]. exact H.
    - rewrite zlen_nil, Z.add_0_r in H. exact H.
  Qed.
  Lemma parses_feather o ln rm m set k e b : in_range o 18446744073709551616 -> rm + zlen (enc_opt 8 o) <= ln ->
    parses (k (rm + zlen (enc_opt 8 o)) match o with Some v => set m v | None => m end) e b ->
    parses (read_feather (is_some o) ln rm m set k) (enc_opt 8 o ++ e) b.
  Proof.
    intros Hr Hl H. destruct o as [v|]; cbn [is_some enc_opt] in *; unfold read_feather.
    - rewrite zlen_be in *. apply parses_if_false; [lia|]. pfull; [apply zlen_be|].
      plift; [|exact H]. pose proof (readUint64_be [] [] v 0 eq_refl Hr ltac:(constructor) ltac:(constructor)) as R.
      rewrite app_nil_r in R. exact R.
    - rewrite zlen_nil, Z.add_0_r in H. exact H.
  Qed.

  Definition mask_start (r : rect) (c f : Z) (p : option sparams) : mask :=
    Mask r c f ZR 0 0 (get_param sp_ud p 255) (get_param sp_uf p 0) (get_param sp_vd p 255) (get_param sp_vf p 0).

  Lemma enc_params_zlen p : 0 <= zlen (enc_params p).
  Proof. apply zlen_nonneg. Qed.

  (** Everything up to the tail. *)
  Lemma parses_mask_front r c f p e b : rect_valid r -> params_valid f p ->
    let ln := 18 + zlen (enc_params p) + zlen e in ln < 4294967296 -> 20 <= ln ->
    parses (read_mask_tail ln (18 + zlen (enc_params p)) (mask_start r c f p)) e b ->
    parses readLayerMask (be 4 ln ++ enc_rect r ++ [c; f] ++ enc_params p ++ e) b.
  Proof.
    intros Hr [Hf Hp] ln Hln H20 H. assert (Eln : ln = 18 + zlen (enc_params p) + zlen e) by reflexivity. clearbody ln. unfold readLayerMask.
    pose proof (zlen_nonneg (enc_params p)). pose proof (zlen_nonneg e).
    pfull; [apply zlen_be|]. plift; [apply readUint32_be_nil; lia|].
    apply parses_if_false; [lia|]. apply parses_if_false; [lia|].
    pfull; [apply enc_rect_zlen|]. eapply parses_bind0; [now apply parses_rect_signed|].
    apply parses_if_false; [lia|]. cbn [app]. change (c :: f :: enc_params p ++ e) with ([c] ++ [f] ++ enc_params p ++ e).
    pfull; [reflexivity|]. plift; [reflexivity|]. apply parses_if_false; [lia|].
    pfull; [reflexivity|]. plift; [reflexivity|]. rewrite bit_testbit by lia.
    destruct p as [p|].
    - destruct Hp as (-> & G1 & G2 & G3 & G4 & G5). apply parses_if_false; [cbn [enc_params] in *; rewrite zlen_cons in *; pose proof (zlen_nonneg (enc_opt 1 (sp_ud p) ++ enc_opt 8 (sp_uf p) ++ enc_opt 1 (sp_vd p) ++ enc_opt 8 (sp_vf p))); lia|].
      cbn [enc_params app]. destruct (bit_cases (sp_high p) (sp_ud p) (sp_uf p) (sp_vd p) (sp_vf p) G1) as (B0 & B1 & B2 & B3).
      set (pb := 16 * sp_high p + _ + _ + _ + _) in *.
      match goal with |- PReader.parses _ _ (?x :: ?l) _ => change (x :: l) with ([x] ++ l) end.
      pfull; [reflexivity|]. plift; [reflexivity|]. rewrite B0, B1, B2, B3. rewrite <- !app_assoc.
      cbn [enc_params] in *. rewrite zlen_cons, !zlen_app in *.
      pose proof (zlen_nonneg (enc_opt 1 (sp_ud p))). pose proof (zlen_nonneg (enc_opt 8 (sp_uf p))).
      pose proof (zlen_nonneg (enc_opt 1 (sp_vd p))). pose proof (zlen_nonneg (enc_opt 8 (sp_vf p))).
      apply parses_density; [easy|lia|]. apply parses_feather; [easy|lia|].
      apply parses_density; [easy|lia|]. apply parses_feather; [easy|lia|].
      match type of H with PReader.parses _ (read_mask_tail _ ?a ?m) _ _ =>
        match goal with |- PReader.parses _ (read_mask_tail _ ?a' ?m') _ _ =>
          replace a' with a by lia; replace m' with m; [exact H|] end end.
      unfold mask_start, get_param. destruct p as [h [?|] [?|] [?|] [?|]]; reflexivity.
    - rewrite Hp. cbn [enc_params app] in *. rewrite zlen_nil, Z.add_0_r in *. exact H.
  Qed.

  Lemma parses_mask m : smask_valid m -> parses readLayerMask (enc_mask m) (mask_of m, zlen (enc_mask m)).
  Proof.
    unfold enc_mask, enc_block. destruct m as [|r c f p pad|r c f p rf rc rr]; cbn [smask_valid mask_body mask_of].
    - intros _. change (zlen []) with 0. unfold readLayerMask. pfull; [reflexivity|]. plift; [reflexivity|]. apply parses_ret.
    - intros (Hr & Hp & Hl). pose proof (zlen_nonneg (enc_params p)). pose proof (zlen_nonneg pad).
      rewrite !zlen_app, zlen_be, enc_rect_zlen. change (zlen [c; f]) with 2.
      replace (16 + (2 + (zlen (enc_params p) + zlen pad))) with (18 + zlen (enc_params p) + zlen pad) by lia.
      apply parses_mask_front; auto; try lia. unfold read_mask_tail.
      replace (18 + zlen (enc_params p) + zlen pad) with 20 by lia. change (20 =? 20) with true. cbn iota.
      destruct (18 + zlen (enc_params p) <? 20) eqn:E.
      + replace (20 - (18 + zlen (enc_params p)) <=? 2) with true by lia. cbn [andb].
        rewrite <- (app_nil_r pad). pfull; [lia|]. replace (4 + (18 + zlen (enc_params p)) + zlen pad) with (4 + 20) by lia.
        apply parses_ret.
      + cbn [andb]. assert (pad = []) as -> by (apply zlen_0_nil; lia).
        replace (4 + (18 + zlen (enc_params p))) with (4 + 20) by lia. apply parses_ret.
    - intros (Hr & Hp & Hrr & H1 & H2). pose proof (zlen_nonneg (enc_params p)).
      assert (zlen (enc_params p) <= 19).
      { destruct p as [[h [?|] [?|] [?|] [?|]]|]; cbn [enc_params enc_opt sp_ud sp_uf sp_vd sp_vf]; unfold zlen; cbn; lia. }
      rewrite !zlen_app, zlen_be, !enc_rect_zlen. change (zlen [c; f]) with 2. change (zlen [rf; rc]) with 2.
      assert (Le : zlen ([rf; rc] ++ enc_rect rr) = 18) by (rewrite zlen_app, enc_rect_zlen; reflexivity).
      replace (16 + (2 + (zlen (enc_params p) + (2 + 16)))) with (18 + zlen (enc_params p) + zlen ([rf; rc] ++ enc_rect rr)) by lia.
      apply parses_mask_front; auto; try lia. rewrite Le. unfold read_mask_tail.
      replace (18 + zlen (enc_params p) + 18 =? 20) with false by lia. cbn iota.
      unfold read_real_mask. apply parses_if_false; [lia|].
      change ([rf; rc] ++ enc_rect rr) with ([rf] ++ [rc] ++ enc_rect rr).
      pfull; [reflexivity|]. plift; [reflexivity|]. apply parses_if_false; [lia|].
      pfull; [reflexivity|]. plift; [reflexivity|]. apply parses_if_false; [lia|].
      rewrite <- (app_nil_r (enc_rect rr)). pfull; [apply enc_rect_zlen|].
      eapply parses_bind0; [now apply parses_rect_unsigned|].
      replace (4 + (18 + zlen (enc_params p) + 1 + 1) + 16) with (Z.of_nat 4 + (18 + zlen (enc_params p) + 18)) by lia.
      apply parses_ret.
  Qed.

  (** * Additional layer information *)

  Lemma parses_scan_found pre : no8 pre -> forall fuel infoLen rd,
    rd + zlen pre < infoLen -> zlen pre < Z.of_nat fuel ->
    parses (scan_sig fuel infoLen rd) (pre ++ [56]) (true, rd + zlen pre + 1).
  Proof.
    induction pre as [|x pre IH]; intros Hn fuel infoLen rd Hl Hf.
    - rewrite zlen_nil in *. destruct fuel; [lia|]. cbn [scan_sig app]. apply parses_if_true; [lia|].
      change [56] with ([56] ++ []). pfull; [reflexivity|]. plift; [reflexivity|].
      rewrite Z.add_0_r. apply parses_ret.
    - rewrite zlen_cons in *. pose proof (zlen_nonneg pre). destruct fuel; [lia|]. cbn [scan_sig]. apply parses_if_true; [lia|].
      change ((x :: pre) ++ [56]) with ([x] ++ (pre ++ [56])). pfull; [reflexivity|]. plift; [reflexivity|].
      apply parses_if_false; [apply Z.eqb_neq; intros ->; apply Hn; left; reflexivity|].
      replace (rd + (1 + zlen pre) + 1) with (rd + 1 + zlen pre + 1) by lia.
      apply IH; [intros Hi; apply Hn; now right|lia|lia].
  Qed.
  Lemma parses_scan_end pre : no8 pre -> forall fuel infoLen rd,
    rd + zlen pre = infoLen -> zlen pre <= Z.of_nat fuel ->
    parses (scan_sig fuel infoLen rd) pre (false, infoLen).
  Proof.
    induction pre as [|x pre IH]; intros Hn fuel infoLen rd Hl Hf.
    - rewrite zlen_nil in *. replace rd with infoLen by lia. destruct fuel; cbn [scan_sig]; (apply parses_if_false; [lia|]; apply parses_ret).
    - rewrite zlen_cons in *. pose proof (zlen_nonneg pre). destruct fuel; [lia|]. cbn [scan_sig]. apply parses_if_true; [lia|].
      change (x :: pre) with ([x] ++ pre). pfull; [reflexivity|]. plift; [reflexivity|].
      apply parses_if_false; [apply Z.eqb_neq; intros ->; apply Hn; left; reflexivity|].
      apply IH; [intros Hi; apply Hn; now right|lia|lia].
  Qed.

  Definition add_info (m : infomap) (b : iblock) : infomap := m_set list_eqb m (ib_key b) (ib_data b).

  Lemma lenSize_spec key large : lenSize key large = if is_long large key then 8 else 4.
  Proof. unfold lenSize, is_long. change long_key_names with long_keys. reflexivity. Qed.
  Lemma layer_key_spec key : ~ holds_layers key -> is_layer_key key = false.
  Proof.
    unfold holds_layers, is_layer_key. change (map ascii ["Layr"%string; "Lr16"%string; "Lr32"%string]) with [key_Layr; key_Lr16; key_Lr32].
    intros H. apply not_true_is_false. intros E. apply H. rewrite !orb_true_iff in E. rewrite !list_eqb_eq in E.
    cbn. intuition auto.
  Qed.
  Lemma readUint_be (b8 : bool) v : 0 <= v < (if b8 then 9223372036854775808 else 4294967296) ->
    readUint (be (if b8 then 8 else 4) v) 0 (if b8 then 8 else 4) = Some v.
  Proof.
    intros H. unfold readUint. destruct b8.
    - change (8 =? 8) with true. cbn iota. pose proof (readUint64_be [] [] v 0 eq_refl ltac:(lia) ltac:(constructor) ltac:(constructor)) as R.
      rewrite app_nil_r in R. exact R.
    - change (4 =? 8) with false. change (4 =? 4) with true. cbn iota. now apply readUint32_be_nil.
  Qed.

  Lemma parses_info_data large key d :
    zlen d < (if is_long large key then 281474976710656 else 4294967296) ->
    parses (read_info_data large key) (be (if is_long large key then 8 else 4) (zlen d) ++ d)
      (d, (if is_long large key then 8 else 4) + zlen d).
  Proof.
    intros H. unfold read_info_data. rewrite lenSize_spec. pose proof (zlen_nonneg d).
    pfull; [rewrite zlen_be; destruct (is_long large key); reflexivity|].
    plift; [apply readUint_be; destruct (is_long large key); lia|].
    rewrite i64_small by (destruct (is_long large key); lia).
    destruct (0 <? zlen d) eqn:E.
    - eapply parses_bind0; [apply parses_make_ok; unfold max_alloc; destruct (is_long large key); lia|].
      rewrite <- (app_nil_r d) at 2. pfull; [reflexivity|]. apply parses_ret.
    - assert (d = []) as -> by (apply zlen_0_nil; lia). rewrite zlen_nil, Z.add_0_r. apply parses_ret.
  Qed.

  Lemma enc_iblock_zlen large b : zlen (ib_key b) = 4 ->
    zlen (enc_iblock large b) = zlen (ib_pre b) + 8 + (if is_long large (ib_key b) then 8 else 4) + zlen (ib_data b).
  Proof.
    intros H. unfold enc_iblock. rewrite !zlen_app, zlen_be, H.
    destruct (ib_64 b), (is_long large (ib_key b)); cbn [zlen ascii]; unfold zlen; cbn; lia.
  Qed.

  Lemma parses_additional procs cfg o bs tail : Forall (iblock_valid (psb cfg)) bs -> no8 tail ->
    forall fuel infoLen rd infos layers,
    infoLen = rd + zlen (enc_infos (psb cfg) bs tail) -> zlen (enc_infos (psb cfg) bs tail) < Z.of_nat fuel ->
    parses (readAdditional procs cfg o fuel infoLen rd infos layers) (enc_infos (psb cfg) bs tail)
      (fold_left add_info bs infos, layers, infoLen).
  Proof.
    intros Hv Ht. induction Hv as [|b bs Hb Hv IH]; intros fuel infoLen rd infos layers Hl Hf.
    - unfold enc_infos in *. cbn [flat_map app fold_left] in *. pose proof (zlen_nonneg tail).
      destruct fuel as [|fuel]; [lia|]. cbn [readAdditional].
      destruct (rd <? infoLen) eqn:E.
      + rewrite <- (app_nil_r tail). eapply parses_bind; [apply parses_scan_end; [easy|exact (eq_sym Hl)|lia]|].
        cbn [negb]. cbn iota. rewrite Z.eqb_refl. apply parses_ret.
      + assert (tail = []) as -> by (apply zlen_0_nil; lia). replace rd with infoLen by lia. rewrite Z.eqb_refl. apply parses_ret.
    - destruct Hb as (Hb1 & Hb2 & Hb3 & Hb4).
      assert (Ez : zlen (enc_infos (psb cfg) (b :: bs) tail) = zlen (enc_iblock (psb cfg) b) + zlen (enc_infos (psb cfg) bs tail)).
      { unfold enc_infos. cbn [flat_map]. rewrite !zlen_app. lia. }
      rewrite Ez in *. rewrite enc_iblock_zlen in * by easy.
      set (sz := if is_long (psb cfg) (ib_key b) then 8 else 4) in *.
      assert (4 <= sz <= 8) by (subst sz; destruct (is_long _ _); lia).
      pose proof (zlen_nonneg (ib_pre b)). pose proof (zlen_nonneg (ib_data b)). pose proof (zlen_nonneg (enc_infos (psb cfg) bs tail)).
      unfold enc_infos at 1. cbn [flat_map]. rewrite <- app_assoc. fold (enc_infos (psb cfg) bs tail).
      destruct fuel as [|fuel]; [lia|]. cbn [readAdditional fold_left].
      apply parses_if_true; [lia|].
      unfold enc_iblock. set (sg := if ib_64 b then [66; 54; 52] else [66; 73; 77]).
      assert (Es : ascii (if ib_64 b then "8B64" else "8BIM") = [56] ++ sg) by (subst sg; destruct (ib_64 b); reflexivity).
      rewrite Es. rewrite <- !app_assoc. rewrite (app_assoc (ib_pre b)).
      eapply parses_bind; [apply parses_scan_found; [easy|lia|lia]|].
      cbn [negb]. cbn iota. rewrite (app_assoc sg).
      assert (Ls : zlen sg = 3) by (subst sg; destruct (ib_64 b); reflexivity).
      pfull; [rewrite zlen_app; lia|].
      assert (F3 : firstn 3 (sg ++ ib_key b) = sg) by (apply firstn_app_exact; unfold zlen in Ls; lia).
      assert (S3 : skipn 3 (sg ++ ib_key b) = ib_key b) by (apply skipn_app_exact; unfold zlen in Ls; lia).
      rewrite F3, S3.
      apply parses_if_false.
      { subst sg. destruct (ib_64 b); reflexivity. }
      rewrite (layer_key_spec _ Hb3). rewrite (app_assoc (be _ _)).
      eapply parses_bind; [apply parses_info_data; exact Hb4|]. cbn beta iota.
      apply IH; fold sz; lia.
  Qed.

  Lemma fold_last bs k : forall m, m_get list_eqb (fold_left add_info bs m) k =
    match last_info bs k with Some d => Some d | None => m_get list_eqb m k end.
  Proof.
    induction bs as [|b bs IH]; intros m; [reflexivity|]. cbn [fold_left last_info]. rewrite IH.
    destruct (last_info bs k); [reflexivity|]. unfold add_info. rewrite (m_get_set list_eqb list_eqb_eq).
    destruct (list_eqb (ib_key b) k); reflexivity.
  Qed.
End prog.
