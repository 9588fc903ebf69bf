(** Skipping the images of layers (C21), proofs. *)
From Verif Require Import Base BaseFacts MUtil SUtil PUtil MRect MReader PReader MPicker MConfig SConfig PConfig
  MCompress MLayer MApi SLayer PLayer PDecode SSkip.

(** * Programs without callbacks *)

Fixpoint noemit {Ev A} (p : prog Ev A) : Prop :=
  match p with
  | RFull _ k | RSome _ k => forall b, noemit (k b)
  | RDiscard _ k => forall n, noemit (k n)
  | RZlib _ _ k => forall b c, noemit (k b c)
  | Emit _ _ => False
  | _ => True
  end.
Lemma noemit_bind {Ev A B} (p : prog Ev A) (f : A -> prog Ev B) : noemit p -> (forall a, noemit (f a)) -> noemit (bind p f).
Proof. induction p; cbn; auto; easy. Qed.
Lemma noemit_lift {Ev A} (x : option A) : noemit (Ev := Ev) (lift x).
Proof. destruct x; exact I. Qed.
Lemma noemit_outcome {Ev A} (x : outcome A) : noemit (Ev := Ev) (of_outcome x).
Proof. destruct x; exact I. Qed.
Lemma noemit_make_ok {Ev} n : noemit (Ev := Ev) (make_ok n).
Proof. unfold make_ok. destruct (_ || _); exact I. Qed.

Lemma noemit_run inflate {Ev A} kind (p : prog Ev A) : noemit p -> forall s, snd (run inflate kind p s) = [].
Proof.
  induction p; cbn [noemit run]; intros Hp s; try reflexivity.
  - destruct (_ <? _); [reflexivity|auto].
  - destruct s; [reflexivity|auto].
  - destruct (_ <? _); [destruct kind; [auto|reflexivity]|]. destruct (_ <? _); [reflexivity|auto].
  - destruct (inflate_ok _ _ _) as [[? ?]|]; [auto|reflexivity].
  - easy.
Qed.

Ltac nstep :=
  match goal with
  | |- noemit (Ret _) => exact I
  | |- noemit (Fail _) => exact I
  | |- noemit Crash => exact I
  | |- noemit Starve => exact I
  | |- noemit (rfull _) => intros ?; exact I
  | |- noemit (rsome _) => intros ?; exact I
  | |- noemit (rdiscard _) => intros ?; exact I
  | |- noemit (lift _) => apply noemit_lift
  | |- noemit (byte_of _) => apply noemit_lift
  | |- noemit (of_outcome _) => apply noemit_outcome
  | |- noemit (make_ok _) => apply noemit_make_ok
  | |- noemit (bind _ _) => apply noemit_bind; [|intros]
  | |- noemit (if ?c then _ else _) => destruct c
  | |- noemit (match ?x with (_, _) => _ end) => destruct x
  | |- noemit (match ?x with Some _ => _ | None => _ end) => destruct x
  | |- noemit (match ?x with [] => _ | _ :: _ => _ end) => destruct x
  end.

Lemma noemit_rect_signed b : noemit (read_rect_signed b).
Proof. unfold read_rect_signed. repeat nstep. Qed.
Lemma noemit_rect_unsigned b : noemit (read_rect_unsigned b).
Proof. unfold read_rect_unsigned. repeat nstep. Qed.
Lemma noemit_real_mask ln rm m : noemit (read_real_mask ln rm m).
Proof. unfold read_real_mask. repeat (apply noemit_rect_unsigned || nstep). Qed.
Lemma noemit_mask_tail ln rm m : noemit (read_mask_tail ln rm m).
Proof. unfold read_mask_tail. repeat (apply noemit_real_mask || nstep). Qed.
Lemma noemit_density pr ln rm m set k : (forall rm m, noemit (k rm m)) -> noemit (read_density pr ln rm m set k).
Proof. intros H. unfold read_density. repeat (apply H || nstep). Qed.
Lemma noemit_feather pr ln rm m set k : (forall rm m, noemit (k rm m)) -> noemit (read_feather pr ln rm m set k).
Proof. intros H. unfold read_feather. repeat (apply H || nstep). Qed.
Lemma noemit_readLayerMask : noemit readLayerMask.
Proof.
  unfold readLayerMask.
  repeat (apply noemit_rect_signed || apply noemit_mask_tail || apply noemit_density || apply noemit_feather || nstep || intros).
Qed.
Lemma noemit_decodePackBits procs dest w lines large : noemit (decodePackBits procs dest w lines large).
Proof. unfold decodePackBits. repeat nstep. Qed.
Lemma noemit_decodeZLIB d l : noemit (decodeZLIB d l).
Proof. cbn. auto. Qed.
Lemma noemit_decompress procs cm n sh r d c large : noemit (decompress procs cm n sh r d c large).
Proof.
  unfold decompress. nstep; [repeat nstep|]. nstep; [apply noemit_decodePackBits|]. nstep; [apply noemit_decodeZLIB|].
  nstep; [|exact I]. apply noemit_bind; [apply noemit_decodeZLIB|]. intros [b c0]. repeat nstep.
Qed.
Lemma noemit_readPascalString {Ev} : noemit (Ev := Ev) readPascalString.
Proof. unfold readPascalString. repeat nstep. Qed.
Lemma noemit_adjustAlign4 {Ev} l : noemit (Ev := Ev) (adjustAlign4 l).
Proof. unfold adjustAlign4. repeat nstep. Qed.
Lemma noemit_adjustAlign2 {Ev} l : noemit (Ev := Ev) (adjustAlign2 l).
Proof. unfold adjustAlign2. repeat nstep. Qed.
Lemma noemit_resource_loop {Ev} fuel : forall ln rd m, noemit (Ev := Ev) (resource_loop fuel ln rd m).
Proof.
  induction fuel as [|fuel IH]; intros ln rd m; cbn [resource_loop]; [repeat nstep|].
  repeat (apply IH || apply noemit_readPascalString || apply noemit_adjustAlign2 || nstep).
Qed.
Lemma noemit_decodeConfig {Ev} fuel : noemit (Ev := Ev) (decodeConfig_prog fuel).
Proof. unfold decodeConfig_prog, readImageResource. repeat (apply noemit_resource_loop || nstep). Qed.
Lemma noemit_chdata cfg k : noemit (read_chdata cfg k).
Proof. induction k; cbn [read_chdata]; [exact I|]. repeat (apply IHk || nstep). Qed.
Lemma noemit_merged procs cfg : noemit (decode_merged procs cfg).
Proof.
  unfold decode_merged. repeat (nstep || apply noemit_decompress).
Qed.
Lemma noemit_scan_sig fuel : forall infoLen rd, noemit (scan_sig fuel infoLen rd).
Proof. induction fuel as [|fuel IH]; intros infoLen rd; cbn [scan_sig]; repeat (apply IH || nstep). Qed.
Lemma noemit_info_data large key : noemit (read_info_data large key).
Proof. unfold read_info_data. repeat nstep. Qed.

(** * Simulation *)

Section sim.
  Variable inflate : bytes -> Z -> option (bytes * Z).
  Variable skip : bool.

  Definition sim {A B} (p : P A) (q : P B) (R : A -> B -> Prop) : Prop :=
    forall kind s a rest evs, bytes_ok s -> run inflate kind p s = (Ok (a, rest), evs) ->
    exists b, run inflate kind q s = (Ok (b, rest), if skip then [] else evs) /\ R a b.

  Lemma sim_bind {A B C D} (p : P A) (q : P B) (f : A -> P C) (g : B -> P D) R S :
    sim p q R -> (forall a b, R a b -> sim (f a) (g b) S) -> sim (bind p f) (bind q g) S.
  Proof.
    intros H1 H2 kind s c rest evs Hs. rewrite !run_bind. unfold run_next.
    destruct (run inflate kind p s) as [[[a s1]|e| |] ev1] eqn:E1; try easy.
    destruct (run inflate kind (f a) s1) as [r ev2] eqn:E2. intros [= -> <-].
    destruct (H1 kind s a s1 ev1 Hs E1) as (b & E3 & HR).
    assert (Hs1 : bytes_ok s1).
    { destruct (run_suffix inflate kind p s a s1 ev1 E1) as [pre ->]. apply Forall_app in Hs. tauto. }
    destruct (H2 a b HR kind s1 c rest ev2 Hs1 E2) as (d & E4 & HS). exists d. split; [|exact HS].
    rewrite E3, E4. destruct skip; reflexivity.
  Qed.
  Lemma sim_refl {A} (p : P A) : noemit p -> sim p p eq.
  Proof.
    intros Hp kind s a rest evs _ E. exists a. split; [|reflexivity]. rewrite E. destruct skip; [|reflexivity].
    pose proof (noemit_run inflate kind p Hp s) as H. rewrite E in H. cbn in H. now subst.
  Qed.
  Lemma sim_same {A C D} (p : P A) (f : A -> P C) (g : A -> P D) S :
    noemit p -> (forall a, sim (f a) (g a) S) -> sim (bind p f) (bind p g) S.
  Proof. intros Hp H. eapply sim_bind; [now apply sim_refl|]. intros a b <-. apply H. Qed.
  Lemma sim_ret {A B} (a : A) (b : B) (R : A -> B -> Prop) : R a b -> sim (Ret a) (Ret b) R.
  Proof. intros H kind s a' rest evs _ [= <- <- <-]. exists b. split; [destruct skip; reflexivity|exact H]. Qed.
  Lemma sim_fail {A B} e (q : P B) (R : A -> B -> Prop) : sim (Fail e) q R.
  Proof. intros kind s a' rest evs _ [=]. Qed.
  Lemma sim_starve {A B} (q : P B) (R : A -> B -> Prop) : sim Starve q R.
  Proof. intros kind s a' rest evs _ [=]. Qed.
  Lemma sim_mono {A B} (p : P A) (q : P B) (R S : A -> B -> Prop) : sim p q R -> (forall a b, R a b -> S a b) -> sim p q S.
  Proof. intros H HS kind s a rest evs Hs E. destruct (H kind s a rest evs Hs E) as (b & E2 & HR). eauto. Qed.
  Lemma sim_rets {A B} (p : P A) (q : P B) (R : A -> B -> Prop) Q : rets Q p -> sim p q R -> sim p q (fun a b => R a b /\ Q a).
  Proof.
    intros HQ H kind s a rest evs Hs E. destruct (H kind s a rest evs Hs E) as (b & E2 & HR). exists b. split; [exact E2|].
    split; [exact HR|]. eapply rets_run; eauto.
  Qed.

  Definition strip (l : lrec) : lrec := if skip then no_image l else l.
  Fixpoint strip_tree (l : layer) : layer := match l with Layer r ch => Layer (strip r) (map strip_tree ch) end.

  Lemma strip_sdtype l : l_sdtype (strip l) = l_sdtype l.
  Proof. unfold strip. destruct skip; reflexivity. Qed.

  Lemma build_strip ls : forall i stack n,
    build i (map strip ls) (map (map strip_tree) stack) (map strip_tree n) =
    match build i ls stack n with Ok t => Ok (map strip_tree t) | Err e => Err e | Panic => Panic | NoFuel => NoFuel end.
  Proof.
    induction ls as [|l ls IH]; intros i stack n; [reflexivity|]. cbn [map build]. rewrite strip_sdtype.
    destruct (_ || _).
    - destruct stack as [|top stack]; [reflexivity|]. cbn [map]. rewrite <- IH, map_app. reflexivity.
    - destruct (_ =? 3); [apply (IH _ (n :: stack) [])|]. rewrite <- IH, map_app. reflexivity.
  Qed.
  Lemma buildTree_strip ls : buildTree (map strip ls) =
    match buildTree ls with Ok t => Ok (map strip_tree t) | Err e => Err e | Panic => Panic | NoFuel => NoFuel end.
  Proof. apply (build_strip ls 0 [] []). Qed.

  Section layers.
    Variable procs : nat.
    Variable cfg : config.
    Variable o : options.
    Hypothesis Ho : o_skip_layer o = skip.

    Definition Radd : (infomap * list lrec * Z) -> (infomap * list lrec * Z) -> Prop :=
      fun '(i1, l1, n1) '(i2, l2, n2) => i2 = i1 /\ n2 = n1 /\ l2 = map strip l1.
    Definition Rinfo : (option (list lrec) * Z) -> (option (list lrec) * Z) -> Prop :=
      fun '(l1, n1) '(l2, n2) => n2 = n1 /\ l2 = option_map (map strip) l1.

    Section rec.
      Variables radd1 radd2 : Z -> P (infomap * list lrec * Z).
      Hypothesis Hradd : forall n, sim (radd1 n) (radd2 n) Radd.

      Ltac same := apply sim_same; [repeat nstep|intros].

      Lemma sim_extra : sim (readLayerExtraData radd1) (readLayerExtraData radd2) eq.
      Proof.
        unfold readLayerExtraData. same. same. destruct (_ =? _); [now apply sim_ret|].
        apply sim_same; [apply noemit_readLayerMask|]. intros [m l]. same. same. same.
        apply sim_same; [apply noemit_readPascalString|]. intros [nm l']. apply sim_same; [apply noemit_adjustAlign4|]. intros pad.
        eapply sim_bind with (R := eq).
        - destruct (_ <? _); [|now apply sim_ret]. eapply sim_bind; [apply Hradd|].
          intros [[i1 l1] n1] [[i2 l2] n2] (-> & -> & ->).
          replace (zlen (map strip l1)) with (zlen l1) by (unfold zlen; now rewrite map_length).
          destruct (_ <? _); [apply sim_fail|now apply sim_ret].
        - intros [i1 n1] ? <-. destruct (negb _); [apply sim_fail|now apply sim_ret].
      Qed.

      Lemma sim_record i : sim (read_record cfg radd1 i) (read_record cfg radd2 i) eq.
      Proof.
        unfold read_record. same. apply sim_same; [apply noemit_rect_signed|]. intros r. same. same.
        apply sim_same; [apply noemit_chdata|]. intros cds. same. destruct (negb _); [apply sim_fail|]. same. same. same.
        eapply sim_bind; [apply sim_extra|]. intros [[[m mb] inf] l] ? <-.
        apply sim_same. { repeat nstep. }
        intros [[un nm] inf1]. destruct (match m_get list_eqb inf1 key_clbl with Some (c :: t) => _ | _ => _ end) as [bce inf2].
        apply sim_same; [apply noemit_outcome|]. intros [[typ sdb] sub]. now apply sim_ret.
      Qed.

      Lemma sim_records k : forall i, sim (read_records cfg radd1 i k) (read_records cfg radd2 i k) eq.
      Proof.
        induction k as [|k IH]; intros i; cbn [read_records]; [now apply sim_ret|].
        eapply sim_bind; [apply sim_record|]. intros [[l cds] c] ? <-. eapply sim_bind; [apply IH|]. intros [rest c'] ? <-. now apply sim_ret.
      Qed.

      Definition plain (x : lrec * list chdata) : Prop :=
        l_picker (fst x) = None /\ l_channels (fst x) = [] /\ rec_wf (fst x).
      Lemma rets_records k : forall i, rets (fun a => Forall plain (fst a)) (read_records cfg radd1 i k).
      Proof.
        induction k as [|k IH]; intros i; cbn [read_records]; [constructor|].
        eapply rets_bind; [apply rets_read_record|]. intros [[l cds] c] (_ & H1 & H2 & H3).
        eapply rets_bind; [apply IH|]. intros [rest c'] H. cbn [fst rets] in *. constructor; [|exact H]. repeat split; auto; apply H3.
      Qed.

      Lemma same_records_strip recs ls : Forall plain recs -> Forall2 same_record (map fst recs) ls ->
        map no_image ls = map fst recs.
      Proof.
        intros H. revert ls. induction H as [|x recs (H1 & H2 & _) H IH]; intros ls HF; cbn [map] in *.
        - inversion HF. reflexivity.
        - inversion HF as [|? l ? ls' (chm & pk & ->) HF']. subst. cbn [map]. f_equal; [|auto].
          unfold no_image, with_image. destruct x as [l cs]. destruct l. cbn in *. now subst.
      Qed.

      Lemma sim_layer_info : sim (strict_layer_info procs cfg radd1) (readLayerInfo procs cfg o radd2) Rinfo.
      Proof.
        unfold strict_layer_info, readLayerInfo. rewrite Ho. same. same. destruct (_ =? 0); [apply sim_ret; split; reflexivity|]. same. same.
        eapply sim_bind; [apply sim_rets; [apply rets_records|apply sim_records]|].
        intros [recs c] ? [<- Hp]. cbn [fst] in Hp.
        set (rd := intSize cfg + 2 + c). set (all := i64 (i64 a0 + intSize cfg)).
        assert (HR : Forall (fun x => rec_wf (fst x)) recs) by (eapply Forall_impl; [|exact Hp]; intros ? (_ & _ & ?); assumption).
        intros kind s res rest evs Hs E. rewrite run_bind in E. unfold run_next in E.
        destruct (run inflate kind (readLayerImage procs cfg (zlen recs) 0 [0; 0] 0 recs) s) as [[[[ls c1] s1]|e| |] ev1] eqn:E1; try easy.
        pose proof (wp_run inflate True kind _ _ s [] Hs (wp_readLayerImage procs cfg (zlen recs) recs HR 0 [0; 0] 0 (zlen s) [] (zlen_nonneg s))) as W.
        rewrite E1 in W. destruct W as ((Hn & Hc & _ & HF) & (pre & Epre)). cbn [fst snd] in *.
        assert (Lp : zlen pre = c1) by (rewrite Epre, zlen_app in Hc; lia).
        cbv beta iota zeta in E.
        destruct (all <? rd + c1) eqn:Ea; [discriminate E|].
        destruct skip eqn:Esk.
        - (* skipped *)
          assert (St : map strip ls = map fst recs).
          { unfold strip. rewrite Esk. now apply same_records_strip. }
          cbn [bind]. pose proof (zlen_nonneg pre).
          assert (Hrest : exists k, 0 <= k /\ zlen pre + k = all - rd /\ k <= zlen s1 /\ rest = skipn (Z.to_nat k) s1 /\ res = (Some ls, rd + c1 + k)).
          { destruct (rd + c1 <? all) eqn:Eb.
            - unfold rdiscard in E. cbn [bind run] in E. replace (all - (rd + c1) <? 0) with false in E by lia.
              destruct (zlen s1 <? all - (rd + c1)) eqn:Ec; [discriminate E|]. injection E as <- <- <-.
              exists (all - (rd + c1)). repeat split; lia.
            - injection E as <- <- <-. exists 0. split; [lia|]. split; [lia|]. split; [apply zlen_nonneg|]. split; [reflexivity|]. f_equal. lia. }
          destruct Hrest as (k & Hk0 & Hk1 & Hk2 & -> & ->).
          destruct (rd <? all) eqn:Er.
          + eexists. split.
            * unfold rdiscard. cbn [bind run]. replace (all - rd <? 0) with false by lia.
              rewrite Epre, zlen_app. replace (zlen pre + zlen s1 <? all - rd) with false by lia.
              replace (skipn (Z.to_nat (all - rd)) (pre ++ s1)) with (skipn (Z.to_nat k) s1); [reflexivity|].
              rewrite skipn_app. rewrite (skipn_all2 pre) by (unfold zlen in *; lia). cbn [app]. f_equal. unfold zlen in *. lia.
            * split; [lia|]. cbn [option_map]. now rewrite St.
          + assert (k = 0) by lia. assert (pre = []) by (apply zlen_0_nil; lia). subst k pre. cbn [app] in Epre. subst s1.
            eexists. split; [reflexivity|]. split; [change (zlen (@nil Z)) with 0 in *; lia|]. cbn [option_map]. now rewrite St.
        - (* not skipped *)
          exists res. split.
          + rewrite run_bind. unfold run_next. rewrite run_bind. unfold run_next. rewrite E1.
            cbv beta iota zeta. cbn [run]. rewrite app_nil_r.
            destruct (rd + c1 <? all); exact E.
          + destruct res as [x n]. split; [reflexivity|]. unfold strip. rewrite Esk.
            destruct x as [x|]; [|reflexivity]. cbn [option_map]. now rewrite map_id.
      Qed.
    End rec.

    Lemma sim_additional fuel : forall infoLen rd infos layers,
      sim (strict_additional procs cfg fuel infoLen rd infos layers)
          (readAdditional procs cfg o fuel infoLen rd infos (map strip layers)) Radd.
    Proof.
      induction fuel as [|fuel IH]; intros infoLen rd infos layers; cbn [strict_additional readAdditional]; [apply sim_starve|].
      assert (Fin : forall rd', sim (if negb (infoLen =? rd') then Fail ESizeMismatch else Ret (infos, layers, rd'))
        (if negb (infoLen =? rd') then Fail ESizeMismatch else Ret (infos, map strip layers, rd')) Radd).
      { intros rd'. destruct (negb _); [apply sim_fail|]. apply sim_ret. repeat split. }
      destruct (rd <? infoLen); [|apply Fin].
      apply sim_same; [apply noemit_scan_sig|]. intros [found rd1]. destruct (negb found); [apply Fin|].
      apply sim_same; [repeat nstep|]. intros b. destruct (negb _ && negb _); [apply sim_fail|].
      destruct (is_layer_key _).
      - eapply sim_bind; [apply sim_layer_info; intros n; apply (IH n 0 [] [])|].
        intros [l1 n1] [l2 n2] [-> ->].
        replace (map strip layers ++ match option_map (map strip) l1 with Some ls => ls | None => [] end)
          with (map strip (layers ++ match l1 with Some ls => ls | None => [] end)); [apply IH|].
        rewrite map_app. destruct l1; reflexivity.
      - apply sim_same; [apply noemit_info_data|]. intros [data l]. apply IH.
    Qed.

    Definition Rsec : (list layer * infomap * Z) -> (list layer * infomap * Z) -> Prop :=
      fun '(t1, i1, n1) '(t2, i2, n2) => t2 = map strip_tree t1 /\ i2 = i1 /\ n2 = n1.

    Lemma sim_section fuel : sim (strict_section procs cfg fuel) (readLayerAndMaskInfo procs cfg o fuel) Rsec.
    Proof.
      unfold strict_section, readLayerAndMaskInfo.
      apply sim_same; [repeat nstep|]. intros b. apply sim_same; [repeat nstep|]. intros v.
      destruct (_ =? 0); [apply sim_ret; repeat split|].
      set (all := i64 (i64 v + intSize cfg)).
      eapply sim_bind with (R := Rinfo).
      { destruct (_ <? _); [|apply sim_ret; split; reflexivity].
        eapply sim_bind; [apply sim_layer_info; intros n; apply (sim_additional fuel n 0 [] [])|].
        intros [l1 n1] [l2 n2] [-> ->]. apply sim_ret. split; reflexivity. }
      intros [l1 n1] [l2 n2] [-> ->].
      apply sim_same; [repeat nstep|]. intros rd.
      eapply sim_bind with (R := fun '(i1, l1, n1) '(i2, l2, n2) => i2 = i1 /\ n2 = n1 /\ l2 = option_map (map strip) l1).
      { destruct (_ <=? _); [|apply sim_ret; repeat split].
        eapply sim_bind; [apply (sim_additional fuel _ 0 [] [])|].
        intros [[i3 l3] n3] [[i4 l4] n4] (-> & -> & ->). destruct l1; [destruct l3; [apply sim_ret; repeat split|apply sim_fail]|].
        destruct l3; apply sim_ret; repeat split. }
      intros [[i3 l3] n3] [[i4 l4] n4] (-> & -> & ->).
      eapply sim_bind with (R := fun t1 t2 => t2 = map strip_tree t1).
      { replace (match option_map (map strip) l3 with Some ls => ls | None => [] end)
          with (map strip match l3 with Some ls => ls | None => [] end) by (destruct l3; reflexivity).
        rewrite buildTree_strip. destruct (buildTree _); [now apply sim_ret|apply sim_fail| |]; intros kind s a r e _ [=]. }
      intros t ? ->. apply sim_same; [repeat nstep|]. intros rd2. destruct (negb _); [apply sim_fail|]. apply sim_ret. repeat split.
    Qed.
  End layers.

  Lemma sim_decode fuel procs o o' : o_skip_layer o' = skip -> o_skip_merged o' = o_skip_merged o ->
    (forall c, o_config_loaded o' c = o_config_loaded o c) ->
    sim (strict_decode fuel procs o) (decode_prog fuel procs o')
      (fun '(f1, n1) '(f2, n2) => n2 = n1 /\
        f2 = Psd (f_config f1) (f_channel f1) (map strip_tree (f_layer f1)) (f_info f1) (f_data f1) (f_picker f1)).
  Proof.
    intros H1 H2 H3. unfold strict_decode, decode_prog. apply sim_same; [apply noemit_decodeConfig|]. intros [cfg l]. rewrite H3.
    destruct (o_config_loaded o cfg); [apply sim_fail|].
    eapply sim_bind; [now apply sim_section|]. intros [[t1 i1] n1] [[t2 i2] n2] (-> & -> & ->). rewrite H2.
    destruct (o_skip_merged o); [now apply sim_ret|].
    apply sim_same; [apply noemit_merged|]. intros [[[d chm] pk] l3]. now apply sim_ret.
  Qed.
End sim.

Lemma strip_tree_false : forall l, strip_tree false l = l.
Proof.
  fix IH 1. intros [r ch]. cbn [strip_tree].
  assert (H : map (strip_tree false) ch = ch) by (induction ch as [|c ch IHch]; [reflexivity|]; cbn [map]; now rewrite IH, IHch).
  now rewrite H.
Qed.
Lemma strip_tree_true : forall l, strip_tree true l = no_images l.
Proof.
  fix IH 1. intros [r ch]. cbn [strip_tree no_images].
  assert (H : map (strip_tree true) ch = map no_images ch) by (induction ch as [|c ch IHch]; [reflexivity|]; cbn [map]; now rewrite IH, IHch).
  now rewrite H.
Qed.

Lemma decode_skip inflate kind procs o s f n rest evs : bytes_ok s ->
  decodes_within inflate kind procs o s f n rest evs ->
  Decode inflate kind procs (Opts false (o_skip_merged o) (o_config_loaded o)) s = (Ok (f, n, rest), evs) /\
  Decode inflate kind procs (Opts true (o_skip_merged o) (o_config_loaded o)) s = (Ok (file_no_images f, n, rest), []).
Proof.
  intros Hs H. unfold decodes_within in H. unfold Decode. split.
  - destruct (sim_decode inflate false (fuel_for s) procs o (Opts false (o_skip_merged o) (o_config_loaded o)) eq_refl eq_refl (fun _ => eq_refl)
      kind s (f, n) rest evs Hs H) as ([f2 n2] & E & -> & ->). rewrite E.
    rewrite (map_ext _ _ strip_tree_false), map_id. destruct f. reflexivity.
  - destruct (sim_decode inflate true (fuel_for s) procs o (Opts true (o_skip_merged o) (o_config_loaded o)) eq_refl eq_refl (fun _ => eq_refl)
      kind s (f, n) rest evs Hs H) as ([f2 n2] & E & -> & ->). rewrite E.
    unfold file_no_images. rewrite (map_ext _ _ strip_tree_true). reflexivity.
Qed.
