(** From the file to the pixels: the decoded layers, the tiles of the loader, the tree and the renderer. *)
From Coq Require Import String.
From Verif Require Import Base BaseFacts SConfig MRect MPicker MConfig MReader MLayer SCompress SRecord SLayer PRecord4
  MSched PSched MBlend MPorter SBlend MWait PWait MRender SRender PRender PRender2 MRenderAll SRenderAll PRenderAll MRenderPx PRenderPx
  MDraw MTile STile PTile MLoad SLoad PLoad STileRender PTileRender MPipe SPipe PPipe.
Close Scope string_scope.
Open Scope Z_scope.

(** * Lists of layers *)
Lemma layers_are_nth skip mode depth nch : forall sls ls i j sl, layers_are skip mode depth nch i sls ls -> nth_error sls j = Some sl ->
  exists l, nth_error ls j = Some l /\ layer_is skip mode depth nch (i + Z.of_nat j) sl l.
Proof.
  induction sls as [|s sls IH]; intros [|l ls] i j sl; cbn [layers_are]; try (intros []; fail); [intros _; destruct j; discriminate|].
  intros [H1 H2] E. destruct j as [|j]; cbn [nth_error] in *.
  - injection E as <-. exists l. split; [reflexivity|]. now replace (i + Z.of_nat 0) with i by lia.
  - destruct (IH ls (i + 1) j sl H2 E) as (l' & E' & L'). exists l'. split; [exact E'|]. now replace (i + Z.of_nat (S j)) with (i + 1 + Z.of_nat j) by lia.
Qed.
Lemma layers_are_length skip mode depth nch : forall sls ls i, layers_are skip mode depth nch i sls ls -> length ls = length sls.
Proof. induction sls as [|s sls IH]; intros [|l ls] i; cbn [layers_are]; try (intros []; fail); [reflexivity|]. intros [_ H]. cbn. f_equal. eauto. Qed.
Lemma layers_are_seqs skip mode depth nch : forall sls ls i, layers_are skip mode depth nch i sls ls ->
  NoDup (map l_seq ls) /\ forall l, In l ls -> i <= l_seq l.
Proof.
  induction sls as [|s sls IH]; intros [|l ls] i; cbn [layers_are]; try (intros []; fail); [split; [constructor|intros ? []]|]. intros [[(E & _) _] H].
  destruct (IH ls (i + 1) H) as [N B]. split.
  - cbn [map]. constructor; [|exact N]. intros X. apply in_map_iff in X. destruct X as (l' & E' & X). apply B in X. lia.
  - intros l' [<-|X]; [lia|]. apply B in X. lia.
Qed.
Lemma events_layers total : forall ls i, map ev_layer (events_from total i ls) = ls.
Proof. induction ls as [|l ls IH]; intros i; [reflexivity|]. cbn [events_from map ev_layer]. now rewrite IH. Qed.

(** * Clipping groups *)
Lemma registerClip_none cl : forall i, (forall j, nth j cl false = false) -> registerClip cl i [] [] = [].
Proof. induction i as [|i IH]; intros H; [reflexivity|]. cbn [registerClip]. rewrite H. apply IH, H. Qed.
Lemma nth_seq_map {A} (d : A) (l : list A) : map (fun i => nth i l d) (seq 0 (length l)) = l.
Proof.
  induction l as [|x l IH]; [reflexivity|]. cbn [length seq map nth]. f_equal. rewrite <- seq_shift, map_map. exact IH.
Qed.
Lemma withGroups_none ks : Forall (fun k => lclipping (latt k) = false /\ lgroup k = []) ks -> withGroups ks = ks.
Proof.
  intros H. unfold withGroups, clipGroups.
  assert (N : forall j, nth j (map (fun k => lclipping (latt k)) ks) false = false).
  { intros j. revert j. induction H as [|k ks [E _] _ IH]; intros [|j]; cbn [map nth]; auto. }
  rewrite registerClip_none by exact N. cbv zeta. transitivity (map (fun i => nth i ks layer0) (seq 0 (length ks))); [|apply nth_seq_map].
  assert (G : forall i, lgroup (nth i ks layer0) = []).
  { intros i. clear N. revert i. induction H as [|k ks [_ E] _ IH]; intros [|i]; cbn [nth]; auto. }
  rewrite flat_map_concat_map. induction (seq 0 (length ks)) as [|i s IH]; [reflexivity|]. cbn [map concat app]. rewrite IH. f_equal.
  unfold groupOf. cbn [m_get map]. specialize (G i). destruct (nth i ks layer0). cbn [latt lkids lgroup] in *. now subst.
Qed.

(** * Data of a layer *)
Lemma chan_find l depth id d : chan_data l depth id = Some d -> exists pay, In (id, pay) (sl_channels l) /\ d = payload_data depth pay.
Proof.
  unfold chan_data. destruct (find _ _) as [[i pay]|] eqn:E; [|discriminate]. intros [= <-]. apply find_some in E. destruct E as [H E].
  cbn [fst snd] in *. exists pay. split; [|reflexivity]. apply Z.eqb_eq in E. now subst.
Qed.
Lemma flat_rows (w : Z) ls : Forall (fun l => line_ok l /\ zlen (expand_line l) = w) ls -> zlen (expand_lines ls) = w * zlen ls.
Proof.
  induction 1 as [|l ls [_ E] _ IH]; [change (0 = w * 0); lia|]. unfold expand_lines in *. cbn [flat_map]. rewrite zlen_app, E, IH, zlen_cons. lia.
Qed.
Lemma payload_len inflate large r p : payload_valid inflate large r 8 p -> zlen (payload_data 8 p) = rdx r * rdy r.
Proof.
  intros [_ H]. unfold plane_bytes, row_bytes in H. assert (R : (rdx r * 8 + 7) / 8 = rdx r) by lia. rewrite R in H. destruct p as [d|ls|z d|z rows]; cbn [payload_data].
  - exact H.
  - destruct H as (_ & L & F & _). now rewrite (flat_rows (rdx r)), L.
  - exact (proj1 H).
  - destruct H as [[X|X] _]; discriminate.
Qed.
Lemma chan_len inflate large nch l id d : slayer_valid inflate large 8 nch l -> chan_data l 8 id = Some d -> id <> -2 -> id <> -3 ->
  zlen d = rdx (sl_rect l) * rdy (sl_rect l).
Proof.
  intros (_ & _ & _ & H & _) E N2 N3. apply chan_find in E. destruct E as (pay & I & ->). rewrite Forall_forall in H. specialize (H _ I).
  cbn [fst snd] in H. destruct H as (_ & H & _). unfold chan_rect in H. replace (id =? -2) with false in H by lia. replace (id =? -3) with false in H by lia.
  eapply payload_len. exact H.
Qed.

(** * Modes *)
Lemma modes_same : mode_keys = blendModes.
Proof. reflexivity. Qed.
Lemma list_eqb_refl' (k : bytes) : list_eqb k k = true.
Proof. apply list_eqb_eq. reflexivity. Qed.
Lemma m_get_in {V} (m : list (bytes * V)) k v : NoDup (map fst m) -> (In (k, v) m <-> m_get list_eqb m k = Some v).
Proof.
  induction m as [|[k' v'] m IH]; intros N; cbn [In m_get map fst] in *; [split; [intros []|discriminate]|]. inversion N as [|? ? H1 H2]; subst.
  destruct (list_eqb k k') eqn:E.
  - apply list_eqb_eq in E. subst k'. split.
    + intros [X|X]; [congruence|]. exfalso. apply H1. apply in_map_iff. exists (k, v). auto.
    + intros [= ->]. now left.
  - rewrite <- (IH H2). split; [intros [X|X]; [|exact X]|now right]. injection X as -> ->. rewrite list_eqb_refl' in E. discriminate.
Qed.
Fixpoint nodupB (l : list bytes) : bool := match l with [] => true | x :: l => negb (existsb (list_eqb x) l) && nodupB l end.
Lemma nodupB_ok l : nodupB l = true -> NoDup l.
Proof.
  induction l as [|x l IH]; [constructor|]. cbn [nodupB]. rewrite andb_true_iff, negb_true_iff. intros [H1 H2]. constructor; [|auto].
  intros Hi. apply not_true_iff_false in H1. apply H1. apply existsb_exists. exists x. split; [exact Hi|apply list_eqb_refl'].
Qed.
Lemma key_get k m : key_is k m <-> m_get list_eqb blendModes k = Some m.
Proof. unfold key_is. rewrite modes_same. apply m_get_in. apply nodupB_ok. vm_compute. reflexivity. Qed.
Lemma pass_no_key m : ~ key_is passThrough m.
Proof. rewrite key_get. vm_compute. discriminate. Qed.
Lemma key_not_pass k m : key_is k m -> list_eqb k passThrough = false.
Proof.
  intros H. destruct (list_eqb k passThrough) eqn:E; [|reflexivity]. apply list_eqb_eq in E. subst k. now apply pass_no_key in H.
Qed.
Lemma hidden_visible sl l i : attributes_are i sl l -> lVisible l = negb (hidden sl).
Proof.
  intros (_ & _ & _ & _ & _ & E & _). unfold lVisible, hidden. rewrite E. set (f := sl_flags sl).
  assert (H : Z.land f 2 = if Z.testbit f 1 then 2 else 0).
  { apply Z.bits_inj'. intros k Hk. rewrite Z.land_spec. destruct (Z.eq_dec k 1) as [->|N].
    - destruct (Z.testbit f 1); reflexivity.
    - assert (T : Z.testbit 2 k = false). { change 2 with (2 ^ 1). apply Z.pow2_bits_false. lia. }
      rewrite T, andb_false_r. destruct (Z.testbit f 1); [symmetry; exact T|symmetry; apply Z.bits_0]. }
  rewrite H. destruct (Z.testbit f 1); reflexivity.
Qed.
Lemma leaf_bm sl l i : attributes_are i sl l -> has_type sl 0 -> forall m, leaf_mode sl m <-> m_get list_eqb blendModes (blendModeOf l) = Some m.
Proof.
  intros A T m. pose proof (has_type_is _ _ _ _ A T) as E. destruct A as (_ & _ & B & _). unfold blendModeOf, lFolder. rewrite E, B. cbn [orb Z.eqb].
  unfold leaf_mode. change (ascii "pass"%string) with passThrough. destruct (list_eqb (sl_blend sl) passThrough) eqn:Ep.
  - apply list_eqb_eq in Ep. rewrite Ep. split.
    + intros [H|[_ ->]]; [now apply pass_no_key in H|vm_compute; reflexivity].
    + intros H. right. split; [reflexivity|]. vm_compute in H. congruence.
  - rewrite key_get. split; [|now left]. intros [H|[H _]]; [exact H|]. rewrite H, list_eqb_refl' in Ep. discriminate.
Qed.
Lemma leaf_not_pt sl l i m : attributes_are i sl l -> has_type sl 0 -> leaf_mode sl m -> list_eqb (blendModeOf l) passThrough = false.
Proof. intros A T M. apply (leaf_bm _ _ _ A T) in M. apply key_get in M. now apply key_not_pass in M. Qed.
Lemma folder_bm sl l i t k : attributes_are i sl l -> has_type sl t -> t = 1 \/ t = 2 -> folder_key sl k -> blendModeOf l = k.
Proof.
  intros A T Ht (d & typ & bm & sub & D & I & ->). pose proof (has_type_is _ _ _ _ A T) as E. destruct A as (_ & _ & _ & _ & _ & _ & _ & _ & _ & _ & H & _).
  rewrite D in H. destruct (H _ _ _ I) as (_ & B & _). unfold blendModeOf, lFolder. rewrite E. replace ((t =? 1) || (t =? 2)) with true by lia. exact B.
Qed.
Lemma folder_bm_mode sl l i t m0 : attributes_are i sl l -> has_type sl t -> t = 1 \/ t = 2 -> folder_mode sl m0 ->
  forall m, folder_mode sl m <-> match m with Some m => m_get list_eqb blendModes (blendModeOf l) = Some m | None => blendModeOf l = passThrough end.
Proof.
  intros A T Ht (k0 & K0 & _) m. pose proof (folder_bm _ _ _ _ _ A T Ht K0) as E0. split.
  - intros (k & K & M). rewrite (folder_bm _ _ _ _ _ A T Ht K). destruct m; [now apply key_get|exact M].
  - intros H. exists k0. split; [exact K0|]. rewrite <- E0. destruct m; [now apply key_get|exact H].
Qed.

(** * The tiles of the layers *)
Definition Pc (v : px) : Prop := pixel_ok v /\ (pa v = 255 \/ v = black).
Lemma Pc_holds ts t : 0 < ts -> zlen t = ts * ts -> (forall v, In v t -> Pc v) -> exists f, holds (Z.to_nat (ts * ts)) t f.
Proof.
  intros Ht L H. exists (fun i => match nth_error t i with Some v => if pa v =? 255 then Some v else None | None => None end). split; [unfold zlen in L; lia|].
  intros i Hi. destruct (nth_error t i) as [v|] eqn:E; [|apply nth_error_None in E; unfold zlen in L; lia].
  destruct (H v (nth_error_In _ _ E)) as [O [A|A]].
  - rewrite A. cbn [Z.eqb Pos.eqb shown_as okc]. auto.
  - subst v. cbn. auto.
Qed.
Definition imageOf (sl : slayer) (l : lrec) : Prop := forall id, planeOf l id = chan_data sl 8 id.
Lemma layer_image i sl l : layer_is false 3 8 3 i sl l -> imageOf sl l.
Proof.
  intros [_ [_ H]] id. unfold planeOf. rewrite H. destruct (chan_data sl 8 id); reflexivity.
Qed.
Section tiles.
  Variables (inflate : bytes -> Z -> option (bytes * Z)) (large : bool) (cpus : nat) (ts : Z).
  Hypotheses (Hc : (1 <= cpus)%nat) (Ht : 0 < ts).
  Lemma leaf_tiles i sl l l1 m : picture_ok sl -> layer_is false 3 8 3 i sl l -> canvasOf cpus ts (playerOf l) l1 (Some m) -> aligned ts m /\ cellsOK Pc m.
  Proof.
    intros (_ & _ & (dr & Er & Br) & (dg & Eg & Bg) & (db & Eb & Bb) & Ha) L C. pose proof (layer_image _ _ _ L) as Im. unfold canvasOf in C.
    destruct (hasImage (playerOf l) && _); [|now destruct C]. destruct C as (m' & r & B & _ & [= <-] & _). cbn [playerOf prect pr_ pg_ pb_ pa_] in B.
    unfold plane0 in B. rewrite !Im, Er, Eg, Eb in B. apply built_good with (P := Pc) in B; [exact B|exact Hc|exact Ht| |].
    - split; [exact black_ok|right; reflexivity].
    - intros k v E. unfold getImage in E.
      assert (K : forall d x, bytes_ok d -> idx d k = Some x -> 0 <= x <= 255). { intros d x H Ex. pose proof (Forall_idx _ _ _ _ H Ex) as Hx. unfold is_byte in Hx. lia. }
      destruct (chan_data sl 8 (-1)) as [da|].
      + destruct (idx da k) as [av|] eqn:Ea; [|discriminate]. pose proof (Forall_idx _ _ _ _ Ha Ea) as Hv. cbn beta in Hv. destruct (Z.ltb_spec 0 av); [|discriminate].
        destruct (idx db k) eqn:E1; [|discriminate]. destruct (idx dg k) eqn:E2; [|discriminate]. destruct (idx dr k) eqn:E3; [|discriminate]. injection E as <-.
        pose proof (K _ _ Bb E1). pose proof (K _ _ Bg E2). pose proof (K _ _ Br E3). split; [unfold pixel_ok; cbn [pr pg pb pa]; lia|left; cbn [pa]; lia].
      + destruct (idx db k) eqn:E1; [|discriminate]. destruct (idx dg k) eqn:E2; [|discriminate]. destruct (idx dr k) eqn:E3; [|discriminate]. injection E as <-.
        pose proof (K _ _ Bb E1). pose proof (K _ _ Bg E2). pose proof (K _ _ Br E3). split; [unfold pixel_ok; cbn [pr pg pb pa]; lia|left; reflexivity].
  Qed.

  (** The pixel of a layer at a point *)
  Definition opq (v : px) : option px := if pa v =? 255 then Some v else None.
  Definition canvasPx (c : option (tilemap px)) (q p : point) : option px :=
    match c with
    | Some m => match m_get pt_eqb m q with Some t => match tile_at ts q t p with Some v => opq v | None => None end | None => None end
    | None => None
    end.
  Lemma leaf_at i sl l l1 c q p : picture_ok sl -> slayer_valid inflate large 8 3 sl -> layer_is false 3 8 3 i sl l -> canvasOf cpus ts (playerOf l) l1 c ->
    (ts | MRect.px q) -> (ts | py q) -> in_tile ts q p -> 0 <= MRect.px p -> 0 <= py p -> forall v, leaf_px sl p v <-> v = canvasPx c q p.
  Proof.
    intros Pl V L C D1 D2 Hq Hx Hy. pose proof (leaf_tiles i sl l l1) as T. specialize (T) with (1 := Pl) (2 := L). pose proof (layer_image _ _ _ L) as Im.
    destruct Pl as (Ty & _ & (dr & Er & Br) & (dg & Eg & Bg) & (db & Eb & Bb) & Ha).
    destruct L as [A _]. pose proof (has_type_is _ _ _ _ A Ty) as Et. destruct A as (_ & Rc & _).
    pose proof (chan_len _ _ _ _ _ _ V Er ltac:(lia) ltac:(lia)) as Lr. pose proof (chan_len _ _ _ _ _ _ V Eg ltac:(lia) ltac:(lia)) as Lg.
    pose proof (chan_len _ _ _ _ _ _ V Eb ltac:(lia) ltac:(lia)) as Lb.
    assert (La : match chan_data sl 8 (-1) with Some d => zlen d = rdx (sl_rect sl) * rdy (sl_rect sl) | None => True end).
    { destruct (chan_data sl 8 (-1)) eqn:E; [|exact I]. eapply chan_len; eauto; lia. }
    unfold canvasOf, hasImage in C. cbn [playerOf prect ptype pr_ pg_ pb_ pa_] in C. rewrite Et, Rc in C. cbn [Z.eqb andb] in C.
    destruct (rempty (sl_rect sl)) eqn:Ee; cbn [negb] in C.
    { destruct C as [-> _]. intros v. unfold leaf_px, canvasPx. assert (N : pt_in p (sl_rect sl) = false) by (unfold rempty in Ee; unfold pt_in; lia). rewrite N. reflexivity. }
    destruct C as (m & r & B & X1 & -> & X2).
    assert (G : aligned ts m /\ cellsOK Pc m).
    { apply T. unfold canvasOf, hasImage. cbn [playerOf prect ptype pr_ pg_ pb_ pa_]. rewrite Et, Rc, Ee. cbn [Z.eqb andb negb]. exists m, r. auto. }
    destruct G as [Al _]. unfold plane0 in B. rewrite !Im, Er, Eg, Eb in B.
    destruct (newTiledImage_spec cpus ts (sl_rect sl) dr dg db (chan_data sl 8 (-1)) 1 Hc Ht ltac:(lia)) as (ws & W & S).
    1-3: unfold plane_ok; lia. { destruct (chan_data sl 8 (-1)); [unfold plane_ok; lia|exact I]. }
    destruct B as (ws' & s & W' & I & ->). rewrite W in W'. injection W' as <-. destruct (S s I) as (_ & S1 & _ & S2). set (m := exec putTile s []) in *. clear S.
    assert (U : forall v, shows ts (Px 0 0 0 0) m p v -> canvasPx (Some m) q p = opq v).
    { intros v [(k & t & Gk & Hk & Ev)|[-> N]].
      - destruct (Al k t Gk) as (K1 & K2 & _). assert (k = q) as -> by (eapply mult_unique; eauto). unfold canvasPx. rewrite Gk, Ev. reflexivity.
      - unfold canvasPx. destruct (m_get pt_eqb m q) as [t|] eqn:Gq; [exfalso; exact (N _ _ Gq Hq)|reflexivity]. }
    assert (E : exists v0, leaf_px sl p v0 /\ v0 = canvasPx (Some m) q p /\ forall v, leaf_px sl p v -> v = v0).
    { unfold leaf_px. destruct (pt_in p (sl_rect sl)) eqn:Ip.
      - destruct (S1 p Ip Hx Hy) as (v & (rv & gv & bv & av & I1 & I2 & I3 & I4 & Ev) & Sh). apply U in Sh. unfold sample_pos in I1, I2, I3, I4.
        set (o := (py p - ry0 (sl_rect sl)) * rdx (sl_rect sl) + (MRect.px p - rx0 (sl_rect sl))) in *. rewrite Z.mul_1_r in *.
        assert (N : forall (d : bytes) x, idx d o = Some x -> nth_error d (Z.to_nat o) = Some x). { intros d x. unfold idx. now destruct (o <? 0). }
        assert (Av : av = 0 \/ av = 255). { destruct (chan_data sl 8 (-1)) as [da|]; [|now right]. exact (Forall_idx _ _ _ _ Ha I4). }
        exists (if av =? 255 then Some (Px rv gv bv 255) else None). split; [|split].
        + exists dr, dg, db, rv, gv, bv, av. repeat split; auto. destruct (chan_data sl 8 (-1)); auto.
        + rewrite Sh, Ev. destruct Av as [-> | ->]; reflexivity.
        + intros c (dr' & dg' & db' & r' & g' & b' & a' & F1 & F2 & F3 & F4 & F5 & F6 & F7 & ->). rewrite Er in F1. rewrite Eg in F2. rewrite Eb in F3. injection F1 as <-. injection F2 as <-. injection F3 as <-.
          rewrite (N _ _ I1) in F4. rewrite (N _ _ I2) in F5. rewrite (N _ _ I3) in F6. injection F4 as <-. injection F5 as <-. injection F6 as <-.
          destruct (chan_data sl 8 (-1)) as [da|]; [rewrite (N _ _ I4) in F7; injection F7 as <-|subst]; reflexivity.
      - exists None. split; [reflexivity|]. split; [|auto]. rewrite (U _ (S2 p Ip)). reflexivity. }
    destruct E as (v0 & E1 & -> & E3). intros v. split; [apply E3|now intros ->].
  Qed.
End tiles.
