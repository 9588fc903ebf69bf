(** The tiles of a picture moved by whole pixels are those of a picture at the new place. *)
From Coq Require Import QArith Permutation.
From Verif Require PClip.
From Verif Require Import Base BaseFacts MRect MThumb SThumb MSched PSched MBlend SBlend MTile STile PTile MLoad SLoad PLoad MTileRender STileRender PTileRender MScale SScale PScale.
Open Scope Z_scope.

(** * Two images with the same contents *)
Section same.
  Context {V : Type}.
  Variables (zero : V) (ts : Z).
  (** What is read for a point *)
  Definition content (get : Z -> option (option V)) (r : rect) (dX : Z) (p : point) : option (option V) :=
    if pt_in p r then get (sample_pos r dX p) else Some None.
  Hypothesis Ht : 0 < ts.
  Variables (get get' : Z -> option (option V)) (cpus cpus' : nat) (r r' : rect) (dX dX' : Z) (m m' : tilemap V).
  Hypothesis Hc : (1 <= cpus)%nat.
  Hypothesis Hc' : (1 <= cpus')%nat.
  Hypothesis B : built (newTiled zero get cpus ts r dX) m.
  Hypothesis B' : built (newTiled zero get' cpus' ts r' dX') m'.
  Hypothesis X0 : rx0 r = rx0 r'.
  Hypothesis Y0 : ry0 r = ry0 r'.
  Hypothesis HC : forall p, content get r dX p = content get' r' dX' p.

  Lemma same_half k c : m_get pt_eqb m k = Some c -> m_get pt_eqb m' k = Some c.
  Proof.
    intros G. apply (built_spec _ _ _ _ _ _ _ Hc Ht B) in G. destruct G as [[Gx Gy] F].
    destruct (fillTile_spec _ _ _ _ _ _ _ _ Ht F) as (L & F2 & F3 & F4). destruct (proj1 F4 eq_refl) as (p & v & Ip & Hp & Gp).
    assert (C : content get' r' dX' p = Some (Some v)) by (rewrite <- HC; unfold content; now rewrite Hp).
    unfold content in C. destruct (pt_in p r') eqn:Hp'; [|discriminate].
    assert (Gr : grid ts r' k).
    { apply in_forUp in Gx, Gy; try lia. unfold in_tile in Ip. unfold pt_in in Hp'. split; apply in_forUp; try lia.
      - rewrite <- X0. split; [lia|tauto].
      - rewrite <- Y0. split; [lia|tauto]. }
    apply (built_spec _ _ _ _ _ _ _ Hc' Ht B'). split; [exact Gr|].
    destruct B' as (ws & s & E & _ & _). destruct (newTiled_in _ _ _ _ _ _ _ Hc' Ht E) as [_ N].
    destruct (fillTile get' ts r' dX' (MRect.px k) (py k) (freshBuf zero ts)) as [[c' u']|] eqn:F'; [|now apply N in Gr].
    destruct (fillTile_spec _ _ _ _ _ _ _ _ Ht F') as (L' & F2' & F3' & F4').
    assert (u' = true) as -> by (apply F4'; eauto). f_equal. f_equal.
    apply PClip.nth_ext'; [unfold zlen in *; lia|]. intros n Hn.
    set (q := Pt (MRect.px k + Z.of_nat n mod ts) (py k + Z.of_nat n / ts)).
    assert (N' : 0 <= Z.of_nat n < ts * ts) by (unfold zlen in *; lia).
    assert (Iq : in_tile ts k q).
    { pose proof (Z.mod_pos_bound (Z.of_nat n) ts Ht). assert (0 <= Z.of_nat n / ts) by (apply Z.div_pos; lia).
      assert (Z.of_nat n / ts < ts) by (apply Z.div_lt_upper_bound; lia). unfold in_tile, q. cbn [MRect.px py]. lia. }
    assert (T : forall d : list V, tile_at ts k d q = nth_error d n).
    { intros d. unfold tile_at, q. cbn [MRect.px py]. replace ((py k + Z.of_nat n / ts - py k) * ts + (MRect.px k + Z.of_nat n mod ts - MRect.px k)) with (Z.of_nat n)
        by (pose proof (Z.div_mod (Z.of_nat n) ts ltac:(lia)); lia).
      unfold idx. replace (Z.of_nat n <? 0) with false by lia. now rewrite Nat2Z.id. }
    rewrite <- !T. specialize (HC q). unfold content in HC. destruct (pt_in q r) eqn:Q, (pt_in q r') eqn:Q'.
    - destruct (F2 q Iq Q) as (o & O1 & O2), (F2' q Iq Q') as (o' & O1' & O2'). rewrite O2, O2'. assert (o = o') as -> by congruence. reflexivity.
    - destruct (F2 q Iq Q) as (o & O1 & O2). rewrite O2, (F3' q Iq Q'). assert (o = None) as -> by congruence. reflexivity.
    - destruct (F2' q Iq Q') as (o & O1 & O2). rewrite O2, (F3 q Iq Q). assert (o = None) as -> by congruence. reflexivity.
    - now rewrite (F3 q Iq Q), (F3' q Iq Q').
  Qed.
End same.
Lemma same_tiles {V} (zero : V) ts get get' cpus cpus' r r' dX dX' m m' : 0 < ts -> (1 <= cpus)%nat -> (1 <= cpus')%nat ->
  built (newTiled zero get cpus ts r dX) m -> built (newTiled zero get' cpus' ts r' dX') m' -> rx0 r = rx0 r' -> ry0 r = ry0 r' ->
  (forall p, content get r dX p = content get' r' dX' p) -> forall k, m_get pt_eqb m k = m_get pt_eqb m' k.
Proof.
  intros Ht Hc Hc' B B' X Y C k.
  pose proof (same_half zero ts Ht get get' cpus cpus' r r' dX dX' m m' Hc Hc' B B' X Y C k) as H1.
  pose proof (same_half zero ts Ht get' get cpus' cpus r' r dX' dX m' m Hc' Hc B' B (eq_sym X) (eq_sym Y) (fun p => eq_sym (C p)) k) as H2.
  destruct (m_get pt_eqb m k) as [c|]; [symmetry; now apply H1|]. destruct (m_get pt_eqb m' k) as [c|]; [|reflexivity]. now apply H2.
Qed.

(** * Pictures and masks *)
Definition shiftR (r : rect) (dx dy : Z) : rect := Rct (rx0 r + dx) (ry0 r + dy) (rx1 r + dx) (ry1 r + dy).
Lemma sample_shift r dX dx dy p : sample_pos (shiftR r dx dy) dX p = sample_pos r dX (shifted p (- dx) (- dy)).
Proof. unfold sample_pos, shiftR, shifted, rdx. cbn [rx0 ry0 rx1 ry1 MRect.px py]. f_equal. replace (rx1 r + dx - (rx0 r + dx)) with (rx1 r - rx0 r) by lia. f_equal; [f_equal|]; lia. Qed.
Lemma in_shift r dx dy p : pt_in p (shiftR r dx dy) = pt_in (shifted p (- dx) (- dy)) r.
Proof. unfold pt_in, shiftR, shifted. cbn [rx0 ry0 rx1 ry1 MRect.px py]. destruct p as [x y]. cbn [MRect.px py]. lia. Qed.
Lemma shiftR_0 r : shiftR r 0 0 = r.
Proof. destruct r. unfold shiftR. cbn. f_equal; lia. Qed.
Lemma plane_shift r dx dy dX a : plane_ok r dX a -> plane_ok (shiftR r dx dy) dX a.
Proof. unfold plane_ok, shiftR, rdx, rdy. cbn [rx0 ry0 rx1 ry1]. intros H. replace (rx1 r + dx - (rx0 r + dx)) with (rx1 r - rx0 r) by lia. replace (ry1 r + dy - (ry0 r + dy)) with (ry1 r - ry0 r) by lia. exact H. Qed.
Lemma rempty_shift r dx dy : rempty (shiftR r dx dy) = rempty r.
Proof. unfold rempty, shiftR. cbn [rx0 ry0 rx1 ry1]. lia. Qed.
Lemma not_grown p r dx dy : pt_in p (grown r dx dy) = false -> pt_in p (shiftR r dx dy) = false.
Proof. unfold pt_in, grown, shiftR. destruct p as [x y]. cbn [MRect.px py rx0 ry0 rx1 ry1]. lia. Qed.

Section one.
  Variables (rnd : Q -> Q) (lib : library) (cpus : nat) (ts : Z).
  Hypothesis Hr : SThumb.rounding rnd.
  Hypothesis Hl : good_library lib.
  Hypothesis Hc : (1 <= cpus)%nat.
  Hypothesis Ht : 0 < ts.
  Variables (rc : rect) (dx dy : Z).
  Hypothesis Hm : moderate rc dx dy.

  Section picture.
    Variables (r g b : bytes) (a : option bytes).
    Hypothesis Pr : plane_ok rc 1 r.
    Hypothesis Pg : plane_ok rc 1 g.
    Hypothesis Pb : plane_ok rc 1 b.
    Hypothesis Pa : match a with Some a => plane_ok rc 1 a | None => True end.
    Hypothesis So : forall p v, pt_in p rc = true -> source_px r g b a (sample_pos rc 1 p) v -> pa v = 0 \/ pa v = 255.

    Lemma picture_by : exists m, built (newScaledTiledImage rnd lib cpus ts rc r g b a 1 (translation dx dy) None) m.
    Proof. exact (proj1 (shift_plain rnd lib cpus ts Hr Hl Hc Ht rc dx dy Hm r g b a 1 ltac:(lia) Pr Pg Pb Pa ltac:(lia))). Qed.
    Lemma picture_at : exists m, built (newTiledImage cpus ts (shiftR rc dx dy) r g b a 1) m.
    Proof.
      destruct (newTiledImage_spec cpus ts (shiftR rc dx dy) r g b a 1 Hc Ht ltac:(lia)) as (ws & E & _); try (now apply plane_shift).
      { destruct a; [now apply plane_shift|exact I]. }
      rewrite E. apply built_ex.
    Qed.
    Lemma picture_same m m' : built (newScaledTiledImage rnd lib cpus ts rc r g b a 1 (translation dx dy) None) m ->
      built (newTiledImage cpus ts (shiftR rc dx dy) r g b a 1) m' -> forall k, m_get pt_eqb m k = m_get pt_eqb m' k.
    Proof.
      intros B B'. unfold newScaledTiledImage in B. rewrite isIdentity_shift in B. destruct ((dx =? 0) && (dy =? 0)) eqn:Id.
      - assert (dx = 0) as -> by lia. assert (dy = 0) as -> by lia. rewrite shiftR_0 in B'. exact (built_same _ _ _ _ _ _ _ _ _ Hc Hc Ht B B').
      - destruct Hl as (Sz & C8 & _). destruct (moderate_size rc dx dy Hm) as (Rw & Rh & Gw & Gh).
        unfold createImage in B. change (1 =? 4) with false in B. cbv iota in B.
        assert (Sr : forall q, pt_in q rc = true -> exists o, getImage r g b a (sample_pos rc 1 q) = Some o /\ source_px r g b a (sample_pos rc 1 q) (match o with Some v => v | None => z4 end)).
        { intros q Hq. apply getImage_source; auto; lia. }
        destruct (pixelsOf_spec (getImage r g b a) rc 1 Rw ltac:(lia)) as (tmp & Et & Htmp).
        { intros q Hq. destruct (Sr q Hq) as (o & -> & _). discriminate. }
        rewrite Et, (transformRect_shift rnd Hr rc dx dy Hm) in B. cbv zeta in B. set (G := grown rc dx dy) in *. set (img := warp8 lib (translation dx dy) rc tmp G) in *.
        assert (Li : zlen img = rdx G * rdy G) by exact (proj1 (Sz _ _ _ Gw Gh) _).
        assert (At : forall p w, image_at G img p w -> getImage (pixBytes img) (skipn 1 (pixBytes img)) (skipn 2 (pixBytes img)) (Some (skipn 3 (pixBytes img))) (sample_pos G 4 p) = Some (if 0 <? pa w then Some w else None)).
        { intros p w Iw. destruct (pixBytes_idx img (cellIx G p) w Iw) as (R1 & G1 & B1 & A1). change (sample_pos G 4 p) with (cellIx G p * 4).
          unfold getImage. rewrite A1, B1, G1, R1. destruct (0 <? pa w); [now destruct w|reflexivity]. }
        refine (same_tiles z4 ts _ _ cpus cpus G (shiftR rc dx dy) 4 1 m m' Ht Hc Hc B B' eq_refl eq_refl _).
        intros p. unfold content. destruct (pt_in p G) eqn:Pi.
        + destruct (C8 dx dy rc tmp G p Hm Pi) as (C1 & C2 & C3). cbv zeta in C1, C2, C3. rewrite in_shift, sample_shift. set (q := shifted p (- dx) (- dy)) in *.
          destruct (pt_in q rc) eqn:Qi.
          * destruct (Htmp q Qi) as (v & Iv & Pv). destruct (Sr q Qi) as (o & O1 & O2). rewrite O1. unfold pixelAt in Pv. rewrite O1 in Pv.
            assert (v = match o with Some v => v | None => z4 end) as Ev by (destruct o; congruence). rewrite <- Ev in O2.
            destruct (So q v Qi O2) as [A|A].
            -- rewrite (At p _ (C2 v eq_refl Iv A)). cbn [pa]. destruct o as [w|]; [|reflexivity]. exfalso. subst v.
               unfold getImage in O1. destruct a as [al|].
               ++ destruct (idx al _) as [av|]; [|discriminate]. destruct (Z.ltb_spec 0 av); [|discriminate]. destruct (idx b _); [|discriminate]. destruct (idx g _); [|discriminate].
                  destruct (idx r _); [|discriminate]. injection O1 as <-. cbn [pa] in A. lia.
               ++ destruct (idx b _); [|discriminate]. destruct (idx g _); [|discriminate]. destruct (idx r _); [|discriminate]. injection O1 as <-. discriminate A.
            -- rewrite (At p _ (C1 v eq_refl Iv A)), A. cbn. destruct o as [w|]; [now subst v|]. subst v. discriminate A.
          * rewrite (At p _ (C3 eq_refl)). reflexivity.
        + now rewrite (not_grown _ _ _ _ Pi).
    Qed.
  End picture.

  Section mask.
    Variables a : bytes.
    Hypothesis Pa : plane_ok rc 1 a.
    Lemma mask_by dc : exists m, built (newScaledTiledMask rnd lib cpus ts rc a dc (translation dx dy)) m.
    Proof.
      unfold newScaledTiledMask. rewrite isIdentity_shift. destruct ((dx =? 0) && (dy =? 0)).
      - destruct (newTiledMask_spec cpus ts rc a dc Hc Ht Pa) as (ws & E & _). rewrite E. apply built_ex.
      - unfold plane_ok in Pa. replace (zlen a <? rdx rc * rdy rc) with false by lia. rewrite (transformRect_shift rnd Hr rc dx dy Hm).
        destruct Hl as (Sz & _). destruct (moderate_size rc dx dy Hm) as (_ & _ & Gw & Gh).
        destruct (newTiledMask_spec cpus ts (grown rc dx dy) (warpA lib (translation dx dy) rc a (grown rc dx dy)) dc Hc Ht) as (ws & E & _).
        { unfold plane_ok. rewrite (proj2 (proj2 (Sz _ _ _ Gw Gh)) _). lia. }
        cbv zeta. rewrite E. apply built_ex.
    Qed.
    Lemma mask_at_ dc : exists m, built (newTiledMask cpus ts (shiftR rc dx dy) a dc) m.
    Proof. destruct (newTiledMask_spec cpus ts (shiftR rc dx dy) a dc Hc Ht (plane_shift _ _ _ _ _ Pa)) as (ws & E & _). rewrite E. apply built_ex. Qed.
    Lemma mask_same m m' : built (newScaledTiledMask rnd lib cpus ts rc a 0 (translation dx dy)) m ->
      built (newTiledMask cpus ts (shiftR rc dx dy) a 0) m' -> forall k, m_get pt_eqb m k = m_get pt_eqb m' k.
    Proof.
      intros B B'. unfold newScaledTiledMask in B. rewrite isIdentity_shift in B. destruct ((dx =? 0) && (dy =? 0)) eqn:Id.
      - assert (dx = 0) as -> by lia. assert (dy = 0) as -> by lia. rewrite shiftR_0 in B'. exact (built_same _ _ _ _ _ _ _ _ _ Hc Hc Ht B B').
      - destruct (zlen a <? rdx rc * rdy rc); [destruct B as (? & ? & E & _); discriminate E|].
        rewrite (transformRect_shift rnd Hr rc dx dy Hm) in B. cbv zeta in B. set (G := grown rc dx dy) in *. set (img := warpA lib (translation dx dy) rc a G) in *.
        destruct Hl as (Sz & _ & _ & CA).
        refine (same_tiles 0 ts _ _ cpus cpus G (shiftR rc dx dy) 1 1 m m' Ht Hc Hc B B' eq_refl eq_refl _).
        assert (At : forall p w, image_at G img p w -> getMask img 0 (sample_pos G 1 p) = Some (if w =? 0 then None else Some w)).
        { intros p w Iw. unfold image_at in Iw. unfold getMask, sample_pos, rdx. rewrite Z.mul_1_r, Iw. change (0 =? 0) with true. cbv iota. now destruct (w =? 0). }
        intros p. unfold content. destruct (pt_in p G) eqn:Pi; [|now rewrite (not_grown _ _ _ _ Pi)].
        destruct (CA dx dy rc a G p Hm Pi) as (C1 & C2). cbv zeta in C1, C2. rewrite in_shift, sample_shift. set (q := shifted p (- dx) (- dy)) in *.
        destruct (pt_in q rc) eqn:Qi; [|now rewrite (At p _ (C2 eq_refl))].
        destruct (sample_plane rc 1 q a ltac:(lia) Pa Qi) as [v Ev]. assert (Iv : image_at rc a q v).
        { unfold image_at. unfold sample_pos, rdx in Ev. now rewrite Z.mul_1_r in Ev. }
        rewrite (At p _ (C1 v eq_refl Iv)). unfold getMask. rewrite Ev. change (0 =? 0) with true. cbv iota. now destruct (v =? 0).
    Qed.
  End mask.
End one.
