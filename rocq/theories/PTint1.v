(** The tiles of a picture moved by whole pixels with a gamma are those of the picture with other colours at the new place. *)
From Coq Require Import QArith Permutation.
From Verif Require Import Base BaseFacts MRect MThumb SThumb MSched PSched MBlend SBlend MTile STile PTile MLoad SLoad PLoad MTileRender STileRender PTileRender MScale SScale PScale PShift1.
Open Scope Z_scope.

Definition grade (dx dy : Z) (gt : option gammaTable) (c : Z) : Z := match gt with Some t => if (dx =? 0) && (dy =? 0) then c else T16 t (T8 t c) | None => c end.
Definition gradePx (f : Z -> Z) (v : px) : px := Px (f (pr v)) (f (pg v)) (f (pb v)) (pa v).
Lemma getImage_map f r g b a i : getImage (map f r) (map f g) (map f b) a i = match getImage r g b a i with Some (Some v) => Some (Some (gradePx f v)) | o => o end.
Proof.
  unfold getImage. rewrite !idx_map. destruct a as [a|].
  - destruct (idx a i) as [av|]; [|reflexivity]. destruct (0 <? av); [|reflexivity]. destruct (idx b i); [|reflexivity]. destruct (idx g i); [|reflexivity]. destruct (idx r i); reflexivity.
  - destruct (idx b i); [|reflexivity]. destruct (idx g i); [|reflexivity]. destruct (idx r i); reflexivity.
Qed.
Lemma map_same f (l : bytes) : (forall c, f c = c) -> map f l = l.
Proof. intros H. induction l as [|x l IH]; [reflexivity|]. cbn [map]. now rewrite H, IH. Qed.
Lemma plane_map f rc dX l : plane_ok rc dX l -> plane_ok rc dX (map f l).
Proof. unfold plane_ok, zlen. now rewrite map_length. Qed.

Section one.
  Variables (rnd : Q -> Q) (lib : library) (cpus : nat) (ts : Z).
  Hypothesis Hr : SThumb.rounding rnd.
  Hypothesis Hl : good_library lib.
  Hypothesis Hc : (1 <= cpus)%nat.
  Hypothesis Ht : 0 < ts.
  Variables (rc : rect) (dx dy : Z).
  Hypothesis Hm : moderate rc dx dy.
  Variable gt : option gammaTable.
  Hypothesis Hg : match gt with Some t => forall i, 0 <= T8 t i < 65536 | None => True end.
  Variables (r g b : bytes) (a : option bytes).
  Hypothesis Pr : plane_ok rc 1 r.
  Hypothesis Pg : plane_ok rc 1 g.
  Hypothesis Pb : plane_ok rc 1 b.
  Hypothesis Pa : match a with Some a => plane_ok rc 1 a | None => True end.
  Hypothesis So : forall p v, pt_in p rc = true -> source_px r g b a (sample_pos rc 1 p) v -> pa v = 0 \/ pa v = 255.
  Notation f := (grade dx dy gt).

  Lemma gpicture_by : exists m, built (newScaledTiledImage rnd lib cpus ts rc r g b a 1 (translation dx dy) gt) m.
  Proof.
    destruct gt as [t|]; [|exact (proj1 (shift_plain rnd lib cpus ts Hr Hl Hc Ht rc dx dy Hm r g b a 1 ltac:(lia) Pr Pg Pb Pa ltac:(lia)))].
    destruct ((dx =? 0) && (dy =? 0)) eqn:Z0.
    - destruct (proj1 (shift_plain rnd lib cpus ts Hr Hl Hc Ht rc dx dy Hm r g b a 1 ltac:(lia) Pr Pg Pb Pa ltac:(lia))) as [m B]. exists m.
      unfold newScaledTiledImage in *. rewrite isIdentity_shift, Z0 in *. exact B.
    - exact (proj1 (shift_gamma rnd lib cpus ts Hr Hl Hc Ht rc dx dy Hm r g b a 1 ltac:(lia) Pr Pg Pb Pa t Hg ltac:(lia))).
  Qed.
  Lemma gpicture_at : exists m, built (newTiledImage cpus ts (shiftR rc dx dy) (map f r) (map f g) (map f b) a 1) m.
  Proof.
    destruct (newTiledImage_spec cpus ts (shiftR rc dx dy) (map f r) (map f g) (map f b) a 1 Hc Ht ltac:(lia)) as (ws & E & _); try (now apply plane_shift, plane_map).
    { destruct a; [now apply plane_shift|exact I]. }
    rewrite E. apply built_ex.
  Qed.
  Lemma gpicture_same m m' : built (newScaledTiledImage rnd lib cpus ts rc r g b a 1 (translation dx dy) gt) m ->
    built (newTiledImage cpus ts (shiftR rc dx dy) (map f r) (map f g) (map f b) a 1) m' -> forall k, m_get pt_eqb m k = m_get pt_eqb m' k.
  Proof.
    intros B B'. destruct gt as [t|].
    2: { cbn [grade] in B'. rewrite !map_same in B' by reflexivity. exact (picture_same rnd lib cpus ts Hr Hl Hc Ht rc dx dy Hm r g b a Pr Pg Pb Pa So m m' B B'). }
    destruct ((dx =? 0) && (dy =? 0)) eqn:Id.
    { rewrite !map_same in B' by (intros c; unfold grade; now rewrite Id).
      apply (picture_same rnd lib cpus ts Hr Hl Hc Ht rc dx dy Hm r g b a Pr Pg Pb Pa So m m'); [|exact B']. unfold newScaledTiledImage in *. rewrite isIdentity_shift, Id in *. exact B. }
    assert (Ef : forall c, grade dx dy (Some t) c = T16 t (T8 t c)) by (intros c; unfold grade; now rewrite Id).
    unfold newScaledTiledImage in B. rewrite isIdentity_shift, Id in B. destruct Hl as (Sz & _ & C16 & _). destruct (moderate_size rc dx dy Hm) as (Rw & Rh & Gw & Gh).
    assert (Sr : forall q, pt_in q rc = true -> exists o, getImage r g b a (sample_pos rc 1 q) = Some o /\ source_px r g b a (sample_pos rc 1 q) (match o with Some v => v | None => z4 end)).
    { intros q Hq. apply getImage_source; auto; lia. }
    unfold createImageGamma in B. set (get := fun i => match getImage r g b a i with Some (Some v) => Some (Some (widen (T8 t) v)) | o => o end) in B.
    destruct (pixelsOf_spec get rc 1 Rw ltac:(lia)) as (tmp & Et & Htmp).
    { intros q Hq. unfold get. destruct (Sr q Hq) as (o & -> & _). destruct o; discriminate. }
    rewrite Et, (transformRect_shift rnd Hr rc dx dy Hm) in B. cbv zeta in B. set (G := grown rc dx dy) in *. set (img := warp16 lib (translation dx dy) rc tmp G) in *.
    rewrite restoreGamma_eq in B. set (pix := flat_map (bytes16 (T16 t)) img) in *.
    assert (At : forall p w, pt_in p G = true -> image_at G img p w ->
      getImage pix (skipn 2 pix) (skipn 4 pix) (Some (skipn 6 pix)) (sample_pos G 8 p) = Some (if 0 <? Z.shiftr (pa w) 8 then Some (out16 (T16 t) w) else None)).
    { intros p w Hin Iw. pose proof (cellIx_range G p Hin) as Rg. change (sample_pos G 8 p) with (cellIx G p * 8). change (idx img (cellIx G p) = Some w) in Iw.
      assert (0 <= cellIx G p * 8) by lia. unfold getImage. rewrite !idx_skipn by assumption.
      assert (F : forall j, 0 <= j < 8 -> idx pix (j + cellIx G p * 8) = idx (bytes16 (T16 t) w) j) by (intros j Hj; exact (flat_idx 8 (bytes16 (T16 t)) img (fun _ => eq_refl) _ w j Iw Hj)).
      change (Z.of_nat 6) with 6. change (Z.of_nat 4) with 4. change (Z.of_nat 2) with 2. rewrite (F 6), (F 4), (F 2) by lia. rewrite <- (Z.add_0_l (cellIx G p * 8)), (F 0) by lia.
      unfold out16. change (idx (bytes16 (T16 t) w) 6) with (Some (Z.shiftr (pa w) 8)). cbv iota beta. destruct (0 <? Z.shiftr (pa w) 8); reflexivity. }
    refine (same_tiles z4 ts _ _ cpus cpus G (shiftR rc dx dy) 8 1 m m' Ht Hc Hc B B' eq_refl eq_refl _).
    intros p. unfold content. destruct (pt_in p G) eqn:Pi.
    - destruct (C16 dx dy rc tmp G p Hm Pi) as (C1 & C2 & C3). cbv zeta in C1, C2, C3. rewrite in_shift, sample_shift, getImage_map. set (q := shifted p (- dx) (- dy)) in *.
      destruct (pt_in q rc) eqn:Qi.
      + destruct (Htmp q Qi) as (v & Iv & Pv). destruct (Sr q Qi) as (o & O1 & O2). rewrite O1. unfold pixelAt, get in Pv. rewrite O1 in Pv.
        destruct o as [w|].
        * injection Pv as <-. assert (A : pa w = 255).
          { destruct (So q w Qi O2) as [A|A]; [|exact A]. exfalso. unfold getImage in O1. destruct a as [al|].
            - destruct (idx al _) as [av|]; [|discriminate]. destruct (Z.ltb_spec 0 av); [|discriminate]. destruct (idx b _); [|discriminate]. destruct (idx g _); [|discriminate].
              destruct (idx r _); [|discriminate]. injection O1 as <-. cbn [pa] in A. lia.
            - destruct (idx b _); [|discriminate]. destruct (idx g _); [|discriminate]. destruct (idx r _); [|discriminate]. injection O1 as <-. discriminate A. }
          assert (W : pa (widen (T8 t) w) = 65535) by (unfold widen; cbn [pa]; now rewrite A).
          rewrite (At p _ Pi (C1 _ eq_refl Iv W)). unfold out16. rewrite W. change (Z.shiftr 65535 8) with 255. cbn [Z.ltb Z.compare]. unfold gradePx, widen. cbn [pr pg pb]. rewrite !Ef, A, !whole_id by apply Hg. reflexivity.
        * injection Pv as <-. rewrite (At p _ Pi (C2 _ eq_refl Iv eq_refl)). reflexivity.
      + rewrite (At p _ Pi (C3 eq_refl)). reflexivity.
    - now rewrite (not_grown _ _ _ _ Pi).
  Qed.
End one.
