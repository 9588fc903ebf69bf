(** Moving tiled images and masks by whole pixels: the tiles of the result. *)
From Coq Require Import QArith Permutation.
From Verif Require Import Base BaseFacts MRect MThumb SThumb MSched PSched MBlend SBlend MRender MTile STile PTile MLoad SLoad PLoad
  MTileRender STileRender PTileRender SCompress SRecord MScale SScale PScale MMove SGlass PPipe3 PGlass2 SMove.
Open Scope Z_scope.

Notation z4 := (Px 0 0 0 0).

(** * Showing and cells *)
Lemma shows_tile {V} (z : V) ts m q p v : 0 < ts -> aligned ts m -> (ts | MRect.px q) -> (ts | py q) -> in_tile ts q p -> shows ts z m p v ->
  match m_get pt_eqb m q with Some t => nth_error t (pos ts q p) = Some v | None => v = z end.
Proof.
  intros Ht Al D1 D2 Hq [(k & t & Gk & Hk & Ev)|[-> N]].
  - destruct (Al k t Gk) as (K1 & K2 & _). assert (k = q) as -> by (eapply aligned_unique; eauto). rewrite Gk. now rewrite (tile_at_nth ts Ht) in Ev by exact Hq.
  - destruct (m_get pt_eqb m q) as [t|] eqn:Gq; [exfalso; exact (N _ _ Gq Hq)|reflexivity].
Qed.
Lemma tile_shows {V} (z : V) ts m q p : 0 < ts -> aligned ts m -> (ts | MRect.px q) -> (ts | py q) -> in_tile ts q p ->
  shows ts z m p (match m_get pt_eqb m q with Some t => match nth_error t (pos ts q p) with Some v => v | None => z end | None => z end).
Proof.
  intros Ht Al D1 D2 Hq. destruct (m_get pt_eqb m q) as [t|] eqn:Gq.
  - left. exists q, t. split; [exact Gq|]. split; [exact Hq|]. rewrite (tile_at_nth ts Ht _ _ _ Hq). destruct (Al q t Gq) as (_ & _ & L).
    pose proof (tile_pos ts q p Ht Hq) as B. destruct (nth_error t (pos ts q p)) eqn:E; [reflexivity|]. apply nth_error_None in E. unfold pos, zlen in *. lia.
  - right. split; [reflexivity|]. intros k t Gk Hk. destruct (Al k t Gk) as (K1 & K2 & _). assert (k = q) as -> by (eapply aligned_unique; eauto). congruence.
Qed.
Lemma tile_of ts p : 0 < ts -> 0 <= MRect.px p -> 0 <= py p -> exists q, at_tile ts q p.
Proof.
  intros Ht Hx Hy. exists (Pt (MRect.px p / ts * ts) (py p / ts * ts)). pose proof (Z.div_mod (MRect.px p) ts). pose proof (Z.mod_pos_bound (MRect.px p) ts Ht).
  pose proof (Z.div_mod (py p) ts). pose proof (Z.mod_pos_bound (py p) ts Ht). unfold at_tile, in_tile. cbn [MRect.px py].
  split; [now exists (MRect.px p / ts)|]. split; [now exists (py p / ts)|]. split; [split; lia|auto].
Qed.

(** * The rectangle of the tiles of a layer *)
Lemma tiles_moderate {V} (z : V) get cpus ts rc dX m r dx dy : (1 <= cpus)%nat -> 0 < ts <= 2 ^ 50 -> 0 < dX -> rect_valid rc ->
  - 2 ^ 51 <= dx <= 2 ^ 51 -> - 2 ^ 51 <= dy <= 2 ^ 51 ->
  built (newTiled z get cpus ts rc dX) m -> tilesRect ts m r -> rempty r = false -> moderate r dx dy.
Proof.
  intros Hc Ht HdX Hv Hdx Hdy B T E. destruct (tilesRect_bounds ts m r T) as [_ Mn]. unfold rect_valid, int32 in Hv.
  set (r' := Rct (rx0 rc - ts) (ry0 rc - ts) (rx1 rc + ts) (ry1 rc + ts)).
  assert (In' : forall p, pt_in p r = true -> pt_in p r' = true).
  { apply Mn. intros k c p Hk Hp. apply (built_spec _ _ _ _ _ _ _ Hc (proj1 Ht) B) in Hk. destruct Hk as [_ F]. apply fillTile_spec in F; [|lia]. destruct F as (_ & _ & _ & F3).
    destruct (proj1 F3 eq_refl) as (p' & v & T' & Ip & _). unfold in_tile in *. unfold pt_in in *. unfold r'. cbn [rx0 ry0 rx1 ry1]. lia. }
  assert (P1 : pt_in (Pt (rx0 r) (ry0 r)) r = true) by (unfold rempty in E; unfold pt_in; cbn [MRect.px py]; lia).
  assert (P2 : pt_in (Pt (rx1 r - 1) (ry1 r - 1)) r = true) by (unfold rempty in E; unfold pt_in; cbn [MRect.px py]; lia).
  apply In' in P1, P2. unfold pt_in, r' in P1, P2. cbn [MRect.px py rx0 ry0 rx1 ry1] in P1, P2. unfold rempty in E. unfold moderate.
  change (2 ^ 51) with 2251799813685248 in *. change (2 ^ 50) with 1125899906842624 in *. lia.
Qed.

(** * Bytes *)
Lemma image_all {V} (P : V -> Prop) rc (img : list V) : 0 < rdx rc -> zlen img = rdx rc * rdy rc -> (forall p, pt_in p rc = true -> exists w, image_at rc img p w /\ P w) -> Forall P img.
Proof.
  intros Hw L H. apply Forall_forall. intros v Hv. apply In_nth_error in Hv. destruct Hv as [i Ei].
  assert (i < length img)%nat by (apply nth_error_Some; congruence). destruct (cell_at rc (Z.of_nat i) Hw) as (q & Hq & Eq); [unfold zlen in L; lia|].
  destruct (H q Hq) as (w & Iw & Pw). unfold image_at in Iw. change ((py q - ry0 rc) * (rx1 rc - rx0 rc) + (MRect.px q - rx0 rc)) with (cellIx rc q) in Iw.
  rewrite Eq in Iw. unfold idx in Iw. replace (Z.of_nat i <? 0) with false in Iw by lia. rewrite Nat2Z.id in Iw. congruence.
Qed.
Lemma pixBytes_ok img : Forall pixel_ok img -> bytes_ok (pixBytes img).
Proof.
  induction 1 as [|v img H _ IH]; [constructor|]. unfold pixBytes. cbn [flat_map]. apply Forall_app. split; [|exact IH]. unfold pixel_ok in H. repeat constructor; lia.
Qed.
Lemma Forall_skip {A} (P : A -> Prop) n l : Forall P l -> Forall P (skipn n l).
Proof. intros H. rewrite <- (firstn_skipn n l) in H. now apply Forall_app in H. Qed.
Lemma pixelsOf_all (P : px -> Prop) get rc dX tmp : P z4 -> (forall i v, get i = Some (Some v) -> P v) -> pixelsOf get rc dX = Some tmp -> Forall P tmp.
Proof.
  intros Pz Pg E. unfold pixelsOf in E. apply Forall_forall. intros v Hv. pose proof (allSome_in (fun i => pixelAt get (i * dX)) _ _ E v) as X. apply X in Hv. destruct Hv as (i & _ & Ei).
  unfold pixelAt in Ei. destruct (get (i * dX)) as [[w|]|] eqn:G; [|injection Ei as <-; exact Pz|discriminate]. injection Ei as <-. eapply Pg. exact G.
Qed.
Lemma built_px cpus ts rc img m : (1 <= cpus)%nat -> 0 < ts -> Forall pixel_ok img -> let pix := pixBytes img in
  built (newTiledImage cpus ts rc pix (skipn 1 pix) (skipn 2 pix) (Some (skipn 3 pix)) 4) m -> goodImage ts m.
Proof. intros Hc Ht H pix. apply pixBytes_ok in H. apply built_goodImage; auto; now apply Forall_skip. Qed.

Section moving.
  Variables (rnd : Q -> Q) (lib : library) (cpus : nat) (ts : Z).
  Hypothesis Hr : SThumb.rounding rnd.
  Hypothesis Hl : good_library lib.
  Hypothesis Hy : typed lib.
  Hypothesis Hc : (1 <= cpus)%nat.
  Hypothesis Ht : 0 < ts.
  Variables (dx dy : Z).

  Lemma rendered_ok t r img : goodImage ts t -> tilesRect ts t r -> rempty r = false ->
    rendered z4 MTileRender.copyPx cpus ts r t (zrepeat z4 (rdx r * rdy r)) img -> Forall pixel_ok img.
  Proof.
    intros Gt Tr Er Ri. destruct (rempty_pos r Er) as [Rw Rh].
    assert (zlen (zrepeat z4 (rdx r * rdy r)) = rdx r * rdy r) as Lz by (apply zlen_zrepeat; nia).
    assert (forall p, pt_in p r = true -> covered ts r p) as Cv by (intros; right; apply (tilesRect_div ts t r (proj1 Gt) Tr)).
    destruct (rendered_spec z4 MTileRender.copyPx pixel_ok nearlyOK) with (ts := ts) (cpus := cpus) (rc := r) (m := t) (old := zrepeat z4 (rdx r * rdy r)) (img := img) as [R1 R2]; auto.
    - intros v Hv. destruct (copyPx_spec v Hv) as (w & E & K & N). exists w. split; [exact E|]. split; assumption.
    - exact nearly_zero.
    - exact (proj1 Gt).
    - exact (proj2 Gt).
    - exact (tilesRect_ne ts t r Tr Er).
    - apply (image_all pixel_ok r); [exact Rw|congruence|]. intros p Hp. destruct (R2 p Hp (Cv p Hp)) as (v & w & _ & I & [_ K] & _). eauto.
  Qed.
  Lemma moved_good t t' : goodImage ts t -> (forall r, tilesRect ts t r -> rempty r = false -> moderate r dx dy) ->
    transformImageBy rnd lib cpus ts (translation dx dy) None t t' -> goodImage ts t'.
  Proof.
    intros Gt Hm (r & Tr & H). destruct (rempty r) eqn:Er; [subst t'; split; intros k c; discriminate|]. destruct H as (img & Ri & B). pose proof (rendered_ok t r img Gt Tr Er Ri) as Ok.
    unfold newScaledTiledImage in B. cbv zeta in B. destruct (isIdentity _); [eapply built_px; eauto|]. unfold createImage in B. change (4 =? 4) with true in B. cbv iota in B.
    destruct (pixelsOf (inPlace (pixBytes img)) r 4) as [tmp|] eqn:Ep; [|destruct B as (ws & s & X & _); discriminate]. eapply built_px; [exact Hc|exact Ht| |exact B].
    apply Hy. eapply pixelsOf_all; [| |exact Ep]; [unfold pixel_ok; cbn; lia|]. intros i v E. pose proof (pixBytes_ok img Ok) as Bk.
    assert (forall j x, idx (pixBytes img) j = Some x -> 0 <= x <= 255) as K. { intros j x Ex. pose proof (Forall_idx _ _ _ _ Bk Ex) as X. unfold is_byte in X. lia. }
    unfold inPlace in E. destruct (idx (pixBytes img) i) eqn:E0; [|discriminate]. destruct (idx (pixBytes img) (i + 1)) eqn:E1; [|discriminate].
    destruct (idx (pixBytes img) (i + 2)) eqn:E2; [|discriminate]. destruct (idx (pixBytes img) (i + 3)) eqn:E3; [|discriminate]. injection E as <-.
    unfold pixel_ok. cbn [pr pg pb pa]. pose proof (K _ _ E0). pose proof (K _ _ E1). pose proof (K _ _ E2). pose proof (K _ _ E3). auto.
  Qed.

  (** Masks *)
  Lemma moved_mask t : goodMask ts t -> (forall r, tilesRect ts t r -> rempty r = false -> moderate r dx dy) ->
    (exists t', transformMaskBy rnd lib cpus ts (translation dx dy) t t') /\
    forall t', transformMaskBy rnd lib cpus ts (translation dx dy) t t' -> goodMask ts t' /\
      forall p v, shows ts 0 t p v -> 0 <= MRect.px p + dx -> 0 <= py p + dy -> shows ts 0 t' (shifted p dx dy) v.
  Proof.
    intros Gt Hm.
    assert (Ren : forall r, tilesRect ts t r -> rempty r = false -> forall img, rendered 0 copyMask cpus ts r t (zrepeat 0 (rdx r * rdy r)) img ->
      zlen img = rdx r * rdy r /\ Forall byteZ img /\ forall p, pt_in p r = true -> exists v, shows ts 0 t p v /\ image_at r img p v).
    { intros r Tr Er img Ri. destruct (rempty_pos r Er) as [Rw Rh].
      assert (zlen (zrepeat 0 (rdx r * rdy r)) = rdx r * rdy r) as Lz by (apply zlen_zrepeat; nia).
      assert (forall p, pt_in p r = true -> covered ts r p) as Cv by (intros; right; apply (tilesRect_div ts t r (proj1 Gt) Tr)).
      destruct (render_mask cpus ts Hc Ht r t (zrepeat 0 (rdx r * rdy r)) img Gt (tilesRect_ne ts t r Tr Er) Lz Ri) as [R1 R2].
      assert (R3 : forall p, pt_in p r = true -> exists v, shows ts 0 t p v /\ image_at r img p v) by auto.
      split; [congruence|]. split; [|exact R3]. apply (image_all byteZ r); [exact Rw|congruence|]. intros p Hp. destruct (R3 p Hp) as (v & S & I). exists v. split; [exact I|].
      destruct S as [(k & c & K & Hk & E)|[-> _]]; [|unfold byteZ; lia]. apply (proj2 Gt k c v K). unfold tile_at, idx in E. destruct (_ <? 0) in E; [discriminate|]. eapply nth_error_In. exact E. }
    split.
    - destruct (tilesRect_ex ts t) as [r Tr]. destruct (rempty r) eqn:Er; [exists [], r; now rewrite Er|].
      destruct (rendered_ex cpus ts 0 copyMask r t (zrepeat 0 (rdx r * rdy r)) (render_mask_total cpus ts Ht r t Gt)) as [img Ri]. destruct (Ren r Tr Er img Ri) as (L & Ok & I).
      destruct (shift_mask rnd lib cpus ts Hr Hl Hc Ht r dx dy img 0 (Hm r Tr Er)) as (ws & E & _); [unfold plane_ok; lia|].
      destruct (PTileRender.built_ex (Some ws) (ex_intro _ ws eq_refl)) as [t' B]. exists t', r. split; [exact Tr|]. rewrite Er. exists img. split; [exact Ri|]. now rewrite E.
    - intros t' (r & Tr & H). destruct (rempty r) eqn:Er.
      + subst t'. split; [split; intros k c; discriminate|]. intros p v S _ _. right. split; [|discriminate].
        destruct S as [(k & c & K & _)|[-> _]]; [|reflexivity]. destruct (tilesRect_empty ts Ht t r k c Tr Er K).
      + destruct H as (img & Ri & B). destruct (Ren r Tr Er img Ri) as (L & Ok & I).
        destruct (shift_mask rnd lib cpus ts Hr Hl Hc Ht r dx dy img 0 (Hm r Tr Er)) as (ws & E & W); [unfold plane_ok; lia|].
        assert (Bk : forall l, Forall byteZ l -> bytes_ok l). { intros l Fl. eapply Forall_impl; [|exact Fl]. intros x Hx. unfold byteZ in Hx. unfold is_byte. lia. }
        split.
        * unfold newScaledTiledMask in B. destruct (isIdentity _); [eapply built_goodMask; [exact Hc|exact Ht| |exact B]; now apply Bk|].
          destruct (_ <? _) in B; [destruct B as (? & ? & X & _); discriminate|]. cbv zeta in B. eapply built_goodMask; [exact Hc|exact Ht| |exact B]. apply Bk. now apply Hy.
        * rewrite E in B. destruct (W t' B) as (_ & W2 & W3). intros p v S X Y. destruct (pt_in p r) eqn:Hp.
          -- destruct (I p Hp) as (v' & S' & I'). rewrite (shows_fun 0 ts t p v v' (aligned_well_tiled ts Ht t (proj1 Gt)) S S').
             destruct (W2 p Hp X Y) as (v2 & S2 & I2). change (mask_value 0 v2) with v2 in I2. unfold image_at in I'.
             assert (sample_pos r 1 p = (py p - ry0 r) * (rx1 r - rx0 r) + (MRect.px p - rx0 r)) as Es by (unfold sample_pos, rdx; lia). rewrite Es, I' in I2. injection I2 as <-. exact S2.
          -- specialize (W3 p Hp X Y). cbn [Z.eqb orb] in W3. replace v with 0; [exact W3|].
             destruct S as [(k & c & K & Hk & _)|[-> _]]; [|reflexivity]. destruct (PLoad.tilesRect_bounds ts t r Tr) as [Bd _]. rewrite (Bd k c p K Hk) in Hp. discriminate.
  Qed.
End moving.
