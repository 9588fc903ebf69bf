(** Proofs about thumbnails. *)
From Coq Require Import Permutation.
From Verif Require Import Base BaseFacts MRect MSched PSched MThumb SThumb PThumb MDraw MBlend SBlend MRender MTile STile PTile MLoad SLoad PLoad MTileRender STileRender PTileRender MThumbs SThumbs.
From Verif Require PScale.
Open Scope Z_scope.

Local Notation z4 := (Px 0 0 0 0).

(** * The tiles that are built show something *)
Lemma getImage_visible r g b a i v : getImage r g b a i = Some (Some v) -> 0 < pa v.
Proof.
  unfold getImage. destruct a as [a|].
  - destruct (idx a i) as [av|]; [|discriminate]. destruct (Z.ltb_spec 0 av) as [H|H]; [|discriminate].
    destruct (idx b i); [|discriminate]. destruct (idx g i); [|discriminate]. destruct (idx r i); [|discriminate]. intros E. injection E as <-. exact H.
  - destruct (idx b i); [|discriminate]. destruct (idx g i); [|discriminate]. destruct (idx r i); [|discriminate]. intros E. injection E as <-. cbn. lia.
Qed.
Lemma idx_In {A} (l : list A) i v : idx l i = Some v -> In v l.
Proof. unfold idx. destruct (i <? 0); [discriminate|]. apply nth_error_In. Qed.
Lemma built_no_blank cpus ts rc r g b a dX m : (1 <= cpus)%nat -> 0 < ts -> built (newTiledImage cpus ts rc r g b a dX) m -> no_blank m.
Proof.
  intros Hc Ht B k c E. apply (built_spec _ _ _ _ _ _ _ Hc Ht B) in E. destruct E as [_ E].
  destruct (fillTile_spec _ _ _ _ _ _ _ _ Ht E) as (_ & S & _ & U). destruct (proj1 U eq_refl) as (p & v & P1 & P2 & P3).
  destruct (S p P1 P2) as (o & G & T). rewrite P3 in G. injection G as <-. exists v. split; [exact (idx_In _ _ _ T)|].
  exact (getImage_visible _ _ _ _ _ _ P3).
Qed.

(** * The rectangle of the tiles is determined *)
Lemma rect_unique r r' : rempty r = false -> (forall p, pt_in p r = true <-> pt_in p r' = true) -> r = r'.
Proof.
  unfold rempty. intros E H. destruct r as [a b c d], r' as [a' b' c' d']. cbn [rx0 rx1 ry0 ry1] in *.
  assert (forall x y, (a <= x < c /\ b <= y < d) <-> (a' <= x < c' /\ b' <= y < d')) as K.
  { intros x y. specialize (H (Pt x y)). unfold pt_in in H. cbn [MRect.px py rx0 rx1 ry0 ry1] in H. lia. }
  pose proof (proj1 (K a b) ltac:(lia)). pose proof (proj1 (K (c - 1) (d - 1)) ltac:(lia)).
  pose proof (proj2 (K a' b') ltac:(lia)). pose proof (proj2 (K (c' - 1) (d' - 1)) ltac:(lia)). f_equal; lia.
Qed.
Lemma tilesRect_fun {V} ts (m : tilemap V) r r' k c : 0 < ts -> m_get pt_eqb m k = Some c -> tilesRect ts m r -> tilesRect ts m r' -> r = r'.
Proof.
  intros Ht Hm T T'. pose proof (tilesRect_bounds _ _ _ T) as B. pose proof (tilesRect_bounds _ _ _ T') as B'.
  apply rect_unique; [exact (bounds_nonempty _ _ _ _ _ Ht B Hm)|]. intros p. destruct B as [B1 B2], B' as [B1' B2']. split; [apply B2|apply B2']; assumption.
Qed.
Lemma tilesRect_ex {V} ts (m : tilemap V) : exists r, tilesRect ts m r.
Proof. eexists. exists (map fst m). split; [apply Permutation_refl|reflexivity]. Qed.
Lemma tilesRect_nil {V} ts r : tilesRect ts ([] : tilemap V) r -> r = ZR.
Proof. intros (ks & P & ->). cbn in P. apply Permutation_sym, Permutation_nil in P. now subst. Qed.
Lemma m_get_some {V} (m : tilemap V) : m <> [] -> exists k c, m_get pt_eqb m k = Some c.
Proof.
  destruct m as [|[k c] m]; [congruence|]. intros _. exists k, c. cbn [m_get]. destruct (pt_eqb_spec k k); congruence.
Qed.

(** * The buffer *)
Lemma zlen_pixelsFrom n : forall b, zlen b = 4 * Z.of_nat n -> zlen (pixelsFrom b) = Z.of_nat n.
Proof.
  induction n as [|n IH]; intros b L.
  - destruct b; [reflexivity|]. rewrite zlen_cons in L. pose proof (zlen_nonneg b). lia.
  - destruct b as [|x [|y [|z [|w b]]]]; rewrite ?zlen_cons in L; try (cbn in L; lia).
    cbn [pixelsFrom]. rewrite zlen_cons, IH by lia. lia.
Qed.
Lemma zlen_pixBytes im : zlen (pixBytes im) = 4 * zlen im.
Proof. induction im as [|p im IH]; [reflexivity|]. unfold pixBytes in *. cbn [flat_map]. rewrite zlen_app, IH, !zlen_cons. cbn. lia. Qed.

Section one.
  Variable downscale : rect -> img -> option (list px).
  Variables (ts size : Z) (m : tilemap px).
  Hypothesis Ht : 0 < ts.
  Hypothesis Gm : goodImage ts m.
  Hypothesis Nb : no_blank m.
  Hypothesis Hm : m <> [].

  Lemma copyPx_zero : copyPx z4 = Some z4.
  Proof. reflexivity. Qed.
  Definition copied (v w : px) : Prop := copyPx v = Some w /\ nearly v w.
  Lemma render_copied cpus r old im : (1 <= cpus)%nat -> tilesRect ts m r -> zlen old = rdx r * rdy r ->
    rendered z4 copyPx cpus ts r m old im ->
    zlen im = rdx r * rdy r /\ forall p, pt_in p r = true -> exists v w, shows ts z4 m p v /\ image_at r im p w /\ copied v w.
  Proof.
    intros Hc T L R. destruct Gm as [A C].
    destruct (rendered_spec z4 copyPx pixel_ok copied) with (5 := A) (6 := C) (9 := R) as [H1 H2]; auto.
    - intros v Hv. destruct (copyPx_spec v Hv) as (w & E & K & N). exists w. unfold copied. auto.
    - split; [exact copyPx_zero|exact (proj1 nearly_zero)].
    - rewrite H1. split; [exact L|]. intros p Hp. destruct (H2 p Hp) as (v & w & S & I & Q & _); [|eauto].
      right. apply (tilesRect_div ts m r A T).
  Qed.
  Lemma shows_one p v v' : shows ts z4 m p v -> shows ts z4 m p v' -> v = v'.
  Proof. apply shows_fun. apply aligned_well_tiled; [exact Ht|exact (proj1 Gm)]. Qed.
  (** Whatever was in the buffer, the image is the same. *)
  Lemma rendered_fun cpus cpus' r old old' im im' : (1 <= cpus)%nat -> (1 <= cpus')%nat -> tilesRect ts m r -> rempty r = false ->
    zlen old = rdx r * rdy r -> zlen old' = rdx r * rdy r ->
    rendered z4 copyPx cpus ts r m old im -> rendered z4 copyPx cpus' ts r m old' im' -> im = im'.
  Proof.
    intros Hc Hc' T Er L L' R R'. destruct (render_copied _ _ _ _ Hc T L R) as [Z1 I1]. destruct (render_copied _ _ _ _ Hc' T L' R') as [Z2 I2].
    destruct (rempty_pos r Er) as [Hw Hh].
    apply idx_ext_in; [congruence|]. intros i Hi. rewrite Z1 in Hi.
    destruct (PScale.cell_at r i Hw Hi) as (p & Hp & <-).
    destruct (I1 p Hp) as (v & w & S & I & [Q _]). destruct (I2 p Hp) as (v' & w' & S' & I' & [Q' _]).
    rewrite (shows_one p v' v S' S) in Q'. unfold image_at in I, I'. unfold cellIx, rdx. rewrite I, I'. congruence.
  Qed.

  Lemma visible_pix r im : rempty r = false -> zlen im = rdx r * rdy r ->
    (forall p, pt_in p r = true -> exists v w, shows ts z4 m p v /\ image_at r im p w /\ copied v w) ->
    forall x y, visible (rdx r) (rdy r) (rdx r * 4) (pixBytes im) 0 x y <-> pt_in (Pt (rx0 r + x) (ry0 r + y)) r = true /\ visible_at ts m (Pt (rx0 r + x) (ry0 r + y)).
  Proof.
    intros Er L I x y. unfold visible.
    assert (0 <= x < rdx r /\ 0 <= y < rdy r <-> pt_in (Pt (rx0 r + x) (ry0 r + y)) r = true) as K by (unfold pt_in, rdx, rdy; cbn [MRect.px py]; lia).
    rewrite <- K. enough (0 <= x < rdx r -> 0 <= y < rdy r -> ((exists a, idx (pixBytes im) (y * (rdx r * 4) + x * 4 + 3) = Some a /\ 0 < a) <-> visible_at ts m (Pt (rx0 r + x) (ry0 r + y)))) by tauto.
    intros Hx Hy. destruct (I _ (proj1 K (conj Hx Hy))) as (v & w & S & Iw & [_ N]). unfold image_at in Iw. cbn [MRect.px py] in Iw.
    replace (ry0 r + y - ry0 r) with y in Iw by lia. replace (rx0 r + x - rx0 r) with x in Iw by lia. change (rx1 r - rx0 r) with (rdx r) in Iw.
    destruct (pixBytes_idx im _ w Iw) as (_ & _ & _ & A). pose proof (idx_some_lt _ _ _ Iw) as Li. rewrite idx_skipn in A by lia. change (Z.of_nat 3) with 3 in A.
    replace (y * (rdx r * 4) + x * 4 + 3) with (3 + (y * rdx r + x) * 4) by lia. rewrite A. unfold visible_at.
    destruct N as (N & _). split.
    - intros (a & E & Ha). injection E as <-. exists v. split; [exact S|lia].
    - intros (v' & S' & Hv). rewrite (shows_one _ _ _ S' S) in Hv. exists (pa w). split; [reflexivity|lia].
  Qed.
  Lemma visible_in r p : tilesRect ts m r -> visible_at ts m p -> pt_in p r = true.
  Proof.
    intros T (v & [(k & c & E & P & _)|[-> _]] & Hv); [|cbn in Hv; lia]. exact (proj1 (tilesRect_bounds _ _ _ T) k c p E P).
  Qed.
  Lemma some_visible : exists p, visible_at ts m p.
  Proof.
    destruct (m_get_some m Hm) as (k & c & E). destruct (Nb k c E) as (v & Hv & Ha). apply In_nth_error in Hv. destruct Hv as [n Hn].
    destruct (proj1 Gm k c E) as (_ & _ & L). assert (Z.of_nat n < ts * ts) as Hl by (rewrite <- L; unfold zlen; assert (nth_error c n <> None) as X by congruence; apply nth_error_Some in X; lia).
    pose proof (Z.mod_pos_bound (Z.of_nat n) ts Ht). pose proof (Z.div_mod (Z.of_nat n) ts ltac:(lia)).
    assert (0 <= Z.of_nat n / ts < ts) by (split; [apply Z.div_pos; lia|apply Z.div_lt_upper_bound; lia]).
    exists (Pt (MRect.px k + Z.of_nat n mod ts) (py k + Z.of_nat n / ts)), v. split; [|exact Ha]. left. exists k, c. split; [exact E|].
    split; [unfold in_tile; cbn [MRect.px py]; lia|]. unfold tile_at. cbn [MRect.px py].
    replace ((py k + Z.of_nat n / ts - py k) * ts + (MRect.px k + Z.of_nat n mod ts - MRect.px k)) with (Z.of_nat n) by nia.
    unfold idx. replace (Z.of_nat n <? 0) with false by lia. rewrite Nat2Z.id. exact Hn.
  Qed.
  Lemma scaleTrimmed_spec i b : 0 <= size -> iw i = rdx b -> ih i = rdy b -> 0 <= rdx b -> 0 <= rdy b ->
    scaleTrimmed downscale size i = if rdx b * rdy b =? 0 then ThNoCanvas else scaled downscale size b i.
  Proof.
    intros Hs Ew Eh Hw Hh. unfold scaleTrimmed, thumbDims, scaled, fitted. rewrite Ew, Eh. destruct (Z.eqb_spec (rdx b * rdy b) 0) as [E|E]; [reflexivity|].
    assert (0 < rdx b /\ 0 < rdy b) as [W H] by nia. set (w := rdx b) in *. set (h := rdy b) in *. clearbody w h.
    destruct (Z.ltb_spec h w).
    - rewrite Z.quot_div_nonneg by nia. assert (0 <= h * size / w) by (apply Z.div_pos; nia).
      assert (mkRect 0 0 size (h * size / w) = Rct 0 0 size (h * size / w)) as -> by (unfold mkRect; now rewrite !Z.min_l, !Z.max_r by lia). reflexivity.
    - rewrite Z.quot_div_nonneg by nia. assert (0 <= w * size / h) by (apply Z.div_pos; nia).
      assert (mkRect 0 0 (w * size / h) size = Rct 0 0 (w * size / h) size) as -> by (unfold mkRect; now rewrite !Z.min_l, !Z.max_r by lia). reflexivity.
  Qed.

  Definition buffer (r : rect) (buf : bytes) : list px :=
    if zlen buf <? rdx r * 4 * rdy r then zrepeat z4 (rdx r * rdy r) else pixelsFrom (firstn (Z.to_nat (rdx r * 4 * rdy r)) buf).
  Lemma zlen_buffer r buf : rempty r = false -> zlen (buffer r buf) = rdx r * rdy r.
  Proof.
    intros Er. destruct (rempty_pos r Er) as [Hw Hh]. assert (0 <= rdx r * rdy r) by nia. unfold buffer. destruct (Z.ltb_spec (zlen buf) (rdx r * 4 * rdy r)).
    - now apply zlen_zrepeat.
    - rewrite (zlen_pixelsFrom (Z.to_nat (rdx r * rdy r))); [lia|]. rewrite zlen_firstn by nia. nia.
  Qed.

  Lemma thumbnail_one mask : 0 <= size -> exists b i, tight ts m b /\ cut_out ts m b i /\ forall cpus buf, (1 <= cpus)%nat ->
    (exists o, thumbnail downscale cpus ts size (Some (LI (Some m) mask)) buf o) /\
    forall o, thumbnail downscale cpus ts size (Some (LI (Some m) mask)) buf o ->
      o = if rdx b * rdy b =? 0 then ThNoCanvas else scaled downscale size b i.
  Proof.
    intros Hs. destruct (tilesRect_ex ts m) as [r T]. destruct (m_get_some m Hm) as (k0 & c0 & E0).
    pose proof (bounds_nonempty _ _ _ _ _ Ht (tilesRect_bounds _ _ _ T) E0) as Er. destruct (rempty_pos r Er) as [Hw Hh].
    assert (forall cpus, exists ws, renderTiled z4 copyPx cpus ts r m = Some ws) as Tot by (intros; apply render_image_total; assumption).
    assert (forall cpus old, exists im, rendered z4 copyPx cpus ts r m old im) as Ren.
    { intros cpus old. destruct (Tot cpus) as [ws W]. exists (exec store (concat ws) old). unfold rendered. destruct m; [congruence|]. exists ws, (concat ws).
      split; [exact W|]. split; [apply interleave_concat|reflexivity]. }
    destruct (Ren 1%nat (zrepeat z4 (rdx r * rdy r))) as [im R0]. assert (zlen (zrepeat z4 (rdx r * rdy r)) = rdx r * rdy r) as Lz by (apply zlen_zrepeat; nia).
    destruct (render_copied 1 r _ im (le_n 1) T Lz R0) as [L I]. pose proof (visible_pix r im Er L I) as V.
    assert (forall p, visible_at ts m p -> visible (rdx r) (rdy r) (rdx r * 4) (pixBytes im) 0 (MRect.px p - rx0 r) (py p - ry0 r)) as V1.
    { intros p Hp. apply V. destruct p as [x y]. cbn [MRect.px py]. replace (rx0 r + (x - rx0 r)) with x by lia. replace (ry0 r + (y - ry0 r)) with y by lia.
      split; [exact (visible_in r _ T Hp)|exact Hp]. }
    destruct (trim_box (rdx r) (rdy r) (rdx r * 4) (pixBytes im) r 0) as (i & Ei & B & (yl & Bl) & (yr & Br) & (xt & Bt) & (xb & Bb) & (Iw & Ih & Is & Il) & K).
    { lia. } { lia. } { rewrite zlen_pixBytes, L. lia. } { destruct some_visible as [p Hp]. eauto. }
    set (q := irect i) in *. set (b := Rct (rx0 r + rx0 q) (ry0 r + ry0 q) (rx0 r + rx1 q) (ry0 r + ry1 q)).
    assert (rdx b = rdx q /\ rdy b = rdy q) as [Wb Hb] by (unfold b, rdx, rdy; cbn [rx0 rx1 ry0 ry1]; lia).
    assert (rx0 q <= rx1 q /\ ry0 q <= ry1 q) as [Qx Qy] by (pose proof (B _ _ Br); pose proof (B _ _ Bb); lia).
    exists b, i. split; [|split].
    - split; [|split; [|split; [|split]]].
      + intros p Hp. pose proof (B _ _ (V1 p Hp)). unfold b. cbn [rx0 rx1 ry0 ry1]. lia.
      + exists (ry0 r + yl). exact (proj2 (proj1 (V _ _) Bl)).
      + exists (ry0 r + yr). exact (proj2 (proj1 (V _ _) Br)).
      + exists (rx0 r + xt). exact (proj2 (proj1 (V _ _) Bt)).
      + exists (rx0 r + xb). exact (proj2 (proj1 (V _ _) Bb)).
    - unfold cut_out. rewrite Wb, Hb. split; [exact Iw|]. split; [exact Ih|]. split; [exact Is|]. split; [rewrite Il, Is; lia|].
      intros p Hp. set (x := MRect.px p - rx0 r). set (y := py p - ry0 r).
      assert (pt_in (Pt x y) q = true) as Hq by (unfold pt_in, b, x, y in *; cbn [MRect.px py rx0 rx1 ry0 ry1] in *; lia).
      assert (pt_in p r = true) as Hr.
      { destruct Bl as (Bl & _), Br as (Br & _), Bt as (_ & Bt & _), Bb as (_ & Bb & _). unfold pt_in, b, rdx, rdy in *. cbn [MRect.px py rx0 rx1 ry0 ry1] in *. lia. }
      destruct (I p Hr) as (v & w & S & Iv & [_ N]). exists v, w. split; [exact S|]. split; [exact N|]. cbv zeta.
      destruct (K x y Hq) as [_ Kp]. fold q in Kp.
      replace ((py p - ry0 b) * istride i + (MRect.px p - rx0 b) * 4) with ((y - ry0 q) * istride i + (x - rx0 q) * 4 + 0) by (unfold b, x, y; cbn [rx0 ry0]; lia).
      unfold image_at in Iv. fold x y in Iv. change (rx1 r - rx0 r) with (rdx r) in Iv.
      destruct (pixBytes_idx im _ w Iv) as (P0 & P1 & P2 & P3). pose proof (idx_some_lt _ _ _ Iv). rewrite idx_skipn in P1, P2, P3 by lia.
      rewrite <- !Z.add_assoc. rewrite (Z.add_assoc _ _ (0 + 1)), (Z.add_assoc _ _ (0 + 2)), (Z.add_assoc _ _ (0 + 3)), (Z.add_assoc _ _ 0).
      rewrite !Kp by lia. rewrite <- P0, <- P1, <- P2, <- P3. repeat split; f_equal; lia.
    - intros cpus buf Hc. cbn [thumbnail liCanvas]. split.
      + destruct (Ren cpus (buffer r buf)) as [im' R']. eexists. exists r. split; [exact T|]. rewrite Er. cbv zeta. right. exists im'. split; [exact R'|reflexivity].
      + intros o (r' & T' & H). assert (r' = r) as -> by (exact (tilesRect_fun ts m r' r k0 c0 Ht E0 T' T)). rewrite Er in H. cbv zeta in H.
        destruct H as [(_ & N & _)|(im' & R' & ->)]; [destruct (Tot cpus); congruence|].
        assert (im' = im) as -> by (exact (rendered_fun cpus 1 r (buffer r buf) _ im' im Hc (le_n 1) T Er (zlen_buffer r buf Er) Lz R' R0)).
        rewrite Ei. apply scaleTrimmed_spec; auto; unfold rdx, rdy, b; cbn [rx0 rx1 ry0 ry1]; unfold rdx, rdy in *; lia.
  Qed.
End one.
