(** Proofs about layers that are moved by whole pixels. *)
From Coq Require Import QArith Qround Lqa SpecFloat.
From Verif Require Import Base BaseFacts MRect MThumb SThumb PThumb2 MSched PSched MBlend SBlend MRender MTile STile PTile MLoad MTileRender STileRender PLoad PTileRender MScale SScale.
Open Scope Z_scope.

(** * The rectangle *)
Section rectangle.
  Variable rnd : Q -> Q.
  Hypothesis Hr : SThumb.rounding rnd.
  Lemma trans_at dx dy x y : - 2 ^ 51 <= dx <= 2 ^ 51 -> - 2 ^ 51 <= dy <= 2 ^ 51 -> - 2 ^ 51 <= x <= 2 ^ 51 -> - 2 ^ 51 <= y <= 2 ^ 51 ->
    (fst (applyAff rnd (translation dx dy) x y) == inject_Z (x + dx) /\ snd (applyAff rnd (translation dx dy) x y) == inject_Z (y + dy))%Q.
  Proof.
    intros Hdx Hdy Hx Hy. unfold applyAff, MThumb.fadd, MThumb.fmul, translation. cbn [fst snd a0 a1 a2 a3 a4 a5].
    assert (rnd (inject_Z x * 1) == inject_Z x)%Q as E1 by (apply (rnd_Z rnd Hr); [lia|lra]).
    assert (rnd (inject_Z y * 1) == inject_Z y)%Q as E2 by (apply (rnd_Z rnd Hr); [lia|lra]).
    assert (rnd (inject_Z x * 0) == inject_Z 0)%Q as E3 by (apply (rnd_Z rnd Hr); [lia|change (inject_Z 0) with 0%Q; lra]).
    assert (rnd (inject_Z y * 0) == inject_Z 0)%Q as E4 by (apply (rnd_Z rnd Hr); [lia|change (inject_Z 0) with 0%Q; lra]).
    change (inject_Z 0) with 0%Q in *. split; apply (rnd_Z rnd Hr); try lia; rewrite inject_Z_plus.
    - assert (rnd (rnd (inject_Z x * 1) + rnd (inject_Z y * 0)) == inject_Z x)%Q as -> by (apply (rnd_Z rnd Hr); [lia|lra]). reflexivity.
    - assert (rnd (rnd (inject_Z x * 0) + rnd (inject_Z y * 1)) == inject_Z y)%Q as -> by (apply (rnd_Z rnd Hr); [lia|lra]). reflexivity.
  Qed.
  Definition grown (r : rect) (dx dy : Z) : rect := Rct (rx0 r + dx) (ry0 r + dy) (rx1 r + dx + 1) (ry1 r + dy + 1).
  Lemma transformRect_shift r dx dy : moderate r dx dy -> transformRect rnd r (translation dx dy) = grown r dx dy.
  Proof.
    intros (Hx0 & Hx & Hx1 & Hy0 & Hy & Hy1 & Hdx & Hdy). unfold transformRect. set (T := translation dx dy).
    destruct (applyAff rnd T (rx0 r) (ry0 r)) as [u v] eqn:E.
    destruct (trans_at dx dy (rx0 r) (ry0 r)) as [A1 A2]; try lia. fold T in A1, A2. rewrite E in A1, A2. cbn [fst snd] in A1, A2.
    destruct (trans_at dx dy (rx1 r) (ry0 r)) as [B1 B2]; try lia. destruct (trans_at dx dy (rx1 r) (ry1 r)) as [C1 C2]; try lia.
    destruct (trans_at dx dy (rx0 r) (ry1 r)) as [D1 D2]; try lia. fold T in B1, B2, C1, C2, D1, D2.
    assert (boxIs (u, v, MThumb.fadd rnd u 1, MThumb.fadd rnd v 1) (rx0 r + dx) (ry0 r + dy) (rx0 r + dx + 1) (ry0 r + dy + 1)) as I0.
    { unfold boxIs. split; [exact A1|]. split; [exact A2|]. split; apply (rnd_Z rnd Hr); try lia; rewrite (inject_Z_plus (_ + _)); [rewrite A1|rewrite A2]; reflexivity. }
    pose proof (spread_is rnd Hr _ _ _ _ _ _ _ _ I0 B1 B2 ltac:(lia) ltac:(lia)) as I1.
    pose proof (spread_is rnd Hr _ _ _ _ _ _ _ _ I1 C1 C2 ltac:(lia) ltac:(lia)) as I2.
    pose proof (spread_is rnd Hr _ _ _ _ _ _ _ _ I2 D1 D2 ltac:(lia) ltac:(lia)) as I3.
    cbv zeta. set (b3 := spread rnd (spread rnd (spread rnd (u, v, MThumb.fadd rnd u 1, MThumb.fadd rnd v 1) (applyAff rnd T (rx1 r) (ry0 r))) (applyAff rnd T (rx1 r) (ry1 r))) (applyAff rnd T (rx0 r) (ry1 r))) in *.
    clearbody b3. destruct b3 as [[[xMin yMin] xMax] yMax]. destruct I3 as (J1 & J2 & J3 & J4).
    rewrite (Qfloor_comp _ _ J1), (Qfloor_comp _ _ J2), (Qceiling_comp _ _ J3), (Qceiling_comp _ _ J4), !Qfloor_Z, !Qceiling_Z. unfold grown. f_equal; lia.
  Qed.
End rectangle.

Lemma isIdentity_shift dx dy : isIdentity (translation dx dy) = (dx =? 0) && (dy =? 0).
Proof.
  unfold isIdentity, translation. cbn [a0 a1 a2 a3 a4 a5]. change (Qeq_bool 1 1) with true. change (Qeq_bool 0 0) with true. cbn [andb].
  assert (forall z, Qeq_bool (inject_Z z) 0 = (z =? 0)) as H.
  { intros z. unfold Qeq_bool, inject_Z. cbn [Qnum Qden]. rewrite Z.mul_1_r, Z.mul_0_l. unfold Zeq_bool. destruct (Z.compare_spec z 0), (Z.eqb_spec z 0); auto; lia. }
  rewrite !H. now destruct (dx =? 0), (dy =? 0).
Qed.

(** * The source image *)
Lemma idx_zs n i : 0 <= i < Z.of_nat n -> idx (zseq n) i = Some i.
Proof.
  intros H. unfold idx, zseq. replace (i <? 0) with false by lia. rewrite nth_error_map, (nth_error_nth' _ O) by (rewrite seq_length; lia).
  cbn [option_map]. rewrite seq_nth by lia. f_equal. lia.
Qed.
Lemma cell_at rc i : 0 < rdx rc -> 0 <= i < rdx rc * rdy rc -> exists q, pt_in q rc = true /\ cellIx rc q = i.
Proof.
  intros Hw Hi. set (w := rdx rc) in *. set (h := rdy rc) in *.
  exists (Pt (rx0 rc + i mod w) (ry0 rc + i / w)). pose proof (Z.mod_pos_bound i w Hw) as M. pose proof (Z.div_mod i w ltac:(lia)) as D.
  assert (0 <= i / w) by (apply Z.div_pos; lia). assert (i / w < h) by (apply Z.div_lt_upper_bound; lia).
  unfold cellIx, pt_in. cbn [MRect.px py]. fold w. unfold w, rdx, h, rdy in *. split; lia.
Qed.
Lemma pixelsOf_spec get rc dX : 0 < rdx rc -> 0 <= rdy rc -> (forall q, pt_in q rc = true -> get (sample_pos rc dX q) <> None) ->
  exists tmp, pixelsOf get rc dX = Some tmp /\
    forall q, pt_in q rc = true -> exists v, image_at rc tmp q v /\ pixelAt get (sample_pos rc dX q) = Some v.
Proof.
  intros Hw Hh Hg. unfold pixelsOf. set (n := Z.to_nat (rdx rc * rdy rc)). assert (0 <= rdx rc * rdy rc) by nia.
  destruct (allSome_map_total (fun i => pixelAt get (i * dX)) (zseq n)) as [tmp E].
  { intros i Hi. apply PDraw.in_zseq in Hi. destruct (cell_at rc i Hw ltac:(lia)) as (q & Hq & Eq). specialize (Hg q Hq).
    change (sample_pos rc dX q) with (cellIx rc q * dX) in Hg. rewrite Eq in Hg. unfold pixelAt. destruct (get (i * dX)) as [[?|]|]; congruence. }
  exists tmp. split; [exact E|]. intros q Hq. pose proof (cellIx_range rc q Hq) as R. apply allSome_some in E.
  assert (idx (map Some tmp) (cellIx rc q) = idx (map (fun i => pixelAt get (i * dX)) (zseq n)) (cellIx rc q)) as I by now rewrite E.
  assert (forall A B (f : A -> B) l i, idx (map f l) i = option_map f (idx l i)) as IM.
  { intros. unfold idx. destruct (i <? 0); [reflexivity|]. apply nth_error_map. }
  rewrite !IM in I. rewrite (idx_zs n) in I by lia. cbn [option_map] in I.
  change (sample_pos rc dX q) with (cellIx rc q * dX). unfold image_at. change (idx tmp ((py q - ry0 rc) * (rx1 rc - rx0 rc) + (MRect.px q - rx0 rc))) with (idx tmp (cellIx rc q)).
  destruct (idx tmp (cellIx rc q)) as [v|]; [|discriminate]. cbn [option_map] in I. injection I as I. eauto.
Qed.

(** * The tiles of an image that is given by its bytes *)
Lemma flat_idx (k : Z) (f : px -> bytes) img : (forall w, zlen (f w) = k) -> forall i w j, idx img i = Some w -> 0 <= j < k -> idx (flat_map f img) (j + i * k) = idx (f w) j.
Proof.
  intros Hf. induction img as [|q img IH]; intros i w j E Hj.
  - unfold idx in E. destruct (i <? 0); [discriminate|]. destruct (Z.to_nat i); discriminate.
  - pose proof (idx_some_lt _ _ _ E) as R. cbn [flat_map]. destruct (Z.eq_dec i 0) as [->|n].
    + rewrite idx_cons_0 in E. injection E as ->. rewrite idx_app_l by (rewrite Hf; lia). f_equal. lia.
    + rewrite idx_cons_S in E by lia. rewrite idx_app_r by (rewrite Hf; nia). rewrite Hf. replace (j + i * k - k) with (j + (i - 1) * k) by lia. now apply IH.
Qed.
Lemma flat_len (k : Z) (f : px -> bytes) img : (forall w, zlen (f w) = k) -> zlen (flat_map f img) = zlen img * k.
Proof. intros Hf. induction img as [|q img IH]; [reflexivity|]. cbn [flat_map]. rewrite zlen_app, Hf, IH, zlen_cons. lia. Qed.

Section fromBytes.
  Variables (k : Z) (f : px -> bytes) (o1 o2 o3 : nat) (out : px -> px).
  Hypothesis Hk : 0 < k.
  Hypothesis Hf : forall w, zlen (f w) = k.
  Hypothesis Ho : Z.of_nat o1 < k /\ Z.of_nat o2 < k /\ Z.of_nat o3 < k.
  Hypothesis Hout : forall w, exists r g b a, idx (f w) 0 = Some r /\ idx (f w) (Z.of_nat o1) = Some g /\ idx (f w) (Z.of_nat o2) = Some b /\
    idx (f w) (Z.of_nat o3) = Some a /\ out w = if 0 <? a then Px r g b a else Px 0 0 0 0.
  Lemma tiles_of_bytes cpus ts tr img : (1 <= cpus)%nat -> 0 < ts -> zlen img = rdx tr * rdy tr -> let pix := flat_map f img in
    exists ws, newTiledImage cpus ts tr pix (skipn o1 pix) (skipn o2 pix) (Some (skipn o3 pix)) k = Some ws /\
    forall m, built (Some ws) m -> well_tiled ts m /\
      (forall p w, pt_in p tr = true -> image_at tr img p w ->
         (0 <= MRect.px p -> 0 <= py p -> shows ts (Px 0 0 0 0) m p (out w)) /\ (shows ts (Px 0 0 0 0) m p (out w) \/ shows ts (Px 0 0 0 0) m p (Px 0 0 0 0))) /\
      (forall p, pt_in p tr = false -> shows ts (Px 0 0 0 0) m p (Px 0 0 0 0)).
  Proof.
    intros Hc Ht Hl pix. assert (zlen pix = rdx tr * rdy tr * k) as Lp by (unfold pix; rewrite (flat_len k f img Hf), Hl; reflexivity).
    assert (forall o, Z.of_nat o < k -> plane_ok tr k (skipn o pix)) as Hp.
    { intros o Hlt. unfold plane_ok. rewrite zlen_skipn. lia. }
    destruct (newTiledImage_spec cpus ts tr pix (skipn o1 pix) (skipn o2 pix) (Some (skipn o3 pix)) k Hc Ht Hk) as (ws & E & W); try (apply Hp; lia).
    { apply (Hp O). lia. }
    exists ws. split; [exact E|]. intros m (l & s & El & Hi & ->). injection El as <-. destruct (W s Hi) as (W1 & W2 & W3 & W4).
    split; [exact W1|]. split; [|exact W4].
    assert (forall p w v, pt_in p tr = true -> image_at tr img p w -> source_px pix (skipn o1 pix) (skipn o2 pix) (Some (skipn o3 pix)) (sample_pos tr k p) v -> v = out w) as S.
    { intros p w v Hin Iw (r & g & b & a & R & G & B & A & ->). destruct (Hout w) as (r' & g' & b' & a' & R' & G' & B' & A' & ->).
      pose proof (cellIx_range tr p Hin) as Rg. change (sample_pos tr k p) with (cellIx tr p * k) in *. change (idx img (cellIx tr p) = Some w) in Iw.
      assert (0 <= cellIx tr p * k) by nia. unfold pix in R, G, B, A.
      rewrite idx_skipn in G, B, A by assumption. rewrite <- (Z.add_0_l (cellIx tr p * k)) in R.
      rewrite (flat_idx k f img Hf _ w 0 Iw ltac:(lia)) in R. rewrite (flat_idx k f img Hf _ w (Z.of_nat o1) Iw ltac:(lia)) in G. rewrite (flat_idx k f img Hf _ w (Z.of_nat o2) Iw ltac:(lia)) in B.
      rewrite (flat_idx k f img Hf _ w (Z.of_nat o3) Iw ltac:(lia)) in A.
      assert (r' = r) as -> by congruence. assert (g' = g) as -> by congruence. assert (b' = b) as -> by congruence. assert (a' = a) as -> by congruence. reflexivity. }
    intros p w Hin Iw. split.
    - intros X Y. destruct (W2 p Hin X Y) as (v & Sv & Sh). now rewrite <- (S p w v Hin Iw Sv).
    - destruct (Z.lt_ge_cases (MRect.px p) 0) as [X|X]; [|destruct (Z.lt_ge_cases (py p) 0) as [Y|Y]].
      + destruct (W3 p Hin (or_introl X)) as (v & Sv & Sh). now rewrite <- (S p w v Hin Iw Sv).
      + destruct (W3 p Hin (or_intror Y)) as (v & Sv & Sh). now rewrite <- (S p w v Hin Iw Sv).
      + destruct (W2 p Hin X Y) as (v & Sv & Sh). left. now rewrite <- (S p w v Hin Iw Sv).
  Qed.
End fromBytes.

(** The two formats. *)
Definition out8 (w : px) : px := if 0 <? pa w then w else Px 0 0 0 0.
Definition whole (v : Z) : Z := Z.lor (Z.shiftl (Z.shiftr v 8) 8) (u8 v).
Lemma whole_id v : 0 <= v < 65536 -> whole v = v.
Proof.
  intros H. unfold whole, u8. change 256 with (2 ^ 8). rewrite <- Z.land_ones by lia. apply Z.bits_inj'. intros n Hn.
  rewrite Z.lor_spec, Z.land_spec, Z.testbit_ones_nonneg by lia. destruct (Z.lt_ge_cases n 8).
  - rewrite Z.shiftl_spec_low by lia. replace (n <? 8) with true by lia. now rewrite andb_true_r.
  - rewrite Z.shiftl_spec, Z.shiftr_spec by lia. replace (n <? 8) with false by lia. rewrite andb_false_r, orb_false_r. f_equal. lia.
Qed.
Definition bytes16 (t16 : Z -> Z) (p : px) : bytes :=
  [t16 (whole (pr p)); u8 (pr p); t16 (whole (pg p)); u8 (pg p); t16 (whole (pb p)); u8 (pb p); Z.shiftr (pa p) 8; u8 (pa p)].
Definition out16 (t16 : Z -> Z) (p : px) : px :=
  let a := Z.shiftr (pa p) 8 in if 0 <? a then Px (t16 (whole (pr p))) (t16 (whole (pg p))) (t16 (whole (pb p))) a else Px 0 0 0 0.
Lemma restoreGamma_eq t16 img : restoreGamma t16 (pix64Bytes img) = flat_map (bytes16 t16) img.
Proof. induction img as [|p img IH]; [reflexivity|]. unfold pix64Bytes in *. cbn [flat_map app restoreGamma]. rewrite IH. reflexivity. Qed.
Lemma tiles8 cpus ts tr img : (1 <= cpus)%nat -> 0 < ts -> zlen img = rdx tr * rdy tr -> let pix := pixBytes img in
  exists ws, newTiledImage cpus ts tr pix (skipn 1 pix) (skipn 2 pix) (Some (skipn 3 pix)) 4 = Some ws /\
  forall m, built (Some ws) m -> well_tiled ts m /\
    (forall p w, pt_in p tr = true -> image_at tr img p w ->
       (0 <= MRect.px p -> 0 <= py p -> shows ts (Px 0 0 0 0) m p (out8 w)) /\ (shows ts (Px 0 0 0 0) m p (out8 w) \/ shows ts (Px 0 0 0 0) m p (Px 0 0 0 0))) /\
    (forall p, pt_in p tr = false -> shows ts (Px 0 0 0 0) m p (Px 0 0 0 0)).
Proof.
  intros Hc Ht Hl. apply (tiles_of_bytes 4 (fun p => [pr p; pg p; pb p; pa p]) 1 2 3 out8); try lia; [reflexivity| |assumption..].
  intros w. exists (pr w), (pg w), (pb w), (pa w). split; [reflexivity|]. split; [reflexivity|]. split; [reflexivity|]. split; [reflexivity|].
  unfold out8. now destruct w.
Qed.
Lemma tiles16 t16 cpus ts tr img : (1 <= cpus)%nat -> 0 < ts -> zlen img = rdx tr * rdy tr -> let pix := restoreGamma t16 (pix64Bytes img) in
  exists ws, newTiledImage cpus ts tr pix (skipn 2 pix) (skipn 4 pix) (Some (skipn 6 pix)) 8 = Some ws /\
  forall m, built (Some ws) m -> well_tiled ts m /\
    (forall p w, pt_in p tr = true -> image_at tr img p w ->
       (0 <= MRect.px p -> 0 <= py p -> shows ts (Px 0 0 0 0) m p (out16 t16 w)) /\ (shows ts (Px 0 0 0 0) m p (out16 t16 w) \/ shows ts (Px 0 0 0 0) m p (Px 0 0 0 0))) /\
    (forall p, pt_in p tr = false -> shows ts (Px 0 0 0 0) m p (Px 0 0 0 0)).
Proof.
  intros Hc Ht Hl. cbv zeta. rewrite restoreGamma_eq. apply (tiles_of_bytes 8 (bytes16 t16) 2 4 6 (out16 t16)); try lia; [reflexivity| |assumption..].
  intros w. eexists _, _, _, _. split; [reflexivity|]. split; [reflexivity|]. split; [reflexivity|]. split; [reflexivity|]. reflexivity.
Qed.

(** * Moving by whole pixels *)
Notation z4 := (Px 0 0 0 0).
Lemma shifted_back p dx dy : shifted (shifted p dx dy) (- dx) (- dy) = p.
Proof. destruct p as [x y]. unfold shifted. cbn [MRect.px py]. f_equal; lia. Qed.
Lemma in_grown p r dx dy : pt_in p r = true -> pt_in (shifted p dx dy) (grown r dx dy) = true.
Proof. unfold pt_in, grown, shifted. destruct p as [x y]. cbn [MRect.px py rx0 ry0 rx1 ry1]. lia. Qed.
Lemma moderate_size r dx dy : moderate r dx dy -> 0 < rdx r /\ 0 < rdy r /\ 0 <= rdx (grown r dx dy) /\ 0 <= rdy (grown r dx dy).
Proof. unfold moderate, grown, rdx, rdy. cbn [rx0 ry0 rx1 ry1]. lia. Qed.

Section shift.
  Variables (rnd : Q -> Q) (lib : library) (cpus : nat) (ts : Z).
  Hypothesis Hr : SThumb.rounding rnd.
  Hypothesis Hl : good_library lib.
  Hypothesis Hc : (1 <= cpus)%nat.
  Hypothesis Ht : 0 < ts.
  Variables (rc : rect) (dx dy : Z).
  Hypothesis Hm : moderate rc dx dy.

  (** What is shown after the move, if [f] says what becomes of an opaque pixel. *)
  Definition moved (src : point -> px -> Prop) (f : px -> px) (ws : option (list (list (point * list px)))) : Prop :=
    (exists m, built ws m) /\
    forall m, built ws m -> well_tiled ts m /\
      (forall p v, pt_in p rc = true -> 0 <= MRect.px p + dx -> 0 <= py p + dy -> src p v -> pa v = 255 -> shows ts z4 m (shifted p dx dy) (f v)) /\
      (forall p v, pt_in p rc = true -> src p v -> pa v = 0 -> shows ts z4 m (shifted p dx dy) z4) /\
      (forall p, pt_in p rc = false -> shows ts z4 m (shifted p dx dy) z4).

  Lemma built_ex {V} (ws : list (list (point * list V))) : exists m, built (Some ws) m.
  Proof. exists (exec putTile (concat ws) []), ws, (concat ws). auto using interleave_concat. Qed.

  Lemma warp_moved (src : point -> px -> Prop) f tmp warp top g out ws :
    (forall q v, pt_in q rc = true -> src q v -> image_at rc tmp q (g v)) ->
    (forall v, pa v = 255 -> pa (g v) = top /\ out (g v) = f v) -> (forall v, pa v = 0 -> pa (g v) = 0) -> out z4 = z4 ->
    copies top warp ->
    (forall m, built (Some ws) m -> well_tiled ts m /\
      (forall p w, pt_in p (grown rc dx dy) = true -> image_at (grown rc dx dy) (warp (translation dx dy) rc tmp (grown rc dx dy)) p w ->
         (0 <= MRect.px p -> 0 <= py p -> shows ts z4 m p (out w)) /\ (shows ts z4 m p (out w) \/ shows ts z4 m p z4)) /\
      (forall p, pt_in p (grown rc dx dy) = false -> shows ts z4 m p z4)) ->
    moved src f (Some ws).
  Proof.
    intros Hs Ho Hz Oz Cp W. split; [apply built_ex|]. intros m B. destruct (W m B) as (W1 & W2 & W3).
    split; [exact W1|]. split; [|split].
    - intros p v Hp X Y Sv Av. destruct (Cp dx dy rc tmp (grown rc dx dy) (shifted p dx dy) Hm (in_grown p rc dx dy Hp)) as (C1 & _). rewrite shifted_back in C1.
      destruct (Ho v Av) as [Gt Go]. specialize (C1 (g v) Hp (Hs p v Hp Sv) Gt). rewrite <- Go.
      apply (proj1 (W2 _ _ (in_grown p rc dx dy Hp) C1)); unfold shifted; cbn [MRect.px py]; assumption.
    - intros p v Hp Sv Av. destruct (Cp dx dy rc tmp (grown rc dx dy) (shifted p dx dy) Hm (in_grown p rc dx dy Hp)) as (_ & C2 & _). rewrite shifted_back in C2.
      specialize (C2 (g v) Hp (Hs p v Hp Sv) (Hz v Av)). destruct (proj2 (W2 _ _ (in_grown p rc dx dy Hp) C2)) as [S|S]; [rewrite Oz in S|]; exact S.
    - intros p Hp. destruct (pt_in (shifted p dx dy) (grown rc dx dy)) eqn:G; [|now apply W3].
      destruct (Cp dx dy rc tmp (grown rc dx dy) (shifted p dx dy) Hm G) as (_ & _ & C3). rewrite shifted_back in C3.
      destruct (proj2 (W2 _ _ G (C3 Hp))) as [S|S]; [rewrite Oz in S|]; exact S.
  Qed.

  (** The layers of a file: planes without gaps, or samples [dX] apart. *)
  Variables (r g b : bytes) (a : option bytes) (dX : Z).
  Hypothesis HdX : 0 < dX.
  Hypothesis Pr : plane_ok rc dX r.
  Hypothesis Pg : plane_ok rc dX g.
  Hypothesis Pb : plane_ok rc dX b.
  Hypothesis Pa : match a with Some a => plane_ok rc dX a | None => True end.
  Definition srcP (p : point) (v : px) : Prop := source_px r g b a (sample_pos rc dX p) v.

  Lemma source_ex p : pt_in p rc = true -> exists o, getImage r g b a (sample_pos rc dX p) = Some o /\ srcP p (match o with Some v => v | None => z4 end).
  Proof. intros Hp. apply getImage_source; auto; lia. Qed.

  Lemma shift_plain : dX <> 4 -> moved srcP (fun v => v) (newScaledTiledImage rnd lib cpus ts rc r g b a dX (translation dx dy) None).
  Proof.
    intros Hd4. unfold newScaledTiledImage. rewrite isIdentity_shift. destruct Hl as (Sz & C8 & _). destruct (moderate_size rc dx dy Hm) as (Rw & Rh & Gw & Gh).
    destruct ((dx =? 0) && (dy =? 0)) eqn:Id.
    - destruct (newTiledImage_spec cpus ts rc r g b a dX Hc Ht) as (ws & E & W); try assumption. rewrite E.
      split; [apply built_ex|]. intros m (l & s & El & Hi & ->). injection El as <-. destruct (W s Hi) as (W1 & W2 & W3 & W4). split; [exact W1|].
      assert (forall p, shifted p dx dy = p) as Sh by (intros [x y]; unfold shifted; cbn [MRect.px py]; f_equal; lia).
      split; [|split].
      + intros p v Hp X Y Sv _. rewrite Sh. destruct (W2 p Hp ltac:(lia) ltac:(lia)) as (v' & Sv' & S). rewrite (source_px_fun _ _ _ _ _ _ _ Sv Sv'). exact S.
      + intros p v Hp Sv Av. rewrite Sh. assert (v = z4) as -> by (destruct Sv as (r0 & g0 & b0 & a0 & _ & _ & _ & _ & ->); destruct (Z.ltb_spec 0 a0); [cbn [pa] in Av; lia|reflexivity]).
        destruct (Z.lt_ge_cases (MRect.px p) 0) as [X|X]; [|destruct (Z.lt_ge_cases (py p) 0) as [Y|Y]].
        * destruct (W3 p Hp (or_introl X)) as (v & Sv' & S). rewrite (source_px_fun _ _ _ _ _ _ _ Sv' Sv) in S. tauto.
        * destruct (W3 p Hp (or_intror Y)) as (v & Sv' & S). rewrite (source_px_fun _ _ _ _ _ _ _ Sv' Sv) in S. tauto.
        * destruct (W2 p Hp X Y) as (v & Sv' & S). now rewrite (source_px_fun _ _ _ _ _ _ _ Sv' Sv) in S.
      + intros p Hp. rewrite Sh. now apply W4.
    - unfold createImage. replace (dX =? 4) with false by lia. destruct (pixelsOf_spec (getImage r g b a) rc dX Rw ltac:(lia)) as (tmp & -> & Htmp).
      { intros q Hq. destruct (source_ex q Hq) as (o & -> & _). discriminate. }
      rewrite (transformRect_shift rnd Hr rc dx dy Hm).
      destruct (tiles8 cpus ts (grown rc dx dy) (warp8 lib (translation dx dy) rc tmp (grown rc dx dy)) Hc Ht) as (ws & E & W).
      { exact (proj1 (Sz _ _ _ Gw Gh) _). }
      cbv zeta in E |- *. rewrite E.
      refine (warp_moved srcP (fun v => v) tmp (warp8 lib) 255 (fun v => v) out8 ws _ _ _ _ C8 W); [|intros v Av; split; [exact Av|]|auto|reflexivity].
      + intros q v Hq Sv. destruct (Htmp q Hq) as (v' & I & P). destruct (source_ex q Hq) as (o & G & S). unfold pixelAt in P. rewrite G in P.
        rewrite (source_px_fun _ _ _ _ _ _ _ Sv S). destruct o; injection P as ->; exact I.
      + unfold out8. rewrite Av. reflexivity.
  Qed.

  Lemma shift_gamma gt : (forall i, 0 <= T8 gt i < 65536) -> dx <> 0 \/ dy <> 0 ->
    moved srcP (fun v => Px (T16 gt (T8 gt (pr v))) (T16 gt (T8 gt (pg v))) (T16 gt (T8 gt (pb v))) 255)
      (newScaledTiledImage rnd lib cpus ts rc r g b a dX (translation dx dy) (Some gt)).
  Proof.
    intros Hg Hd. unfold newScaledTiledImage. rewrite isIdentity_shift. destruct Hl as (Sz & _ & C16 & _). destruct (moderate_size rc dx dy Hm) as (Rw & Rh & Gw & Gh).
    replace ((dx =? 0) && (dy =? 0)) with false by lia. unfold createImageGamma.
    set (get := fun i => match getImage r g b a i with Some (Some v) => Some (Some (widen (T8 gt) v)) | o => o end).
    destruct (pixelsOf_spec get rc dX Rw ltac:(lia)) as (tmp & -> & Htmp).
    { intros q Hq. unfold get. destruct (source_ex q Hq) as (o & -> & _). destruct o; discriminate. }
    rewrite (transformRect_shift rnd Hr rc dx dy Hm).
    destruct (tiles16 (T16 gt) cpus ts (grown rc dx dy) (warp16 lib (translation dx dy) rc tmp (grown rc dx dy)) Hc Ht) as (ws & E & W).
    { exact (proj1 (proj2 (Sz _ _ _ Gw Gh)) _). }
    cbv zeta in E |- *. rewrite E.
    refine (warp_moved srcP _ tmp (warp16 lib) 65535 (fun v => if pa v =? 0 then z4 else widen (T8 gt) v) (out16 (T16 gt)) ws _ _ _ _ C16 W).
    - intros q v Hq Sv. destruct (Htmp q Hq) as (v' & I & P). destruct (source_ex q Hq) as (o & G & S). unfold pixelAt, get in P. rewrite G in P.
      rewrite (source_px_fun _ _ _ _ _ _ _ Sv S). destruct o as [v0|]; injection P as <-; [|exact I].
      destruct (Z.eqb_spec (pa v0) 0) as [Az|_]; [|exact I]. destruct S as (r0 & g0 & b0 & a0 & _ & _ & _ & _ & Ev).
      unfold getImage in G. exfalso. destruct a as [al|].
      + destruct (idx al (sample_pos rc dX q)) as [av|]; [|discriminate]. destruct (Z.ltb_spec 0 av); [|discriminate].
        destruct (idx b _); [|discriminate]. destruct (idx g _); [|discriminate]. destruct (idx r _); [|discriminate]. injection G as <-. cbn [pa] in Az. lia.
      + destruct (idx b _); [|discriminate]. destruct (idx g _); [|discriminate]. destruct (idx r _); [|discriminate]. injection G as <-. discriminate.
    - intros v Av. rewrite Av. change (255 =? 0) with false. cbv iota. unfold widen. rewrite Av. cbn [pa]. split; [reflexivity|].
      unfold out16. cbn [pr pg pb pa]. rewrite !whole_id by apply Hg. reflexivity.
    - intros v Av. now rewrite Av.
    - reflexivity.
  Qed.
End shift.

(** Images in place: Transform of a tiled image. *)
Lemma inPlace_spec img i w : idx img i = Some w -> inPlace (pixBytes img) (i * 4) = Some (Some w).
Proof.
  intros E. pose proof (idx_some_lt _ _ _ E) as R. destruct (pixBytes_idx img i w E) as (A & B & C & D). rewrite !idx_skipn in B, C, D by lia.
  unfold inPlace. rewrite A. replace (i * 4 + 1) with (Z.of_nat 1 + i * 4) by lia. rewrite B. replace (i * 4 + 2) with (Z.of_nat 2 + i * 4) by lia. rewrite C.
  replace (i * 4 + 3) with (Z.of_nat 3 + i * 4) by lia. rewrite D. now destruct w.
Qed.
Lemma pixBytes_planes rc img : zlen img = rdx rc * rdy rc -> plane_ok rc 4 (pixBytes img) /\ plane_ok rc 4 (skipn 1 (pixBytes img)) /\
  plane_ok rc 4 (skipn 2 (pixBytes img)) /\ plane_ok rc 4 (skipn 3 (pixBytes img)).
Proof.
  intros L. assert (zlen (pixBytes img) = rdx rc * rdy rc * 4) as E.
  { unfold pixBytes. rewrite (flat_len 4); [now rewrite L|reflexivity]. }
  unfold plane_ok. rewrite !zlen_skipn, E. lia.
Qed.
Lemma image_source rc img p w : image_at rc img p w -> normal w -> 0 <= pa w -> let pix := pixBytes img in
  source_px pix (skipn 1 pix) (skipn 2 pix) (Some (skipn 3 pix)) (sample_pos rc 4 p) w.
Proof.
  intros I N A. cbv zeta. destruct (pixBytes_idx img (cellIx rc p) w I) as (R & G & B & Al).
  exists (pr w), (pg w), (pb w), (pa w). change (sample_pos rc 4 p) with (cellIx rc p * 4). split; [exact R|]. split; [exact G|]. split; [exact B|]. split; [exact Al|].
  destruct (Z.ltb_spec 0 (pa w)); [now destruct w|]. apply N. lia.
Qed.

Section shift4.
  Variables (rnd : Q -> Q) (lib : library) (cpus : nat) (ts : Z).
  Hypothesis Hr : SThumb.rounding rnd.
  Hypothesis Hl : good_library lib.
  Hypothesis Hc : (1 <= cpus)%nat.
  Hypothesis Ht : 0 < ts.
  Variables (rc : rect) (dx dy : Z).
  Hypothesis Hm : moderate rc dx dy.
  Variable img : list px.
  Hypothesis Li : zlen img = rdx rc * rdy rc.
  Hypothesis Hn : forall p, pt_in p rc = true -> exists w, image_at rc img p w /\ normal w /\ 0 <= pa w.

  Lemma shift_inPlace : let pix := pixBytes img in
    moved ts rc dx dy (image_at rc img) (fun v => v) (newScaledTiledImage rnd lib cpus ts rc pix (skipn 1 pix) (skipn 2 pix) (Some (skipn 3 pix)) 4 (translation dx dy) None).
  Proof.
    cbv zeta. unfold newScaledTiledImage. rewrite isIdentity_shift. destruct Hl as (Sz & C8 & _). destruct (moderate_size rc dx dy Hm) as (Rw & Rh & Gw & Gh).
    destruct ((dx =? 0) && (dy =? 0)) eqn:Id.
    - destruct (tiles8 cpus ts rc img Hc Ht Li) as (ws & E & W). cbv zeta in E. rewrite E. split; [apply built_ex|]. intros m B.
      destruct (W m B) as (W1 & W2 & W3). split; [exact W1|].
      assert (forall p, shifted p dx dy = p) as Sh by (intros [x y]; unfold shifted; cbn [MRect.px py]; f_equal; lia).
      split; [|split].
      + intros p v Hp X Y Sv Av. rewrite Sh. replace v with (out8 v) by (unfold out8; now rewrite Av). apply (proj1 (W2 p v Hp Sv)); lia.
      + intros p v Hp Sv Av. rewrite Sh. destruct (W2 p v Hp Sv) as [_ [H|H]]; [|exact H]. unfold out8 in H. now rewrite Av in H.
      + intros p Hp. rewrite Sh. now apply W3.
    - unfold createImage. change (4 =? 4) with true. cbv iota.
      destruct (pixelsOf_spec (inPlace (pixBytes img)) rc 4 Rw ltac:(lia)) as (tmp & -> & Htmp).
      { intros q Hq. destruct (Hn q Hq) as (w & I & _). change (sample_pos rc 4 q) with (cellIx rc q * 4). rewrite (inPlace_spec img (cellIx rc q) w I). discriminate. }
      rewrite (transformRect_shift rnd Hr rc dx dy Hm).
      destruct (tiles8 cpus ts (grown rc dx dy) (warp8 lib (translation dx dy) rc tmp (grown rc dx dy)) Hc Ht) as (ws & E & W).
      { exact (proj1 (Sz _ _ _ Gw Gh) _). }
      cbv zeta in E |- *. rewrite E.
      refine (warp_moved ts rc dx dy Hm (image_at rc img) (fun v => v) tmp (warp8 lib) 255 (fun v => v) out8 ws _ _ _ _ C8 W); [|intros v Av; split; [exact Av|]|auto|reflexivity].
      + intros q v Hq Sv. destruct (Htmp q Hq) as (v' & I & P). unfold pixelAt in P. change (sample_pos rc 4 q) with (cellIx rc q * 4) in P.
        rewrite (inPlace_spec img (cellIx rc q) v Sv) in P. injection P as ->. exact I.
      + unfold out8. rewrite Av. reflexivity.
  Qed.
End shift4.

Section transformShift.
  Variables (rnd : Q -> Q) (lib : library) (cpus : nat) (ts : Z).
  Hypothesis Hr : SThumb.rounding rnd.
  Hypothesis Hl : good_library lib.
  Hypothesis Hc : (1 <= cpus)%nat.
  Hypothesis Ht : 0 < ts.
  Variables (dx dy : Z) (t : tilemap px).
  Hypothesis Gt : goodImage ts t.

  Lemma rendered_tiles r : tilesRect ts t r -> rempty r = false -> 
    (exists img, rendered z4 copyPx cpus ts r t (zrepeat z4 (rdx r * rdy r)) img) /\
    forall img, rendered z4 copyPx cpus ts r t (zrepeat z4 (rdx r * rdy r)) img -> 
      zlen img = rdx r * rdy r /\ (forall p, pt_in p r = true -> exists v w, shows ts z4 t p v /\ image_at r img p w /\ nearly v w /\ normal w /\ 0 <= pa w).
  Proof.
    intros Tr Er. destruct (rempty_pos r Er) as [Rw Rh].
    assert (zlen (zrepeat z4 (rdx r * rdy r)) = rdx r * rdy r) as Lz by (apply zlen_zrepeat; nia).
    assert (forall p, pt_in p r = true -> covered ts r p) as Cv by (intros; right; apply (tilesRect_div ts t r (proj1 Gt) Tr)).
    split.
    - apply rendered_ex. now apply render_image_total.
    - intros img Ri. destruct (rendered_spec z4 copyPx pixel_ok nearlyOK) with (ts := ts) (cpus := cpus) (rc := r) (m := t) (old := zrepeat z4 (rdx r * rdy r)) (img := img) as [R1 R2]; auto.
      + intros v Hv. destruct (copyPx_spec v Hv) as (w & E & K & N). exists w. split; [exact E|]. split; assumption.
      + exact nearly_zero.
      + exact (proj1 Gt).
      + exact (proj2 Gt).
      + exact (tilesRect_ne ts t r Tr Er).
      + split; [congruence|]. intros p Hp. destruct (R2 p Hp (Cv p Hp)) as (v & w & S & I & Q & _). exists v, w. destruct (nearly_normal v w Q). destruct Q. auto 6.
  Qed.

  Lemma transform_shift : (forall r, tilesRect ts t r -> rempty r = false -> moderate r dx dy) ->
    (exists t', transformImageBy rnd lib cpus ts (translation dx dy) None t t') /\
    forall t', transformImageBy rnd lib cpus ts (translation dx dy) None t t' ->
      forall p v, shows ts z4 t p v ->
        (pa v = 255 -> 0 <= MRect.px p + dx -> 0 <= py p + dy -> shows ts z4 t' (shifted p dx dy) v) /\ (pa v = 0 -> shows ts z4 t' (shifted p dx dy) z4).
  Proof.
    intros Hm. split.
    - destruct (tilesRect_ex ts t) as [r Tr]. destruct (rempty r) eqn:Er; [exists [], r; now rewrite Er|].
      destruct (rendered_tiles r Tr Er) as [[img Ri] R]. destruct (R img Ri) as [L I].
      destruct (shift_inPlace rnd lib cpus ts Hr Hl Hc Ht r dx dy (Hm r Tr Er) img L) as [(t' & B) _].
      { intros p Hp. destruct (I p Hp) as (v & w & _ & Iw & _ & N & A). eauto. }
      exists t', r. split; [exact Tr|]. rewrite Er. exists img. split; [exact Ri|exact B].
    - intros t' (r & Tr & H) p v Sv. destruct (rempty r) eqn:Er.
      + subst t'. assert (v = z4) as ->.
        { destruct Sv as [(k & c & K & _)|[-> _]]; [|reflexivity]. destruct (tilesRect_empty ts Ht t r k c Tr Er K). }
        assert (shows ts z4 [] (shifted p dx dy) z4) by (right; split; [reflexivity|discriminate]). auto.
      + destruct H as (img & Ri & B). destruct (proj2 (rendered_tiles r Tr Er) img Ri) as [L I].
        destruct (shift_inPlace rnd lib cpus ts Hr Hl Hc Ht r dx dy (Hm r Tr Er) img L) as [_ M].
        { intros q Hq. destruct (I q Hq) as (v' & w & _ & Iw & _ & N & A). eauto. }
        destruct (M t' B) as (M1 & M2 & M3 & M4).
        destruct (pt_in p r) eqn:Hp.
        * destruct (I p Hp) as (v' & w & Sv' & Iw & (Nw & Nz & _ & Ne) & N & A).
          rewrite (shows_fun z4 ts t p v' v (aligned_well_tiled ts Ht t (proj1 Gt)) Sv' Sv) in *. split.
          -- intros Av X Y. rewrite (Ne ltac:(lia)) in Iw. now apply M2.
          -- intros Av. apply (M3 p w Hp Iw). congruence.
        * assert (v = z4) as ->.
          { destruct Sv as [(k & c & K & Hk & _)|[-> _]]; [|reflexivity]. destruct (PLoad.tilesRect_bounds ts t r Tr) as [Bd _]. rewrite (Bd k c p K Hk) in Hp. discriminate. }
          split; [discriminate|]. intros _. now apply M4.
  Qed.
End transformShift.

(** * Masks *)
Section mask.
  Variables (rnd : Q -> Q) (lib : library) (cpus : nat) (ts : Z).
  Hypothesis Hr : SThumb.rounding rnd.
  Hypothesis Hl : good_library lib.
  Hypothesis Hc : (1 <= cpus)%nat.
  Hypothesis Ht : 0 < ts.
  Variables (rc : rect) (dx dy : Z) (a : bytes) (dc : Z).
  Hypothesis Hm : moderate rc dx dy.
  Hypothesis Ha : plane_ok rc 1 a.

  Lemma shift_mask : exists ws, newScaledTiledMask rnd lib cpus ts rc a dc (translation dx dy) = Some ws /\
    forall m, built (Some ws) m -> well_tiled ts m /\
      (forall p, pt_in p rc = true -> 0 <= MRect.px p + dx -> 0 <= py p + dy ->
         exists v, shows ts 0 m (shifted p dx dy) v /\ idx a (sample_pos rc 1 p) = Some (mask_value dc v)) /\
      (forall p, pt_in p rc = false -> 0 <= MRect.px p + dx -> 0 <= py p + dy -> shows ts 0 m (shifted p dx dy)
         (if (dc =? 0) || (dx =? 0) && (dy =? 0) || negb (pt_in p (grown rc 0 0)) then 0 else 255)).
  Proof.
    destruct Hl as (Sz & _ & _ & CA). destruct (moderate_size rc dx dy Hm) as (Rw & Rh & Gw & Gh).
    unfold newScaledTiledMask. rewrite isIdentity_shift. destruct ((dx =? 0) && (dy =? 0)) eqn:Id.
    - destruct (newTiledMask_spec cpus ts rc a dc Hc Ht Ha) as (ws & E & W). exists ws. split; [exact E|]. intros m (l & s & El & Hi & ->). injection El as <-.
      destruct (W s Hi) as (W1 & W2 & W3). split; [exact W1|].
      assert (forall p, shifted p dx dy = p) as Sh by (intros [x y]; unfold shifted; cbn [MRect.px py]; f_equal; lia).
      split; intros p Hp X Y; rewrite Sh; [apply W2; [exact Hp|lia|lia]|]. rewrite orb_true_r. cbn [orb]. now apply W3.
    - assert (zlen a <? rdx rc * rdy rc = false) as -> by (unfold plane_ok in Ha; lia). rewrite (transformRect_shift rnd Hr rc dx dy Hm). cbv zeta.
      set (img := warpA lib (translation dx dy) rc a (grown rc dx dy)).
      assert (zlen img = rdx (grown rc dx dy) * rdy (grown rc dx dy)) as L by exact (proj2 (proj2 (Sz _ _ _ Gw Gh)) _).
      destruct (newTiledMask_spec cpus ts (grown rc dx dy) img dc Hc Ht) as (ws & E & W); [unfold plane_ok; lia|].
      exists ws. split; [exact E|]. intros m (l & s & El & Hi & ->). injection El as <-. destruct (W s Hi) as (W1 & W2 & W3). split; [exact W1|].
      assert (forall p, sample_pos (grown rc dx dy) 1 p = cellIx (grown rc dx dy) p) as Sp by (intros; unfold sample_pos, cellIx; lia).
      split.
      + intros p Hp X Y. destruct (W2 (shifted p dx dy) (in_grown p rc dx dy Hp) X Y) as (v & S & I). exists v. split; [exact S|].
        destruct (CA dx dy rc a (grown rc dx dy) (shifted p dx dy) Hm (in_grown p rc dx dy Hp)) as [C1 _]. rewrite shifted_back in C1.
        assert (sample_pos rc 1 p = cellIx rc p) as -> by (unfold sample_pos, cellIx; lia).
        pose proof (cellIx_range rc p Hp) as Rg. destruct (idx_lt a (cellIx rc p)) as [u Eu]; [unfold plane_ok in Ha; lia|].
        specialize (C1 u Hp Eu). fold img in C1. rewrite Sp in I. change (idx img (cellIx (grown rc dx dy) (shifted p dx dy)) = Some u) in C1. congruence.
      + intros p Hp X Y. rewrite orb_false_r. assert (pt_in (shifted p dx dy) (grown rc dx dy) = pt_in p (grown rc 0 0)) as G.
        { unfold pt_in, shifted, grown. cbn [MRect.px py rx0 ry0 rx1 ry1]. lia. }
        destruct (pt_in p (grown rc 0 0)) eqn:Hg; cbn [negb]; [|rewrite orb_true_r; now apply W3]. rewrite orb_false_r.
        destruct (W2 (shifted p dx dy) G X Y) as (v & S & I).
        destruct (CA dx dy rc a (grown rc dx dy) (shifted p dx dy) Hm G) as [_ C2]. rewrite shifted_back in C2. specialize (C2 Hp). fold img in C2.
        change (idx img (cellIx (grown rc dx dy) (shifted p dx dy)) = Some 0) in C2. rewrite Sp in I. rewrite C2 in I. injection I as I.
        unfold mask_value in I. destruct (dc =? 0); [now subst v|]. now replace 255 with v by lia.
  Qed.
End mask.

(** * A library that meets the assumptions *)
Definition cellPt (rc : rect) (i : Z) : point := Pt (rx0 rc + i mod rdx rc) (ry0 rc + i / rdx rc).
Lemma cellPt_ix rc p : pt_in p rc = true -> cellPt rc (cellIx rc p) = p.
Proof.
  intros H. unfold cellPt, cellIx. destruct p as [x y]. unfold pt_in in H. cbn [MRect.px py] in *. set (w := rdx rc). assert (0 <= x - rx0 rc < w) by (unfold w, rdx; lia).
  rewrite (Z.add_comm (_ * w)), Z.mod_add, Z.mod_small, Z.div_add, Z.div_small by lia. f_equal; lia.
Qed.
Definition copyWarp {V} (zero : V) (keep : V -> V) (m : aff) (src : rect) (img : list V) (dst : rect) : list V :=
  map (fun i => let q := shifted (cellPt dst i) (- Qfloor (a2 m)) (- Qfloor (a5 m)) in
                if pt_in q src then match idx img (cellIx src q) with Some v => keep v | None => zero end else zero)
    (zseq (Z.to_nat (rdx dst * rdy dst))).
Definition exactLib : library :=
  let keep v := if pa v =? 0 then z4 else v in
  Lib (copyWarp z4 keep) (copyWarp z4 keep) (copyWarp 0 (fun v => v)).
Lemma copyWarp_at {V} (zero : V) keep dx dy src img dst p : pt_in p dst = true ->
  image_at dst (copyWarp zero keep (translation dx dy) src img dst) p
    (let q := shifted p (- dx) (- dy) in if pt_in q src then match idx img (cellIx src q) with Some v => keep v | None => zero end else zero).
Proof.
  intros Hp. pose proof (cellIx_range dst p Hp) as R. unfold image_at, copyWarp.
  change ((py p - ry0 dst) * (rx1 dst - rx0 dst) + (MRect.px p - rx0 dst)) with (cellIx dst p).
  assert (forall A B (f : A -> B) l i, idx (map f l) i = option_map f (idx l i)) as IM.
  { intros. unfold idx. destruct (i <? 0); [reflexivity|]. apply nth_error_map. }
  rewrite IM, idx_zs by lia. cbn [option_map translation a2 a5]. rewrite (cellPt_ix dst p Hp), !Qfloor_Z. reflexivity.
Qed.
Lemma copyWarp_len {V} (zero : V) keep m src img dst : 0 <= rdx dst -> 0 <= rdy dst -> zlen (copyWarp zero keep m src img dst) = rdx dst * rdy dst.
Proof. intros. unfold copyWarp, zseq, zlen. rewrite !map_length, seq_length. nia. Qed.
Lemma exactLib_good : good_library exactLib.
Proof.
  split; [|split; [|split]].
  - intros m src dst X Y. split; [|split]; intros; now apply copyWarp_len.
  - intros dx dy src img dst p _ Hp q. pose proof (copyWarp_at z4 (fun v => if pa v =? 0 then z4 else v) dx dy src img dst p Hp) as H. cbv zeta in H. fold q in H.
    split; [|split].
    + intros v Hq I Av. rewrite Hq in H. change (idx img (cellIx src q) = Some v) in I. rewrite I, Av in H. exact H.
    + intros v Hq I Av. rewrite Hq in H. change (idx img (cellIx src q) = Some v) in I. rewrite I, Av in H. exact H.
    + intros Hq. rewrite Hq in H. exact H.
  - intros dx dy src img dst p _ Hp q. pose proof (copyWarp_at z4 (fun v => if pa v =? 0 then z4 else v) dx dy src img dst p Hp) as H. cbv zeta in H. fold q in H.
    split; [|split].
    + intros v Hq I Av. rewrite Hq in H. change (idx img (cellIx src q) = Some v) in I. rewrite I, Av in H. exact H.
    + intros v Hq I Av. rewrite Hq in H. change (idx img (cellIx src q) = Some v) in I. rewrite I, Av in H. exact H.
    + intros Hq. rewrite Hq in H. exact H.
  - intros dx dy src img dst p _ Hp q. pose proof (copyWarp_at 0 (fun v => v) dx dy src img dst p Hp) as H. cbv zeta in H. fold q in H. split.
    + intros v Hq I. rewrite Hq in H. change (idx img (cellIx src q) = Some v) in I. rewrite I in H. exact H.
    + intros Hq. rewrite Hq in H. exact H.
Qed.

(** * Gamma tables *)
(** The tables for the gamma 2, 1/2 and 1 at all bytes. *)
Definition two8 (i : Z) : Z := let x := fdiv64 (fofZ i) (fofZ 255) in u16 (ftrunc (fmul64 (fmul64 x x) (fofZ 65535))).
Definition two16 (i : Z) : Z := u8 (ftrunc (fmul64 (fsqrt (fdiv64 (fofZ i) (fofZ 65535))) (fofZ 255))).
Definition half8 (i : Z) : Z := u16 (ftrunc (fmul64 (fsqrt (fdiv64 (fofZ i) (fofZ 255))) (fofZ 65535))).
Definition half16 (i : Z) : Z := let x := fdiv64 (fofZ i) (fofZ 65535) in u8 (ftrunc (fmul64 (fmul64 x x) (fofZ 255))).
Definition one8 (i : Z) : Z := u16 (ftrunc (fmul64 (fdiv64 (fofZ i) (fofZ 255)) (fofZ 65535))).
Definition one16 (i : Z) : Z := u8 (ftrunc (fmul64 (fdiv64 (fofZ i) (fofZ 65535)) (fofZ 255))).
Definition darker (c : Z) : Z := if (c =? 0) || (c =? 255) then c else c - 1.
Lemma tables_sweep : forallb (fun c => (two16 (two8 c) =? darker c) && (half16 (half8 c) =? darker c) && (one16 (one8 c) =? c)) (zseq 256) = true.
Proof. vm_compute. reflexivity. Qed.
Lemma tables_at c : 0 <= c < 256 -> two16 (two8 c) = darker c /\ half16 (half8 c) = darker c /\ one16 (one8 c) = c.
Proof.
  intros H. pose proof tables_sweep as S. rewrite forallb_forall in S. specialize (S c). rewrite PDraw.in_zseq in S.
  specialize (S ltac:(lia)). lia.
Qed.
Lemma gamma_two pow c : go_pow pow -> 0 <= c < 256 -> let gt := makeGammaTable pow (fofZ 2) in T16 gt (T8 gt c) = darker c.
Proof.
  intros G H. cbv zeta. unfold makeGammaTable. cbn [T8 T16]. destruct (G c 255 ltac:(lia) (or_introl eq_refl)) as (_ & E & _). rewrite E. fold (two8 c).
  assert (0 <= two8 c < 65536) as B by (apply Z.mod_pos_bound; lia).
  destruct (G (two8 c) 65535 ltac:(lia) (or_intror eq_refl)) as (_ & _ & E'). rewrite E'. fold (two16 (two8 c)). apply (tables_at c H).
Qed.
Lemma gamma_half pow c : go_pow pow -> 0 <= c < 256 -> let gt := makeGammaTable pow (fdiv64 (fofZ 1) (fofZ 2)) in T16 gt (T8 gt c) = darker c.
Proof.
  intros G H. cbv zeta. unfold makeGammaTable. cbn [T8 T16]. destruct (G c 255 ltac:(lia) (or_introl eq_refl)) as (_ & _ & E). rewrite E. fold (half8 c).
  assert (0 <= half8 c < 65536) as B by (apply Z.mod_pos_bound; lia).
  destruct (G (half8 c) 65535 ltac:(lia) (or_intror eq_refl)) as (_ & E' & _). change (fdiv64 (fofZ 1) (fdiv64 (fofZ 1) (fofZ 2))) with (fofZ 2). rewrite E'.
  fold (half16 (half8 c)). apply (tables_at c H).
Qed.
Lemma gamma_one pow c : go_pow pow -> 0 <= c < 256 -> let gt := makeGammaTable pow (fofZ 1) in T16 gt (T8 gt c) = c.
Proof.
  intros G H. cbv zeta. unfold makeGammaTable. cbn [T8 T16]. destruct (G c 255 ltac:(lia) (or_introl eq_refl)) as (E & _). rewrite E. fold (one8 c).
  assert (0 <= one8 c < 65536) as B by (apply Z.mod_pos_bound; lia).
  destruct (G (one8 c) 65535 ltac:(lia) (or_intror eq_refl)) as (E' & _). change (fdiv64 (fofZ 1) (fofZ 1)) with (fofZ 1). rewrite E'.
  fold (one16 (one8 c)). apply (tables_at c H).
Qed.
Lemma table_range pow g i : 0 <= T8 (makeGammaTable pow g) i < 65536.
Proof. apply Z.mod_pos_bound. lia. Qed.
(** The function [pow] exists. *)
Definition somePow (x y : spec_float) : spec_float :=
  if SFeqb y (fofZ 1) then x else if SFeqb y (fofZ 2) then fmul64 x x else fsqrt x.
Lemma somePow_ok : go_pow somePow.
Proof. intros i n _ _. split; [reflexivity|]. split; reflexivity. Qed.
