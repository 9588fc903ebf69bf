(** Pixel pickers (C25), proofs. *)
From Verif Require Import Base BaseFacts MUtil SUtil PUtil MRect MReader PReader MPicker MConfig PConfig MCompress MLayer MApi SPicker PLayer PDecode PRecord3.

Lemma flat_map_idx {A} (g : A -> bytes) (w : Z) l i j x : 0 <= w -> Forall (fun a => zlen (g a) = w) l ->
  idx l i = Some x -> 0 <= j < w -> idx (flat_map g l) (w * i + j) = idx (g x) j.
Proof.
  intros Hw H. revert i. induction H as [|a l Ha H IH]; intros i Hi Hj; [destruct (idx_some_lt _ _ _ Hi); cbn in *; unfold zlen in *; cbn in *; lia|].
  cbn [flat_map]. pose proof (idx_some_lt _ _ _ Hi) as Hr. destruct (Z.eq_dec i 0) as [->|Hn].
  - rewrite idx_cons_0 in Hi. injection Hi as <-. rewrite Z.mul_0_r. apply idx_app_l. lia.
  - rewrite idx_cons_S in Hi by lia. rewrite idx_app_r by (rewrite Ha; nia). rewrite Ha.
    replace (w * i + j - w) with (w * (i - 1) + j) by lia. now apply IH.
Qed.
Lemma flat_map_len {A} (g : A -> bytes) (w : Z) l : Forall (fun a => zlen (g a) = w) l -> zlen (flat_map g l) = w * zlen l.
Proof. induction 1 as [|a l Ha H IH]; [cbn; lia|]. cbn [flat_map]. rewrite zlen_app, zlen_cons. lia. Qed.
Lemma zlen_zseq n : zlen (zseq n) = Z.of_nat n.
Proof. unfold zlen, zseq. now rewrite map_length, seq_length. Qed.

Definition row_bytes (depth w : Z) : Z := (w * depth + 7) / 8.
Lemma enc_samples_len depth w f : (depth = 1 \/ depth = 8 \/ depth = 16 \/ depth = 32) -> 0 <= w ->
  zlen (enc_samples depth w f) = row_bytes depth w.
Proof.
  intros Hd Hw. unfold enc_samples, row_bytes. destruct (depth =? 1) eqn:E.
  - rewrite zlen_map, zlen_zseq. lia.
  - rewrite (flat_map_len _ (depth / 8)).
    + rewrite zlen_zseq. destruct Hd as [-> |[-> |[-> | -> ]]]; [lia| | |].
      * change (8 / 8) with 1. lia. * change (16 / 8) with 2. lia. * change (32 / 8) with 4. lia.
    + apply Forall_forall. intros x _. rewrite zlen_be. destruct Hd as [-> |[-> |[-> | -> ]]]; [lia| | |]; reflexivity.
Qed.

Lemma plane_idx depth w h f y j : (depth = 1 \/ depth = 8 \/ depth = 16 \/ depth = 32) -> 0 <= w ->
  0 <= y < h -> 0 <= j < row_bytes depth w ->
  idx (enc_plane depth w h f) (row_bytes depth w * y + j) = idx (enc_samples depth w (fun x => f x y)) j.
Proof.
  intros Hd Hw Hy Hj. unfold enc_plane.
  rewrite (flat_map_idx (fun y => enc_samples depth w (fun x => f x y)) (row_bytes depth w) (zseq (Z.to_nat h)) y j y); [reflexivity|lia| |apply idx_zseq; lia|exact Hj].
  apply Forall_forall. intros z _. now apply enc_samples_len.
Qed.

Lemma samples_idx k w f x j : (1 <= k)%nat -> 0 <= x < w -> 0 <= j < Z.of_nat k ->
  idx (flat_map (fun x => be k (f x)) (zseq (Z.to_nat w))) (Z.of_nat k * x + j) = idx (be k (f x)) j.
Proof.
  intros Hk Hx Hj. apply (flat_map_idx (fun x => be k (f x)) (Z.of_nat k)); [lia| |apply idx_zseq; lia|lia].
  apply Forall_forall. intros z _. apply zlen_be.
Qed.

Section planes.
  Variables (depth w h : Z) (f : Z -> Z -> Z).
  Hypothesis Hw : 0 <= w.
  Hypothesis Hf : samples_ok depth f.
  Variables x y : Z.
  Hypothesis Hx : 0 <= x < w.
  Hypothesis Hy : 0 <= y < h.

  Lemma byte_at k j : depth = 8 * Z.of_nat k -> (k = 1 \/ k = 2 \/ k = 4)%nat -> 0 <= j < Z.of_nat k ->
    idx (enc_plane depth w h f) (Z.of_nat k * (y * w + x) + j) = idx (be k (f x y)) j.
  Proof.
    intros Hd Hk Hj.
    assert (Hd' : depth = 1 \/ depth = 8 \/ depth = 16 \/ depth = 32) by (destruct Hk as [-> |[-> | -> ]]; lia).
    assert (Hr : row_bytes depth w = Z.of_nat k * w) by (unfold row_bytes; destruct Hk as [-> |[-> | -> ]]; lia).
    replace (Z.of_nat k * (y * w + x) + j) with (row_bytes depth w * y + (Z.of_nat k * x + j)) by (rewrite Hr; lia).
    rewrite plane_idx; try assumption; [|rewrite Hr; nia].
    unfold enc_samples. replace (depth =? 1) with false by lia. replace (Z.to_nat (depth / 8)) with k by lia.
    apply (samples_idx k w (fun x => f x y) x j); lia.
  Qed.

  Lemma s8_at : depth = 8 -> s8 (enc_plane depth w h f) (y * w + x) = Some (f x y).
  Proof.
    intros Hd. unfold s8. pose proof (byte_at 1 0 ltac:(lia) ltac:(lia) ltac:(lia)) as H.
    replace (Z.of_nat 1 * (y * w + x) + 0) with (y * w + x) in H by lia. rewrite H. cbn [be].
    rewrite idx_cons_0. specialize (Hf x y). rewrite Hd in Hf. f_equal. change (256 ^ Z.of_nat 0) with 1. rewrite Z.div_1_r. apply Z.mod_small. exact Hf.
  Qed.
  Lemma s16_at : depth = 16 -> s16 (enc_plane depth w h f) (y * w + x) = Some (f x y).
  Proof.
    intros Hd. unfold s16. specialize (Hf x y). rewrite Hd in Hf. change (2 ^ 16) with 65536 in Hf.
    rewrite <- (readUint16_be [] [] (f x y) 0 eq_refl Hf). cbn [app]. rewrite app_nil_r. unfold readUint16.
    rewrite Z.shiftl_mul_pow2 by lia. change (2 ^ 1) with 2.
    pose proof (byte_at 2 0 ltac:(lia) ltac:(lia) ltac:(lia)) as H0. pose proof (byte_at 2 1 ltac:(lia) ltac:(lia) ltac:(lia)) as H1.
    replace (Z.of_nat 2 * (y * w + x) + 0) with ((y * w + x) * 2) in H0 by lia.
    replace (Z.of_nat 2 * (y * w + x) + 1) with ((y * w + x) * 2 + 1) in H1 by lia. rewrite H0, H1. reflexivity.
  Qed.
  Lemma s32_at : depth = 32 -> s32 (enc_plane depth w h f) (y * w + x) = Some (f x y).
  Proof.
    intros Hd. unfold s32. specialize (Hf x y). rewrite Hd in Hf. change (2 ^ 32) with 4294967296 in Hf.
    rewrite <- (readUint32_be [] [] (f x y) 0 eq_refl Hf). cbn [app]. rewrite app_nil_r. unfold readUint32.
    rewrite Z.shiftl_mul_pow2 by lia. change (2 ^ 2) with 4.
    pose proof (byte_at 4 0 ltac:(lia) ltac:(lia) ltac:(lia)) as H0. pose proof (byte_at 4 1 ltac:(lia) ltac:(lia) ltac:(lia)) as H1.
    pose proof (byte_at 4 2 ltac:(lia) ltac:(lia) ltac:(lia)) as H2. pose proof (byte_at 4 3 ltac:(lia) ltac:(lia) ltac:(lia)) as H3.
    replace (Z.of_nat 4 * (y * w + x) + 0) with ((y * w + x) * 4) in H0 by lia.
    replace (Z.of_nat 4 * (y * w + x) + 1) with ((y * w + x) * 4 + 1) in H1 by lia.
    replace (Z.of_nat 4 * (y * w + x) + 2) with ((y * w + x) * 4 + 2) in H2 by lia.
    replace (Z.of_nat 4 * (y * w + x) + 3) with ((y * w + x) * 4 + 3) in H3 by lia. rewrite H0, H1, H2, H3. reflexivity.
  Qed.

  Lemma bit_at : depth = 1 ->
    option_map (fun v => Z.land v (Z.shiftl 1 (Z.land (Z.lnot x) 7)) =? 0)
      (idx (enc_plane depth w h f) (Z.shiftr (w + 7) 3 * y + Z.shiftr x 3)) = Some (f x y =? 0).
  Proof.
    intros Hd. rewrite !Z.shiftr_div_pow2 by lia. change (2 ^ 3) with 8.
    assert (Hr : row_bytes depth w = (w + 7) / 8) by (unfold row_bytes; rewrite Hd, Z.mul_1_r; reflexivity).
    rewrite <- Hr, plane_idx; [|tauto|lia|lia|rewrite Hr; lia].
    unfold enc_samples. replace (depth =? 1) with true by lia. rewrite idx_map, idx_zseq by lia. cbn [option_map]. f_equal.
    assert (Hl : Z.land (Z.lnot x) 7 = 7 - x mod 8).
    { change 7 with (Z.ones 3) at 1. rewrite Z.land_ones by lia. change (2 ^ 3) with 8. unfold Z.lnot. lia. }
    rewrite Hl, Z.shiftl_mul_pow2, Z.mul_1_l by lia.
    pose proof (Z.div_mod x 8 ltac:(lia)) as Hdm. pose proof (Z.mod_pos_bound x 8 ltac:(lia)) as Hm.
    remember (x / 8) as q eqn:Eq. remember (x mod 8) as m eqn:Em. clear Eq Em.
    assert (HF : forall k, f k y = 0 \/ f k y = 1) by (intros k; specialize (Hf k y); rewrite Hd in Hf; lia).
    unfold be_bits. cbn [map fold_left].
    rewrite Hdm.
    assert (Hm' : m = 0 \/ m = 1 \/ m = 2 \/ m = 3 \/ m = 4 \/ m = 5 \/ m = 6 \/ m = 7) by lia.
    pose proof (HF (8 * q + 0)) as B0. pose proof (HF (8 * q + 1)) as B1. pose proof (HF (8 * q + 2)) as B2. pose proof (HF (8 * q + 3)) as B3.
    pose proof (HF (8 * q + 4)) as B4. pose proof (HF (8 * q + 5)) as B5. pose proof (HF (8 * q + 6)) as B6. pose proof (HF (8 * q + 7)) as B7.
    clear - B0 B1 B2 B3 B4 B5 B6 B7 Hm'.
    destruct Hm' as [-> |[-> |[-> |[-> |[-> |[-> |[-> | -> ]]]]]]];
    generalize dependent (f (8 * q + 0) y); generalize dependent (f (8 * q + 1) y); generalize dependent (f (8 * q + 2) y);
    generalize dependent (f (8 * q + 3) y); generalize dependent (f (8 * q + 4) y); generalize dependent (f (8 * q + 5) y);
    generalize dependent (f (8 * q + 6) y); generalize dependent (f (8 * q + 7) y);
    intros ? [-> | ->] ? [-> | ->] ? [-> | ->] ? [-> | ->] ? [-> | ->] ? [-> | ->] ? [-> | ->] ? [-> | ->]; reflexivity.
  Qed.
End planes.

(** * Colours *)

Definition depth_ok (d : Z) : Prop := d = 1 \/ d = 8 \/ d = 16 \/ d = 32.

Lemma find_depth depth mode a k : findPicker depth mode a = Some k -> depth = 8 \/ depth = 16 \/ depth = 32.
Proof.
  unfold findPicker, findNGrayPicker, findNRGBAPicker, findNCMYKAPicker.
  destruct (_ || _); [|destruct (_ =? 3); [|destruct (_ =? 4); [|easy]]];
  (destruct (depth =? 8) eqn:E8; [lia|]; destruct (depth =? 16) eqn:E16; [lia|]); try easy; destruct (depth =? 32) eqn:E32; try easy; lia.
Qed.

Lemma picker_samples depth mode (alpha : bool) k r fs pk x y : findPicker depth mode alpha = Some k ->
  Forall (samples_ok depth) fs -> setSource k r (map (enc_plane depth (rdx r) (rdy r)) fs) = Some pk ->
  pt_in (Pt x y) r = true ->
  let at_ := fun f : Z -> Z -> Z => f (x - rx0 r) (y - ry0 r) in
  let n := Z.to_nat (if mode =? 3 then 3 else if mode =? 4 then 4 else 1) in
  exists c, picker_at pk x y = Some c /\
    pixel_colour depth mode (map at_ (firstn n fs)) (if alpha then at_ (nth n fs (fun _ _ => 0)) else opaque depth) = Some c.
Proof.
  intros Hk Hfs Hs Hin at_ n. unfold pt_in in Hin. cbn [px py] in Hin.
  assert (Hx : 0 <= x - rx0 r < rdx r) by (unfold rdx; lia). assert (Hy : 0 <= y - ry0 r < rdy r) by (unfold rdy; lia).
  assert (Hw : 0 <= rdx r) by lia.
  unfold setSource in Hs. destruct (zlen (map _ fs) <? planes k) eqn:El; [easy|]. injection Hs as <-. rewrite zlen_map in El.
  assert (S8 : forall f, samples_ok depth f -> depth = 8 -> s8 (enc_plane depth (rdx r) (rdy r) f) ((y - ry0 r) * rdx r + x - rx0 r) = Some (at_ f)).
  { intros f Hf Hd. replace ((y - ry0 r) * rdx r + x - rx0 r) with ((y - ry0 r) * rdx r + (x - rx0 r)) by lia. now apply s8_at. }
  assert (S16 : forall f, samples_ok depth f -> depth = 16 -> s16 (enc_plane depth (rdx r) (rdy r) f) ((y - ry0 r) * rdx r + x - rx0 r) = Some (at_ f)).
  { intros f Hf Hd. replace ((y - ry0 r) * rdx r + x - rx0 r) with ((y - ry0 r) * rdx r + (x - rx0 r)) by lia. now apply s16_at. }
  assert (S32 : forall f, samples_ok depth f -> depth = 32 -> s32 (enc_plane depth (rdx r) (rdy r) f) ((y - ry0 r) * rdx r + x - rx0 r) = Some (at_ f)).
  { intros f Hf Hd. replace ((y - ry0 r) * rdx r + x - rx0 r) with ((y - ry0 r) * rdx r + (x - rx0 r)) by lia. now apply s32_at. }
  clearbody at_. subst n. set (PL := enc_plane depth (rdx r) (rdy r)) in *. clearbody PL. unfold picker_at, plane. cbn [pk_kind pk_rect pk_src].
  assert (Hm : mode = 0 \/ mode = 1 \/ mode = 3 \/ mode = 4).
  { unfold findPicker in Hk. destruct (_ || _) eqn:E01; [lia|]. destruct (_ =? 3) eqn:E3; [lia|]. destruct (_ =? 4) eqn:E4; [lia|easy]. }
  destruct (find_depth _ _ _ _ Hk) as [-> |[-> | -> ]], Hm as [-> |[-> |[-> | -> ]]], alpha; vm_compute in Hk;
    try discriminate Hk; injection Hk as <-; cbn [planes] in El |- *;
    (destruct Hfs as [|f0 fs Hf0 Hfs]; [exfalso; cbn in El; lia|]).
  all: try (destruct Hfs as [|f1 fs Hf1 Hfs]; [exfalso; cbn in El; lia|]).
  all: try (destruct Hfs as [|f2 fs Hf2 Hfs]; [exfalso; cbn in El; lia|]).
  all: try (destruct Hfs as [|f3 fs Hf3 Hfs]; [exfalso; cbn in El; lia|]).
  all: try (destruct Hfs as [|f4 fs Hf4 Hfs]; [exfalso; cbn in El; lia|]).
  all: eexists; (split; [|reflexivity]).
  all: match goal with
       | |- context [firstn (Z.to_nat 1)] => change (Z.to_nat 1) with 1%nat
       | |- context [firstn (Z.to_nat 2)] => change (Z.to_nat 2) with 2%nat
       | |- context [firstn (Z.to_nat 3)] => change (Z.to_nat 3) with 3%nat
       | |- context [firstn (Z.to_nat 4)] => change (Z.to_nat 4) with 4%nat
       | |- context [firstn (Z.to_nat 5)] => change (Z.to_nat 5) with 5%nat
       end; cbn [map firstn].
  all: repeat match goal with |- context [idx (?a :: ?l) ?j] =>
         let v := eval cbv in (nth_error (a :: l) (Z.to_nat j)) in change (idx (a :: l) j) with v end; cbv iota beta.
  all: rewrite ?S8, ?S16, ?S32 by (assumption || reflexivity); reflexivity.
Qed.

Lemma find_gray_depth depth k : findGrayPicker depth = Some k -> depth_ok depth.
Proof.
  unfold findGrayPicker, depth_ok. destruct (depth =? 1) eqn:E1; [lia|]. destruct (depth =? 8) eqn:E8; [lia|].
  destruct (depth =? 16) eqn:E16; [lia|]. destruct (depth =? 32) eqn:E32; [lia|easy].
Qed.

Lemma channel_samples depth k r f fs pk x y : findGrayPicker depth = Some k ->
  samples_ok depth f -> setSource k r (enc_plane depth (rdx r) (rdy r) f :: fs) = Some pk ->
  pt_in (Pt x y) r = true ->
  picker_at pk x y = Some (channel_colour depth (f (x - rx0 r) (y - ry0 r))).
Proof.
  intros Hk Hf Hs Hin. unfold pt_in in Hin. cbn [px py] in Hin.
  assert (Hx : 0 <= x - rx0 r < rdx r) by (unfold rdx; lia). assert (Hy : 0 <= y - ry0 r < rdy r) by (unfold rdy; lia).
  assert (Hw : 0 <= rdx r) by lia.
  assert (Hp : planes k = 1 /\ match k with PkPalette _ => False | _ => True end).
  { unfold findGrayPicker in Hk. repeat (destruct (_ =? _) in Hk; [injection Hk as <-; split; [reflexivity|exact I]|]). easy. }
  unfold setSource in Hs. destruct (_ <? _); [easy|]. injection Hs as <-.
  unfold picker_at, plane. cbn [pk_kind pk_rect pk_src]. rewrite (proj1 Hp). change (Z.to_nat 1) with 1%nat. cbn [firstn].
  rewrite idx_cons_0. replace ((y - ry0 r) * rdx r + x - rx0 r) with ((y - ry0 r) * rdx r + (x - rx0 r)) by lia.
  destruct (find_gray_depth _ _ Hk) as [-> |[-> |[-> | -> ]]]; vm_compute in Hk; injection Hk as <-; unfold o1.
  - pose proof (bit_at 1 (rdx r) (rdy r) f Hw Hf _ _ Hx Hy eq_refl) as H.
    match goal with |- context [idx ?l ?i] => destruct (idx l i) as [v|]; [|discriminate H] end.
    cbn [option_map] in H |- *. injection H as ->. reflexivity.
  - rewrite s8_at by assumption || reflexivity. reflexivity.
  - rewrite s16_at by assumption || reflexivity. reflexivity.
  - rewrite s32_at by assumption || reflexivity. reflexivity.
Qed.

Lemma palette_samples pal r f pk fs x y : samples_ok 8 f ->
  setSource (PkPalette pal) r (enc_plane 8 (rdx r) (rdy r) f :: fs) = Some pk -> pt_in (Pt x y) r = true ->
  picker_at pk x y = idx pal (f (x - rx0 r) (y - ry0 r)).
Proof.
  intros Hf Hs Hin. unfold pt_in in Hin. cbn [px py] in Hin.
  assert (Hx : 0 <= x - rx0 r < rdx r) by (unfold rdx; lia). assert (Hy : 0 <= y - ry0 r < rdy r) by (unfold rdy; lia).
  assert (Hw : 0 <= rdx r) by lia.
  unfold setSource in Hs. destruct (_ <? _); [easy|]. injection Hs as <-.
  unfold picker_at, plane. cbn [pk_kind pk_rect pk_src planes]. change (Z.to_nat 1) with 1%nat. cbn [firstn].
  rewrite idx_cons_0. replace ((y - ry0 r) * rdx r + x - rx0 r) with ((y - ry0 r) * rdx r + (x - rx0 r)) by lia.
  pose proof (s8_at 8 (rdx r) (rdy r) f Hw Hf _ _ Hx Hy eq_refl) as H. unfold s8 in H. rewrite H. reflexivity.
Qed.

(** * Bounds *)

Lemma pos_bound w h x y : 0 <= x < w -> 0 <= y < h -> 0 <= y * w + x < w * h.
Proof. nia. Qed.
Lemma picker_total_at depth (ps : list bytes) r k x y :
  (depth = 8 \/ depth = 16 \/ depth = 32) -> pt_in (Pt x y) r = true ->
  (exists mode a, findPicker depth mode a = Some k) \/ findGrayPicker depth = Some k ->
  planes k = zlen ps -> Forall (fun p => zlen p = plane_size depth r) ps ->
  exists c, picker_at (Picker k r ps) x y = Some c.
Proof.
  intros Hd Hin Hk Hn Hps. unfold pt_in in Hin. cbn [px py] in Hin.
  assert (Hx : 0 <= x - rx0 r < rdx r) by (unfold rdx; lia). assert (Hy : 0 <= y - ry0 r < rdy r) by (unfold rdy; lia).
  pose proof (pos_bound _ _ _ _ Hx Hy) as Hpos.
  set (pos := (y - ry0 r) * rdx r + x - rx0 r). assert (Epos : 0 <= pos < rdx r * rdy r) by (unfold pos; lia).
  set (PP := fun p : bytes => zlen p = plane_size depth r). change (Forall PP ps) in Hps.
  assert (S8 : forall p, PP p -> depth = 8 -> exists v, s8 p pos = Some v).
  { intros p Hp E. unfold PP, plane_size in Hp. unfold s8. apply idx_in. subst depth.
    replace ((rdx r * 8 + 7) / 8) with (rdx r) in Hp by lia. lia. }
  assert (S16 : forall p, PP p -> depth = 16 -> exists v, s16 p pos = Some v).
  { intros p Hp E. unfold PP, plane_size in Hp. unfold s16. rewrite Z.shiftl_mul_pow2 by lia. change (2 ^ 1) with 2. subst depth.
    replace ((rdx r * 16 + 7) / 8) with (2 * rdx r) in Hp by lia. apply readUint16_total; nia. }
  assert (S32 : forall p, PP p -> depth = 32 -> exists v, s32 p pos = Some v).
  { intros p Hp E. unfold PP, plane_size in Hp. unfold s32. rewrite Z.shiftl_mul_pow2 by lia. change (2 ^ 2) with 4. subst depth.
    replace ((rdx r * 32 + 7) / 8) with (4 * rdx r) in Hp by lia. apply readUint32_total; nia. }
  unfold picker_at, plane. cbn [pk_kind pk_rect pk_src]. fold pos. cbv zeta beta. clearbody pos PP.
  assert (Hm : (exists mode a, findPicker depth mode a = Some k /\ (mode = 0 \/ mode = 1 \/ mode = 3 \/ mode = 4)) \/ findGrayPicker depth = Some k).
  { destruct Hk as [(mode & a & Hk)|]; [left|now right]. exists mode, a. split; [exact Hk|].
    unfold findPicker in Hk. destruct (_ || _) eqn:E01; [lia|]. destruct (_ =? 3) eqn:E3; [lia|]. destruct (_ =? 4) eqn:E4; [lia|easy]. }
  clear Hk.
  destruct Hd as [-> |[-> | -> ]], Hm as [(mode & a & Hk & [-> |[-> |[-> | -> ]]])|Hk];
    try destruct a; vm_compute in Hk; try discriminate Hk; injection Hk as <-; cbn [planes] in Hn;
    (destruct Hps as [|f0 fs Hf0 Hfs]; [exfalso; cbn in Hn; lia|]).
  all: try (destruct Hfs as [|f1 fs Hf1 Hfs]; [exfalso; cbn in Hn; lia|]).
  all: try (destruct Hfs as [|f2 fs Hf2 Hfs]; [exfalso; cbn in Hn; lia|]).
  all: try (destruct Hfs as [|f3 fs Hf3 Hfs]; [exfalso; cbn in Hn; lia|]).
  all: try (destruct Hfs as [|f4 fs Hf4 Hfs]; [exfalso; cbn in Hn; lia|]).
  all: repeat match goal with |- context [idx (?a :: ?l) ?j] =>
         let v := eval cbv in (nth_error (a :: l) (Z.to_nat j)) in change (idx (a :: l) j) with v end; cbv iota beta.
  all: repeat match goal with
       | |- context [s8 ?p ?q] => let v := fresh "v" in let H := fresh in destruct (S8 p ltac:(assumption) ltac:(reflexivity)) as [v H]; rewrite H; clear H
       | |- context [s16 ?p ?q] => let v := fresh "v" in let H := fresh in destruct (S16 p ltac:(assumption) ltac:(reflexivity)) as [v H]; rewrite H; clear H
       | |- context [s32 ?p ?q] => let v := fresh "v" in let H := fresh in destruct (S32 p ltac:(assumption) ltac:(reflexivity)) as [v H]; rewrite H; clear H
       end.
  all: cbn [o1 oap option_map]; eexists; reflexivity.
Qed.

Lemma gray1_total_at depth p ps r x y : depth_ok depth -> pt_in (Pt x y) r = true -> zlen p = plane_size depth r ->
  exists c, picker_at (Picker PkGray1 r (p :: ps)) x y = Some c.
Proof.
  intros Hd Hin Hp. unfold pt_in in Hin. cbn [px py] in Hin.
  assert (Hx : 0 <= x - rx0 r < rdx r) by (unfold rdx; lia). assert (Hy : 0 <= y - ry0 r < rdy r) by (unfold rdy; lia).
  unfold picker_at, plane. cbn [pk_kind pk_rect pk_src]. rewrite idx_cons_0. unfold plane_size in Hp.
  rewrite !Z.shiftr_div_pow2 by lia. change (2 ^ 3) with 8.
  assert (Hr : (rdx r + 7) / 8 <= (rdx r * depth + 7) / 8) by (apply Z.div_le_mono; [lia|]; destruct Hd as [-> |[-> |[-> | -> ]]]; lia).
  set (w8 := (rdx r + 7) / 8) in *. set (wd := (rdx r * depth + 7) / 8) in *.
  assert (0 <= (x - rx0 r) / 8 < w8) by (unfold w8; split; [apply Z.div_pos; lia|]; apply Z.div_lt_upper_bound; lia).
  clearbody w8 wd. destruct (idx_in p (w8 * (y - ry0 r) + (x - rx0 r) / 8)) as [v ->]; [nia|]. eexists; reflexivity.
Qed.

Lemma palette_total_at depth p ps r pal x y : (depth = 8 \/ depth = 16 \/ depth = 32) -> pt_in (Pt x y) r = true ->
  bytes_ok p -> zlen p = plane_size depth r -> 256 <= zlen pal ->
  exists c, picker_at (Picker (PkPalette pal) r (p :: ps)) x y = Some c.
Proof.
  intros Hd Hin Hb Hp Hpal. unfold pt_in in Hin. cbn [px py] in Hin.
  assert (Hx : 0 <= x - rx0 r < rdx r) by (unfold rdx; lia). assert (Hy : 0 <= y - ry0 r < rdy r) by (unfold rdy; lia).
  unfold picker_at, plane. cbn [pk_kind pk_rect pk_src]. rewrite idx_cons_0. unfold plane_size in Hp.
  assert (Hr : rdx r <= (rdx r * depth + 7) / 8) by (destruct Hd as [-> |[-> | -> ]]; lia).
  set (wd := (rdx r * depth + 7) / 8) in *. clearbody wd.
  destruct (idx_in p ((y - ry0 r) * rdx r + x - rx0 r)) as [v E]; [nia|]. rewrite E.
  apply idx_in. pose proof (Forall_idx _ _ _ _ Hb E) as H. unfold is_byte in H. lia.
Qed.

(** * The decoder keeps the size of the destination *)

Lemma pb_line_len fuel : forall done dest buf ln i d' e', pb_line fuel done dest buf ln i = Ok (d', e') ->
  zlen d' + zlen e' = zlen done + zlen dest.
Proof.
  induction fuel as [|fuel IH]; intros done dest buf ln i d' e'; cbn [pb_line]; [easy|].
  destruct (i <? ln); [|now intros [= <- <-]]. destruct (idx buf i) as [c|]; [|easy].
  destruct (c <=? 127) eqn:E1.
  - destruct ((zlen dest <? c + 1) || _) eqn:E2; [easy|]. intros H. apply IH in H. rewrite H, !zlen_app.
    rewrite !zlen_firstn, !zlen_skipn. unfold zlen in *. rewrite firstn_length, skipn_length. lia.
  - destruct (c =? 128); [apply IH|]. destruct ((zlen dest <? _) || _) eqn:E2; [easy|]. destruct (idx buf (i + 1)); [|easy].
    intros H. apply IH in H. pose proof (u8_range (- c)). rewrite H, zlen_app, zlen_zrepeat, zlen_skipn by lia. unfold zlen in *. lia.
Qed.
Lemma pb_lines_len lens : forall done dest buf out, pb_lines done dest buf lens = Ok out -> zlen out = zlen done + zlen dest.
Proof.
  induction lens as [|ln lens IH]; intros done dest buf out; cbn [pb_lines].
  - intros [= <-]. apply zlen_app.
  - destruct (pb_line _ _ _ _ _ _) as [[d e]| | |] eqn:E; cbn [obind]; try easy. destruct (slice _ _ _); [|easy].
    intros H. apply IH in H. rewrite H. eapply pb_line_len; eauto.
Qed.
Lemma pb_tasks_len k : forall dest buf lens offs width step ofs ts,
  0 <= ofs * width <= zlen dest ->
  pb_tasks k dest buf lens offs width step ofs = Some ts ->
  zsum (map (fun t => zlen (pt_dest t)) ts) = zlen dest - ofs * width.
Proof.
  induction k as [|k IH]; intros dest buf lens offs width step ofs ts Ho; cbn [pb_tasks].
  - destruct (slice dest _ _) eqn:E1; [|easy]. destruct (idx offs ofs); [|easy]. destruct (slice lens _ _); [|easy]. destruct (slice buf _ _); [|easy].
    intros [= <-]. cbn [map zsum fold_right pt_dest]. apply slice_zlen in E1. lia.
  - destruct (slice dest _ _) eqn:E1; [|easy]. destruct (idx offs ofs); [|easy]. destruct (idx offs (ofs + step)); [|easy].
    destruct (slice lens _ _); [|easy]. destruct (slice buf _ _); [|easy].
    destruct (pb_tasks k _ _ _ _ _ _ _) as [ts'|] eqn:E2; [|easy]. intros [= <-]. cbn [map zsum fold_right pt_dest].
    apply IH in E2.
    + unfold zsum in E2. rewrite E2. apply slice_zlen in E1. lia.
    + apply slice_some in E1. lia.
Qed.
Lemma pb_join_len rs : forall out ns, pb_join rs = Ok out -> Forall2 (fun r n => forall d, r = Ok d -> zlen d = n) rs ns -> zlen out = zsum ns.
Proof.
  induction rs as [|r rs IH]; intros out ns; cbn [pb_join].
  - intros [= <-] H. inversion H. reflexivity.
  - intros H H2. inversion H2 as [|? n ? ns' H3 H4]; subst. destruct r as [d| | |]; destruct (pb_join rs) as [d'| | |] eqn:E; try easy.
    injection H as <-. rewrite zlen_app, (H3 d eq_refl), (IH d' ns' eq_refl H4). reflexivity.
Qed.
Lemma packbits_len procs dest buf width lines lens out :
  decodePackBits_data procs dest buf width lines lens = Ok out -> zlen out = zlen dest.
Proof.
  unfold decodePackBits_data. destruct (_ =? _)%nat.
  - intros H. apply pb_lines_len in H. rewrite H. cbn. lia.
  - destruct (pb_tasks _ _ _ _ _ _ _ _) as [ts|] eqn:E; [|easy]. intros H.
    apply pb_tasks_len in E; [|pose proof (zlen_nonneg dest); lia].
    rewrite (pb_join_len _ _ (map (fun t => zlen (pt_dest t)) ts) H); [lia|].
    clear. induction ts; cbn [map]; constructor; [|assumption]. intros d Hd. unfold pb_run in Hd. apply pb_lines_len in Hd. rewrite Hd. cbn. lia.
Qed.
Lemma delta_row16_len w : forall d buf i b' i', delta_row16 w d buf i = Some (b', i') -> zlen b' = zlen buf.
Proof.
  induction w; intros d buf i b' i'; cbn [delta_row16]; [now intros [= <- <-]|].
  destruct (readUint16 _ _); [|easy]. destruct (writeUint16 _ _ _) eqn:E; [|easy]. intros H. apply IHw in H. rewrite H.
  unfold writeUint16 in E. destruct (upd buf i _) eqn:E1; [|easy]. apply upd_zlen in E, E1. lia.
Qed.
Lemma delta_row32_len w : forall d buf i b' i', delta_row32 w d buf i = Some (b', i') -> zlen b' = zlen buf.
Proof.
  induction w; intros d buf i b' i'; cbn [delta_row32]; [now intros [= <- <-]|].
  destruct (readUint32 _ _); [|easy]. destruct (writeUint32 _ _ _) eqn:E; [|easy]. intros H. apply IHw in H. rewrite H.
  unfold writeUint32 in E. destruct (upd buf i _) eqn:E1; [|easy]. destruct (upd _ (i + 1) _) eqn:E2; [|easy]. destruct (upd _ (i + 2) _) eqn:E3; [|easy].
  apply upd_zlen in E, E1, E2, E3. lia.
Qed.
Lemma delta_rows_len row (Hrow : forall b i b' i', row b i = Some (b', i') -> zlen b' = zlen b) fuel : forall buf i out,
  delta_rows row fuel buf i = Ok out -> zlen out = zlen buf.
Proof.
  induction fuel; intros buf i out; cbn [delta_rows]; (destruct (_ <? _); [|now intros [= <-]]); [easy|].
  destruct (row buf i) as [[b' i']|] eqn:E; [|easy]. intros H. apply IHfuel in H. apply Hrow in E. lia.
Qed.
Lemma delta_len buf w depth out : decodeDelta buf w depth = Ok out -> zlen out = zlen buf.
Proof.
  unfold decodeDelta. destruct (depth =? 16); [apply delta_rows_len; intros b i b' i'; apply delta_row16_len|].
  destruct (depth =? 32); [apply delta_rows_len; intros b i b' i'; apply delta_row32_len|now intros [= <-]].
Qed.

Lemma run_decompress_len inflate kind procs cm n sh r depth chs large s data l rest evs : 0 <= n ->
  run inflate kind (decompress procs cm n sh r depth chs large) s = (Ok (data, l, rest), evs) -> zlen data = n.
Proof.
  intros Hn. unfold decompress. destruct (cm =? 0).
  { cbn [bind rfull run]. destruct (zlen s <? n) eqn:E; [easy|]. intros [= <- _ _ _]. rewrite zlen_firstn. lia. }
  destruct (cm =? 1).
  { unfold decodePackBits. rewrite run_bind. unfold run_next. destruct (run _ _ (make_ok _) s) as [[[? s1]| | |] ?]; try easy.
    rewrite run_bind. unfold run_next. destruct (run _ _ (rfull _) s1) as [[[buf s2]| | |] ?]; try easy.
    rewrite run_bind. unfold run_next. destruct (run _ _ (lift _) s2) as [[[lens s3]| | |] ?]; try easy.
    rewrite run_bind. unfold run_next. destruct (run _ _ (make_ok _) s3) as [[[? s4]| | |] ?]; try easy.
    rewrite run_bind. unfold run_next. destruct (run _ _ (rfull _) s4) as [[[d s5]| | |] ?]; try easy.
    rewrite run_bind. unfold run_next. destruct (decodePackBits_data _ _ _ _ _ _) as [out| | |] eqn:E; cbn [of_outcome run]; try easy.
    intros [= <- _ _ _]. apply packbits_len in E. rewrite E, zlen_zrepeat; lia. }
  assert (Z : forall b c s1 ev, run inflate kind (decodeZLIB n sh) s = (Ok (b, c, s1), ev) -> zlen b = n).
  { intros b c s1 ev. unfold decodeZLIB. cbn [run]. unfold inflate_ok. destruct (inflate _ _) as [[out c']|]; [|easy].
    destruct (_ && _ && _) eqn:E; [|easy]. intros [= <- _ _ _]. lia. }
  destruct (cm =? 2); [intros H; eapply Z; eauto|]. destruct (cm =? 3); [|easy].
  rewrite run_bind. unfold run_next. destruct (run _ _ (decodeZLIB n sh) s) as [[[[b c] s1]| | |] ev] eqn:E; try easy.
  rewrite run_bind. unfold run_next. destruct (decodeDelta _ _ _) as [out| | |] eqn:E2; cbn [of_outcome run]; try easy.
  intros [= <- _ _ _]. rewrite (delta_len _ _ _ _ E2). eapply Z; reflexivity.
Qed.

(** * The merged image *)

Lemma make_picker_kind c k : makePicker c = Ok k ->
  (cfg_mode c = 2 /\ exists pal, k = PkPalette pal /\ palette c = Some pal) \/
  (cfg_mode c = 0 /\ k = PkGray1) \/
  exists a, findPicker (cfg_depth c) (cfg_mode c) a = Some k.
Proof.
  unfold makePicker. destruct (cfg_mode c =? 2) eqn:E2.
  - destruct (palette c) as [p|] eqn:E; [|easy]. intros [= <-]. left. split; [lia|]. eauto.
  - destruct (cfg_mode c =? 0) eqn:E0; [intros [= <-]; right; left; split; [lia|reflexivity]|]. right. right.
    destruct (_ <? _).
    + destruct (hasAlphaID0 _) as [a|]; cbn [chk obind] in *; [|easy]. exists a. destruct (findPicker _ _ a); [congruence|easy].
    + exists false. destruct (findPicker _ _ false); [congruence|easy].
Qed.

Lemma merged_planes_len data size chs : 0 <= size -> zlen data = size * chs -> Forall (fun p => zlen p = size) (merged_planes data size chs).
Proof.
  intros Hs Hl. unfold merged_planes. apply Forall_forall. intros p Hp. apply in_map_iff in Hp. destruct Hp as (i & <- & Hi).
  assert (0 <= i < chs). { unfold zseq in Hi. apply in_map_iff in Hi. destruct Hi as (j & <- & Hj). apply in_seq in Hj. lia. }
  rewrite zlen_firstn, zlen_skipn. nia.
Qed.

Lemma merged_run inflate kind procs cfg s data chm pk l rest evs : config_ok cfg ->
  run inflate kind (decode_merged procs cfg) s = (Ok (data, chm, pk, l, rest), evs) ->
  zlen data = plane_size (cfg_depth cfg) (cfg_rect cfg) * cfg_channels cfg /\
  exists k, makePicker cfg = Ok k /\ setSource k (cfg_rect cfg) (merged_planes data (plane_size (cfg_depth cfg) (cfg_rect cfg)) (cfg_channels cfg)) = Some pk.
Proof.
  intros Hc. unfold decode_merged. rewrite Z.shiftr_div_pow2 by lia. change (2 ^ 3) with 8. fold (plane_size (cfg_depth cfg) (cfg_rect cfg)).
  set (size := plane_size _ _).
  assert (Hsz : 0 <= size).
  { destruct Hc as (w & h & Er & _ & Hch & Hw & Hh & Hd & _). unfold size, plane_size. rewrite Er. unfold rdx, rdy. cbn [rx0 rx1 ry0 ry1].
    apply Z.mul_nonneg_nonneg; [apply Z.div_pos; lia|lia]. }
  assert (Hch : 1 <= cfg_channels cfg) by (destruct Hc as (w & h & _ & _ & H & _); lia).
  rewrite run_bind. unfold run_next. destruct (run _ _ (make_ok _) s) as [[[? s1]| | |] ?]; try easy.
  rewrite run_bind. unfold run_next. destruct (run _ _ (lift _) s1) as [[[gk s2]| | |] ?]; try easy.
  rewrite run_bind. unfold run_next. destruct (makePicker cfg) as [k| | |]; cbn [of_outcome run]; try easy.
  rewrite run_bind. unfold run_next. destruct (run _ _ (lift _) s2) as [[[? s3]| | |] ?]; try easy.
  rewrite run_bind. unfold run_next. destruct (run _ _ (rfull _) s3) as [[[b s4]| | |] ?]; try easy.
  rewrite run_bind. unfold run_next. destruct (run _ _ (lift _) s4) as [[[cm s5]| | |] ?]; try easy.
  rewrite run_bind. unfold run_next. destruct (run _ _ (decompress _ _ _ _ _ _ _ _) s5) as [[[[d dl] s6]| | |] ?] eqn:E; try easy.
  apply run_decompress_len in E; [|nia].
  rewrite run_bind. unfold run_next. destruct (setSource _ _ _) as [pk'|] eqn:Es; cbn [lift run]; try easy.
  intros [= <- _ <- _ _ _]. split; [exact E|]. exists k. split; [reflexivity|exact Es].
Qed.

Lemma decode_picker inflate kind procs o s f n rest evs : bytes_ok s -> o_skip_merged o = false ->
  Decode inflate kind procs o s = (Ok (f, n, rest), evs) ->
  exists pk, f_picker f = Some pk /\ pk_rect pk = cfg_rect (f_config f) /\ config_ok (f_config f) /\
    makePicker (f_config f) = Ok (pk_kind pk) /\
    zlen (pk_src pk) = planes (pk_kind pk) /\
    Forall (fun p => zlen p = plane_size (cfg_depth (f_config f)) (cfg_rect (f_config f))) (pk_src pk) /\
    (bytes_ok (f_data f) -> Forall bytes_ok (pk_src pk)).
Proof.
  intros Hs Ho. unfold Decode, decode_prog. rewrite run_bind. unfold run_next.
  pose proof (wp_run inflate True kind (decodeConfig_prog (Ev := event) (fuel_for s)) (fun a _ _ => config_ok (fst a)) s [] Hs) as W.
  specialize (W (wp_decodeConfig True (fuel_for s) (zlen s) [] _ ltac:(unfold fuel_for, zlen; lia) (fun c _ _ Hc _ _ => Hc))).
  destruct (run _ _ (decodeConfig_prog _) s) as [[[[cfg l] s1]| | |] ev1]; try easy. destruct W as [Hc _]. cbn [fst] in Hc.
  destruct (o_config_loaded o cfg); [easy|]. rewrite run_bind. unfold run_next.
  destruct (run _ _ (readLayerAndMaskInfo _ _ _ _) s1) as [[[[[t i] l2] s2]| | |] ev2]; try easy. rewrite Ho.
  rewrite run_bind. unfold run_next.
  destruct (run _ _ (decode_merged _ _) s2) as [[[[[[d chm] pk] l3] s3]| | |] ev3] eqn:E; try easy.
  intros [= <- _ _ _]. cbn [f_picker f_config f_data]. exists pk. split; [reflexivity|].
  apply merged_run in E; [|exact Hc]. destruct E as (Hl & k & Hk & Hset).
  unfold setSource in Hset. destruct (_ <? _) eqn:El; [easy|]. injection Hset as <-. cbn [pk_rect pk_kind pk_src].
  split; [reflexivity|]. split; [exact Hc|]. split; [exact Hk|]. split.
  { rewrite zlen_firstn. assert (0 <= planes k) by (destruct k; cbn; lia). lia. }
  split.
  - apply Forall_firstn'. apply merged_planes_len; [|exact Hl].
    destruct Hc as (w & h & Er & _ & Hch & Hw & Hh & Hd & _). unfold plane_size. rewrite Er. unfold rdx, rdy. cbn [rx0 rx1 ry0 ry1].
    apply Z.mul_nonneg_nonneg; [apply Z.div_pos; lia|lia].
  - intros Hb. apply Forall_firstn'. unfold merged_planes. apply Forall_forall. intros p Hp. apply in_map_iff in Hp. destruct Hp as (j & <- & _).
    now apply Forall_firstn', Forall_skipn'.
Qed.

Lemma decode_at inflate kind procs o s f n rest evs x y : bytes_ok s -> o_skip_merged o = false ->
  Decode inflate kind procs o s = (Ok (f, n, rest), evs) ->
  (cfg_mode (f_config f) = 2 -> cfg_depth (f_config f) <> 1 /\ bytes_ok (f_data f) /\
     exists pal, palette (f_config f) = Some pal /\ 256 <= zlen pal) ->
  pt_in (Pt x y) (cfg_rect (f_config f)) = true ->
  exists pk c, f_picker f = Some pk /\ picker_at pk x y = Some c.
Proof.
  intros Hs Ho H Hpal Hin. destruct (decode_picker _ _ _ _ _ _ _ _ _ Hs Ho H) as (pk & Hpk & Hr & Hc & Hk & Hn & HF & HB).
  exists pk. destruct pk as [k r ps]. cbn [pk_kind pk_rect pk_src] in *. subst r.
  assert (Hd : depth_ok (cfg_depth (f_config f))) by (destruct Hc as (w & h & _ & _ & _ & _ & _ & Hd & _); exact Hd).
  destruct (make_picker_kind _ _ Hk) as [(Hm & pal & -> & Ep)|[(Hm & -> )|(a & Ha)]].
  - destruct (Hpal Hm) as (Hd1 & Hb & pal' & Ep' & Hl). rewrite Ep in Ep'. injection Ep' as <-.
    destruct ps as [|p ps]; [discriminate Hn|]. inversion HF; subst. specialize (HB Hb). inversion HB; subst.
    destruct (palette_total_at (cfg_depth (f_config f)) p ps (cfg_rect (f_config f)) pal x y) as [c E]; try assumption; eauto.
    unfold depth_ok in Hd. tauto.
  - destruct ps as [|p ps]; [discriminate Hn|]. inversion HF; subst.
    destruct (gray1_total_at (cfg_depth (f_config f)) p ps (cfg_rect (f_config f)) x y) as [c E]; try assumption; eauto.
  - destruct (picker_total_at (cfg_depth (f_config f)) ps (cfg_rect (f_config f)) k x y) as [c E]; try assumption; eauto.
    eapply find_depth; eauto.
Qed.

(** * The hooks of package image *)

(** Programs that do the same reads, for different types of callbacks. *)
Fixpoint same_prog {E1 E2 A} (p : prog E1 A) (q : prog E2 A) : Prop :=
  match p, q with
  | Ret a, Ret b => a = b
  | Fail e, Fail e' => e = e'
  | Crash, Crash => True
  | Starve, Starve => True
  | RFull n k, RFull n' k' => n = n' /\ forall b, same_prog (k b) (k' b)
  | RSome n k, RSome n' k' => n = n' /\ forall b, same_prog (k b) (k' b)
  | RDiscard n k, RDiscard n' k' => n = n' /\ forall b, same_prog (k b) (k' b)
  | RZlib w l k, RZlib w' l' k' => w = w' /\ l = l' /\ forall b c, same_prog (k b c) (k' b c)
  | _, _ => False
  end.
Lemma same_bind {E1 E2 A B} (p : prog E1 A) (q : prog E2 A) (f : A -> prog E1 B) (g : A -> prog E2 B) :
  same_prog p q -> (forall a, same_prog (f a) (g a)) -> same_prog (bind p f) (bind q g).
Proof.
  revert q. induction p; intros q; destruct q; cbn [same_prog bind]; try easy; intros Hp Hf.
  - subst. apply Hf.
  - destruct Hp as [-> Hp]. split; [reflexivity|]. intros x. apply H; auto.
  - destruct Hp as [-> Hp]. split; [reflexivity|]. intros x. apply H; auto.
  - destruct Hp as [-> Hp]. split; [reflexivity|]. intros x. apply H; auto.
  - destruct Hp as (-> & -> & Hp). split; [reflexivity|]. split; [reflexivity|]. intros x y. apply H; auto.
Qed.
Lemma same_run inflate {E1 E2 A} kind (p : prog E1 A) : forall (q : prog E2 A), same_prog p q -> forall s,
  fst (run inflate kind p s) = fst (run inflate kind q s).
Proof.
  induction p; intros q; destruct q; cbn [same_prog run]; try easy; intros Hp s.
  - now subst.
  - now subst.
  - destruct Hp as [-> Hp]. destruct (_ <? _); [reflexivity|auto].
  - destruct Hp as [-> Hp]. destruct s; [reflexivity|auto].
  - destruct Hp as [-> Hp]. destruct (_ <? _); [destruct kind; [auto|reflexivity]|]. destruct (_ <? _); [reflexivity|auto].
  - destruct Hp as (-> & -> & Hp). destruct (inflate_ok _ _ _) as [[? ?]|]; [auto|reflexivity].
Qed.
Ltac sstep :=
  match goal with
  | |- same_prog (Ret _) _ => reflexivity
  | |- same_prog (Fail _) _ => reflexivity
  | |- same_prog Crash _ => exact I
  | |- same_prog Starve _ => exact I
  | |- same_prog (rfull _) _ => split; [reflexivity|intros ?; reflexivity]
  | |- same_prog (rsome _) _ => split; [reflexivity|intros ?; reflexivity]
  | |- same_prog (rdiscard _) _ => split; [reflexivity|intros ?; reflexivity]
  | |- same_prog (lift ?x) _ => destruct x; [reflexivity|exact I]
  | |- same_prog (byte_of ?x) _ => unfold byte_of
  | |- same_prog (bind _ _) _ => apply same_bind; [|intros]
  | |- same_prog (if ?c then _ else _) _ => destruct c
  | |- same_prog (match ?x with (_, _) => _ end) _ => destruct x
  | |- same_prog (match ?x with Some _ => _ | None => _ end) _ => destruct x
  | |- same_prog (match ?x with [] => _ | _ :: _ => _ end) _ => destruct x
  end.
Section same.
  Context {E1 E2 : Type}.
  Lemma same_pascal : same_prog (E1 := E1) (E2 := E2) readPascalString readPascalString.
  Proof. unfold readPascalString. repeat sstep. Qed.
  Lemma same_align2 l : same_prog (E1 := E1) (E2 := E2) (adjustAlign2 l) (adjustAlign2 l).
  Proof. unfold adjustAlign2. repeat sstep. Qed.
  Lemma same_resource_loop fuel : forall ln rd m, same_prog (E1 := E1) (E2 := E2) (resource_loop fuel ln rd m) (resource_loop fuel ln rd m).
  Proof.
    induction fuel as [|fuel IH]; intros ln rd m; cbn [resource_loop]; [repeat sstep|].
    repeat (sstep || apply IH || apply same_pascal || apply same_align2).
  Qed.
  Lemma same_decodeConfig fuel : same_prog (E1 := E1) (E2 := E2) (decodeConfig_prog fuel) (decodeConfig_prog fuel).
  Proof. unfold decodeConfig_prog, readImageResource. repeat (sstep || apply same_resource_loop). Qed.
End same.

Lemma hooks_agree inflate kind procs s pk rest : bytes_ok s ->
  image_Decode inflate kind procs s = Ok (Some pk, rest) ->
  exists rest', image_DecodeConfig inflate kind s = Ok (rdx (pk_rect pk), rdy (pk_rect pk), colorModel (pk_kind pk), rest').
Proof.
  intros Hs. unfold image_Decode, decode_hook. rewrite run_bind. unfold run_next.
  destruct (run inflate kind (decode_prog (fuel_for s) procs (Opts true false (fun _ => false))) s) as [[[[f n] s1]| | |] ev] eqn:E; try easy.
  cbn [run fst]. intros [= Hpk <-].
  destruct (decode_picker inflate kind procs (Opts true false (fun _ => false)) s f n s1 ev Hs eq_refl E) as (pk' & Hpk' & Hr & _ & Hk & _).
  rewrite Hpk in Hpk'. injection Hpk' as <-.
  unfold image_DecodeConfig, decodeConfig_hook. rewrite run_bind. unfold run_next.
  unfold decode_prog in E. rewrite run_bind in E. unfold run_next in E.
  pose proof (same_run inflate kind _ _ (same_decodeConfig (E1 := event) (E2 := Empty_set) (fuel_for s)) s) as HS.
  destruct (run (Ev := event) inflate kind (decodeConfig_prog (fuel_for s)) s) as [[[[cfg l] s2]| | |] ev2]; try easy.
  destruct (run (Ev := Empty_set) inflate kind (decodeConfig_prog (fuel_for s)) s) as [[[[cfg' l'] s2']| | |] ev2']; cbn [fst] in HS; try easy.
  injection HS as <- <- <-.
  assert (Hf : f_config f = cfg).
  { cbn [o_config_loaded] in E. rewrite run_bind in E. unfold run_next in E.
    destruct (run _ _ (readLayerAndMaskInfo _ _ _ _) s2) as [[[[[t i] l2] s3]| | |] ev3]; try easy. cbn [o_skip_merged] in E.
    rewrite run_bind in E. unfold run_next in E.
    destruct (run _ _ (decode_merged _ _) s3) as [[[[[[d chm] pk'] l3] s4]| | |] ev4]; try easy. injection E as <- _ _ _. reflexivity. }
  rewrite Hf in Hk, Hr. rewrite run_bind, Hk. unfold run_next. cbn [of_outcome run fst]. rewrite <- Hr. eauto.
Qed.
Lemma hooks_agree_some inflate kind procs s p rest : bytes_ok s ->
  image_Decode inflate kind procs s = Ok (p, rest) ->
  exists pk rest', p = Some pk /\
    image_DecodeConfig inflate kind s = Ok (rdx (pk_rect pk), rdy (pk_rect pk), colorModel (pk_kind pk), rest').
Proof.
  intros Hs H. assert (exists pk, p = Some pk) as [pk ->].
  { revert H. unfold image_Decode, decode_hook. rewrite run_bind. unfold run_next.
    destruct (run inflate kind (decode_prog (fuel_for s) procs (Opts true false (fun _ => false))) s) as [[[[f n] s1]| | |] ev] eqn:E; try easy.
    cbn [run fst]. intros [= <- <-].
    destruct (decode_picker inflate kind procs (Opts true false (fun _ => false)) s f n s1 ev Hs eq_refl E) as (pk' & Hpk' & _). eauto. }
  destruct (hooks_agree _ _ _ _ _ _ Hs H) as [rest' E]. eauto.
Qed.
