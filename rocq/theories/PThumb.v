(** Proofs about thumbnails and transformed rectangles. *)
From Coq Require Import QArith Qround Qminmax.
From Verif Require Import Base BaseFacts MRect MTile MThumb SThumb.
Open Scope Z_scope.

(** * Sheets *)
Lemma quot_pos a b : 0 <= a -> 0 < b -> Z.quot a b = a / b.
Proof. intros. now apply Z.quot_div_nonneg. Qed.

Lemma sheetSide_spec size count : 0 < size < 2 ^ 31 -> 0 <= count < 2 ^ 31 ->
  forall fuel k, 0 <= k <= 48 -> 49 <= k + Z.of_nat fuel -> 2 ^ k / size <= 2 ^ 17 + 1 ->
  (forall j, 0 <= j < k -> room (2 ^ j) size < count) ->
  exists side, sheetSide fuel (2 ^ k) size count = Some (Some side) /\ smallest_power side size count.
Proof.
  intros Hs Hc. induction fuel as [|fuel IH]; intros k Hk Hf Hq Hj; [lia|]. cbn [sheetSide].
  replace (size =? 0) with false by lia.
  assert (0 < 2 ^ k) as Hp by (apply Z.pow_pos_nonneg; lia).
  rewrite quot_pos by lia. assert (0 <= 2 ^ k / size) as Hq0 by (apply Z.div_pos; lia).
  change (2 ^ 31) with 2147483648 in *. change (2 ^ 17) with 131072 in *.
  rewrite i64_small by nia. destruct (Z.leb_spec count (2 ^ k / size * (2 ^ k / size))) as [Hle|Hlt].
  - exists (2 ^ k). split; [reflexivity|]. exists k. repeat split; try lia; try exact Hle. exact Hj.
  - assert (2 ^ k / size < 65536) as Hb by nia.
    assert (2 ^ k < size * 65536) as Hb2. { pose proof (Z.mul_succ_div_gt (2 ^ k) size). nia. }
    assert (2 ^ k < 2 ^ 47) as Hb3 by (change (2 ^ 47) with (2147483648 * 65536); nia).
    apply Z.pow_lt_mono_r_iff in Hb3; [|lia|lia].
    replace (i64 (2 ^ k + 2 ^ k)) with (2 ^ (k + 1)).
    + apply IH; try lia.
      * rewrite Z.pow_add_r by lia. change (2 ^ 1) with 2. change (2 ^ 17) with 131072.
        pose proof (Z.mul_succ_div_gt (2 ^ k) size). assert (2 ^ k * 2 / size < 131073); [|lia]. apply Z.div_lt_upper_bound; nia.
      * intros j Hj'. destruct (Z.eq_dec j k) as [->|]; [exact Hlt|]. apply Hj. lia.
    + rewrite Z.pow_add_r by lia. change (2 ^ 1) with 2. rewrite i64_small by nia. lia.
Qed.

Lemma room_mono a b size : 0 < size -> 0 <= a <= b -> room a size <= room b size.
Proof.
  intros Hs H. unfold room. assert (0 <= a / size) by (apply Z.div_pos; lia). assert (a / size <= b / size) by (apply Z.div_le_mono; lia). nia.
Qed.
Lemma smallest_error side size count : 0 < size -> smallest_power side size count -> (4096 < side <-> room 4096 size < count).
Proof.
  intros Hs (k & Hk & -> & Hc & Hj). split.
  - intros H. change 4096 with (2 ^ 12) in *. apply Z.pow_lt_mono_r_iff in H; [|lia|lia]. apply Hj. lia.
  - intros H. destruct (Z.lt_ge_cases 4096 (2 ^ k)) as [|Hle]; [assumption|exfalso].
    pose proof (room_mono (2 ^ k) 4096 size Hs). assert (0 <= 2 ^ k) by (apply Z.pow_nonneg; lia). lia.
Qed.

Lemma sheetCell_spec side size i c : 0 < size -> 0 <= side -> 0 <= i < room side size -> sheetCell side size i = Some c ->
  let n := side / size in
  c = Rct (i mod n * size) (i / n * size) (i mod n * size + size) (i / n * size + size) /\
  0 < n /\ 0 <= i mod n < n /\ 0 <= i / n < n /\ n * size <= side.
Proof.
  intros Hs Hd Hi. unfold sheetCell, room in *. rewrite quot_pos by lia. set (n := side / size) in *.
  assert (n * size <= side) as Hn by (subst n; pose proof (Z.mul_div_le side size); lia).
  assert (0 <= n) by (subst n; apply Z.div_pos; lia). clearbody n.
  destruct (Z.eqb_spec n 0) as [->|]; [discriminate|]. rewrite quot_pos by lia. intros E. injection E as <-.
  pose proof (Z.mod_pos_bound i n). assert (0 <= i / n) by (apply Z.div_pos; lia). assert (i / n < n) by (apply Z.div_lt_upper_bound; lia).
  split; [|lia]. unfold mkRect. rewrite (Z.mod_eq i n) by lia. f_equal; nia.
Qed.
Lemma sheetCell_total side size i : 0 < size -> 0 <= side -> 0 <= i < room side size -> exists c, sheetCell side size i = Some c.
Proof.
  intros Hs Hd Hi. unfold sheetCell, room in *. rewrite quot_pos by lia. destruct (Z.eqb_spec (side / size) 0) as [E|]; [rewrite E in Hi; lia|]. eauto.
Qed.
Lemma cell_eq s a b x : 0 < s -> a * s <= x < a * s + s -> b * s <= x < b * s + s -> a = b.
Proof. intros. nia. Qed.
Lemma sheetCells_spec side size : 0 < size -> 0 <= side -> forall dims i, 0 <= i -> i + zlen dims <= room side size ->
  exists l, sheetCells side size i dims = Some l /\ zlen l = zlen dims /\
    forall j c p, idx l j = Some (c, p) -> sheetCell side size (i + j) = Some c /\ exists d, idx dims j = Some d /\ p = sheetPic c size d.
Proof.
  intros Hs Hd. induction dims as [|d dims IH]; intros i Hi Hr; cbn [sheetCells].
  - exists []. split; [reflexivity|]. split; [reflexivity|]. intros j c p E. apply idx_some_lt in E. unfold zlen in E. cbn in E. lia.
  - rewrite zlen_cons in Hr. pose proof (zlen_nonneg dims). destruct (sheetCell_total side size i) as [c0 C0]; [lia|lia|lia|].
    destruct (IH (i + 1)) as (l & L1 & L2 & L3); [lia|lia|]. rewrite C0, L1. eexists. split; [reflexivity|]. split; [rewrite !zlen_cons; lia|].
    intros j c p E. destruct (Z.eq_dec j 0) as [->|Hj].
    + rewrite idx_cons_0 in E. injection E as <- <-. rewrite Z.add_0_r. split; [exact C0|]. exists d. now rewrite idx_cons_0.
    + assert (0 < j) by (pose proof (idx_some_lt _ _ _ E); lia). rewrite idx_cons_S in E by lia. apply L3 in E. destruct E as (E1 & d' & E2 & E3).
      split; [rewrite <- E1; f_equal; lia|]. exists d'. rewrite idx_cons_S by lia. auto.
Qed.

Lemma thumbnailSheet_spec size dims : 0 < size < 2 ^ 31 -> zlen dims < 2 ^ 31 ->
  Forall (fun d => 0 <= fst d <= size /\ 0 <= snd d <= size) dims ->
  match thumbnailSheet size dims with
  | SheetOk side cells pics =>
      smallest_power side size (zlen dims) /\ side <= 4096 /\ zlen cells = zlen dims /\ zlen pics = zlen dims /\
      (forall i c, idx cells i = Some c -> within c (Rct 0 0 side side) /\ rdx c = size /\ rdy c = size) /\
      (forall i j c c', i <> j -> idx cells i = Some c -> idx cells j = Some c' -> apart c c') /\
      (forall i c p, idx cells i = Some c -> idx pics i = Some p -> within p c /\ idx dims i = Some (rdx p, rdy p))
  | SheetError => room 4096 size < zlen dims
  | _ => False
  end.
Proof.
  intros Hs Hc Hd. unfold thumbnailSheet.
  destruct (sheetSide_spec size (zlen dims) Hs ltac:(pose proof (zlen_nonneg dims); lia) 64 0) as (side & E & Hp); try lia.
  change (2 ^ 0) with 1 in E. rewrite E. destruct (Z.ltb_spec 4096 side) as [Hlt|Hle].
  - apply (smallest_error side size (zlen dims)); [lia|exact Hp|exact Hlt].
  - assert (0 <= side /\ zlen dims <= room side size) as [Hs0 Hr]. { destruct Hp as (k & Hk & -> & Hr & _). split; [apply Z.pow_nonneg; lia|exact Hr]. }
    destruct (sheetCells_spec side size ltac:(lia) Hs0 dims 0 ltac:(lia) ltac:(lia)) as (l & L1 & L2 & L3). rewrite L1.
    assert (forall i c, idx (map fst l) i = Some c -> 0 <= i < room side size /\ sheetCell side size i = Some c) as K.
    { intros i c H. rewrite idx_map in H. destruct (idx l i) as [[c' p]|] eqn:El; [|discriminate]. cbn in H. injection H as ->.
      pose proof (idx_some_lt _ _ _ El). apply L3 in El. split; [lia|]. apply El. }
    split; [exact Hp|]. split; [exact Hle|]. split; [rewrite zlen_map; exact L2|]. split; [rewrite zlen_map; exact L2|]. split; [|split].
    + intros i c H. destruct (K i c H) as [Hi Ec]. destruct (sheetCell_spec side size i c ltac:(lia) Hs0 Hi Ec) as (-> & P).
      set (n := side / size) in *. destruct P as (P1 & P2 & P3 & P4). set (a := i mod n) in *. set (b := i / n) in *. clearbody a b n.
      unfold within, rdx, rdy, pt_in. cbn [rx0 ry0 rx1 ry1]. split; [|lia]. intros p Hp'. assert (a * size + size <= n * size) by nia. assert (b * size + size <= n * size) by nia.
      assert (0 <= a * size) by nia. assert (0 <= b * size) by nia. lia.
    + intros i j c c' Hij H H'. destruct (K i c H) as [Hi Ec]. destruct (K j c' H') as [Hj Ec'].
      destruct (sheetCell_spec side size i c ltac:(lia) Hs0 Hi Ec) as (-> & P). destruct (sheetCell_spec side size j c' ltac:(lia) Hs0 Hj Ec') as (-> & P').
      set (n := side / size) in *. unfold apart, pt_in. cbn [rx0 ry0 rx1 ry1]. intros p H1 H2.
      assert (i mod n = j mod n) by (apply (cell_eq size _ _ (MRect.px p)); lia). assert (i / n = j / n) by (apply (cell_eq size _ _ (py p)); lia).
      apply Hij. rewrite (Z.div_mod i n), (Z.div_mod j n) by lia. congruence.
    + intros i c p H H'. destruct (K i c H) as [Hi Ec]. rewrite idx_map in H, H'. destruct (idx l i) as [[c1 p1]|] eqn:El; [|discriminate].
      cbn in H, H'. injection H as ->. injection H' as ->. apply L3 in El. destruct El as (_ & [dx dy] & Ed & ->).
      destruct (sheetCell_spec side size i c ltac:(lia) Hs0 Hi Ec) as (-> & _). pose proof (Forall_idx _ _ _ _ Hd Ed) as Hdd. cbn [fst snd] in Hdd.
      unfold sheetPic, within, pt_in, mkRect, rdx, rdy. cbn [rx0 ry0 rx1 ry1 fst snd]. rewrite !quot_pos by lia. split.
      * intros p Hp'. lia.
      * rewrite Ed. f_equal. f_equal; lia.
Qed.
Lemma thumbDims_spec sw sh size d : 0 <= size -> 0 <= sw -> 0 <= sh -> thumbDims sw sh size = Some d ->
  0 <= fst d <= size /\ 0 <= snd d <= size /\ (fst d = size \/ snd d = size).
Proof.
  intros H1 H2 H3. unfold thumbDims. destruct (Z.eqb_spec (sw * sh) 0); [discriminate|]. assert (0 < sw /\ 0 < sh) as [] by nia.
  destruct (Z.ltb_spec sh sw); intros E; injection E as <-; cbn [fst snd]; rewrite quot_pos by nia.
  - split; [lia|]. split; [|now left]. split; [apply Z.div_pos; nia|apply Z.div_le_upper_bound; nia].
  - split; [|split; [lia|now right]]. split; [apply Z.div_pos; nia|apply Z.div_le_upper_bound; nia].
Qed.

(** * Trimming *)
Section trim.
  Variables (w h stride thr : Z) (pix : bytes).
  Hypothesis Hw : 0 <= w.
  Hypothesis Hst : 4 * w <= stride.
  Hypothesis Hlen : h * stride <= zlen pix.
  Definition vis (x y : Z) := visible w h stride pix thr x y.

  Lemma opaqueAt_some x y : 0 <= x < w -> 0 <= y < h -> exists b, opaqueAt pix (y * stride) x thr = Some b /\ (b = true <-> vis x y).
  Proof.
    intros Hx Hy. unfold opaqueAt, vis, visible. destruct (idx_in pix (y * stride + x * 4 + 3)) as [a E]; [nia|].
    rewrite E. exists (thr <? a). split; [reflexivity|]. split.
    - intros H. split; [lia|]. split; [lia|]. exists a. split; [reflexivity|lia].
    - intros (_ & _ & a' & E' & H'). injection E' as ->. lia.
  Qed.
  Lemma firstVis_spec y : 0 <= y < h -> forall n x, 0 <= x -> x + Z.of_nat n <= w ->
    exists o, firstVis n pix (y * stride) x thr = Some o /\
      match o with
      | None => forall x', x <= x' < x + Z.of_nat n -> ~ vis x' y
      | Some l => x <= l < x + Z.of_nat n /\ vis l y /\ forall x', x <= x' < l -> ~ vis x' y
      end.
  Proof.
    intros Hy. induction n as [|n IH]; intros x Hx Hn; cbn [firstVis]; [exists None; split; [reflexivity|]; intros; lia|].
    destruct (opaqueAt_some x y ltac:(lia) Hy) as (b & -> & Hb). destruct b.
    - exists (Some x). split; [reflexivity|]. split; [lia|]. split; [now apply Hb|]. intros; lia.
    - destruct (IH (x + 1) ltac:(lia) ltac:(lia)) as (o & -> & Ho). exists o. split; [reflexivity|].
      assert (~ vis x y) as Nx by (intros N; apply Hb in N; discriminate).
      destruct o as [l|].
      + destruct Ho as (A & B & C). split; [lia|]. split; [exact B|]. intros x' Hx'. destruct (Z.eq_dec x' x) as [->|]; [exact Nx|]. apply C. lia.
      + intros x' Hx'. destruct (Z.eq_dec x' x) as [->|]; [exact Nx|]. apply Ho. lia.
  Qed.
  Lemma lastVis_spec y l : 0 <= y < h -> 0 <= l -> forall n, l + Z.of_nat n <= w ->
    exists o, lastVis n pix (y * stride) l thr = Some o /\
      match o with
      | None => forall x', l <= x' < l + Z.of_nat n -> ~ vis x' y
      | Some r => l <= r < l + Z.of_nat n /\ vis r y /\ forall x', r < x' < l + Z.of_nat n -> ~ vis x' y
      end.
  Proof.
    intros Hy Hl. induction n as [|n IH]; intros Hn; cbn [lastVis]; [exists None; split; [reflexivity|]; intros; lia|].
    destruct (opaqueAt_some (l + Z.of_nat n) y ltac:(lia) Hy) as (b & -> & Hb). destruct b.
    - exists (Some (l + Z.of_nat n)). split; [reflexivity|]. split; [lia|]. split; [now apply Hb|]. intros; lia.
    - destruct (IH ltac:(lia)) as (o & -> & Ho). exists o. split; [reflexivity|].
      assert (~ vis (l + Z.of_nat n) y) as Nx by (intros N; apply Hb in N; discriminate).
      destruct o as [r|].
      + destruct Ho as (A & B & C). split; [lia|]. split; [exact B|]. intros x' Hx'. destruct (Z.eq_dec x' (l + Z.of_nat n)) as [->|]; [exact Nx|]. apply C. lia.
      + intros x' Hx'. destruct (Z.eq_dec x' (l + Z.of_nat n)) as [->|]; [exact Nx|]. apply Ho. lia.
  Qed.

  (** The box after the rows above [y]: the bounds of the visible pixels there. *)
  Definition boxed (y : Z) (b : box) : Prop :=
    (forall x' y', vis x' y' -> y' < y -> bx0 b <= x' <= bx1 b /\ by0 b <= y' <= by1 b) /\
    (b = Box w h (-1) (-1) \/
     ((exists y', vis (bx0 b) y') /\ (exists y', vis (bx1 b) y') /\ (exists x', vis x' (by0 b)) /\ (exists x', vis x' (by1 b)) /\ by1 b < y)).
  Lemma boxRow_spec y b : 0 <= y < h -> boxed y b -> exists b', boxRow pix w stride thr y b = Some b' /\ boxed (y + 1) b'.
  Proof.
    intros Hy [B1 B2]. unfold boxRow. destruct (firstVis_spec y Hy (Z.to_nat w) 0 ltac:(lia) ltac:(lia)) as (o & -> & Ho). destruct o as [l|].
    - destruct Ho as (O1 & O2 & O3). destruct (lastVis_spec y l Hy ltac:(lia) (Z.to_nat (w - l)) ltac:(lia)) as (o & -> & Ho'). destruct o as [r|].
      2:{ exfalso. apply (Ho' l); [lia|exact O2]. }
      destruct Ho' as (R1 & R2 & R3). eexists. split; [reflexivity|]. unfold boxed. cbn [bx0 by0 bx1 by1]. split.
      + intros x' y' V Hy'. destruct (Z.eq_dec y' y) as [->|].
        * assert (l <= x'). { destruct (Z.le_gt_cases l x'); [assumption|]. exfalso. apply (O3 x'); [destruct V as (? & _); lia|exact V]. }
          assert (x' <= r). { destruct (Z.le_gt_cases x' r); [assumption|]. exfalso. apply (R3 x'); [destruct V as (? & _); lia|exact V]. }
          lia.
        * specialize (B1 x' y' V ltac:(lia)). lia.
      + right. destruct B2 as [->|(C1 & C2 & C3 & C4 & C5)]; cbn [bx0 by0 bx1 by1].
        * replace (Z.min l w) with l by lia. replace (Z.min y h) with y by lia. replace (Z.max r (-1)) with r by lia.
          repeat split; try lia; eauto.
        * repeat split; try lia.
          -- destruct (Z.min_spec l (bx0 b)) as [[_ ->]|[_ ->]]; eauto.
          -- destruct (Z.max_spec r (bx1 b)) as [[_ ->]|[_ ->]]; eauto.
          -- destruct (Z.min_spec y (by0 b)) as [[_ ->]|[_ ->]]; eauto.
          -- eauto.
    - exists b. split; [reflexivity|]. split.
      + intros x' y' V Hy'. destruct (Z.eq_dec y' y) as [->|]; [|apply B1; [exact V|lia]]. exfalso. apply (Ho x'); [destruct V as (? & _); lia|exact V].
      + destruct B2 as [->|(C1 & C2 & C3 & C4 & C5)]; [now left|right]. repeat split; try assumption. lia.
  Qed.
  Lemma boxRows_spec n : forall y b, 0 <= y -> y + Z.of_nat n = h -> boxed y b -> exists b', boxRows n pix w stride thr y b = Some b' /\ boxed h b'.
  Proof.
    induction n as [|n IH]; intros y b Hy Hn Hb; cbn [boxRows]; [exists b; split; [reflexivity|]; now replace h with y by lia|].
    destruct (boxRow_spec y b ltac:(lia) Hb) as (b' & -> & Hb'). apply IH; [lia|lia|exact Hb'].
  Qed.
End trim.

Lemma copyWithin_spec pix d s w : 0 <= d -> 0 <= s -> 0 <= w -> d + w <= zlen pix -> s + w <= zlen pix ->
  exists pix', copyWithin pix d s w = Some pix' /\ zlen pix' = zlen pix /\
    forall i, idx pix' i = if (d <=? i) && (i <? d + w) then idx pix (s + (i - d)) else idx pix i.
Proof.
  intros Hd Hs Hw Hdw Hsw. unfold copyWithin. destruct (slice pix s (s + w)) as [part|] eqn:E.
  2:{ exfalso. unfold slice in E. replace ((0 <=? s) && (s <=? s + w) && (s + w <=? zlen pix)) with true in E by lia. discriminate. }
  pose proof (slice_zlen _ _ _ _ E) as Lp. replace ((d <? 0) || (zlen pix <? d)) with false by lia. cbv zeta.
  rewrite (firstn_all2 part) by (unfold zlen in *; lia). eexists. split; [reflexivity|].
  assert (zlen (firstn (Z.to_nat d) pix) = d) as L1 by (rewrite zlen_firstn; lia).
  assert (zlen (skipn (Z.to_nat (d + zlen part)) pix) = zlen pix - (d + w)) as L2 by (rewrite zlen_skipn; lia).
  split; [rewrite !zlen_app; lia|]. intros i.
  destruct (Z.lt_ge_cases i 0); [replace ((d <=? i) && (i <? d + w)) with false by lia; unfold idx; replace (i <? 0) with true by lia; reflexivity|].
  destruct (Z.lt_ge_cases i d).
  - replace ((d <=? i) && (i <? d + w)) with false by lia. rewrite idx_app_l by lia. apply idx_firstn. lia.
  - rewrite idx_app_r by lia. rewrite L1. destruct (Z.lt_ge_cases i (d + w)).
    + replace ((d <=? i) && (i <? d + w)) with true by lia. rewrite idx_app_l by lia. rewrite (idx_slice _ _ _ _ _ E) by lia. reflexivity.
    + replace ((d <=? i) && (i <? d + w)) with false by lia. rewrite idx_app_r by lia. rewrite idx_skipn by lia. f_equal. lia.
Qed.
Lemma trimRows_spec w stride : 0 <= w <= stride -> forall n pix d s, 0 <= d <= s ->
  (n = O \/ s + Z.of_nat n * stride <= zlen pix) ->
  exists pix', trimRows n pix d s w stride = Some pix' /\ zlen pix' = zlen pix /\
    (forall i, i < d -> idx pix' i = idx pix i) /\
    forall j c, 0 <= j < Z.of_nat n -> 0 <= c < w -> idx pix' (d + j * w + c) = idx pix (s + j * stride + c).
Proof.
  intros Hw. induction n as [|n IH]; intros pix d s Hd Hn; cbn [trimRows].
  - exists pix. repeat split; try reflexivity. intros; lia.
  - assert (s + (1 + Z.of_nat n) * stride <= zlen pix) as Hn' by lia.
    destruct (copyWithin_spec pix d s w) as (p1 & E & L & I); [lia|lia|lia|nia|nia|]. rewrite E.
    replace ((zlen p1 <? d + w) || (zlen p1 <? s + stride)) with false by nia.
    destruct (IH p1 (d + w) (s + stride)) as (p2 & E2 & L2 & I2 & I3); [lia|right; lia|]. exists p2. split; [exact E2|]. split; [lia|]. split.
    + intros i Hi. rewrite I2, I by lia. replace ((d <=? i) && (i <? d + w)) with false by lia. reflexivity.
    + intros j c Hj Hc. destruct (Z.eq_dec j 0) as [->|].
      * rewrite I2, I by lia. replace ((d <=? d + 0 * w + c) && (d + 0 * w + c <? d + w)) with true by lia. f_equal. lia.
      * replace (d + j * w + c) with (d + w + (j - 1) * w + c) by lia. rewrite I3, I by lia.
        replace ((d <=? s + stride + (j - 1) * stride + c) && (s + stride + (j - 1) * stride + c <? d + w)) with false by nia. f_equal. lia.
Qed.

Lemma visible_slice w h stride pix p thr x y : 4 * w <= stride -> slice pix 0 (h * stride) = Some p ->
  (visible w h stride p thr x y <-> visible w h stride pix thr x y).
Proof.
  intros Hst E. assert (forall i, 0 <= i < h * stride -> idx p i = idx pix i) as H by (intros i Hi; rewrite (idx_slice _ _ _ _ _ E) by lia; reflexivity).
  unfold visible. split; intros (Hx & Hy & a & Ha & Hl); (split; [exact Hx|split; [exact Hy|exists a; split; [|exact Hl]]]); [rewrite <- H|rewrite H]; auto; nia.
Qed.

Lemma trim_box w h stride pix r thr : 0 <= h -> 4 * w <= stride -> h * stride <= zlen pix ->
  (exists x y, visible w h stride pix thr x y) ->
  exists i, trimUnusedArea w h stride pix r thr = Some i /\
    (forall x y, visible w h stride pix thr x y -> rx0 (irect i) <= x <= rx1 (irect i) /\ ry0 (irect i) <= y <= ry1 (irect i)) /\
    (exists y, visible w h stride pix thr (rx0 (irect i)) y) /\ (exists y, visible w h stride pix thr (rx1 (irect i)) y) /\
    (exists x, visible w h stride pix thr x (ry0 (irect i))) /\ (exists x, visible w h stride pix thr x (ry1 (irect i))) /\
    (iw i = rdx (irect i) /\ ih i = rdy (irect i) /\ istride i = iw i * 4 /\ zlen (ipix i) = ih i * istride i) /\
    (forall x y, pt_in (Pt x y) (irect i) = true -> kept stride pix i x y).
Proof.
  intros Hh Hst Hlen (x1 & y1 & V1). assert (0 < w /\ 0 < h) as [Hw Hh0] by (destruct V1 as (? & ? & _); lia).
  unfold trimUnusedArea. destruct (slice pix 0 (h * stride)) as [p|] eqn:Es.
  2:{ exfalso. unfold slice in Es. replace ((0 <=? 0) && (0 <=? h * stride) && (h * stride <=? zlen pix)) with true in Es by nia. discriminate. }
  pose proof (slice_zlen _ _ _ _ Es) as Lp. rewrite Z.sub_0_r in Lp.
  assert (forall i, 0 <= i < h * stride -> idx p i = idx pix i) as Hpi by (intros i Hi; rewrite (idx_slice _ _ _ _ _ Es) by lia; reflexivity).
  destruct (boxRows_spec w h stride thr p ltac:(lia) Hst ltac:(lia) (Z.to_nat h) 0 (Box w h (-1) (-1))) as (b & Eb & Bb); [lia|lia| |].
  { split; [|now left]. intros x' y' (_ & ? & _) ?. lia. }
  rewrite Eb. destruct Bb as [B1 B2]. unfold vis in *.
  pose proof (visible_slice w h stride pix p thr) as VS.
  pose proof (B1 x1 y1 (proj2 (VS x1 y1 Hst Es) V1) ltac:(destruct V1 as (_ & ? & _); lia)) as B3.
  destruct B2 as [->|(C1 & C2 & C3 & C4 & C5)]; [cbn [bx0 by0 bx1 by1] in B3; lia|].
  assert (0 <= bx0 b < w) as X0 by (destruct C1 as (? & ? & _); lia). assert (0 <= bx1 b < w) as X1 by (destruct C2 as (? & ? & _); lia).
  assert (0 <= by0 b < h) as Y0 by (destruct C3 as (? & _ & ? & _); lia). assert (0 <= by1 b < h) as Y1 by (destruct C4 as (? & _ & ? & _); lia).
  cbv zeta. replace ((bx1 b - bx0 b) * (by1 b - by0 b) =? w * h) with false by nia.
  assert (0 <= stride * by0 b + bx0 b * 4 <= zlen p) as Hs by nia.
  replace ((stride * by0 b + bx0 b * 4 <? 0) || (zlen p <? stride * by0 b + bx0 b * 4)) with false by lia.
  destruct (trimRows_spec ((bx1 b - bx0 b) * 4) stride ltac:(lia) (Z.to_nat (by1 b - by0 b)) p 0 (stride * by0 b + bx0 b * 4)) as (p' & E' & L' & _ & I'); [lia|right; nia|].
  rewrite E'. assert (zlen (skipn (Z.to_nat (h * stride)) pix) = zlen pix - h * stride) as Ls by (rewrite zlen_skipn; nia).
  assert ((by1 b - by0 b) * ((bx1 b - bx0 b) * 4) <= h * stride) as Hm by nia.
  destruct (slice (p' ++ skipn (Z.to_nat (h * stride)) pix) 0 ((by1 b - by0 b) * ((bx1 b - bx0 b) * 4))) as [q|] eqn:Eq.
  2:{ exfalso. unfold slice in Eq. rewrite zlen_app in Eq. replace ((0 <=? 0) && _ && _) with true in Eq by nia. discriminate. }
  eexists. split; [reflexivity|].
  assert (forall x y, bx0 b <= x < bx1 b -> by0 b <= y < by1 b -> forall c, 0 <= c < 4 ->
    idx q ((y - by0 b) * ((bx1 b - bx0 b) * 4) + (x - bx0 b) * 4 + c) = idx pix (y * stride + x * 4 + c)) as K.
  { intros x y Hx Hy c Hc. rewrite (idx_slice _ _ _ _ _ Eq) by nia. rewrite Z.add_0_l, idx_app_l by nia.
    specialize (I' (y - by0 b) ((x - bx0 b) * 4 + c) ltac:(lia) ltac:(lia)). rewrite Z.add_0_l in I'. rewrite Z.add_assoc in I'. rewrite I'.
    rewrite Hpi by nia. f_equal. lia. }
  split; [intros x y V; apply B1; [now apply VS|destruct V as (_ & ? & _); lia]|].
  assert (forall x y, visible w h stride p thr x y -> visible w h stride pix thr x y) as VS' by (intros; now apply VS).
  split; [destruct C1 as [y C1]; exists y; apply VS', C1|]. split; [destruct C2 as [y C2]; exists y; apply VS', C2|].
  split; [destruct C3 as [x C3]; exists x; apply VS', C3|]. split; [destruct C4 as [x C4]; exists x; apply VS', C4|].
  split. { cbn [iw ih istride ipix irect]. unfold rdx, rdy. cbn [rx0 rx1 ry0 ry1]. rewrite (slice_zlen _ _ _ _ Eq). lia. }
  unfold kept. cbn [irect istride ipix rx0 ry0 rx1 ry1].
  intros x y Hp. split; [exact Hp|]. unfold pt_in in Hp. cbn [MRect.px py rx0 ry0 rx1 ry1] in Hp. apply K; lia.
Qed.
Lemma trim_spec w h stride pix r thr : 0 <= h -> 4 * w <= stride -> h * stride <= zlen pix ->
  (exists x y, visible w h stride pix thr x y) ->
  exists i, trimUnusedArea w h stride pix r thr = Some i /\
    (forall x y, visible w h stride pix thr x y ->
       (exists x' y', x < x' /\ visible w h stride pix thr x' y') -> (exists x' y', y < y' /\ visible w h stride pix thr x' y') ->
       kept stride pix i x y) /\
    (forall x y, pt_in (Pt x y) (irect i) = true -> kept stride pix i x y /\ 0 <= x < w /\ 0 <= y < h).
Proof.
  intros Hh Hst Hlen Hv. destruct (trim_box w h stride pix r thr Hh Hst Hlen Hv) as (i & E & B & (y0 & L) & (y1 & R) & (x0 & U) & (x1 & D) & _ & K).
  exists i. split; [exact E|]. split.
  - intros x y V (x' & y' & Hx & V') (x'' & y'' & Hy & V''). apply K. pose proof (B x y V). pose proof (B x' y' V'). pose proof (B x'' y'' V'').
    unfold pt_in. cbn [MRect.px py]. lia.
  - intros x y Hp. split; [now apply K|]. destruct L as (L & _), R as (R & _), U as (_ & U & _), D as (_ & D & _). unfold pt_in in Hp. cbn [MRect.px py] in Hp. lia.
Qed.
