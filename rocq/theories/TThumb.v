(** Theorems about thumbnails and transformed rectangles (properties C54 - C56). *)
From Coq Require Import QArith.
From Verif Require Import Base BaseFacts MRect MThumb SThumb PThumb PThumb2.
Open Scope Z_scope.

(** * C54: thumbnail sheets *)

(** For every thumbnail size and every number of thumbnails (both below 2^31): the
    sheet is the smallest square of power of two side with room for all, its side is
    at most 4096, the cells are squares of the given size, inside the sheet and
    pairwise disjoint, each thumbnail is drawn inside its cell with its own size;
    an error is returned only if a sheet of side 4096 is too small. It does not
    panic and the loop ends. *)
Theorem C54_sheet : forall size dims, 0 < size < 2 ^ 31 -> zlen dims < 2 ^ 31 ->
  Forall (fun d => 0 <= fst d <= size /\ 0 <= snd d <= size) dims ->
  match thumbnailSheet size dims with
  | SheetOk side cells pics =>
      smallest_power side size (zlen dims) /\ side <= 4096 /\ zlen cells = zlen dims /\ zlen pics = zlen dims /\
      (forall i c, idx cells i = Some c -> within c (Rct 0 0 side side) /\ rdx c = size /\ rdy c = size) /\
      (forall i j c c', i <> j -> idx cells i = Some c -> idx cells j = Some c' -> apart c c') /\
      (forall i c p, idx cells i = Some c -> idx pics i = Some p -> within p c /\ idx dims i = Some (rdx p, rdy p))
  | SheetError => room 4096 size < zlen dims
  | _ => False
  end.
Proof. exact thumbnailSheet_spec. Qed.
Print Assumptions C54_sheet.

(** The sizes of thumbnails meet the hypothesis, and the longer side has the full size. *)
Theorem C54_thumbnail_size : forall sw sh size d, 0 <= size -> 0 <= sw -> 0 <= sh -> thumbDims sw sh size = Some d ->
  0 <= fst d <= size /\ 0 <= snd d <= size /\ (fst d = size \/ snd d = size).
Proof. exact thumbDims_spec. Qed.
Print Assumptions C54_thumbnail_size.
Example C54_example :
  thumbnailSheet 100 [(100, 40); (7, 100); (100, 100)] =
    SheetOk 256 [Rct 0 0 100 100; Rct 100 0 200 100; Rct 0 100 100 200] [Rct 0 30 100 70; Rct 146 0 153 100; Rct 0 100 100 200] /\
  thumbDims 500 200 100 = Some (100, 40) /\
  thumbnailSheet 4000 [(1, 4000); (2, 4000)] = SheetError.
Proof. split; [vm_compute; reflexivity|]. split; vm_compute; reflexivity. Qed.

(** The size 0 is not covered: the division panics, whatever the layers are. *)
Theorem C54_size_zero_refuted : exists size, forall dims, thumbnailSheet size dims = SheetPanic.
Proof. exists 0. intros. reflexivity. Qed.
Print Assumptions C54_size_zero_refuted.

(** * C55: trimming *)

(** Trimming loses visible pixels: of a fully opaque image of 2 x 2 pixels only one
    remains, of a single pixel nothing; and a transparent image makes it panic. *)
Theorem C55_trim_refuted :
  (exists w h stride pix r thr i x y, trimUnusedArea w h stride pix r thr = Some i /\ 4 * w <= stride /\ h * stride <= zlen pix /\
     visible w h stride pix thr x y /\ ~ kept stride pix i x y /\ iw i = 1 /\ ih i = 1 /\ w = 2 /\ h = 2) /\
  (exists pix r i, trimUnusedArea 1 1 4 pix r 0 = Some i /\ visible 1 1 4 pix 0 0 0 /\ ipix i = []) /\
  (exists pix r, zlen pix = 16 /\ trimUnusedArea 2 2 8 pix r 0 = None).
Proof.
  split; [|split].
  - exists 2, 2, 8, (zrepeat 255 16), (Rct 0 0 2 2), 0. eexists. exists 1, 1. split; [vm_compute; reflexivity|].
    split; [lia|]. split; [vm_compute; discriminate|]. split.
    { split; [lia|]. split; [lia|]. exists 255. split; [vm_compute; reflexivity|lia]. }
    split; [intros [H _]; vm_compute in H; discriminate|]. repeat split; reflexivity.
  - exists [9; 9; 9; 255], (Rct 0 0 1 1). eexists. split; [vm_compute; reflexivity|]. split; [|reflexivity].
    split; [lia|]. split; [lia|]. exists 255. split; [vm_compute; reflexivity|lia].
  - exists (zrepeat 0 16), (Rct 0 0 2 2). split; vm_compute; reflexivity.
Qed.
Print Assumptions C55_trim_refuted.

(** What holds for every image with a visible pixel: trimming does not panic, every
    visible pixel survives at its place unless it lies in the last visible row or
    column, and every pixel of the result is a pixel of the image at the same
    place. Missing for the full property: the last row and column. *)
Theorem C55_trim_partial : forall w h stride pix r thr, 0 <= h -> 4 * w <= stride -> h * stride <= zlen pix ->
  (exists x y, visible w h stride pix thr x y) ->
  exists i, trimUnusedArea w h stride pix r thr = Some i /\
    (forall x y, visible w h stride pix thr x y ->
       (exists x' y', x < x' /\ visible w h stride pix thr x' y') -> (exists x' y', y < y' /\ visible w h stride pix thr x' y') ->
       kept stride pix i x y) /\
    (forall x y, pt_in (Pt x y) (irect i) = true -> kept stride pix i x y /\ 0 <= x < w /\ 0 <= y < h).
Proof. exact trim_spec. Qed.
Print Assumptions C55_trim_partial.
(** An image of 4 x 3 pixels with visible pixels (1, 0), (2, 1), (3, 2). *)
Definition ex_trim : bytes :=
  [0;0;0;0; 1;1;1;9; 0;0;0;0; 0;0;0;0] ++ [0;0;0;0; 0;0;0;0; 2;2;2;8; 0;0;0;0] ++ [0;0;0;0; 0;0;0;0; 0;0;0;0; 3;3;3;7].
Example C55_example : option_map (fun i => (irect i, ipix i)) (trimUnusedArea 4 3 16 ex_trim (Rct 0 0 4 3) 0) =
  Some (Rct 1 0 3 2, [1;1;1;9; 0;0;0;0; 0;0;0;0; 2;2;2;8]).
Proof. vm_compute. reflexivity. Qed.

(** * C56: transformed rectangles *)

(** For every way to round: the transformed rectangle contains the pixel drawn at the
    image of every point of the rectangle (its right and lower border included). *)
Theorem C56_covers : forall rnd, rounding rnd -> forall r m x y, rx0 r <= x <= rx1 r -> ry0 r <= y <= ry1 r ->
  let p := applyAff rnd m x y in let t := transformRect rnd r m in
  (inject_Z (rx0 t) <= fst p /\ fadd rnd (fst p) 1 <= inject_Z (rx1 t) /\
   inject_Z (ry0 t) <= snd p /\ fadd rnd (snd p) 1 <= inject_Z (ry1 t))%Q.
Proof. exact transformRect_covers. Qed.
Print Assumptions C56_covers.
(** The identity does not keep the rectangle: it always adds a row and a column; New
    applies it to the canvas. *)
Theorem C56_identity_grows : forall rnd, rounding rnd -> forall r,
  - 2 ^ 52 <= rx0 r <= rx1 r -> rx1 r <= 2 ^ 52 -> - 2 ^ 52 <= ry0 r <= ry1 r -> ry1 r <= 2 ^ 52 ->
  transformRect rnd r (Aff 1 0 0 0 1 0) = Rct (rx0 r) (ry0 r) (rx1 r + 1) (ry1 r + 1).
Proof. exact transformRect_ident. Qed.
Print Assumptions C56_identity_grows.
Theorem C56_identity_refuted : exists r, forall rnd, rounding rnd -> transformRect rnd r (Aff 1 0 0 0 1 0) <> r.
Proof. exists (Rct 0 0 10 10). intros rnd H. rewrite (C56_identity_grows rnd H); cbn; try lia. discriminate. Qed.
Print Assumptions C56_identity_refuted.
(** No rounding at all is a rounding. *)
Lemma no_rounding : rounding (fun x => x).
Proof. split; [auto|]. intros. apply Qeq_refl. Qed.
(** Rounding down to multiples of 1/4 is one. *)
Example quarters : rounding (fun x => Qmake (Qround.Qfloor (x * (4 # 1))) 4).
Proof.
  split.
  - intros x y H. assert (Qround.Qfloor (x * (4 # 1)) <= Qround.Qfloor (y * (4 # 1))) by (apply Qround.Qfloor_resp_le, Qmult_le_compat_r; [exact H|discriminate]).
    unfold Qle. cbn [Qnum Qden]. lia.
  - intros n _. assert (Qround.Qfloor (inject_Z n * (4 # 1)) = n * 4) as -> by (unfold Qround.Qfloor, inject_Z, Qmult; cbn [Qnum Qden]; lia).
    unfold Qeq, inject_Z. cbn [Qnum Qden]. lia.
Qed.
Example C56_example : transformRect (fun x => x) (Rct 0 0 10 10) (Aff 1 0 0 0 1 0) = Rct 0 0 11 11 /\
  transformRect (fun x => x) (Rct 0 0 10 4) (Aff (1 # 2) (-1) (3 # 10) 1 (1 # 2) 0) = Rct (-4) 0 7 13.
Proof. split; vm_compute; reflexivity. Qed.
