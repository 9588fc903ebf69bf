(** Model of composite/thumbnail.go: thumbnail sheets and trimming; and of
    composite/layer.go:transformRect. *)
From Coq Require Import QArith Qround.
From Verif Require Import Base MRect MTile.
Open Scope Z_scope.

(** * thumbnail.go:172-238: ThumbnailSheet *)

(** thumbnail.go:96-105: the size of a thumbnail of an image of [sw] x [sh] pixels.
    [None]: the image is empty (errNoCanvas). *)
Definition thumbDims (sw sh size : Z) : option (Z * Z) :=
  if sw * sh =? 0 then None
  else if sh <? sw then Some (size, Z.quot (sh * size) sw) else Some (Z.quot (sw * size) sh, size).

(** thumbnail.go:183-191: the loop that doubles the side. *)
Inductive sheet := SheetPanic | SheetLoop | SheetError | SheetOk (side : Z) (cells pics : list rect).
Fixpoint sheetSide (fuel : nat) (tex size count : Z) : option (option Z) :=
  match fuel with
  | O => Some None
  | S fuel =>
      if size =? 0 then None
      else if count <=? i64 (Z.quot tex size * Z.quot tex size) then Some (Some tex)
      else sheetSide fuel (i64 (tex + tex)) size count
  end.

(** thumbnail.go:218-237: the cell of thumbnail number [i], and where the thumbnail
    is drawn. [None]: division by zero. *)
Definition sheetCell (side size i : Z) : option rect :=
  let iw := Z.quot side size in
  if iw =? 0 then None
  else
    let n := Z.quot i iw in
    let x := (i - n * iw) * size in
    let y := n * size in
    Some (mkRect x y (x + size) (y + size)).
Definition sheetPic (cell : rect) (size : Z) (dims : Z * Z) : rect :=
  let ox := rx0 cell + Z.quot (size - fst dims) 2 in
  let oy := ry0 cell + Z.quot (size - snd dims) 2 in
  mkRect ox oy (ox + fst dims) (oy + snd dims).
(** thumbnail.go:219-237 for the indices from [i] on. *)
Fixpoint sheetCells (side size i : Z) (dims : list (Z * Z)) : option (list (rect * rect)) :=
  match dims with
  | [] => Some []
  | d :: dims =>
      match sheetCell side size i, sheetCells side size (i + 1) dims with
      | Some c, Some l => Some ((c, sheetPic c size d) :: l)
      | _, _ => None
      end
  end.
(** ThumbnailSheet for thumbnails with the given sizes, in the order in which the map
    is traversed (any order). The workers are called one after the other (the
    code lacks the [go]) and handle consecutive indices (see C44_indices). The side
    is doubled at most 64 times before it is 0 forever. *)
Definition thumbnailSheet (size : Z) (dims : list (Z * Z)) : sheet :=
  match sheetSide 64 1 size (zlen dims) with
  | None => SheetPanic
  | Some None => SheetLoop
  | Some (Some side) =>
      if 4096 <? side then SheetError
      else match sheetCells side size 0 dims with
           | None => SheetPanic
           | Some l => SheetOk side (map fst l) (map snd l)
           end
  end.

(** * thumbnail.go:20-66: trimUnusedArea *)

(** [pix[x*4+3] > threshold] in the row that starts at [off]. [None]: out of range. *)
Definition opaqueAt (pix : bytes) (off x thr : Z) : option bool :=
  match idx pix (off + x * 4 + 3) with Some a => Some (thr <? a) | None => None end.
(** The loops over [l] and [r]: the first and the last visible column of a row. *)
Fixpoint firstVis (n : nat) (pix : bytes) (off x thr : Z) : option (option Z) :=
  match n with
  | O => Some None
  | S n => match opaqueAt pix off x thr with
           | None => None
           | Some true => Some (Some x)
           | Some false => firstVis n pix off (x + 1) thr
           end
  end.
(** [n = r - l + 1] columns down to [l] *)
Fixpoint lastVis (n : nat) (pix : bytes) (off l thr : Z) : option (option Z) :=
  match n with
  | O => Some None
  | S n => match opaqueAt pix off (l + Z.of_nat n) thr with
           | None => None
           | Some true => Some (Some (l + Z.of_nat n))
           | Some false => lastVis n pix off l thr
           end
  end.
Record box := Box { bx0 : Z; by0 : Z; bx1 : Z; by1 : Z }.
(** thumbnail.go:25-47: one row. *)
Definition boxRow (pix : bytes) (w stride thr y : Z) (b : box) : option box :=
  match firstVis (Z.to_nat w) pix (y * stride) 0 thr with
  | None => None
  | Some None => Some b
  | Some (Some l) =>
      match lastVis (Z.to_nat (w - l)) pix (y * stride) l thr with
      | None => None
      | Some r =>
          Some (Box (Z.min l (bx0 b)) (Z.min y (by0 b))
                    (match r with Some r => Z.max r (bx1 b) | None => bx1 b end) y)
      end
  end.
Fixpoint boxRows (n : nat) (pix : bytes) (w stride thr y : Z) (b : box) : option box :=
  match n with
  | O => Some b
  | S n => match boxRow pix w stride thr y b with None => None | Some b => boxRows n pix w stride thr (y + 1) b end
  end.
(** thumbnail.go:54-62: [copy(d, s[:w])] row by row within one slice; [d], [s]: start
    offsets of the slices. [None]: slice bounds out of range. *)
Definition copyWithin (pix : bytes) (d s w : Z) : option bytes :=
  match slice pix s (s + w) with
  | None => None
  | Some part =>
      if (d <? 0) || (zlen pix <? d) then None
      else let part := firstn (Z.to_nat (zlen pix - d)) part in
           Some (firstn (Z.to_nat d) pix ++ part ++ skipn (Z.to_nat (d + zlen part)) pix)
  end.
Fixpoint trimRows (n : nat) (pix : bytes) (d s w stride : Z) : option bytes :=
  match n with
  | O => Some pix
  | S n =>
      match copyWithin pix d s w with
      | None => None
      | Some pix =>
          if (zlen pix <? d + w) || (zlen pix <? s + stride) then None
          else trimRows n pix (d + w) (s + stride) w stride
      end
  end.
Record img := Img { iw : Z; ih : Z; istride : Z; ipix : bytes; irect : rect }.
(** An NRGBA image of [w] x [h] pixels; the slice is cut to [h*stride] bytes first. *)
Definition trimUnusedArea (w h stride : Z) (pix : bytes) (r : rect) (thr : Z) : option img :=
  match slice pix 0 (h * stride) with
  | None => None
  | Some p =>
      match boxRows (Z.to_nat h) p w stride thr 0 (Box w h (-1) (-1)) with
      | None => None
      | Some b =>
          let dx := bx1 b - bx0 b in
          let dy := by1 b - by0 b in
          if dx * dy =? w * h then Some (Img w h stride pix r)
          else
            let s := stride * by0 b + bx0 b * 4 in
            if (s <? 0) || (zlen p <? s) then None
            else match trimRows (Z.to_nat dy) p 0 s (dx * 4) stride with
                 | None => None
                 | Some p' =>
                     match slice (p' ++ skipn (Z.to_nat (h * stride)) pix) 0 (dy * (dx * 4)) with
                     | None => None
                     | Some p'' => Some (Img dx dy (dx * 4) p'' (Rct (bx0 b) (by0 b) (bx1 b) (by1 b)))
                     end
                 end
      end
  end.

(** * layer.go:150-191: transformRect *)

(** Floating point numbers are rationals (no overflow, no NaN), and [rnd] rounds the
    result of each operation. *)
Section transform.
  Variable rnd : Q -> Q.
  Definition fadd (x y : Q) : Q := rnd (x + y).
  Definition fmul (x y : Q) : Q := rnd (x * y).
  Record aff := Aff { a0 : Q; a1 : Q; a2 : Q; a3 : Q; a4 : Q; a5 : Q }.
  Definition applyAff (m : aff) (x y : Z) : Q * Q :=
    (fadd (fadd (fmul (inject_Z x) (a0 m)) (fmul (inject_Z y) (a1 m))) (a2 m),
     fadd (fadd (fmul (inject_Z x) (a3 m)) (fmul (inject_Z y) (a4 m))) (a5 m)).
  Definition qlt (x y : Q) : bool := negb (Qle_bool y x).
  (** The loop body for the later points. *)
  Definition spread (b : Q * Q * Q * Q) (p : Q * Q) : Q * Q * Q * Q :=
    let '(xMin, yMin, xMax, yMax) := b in
    let '(dx, dy) := p in
    let xMin := if qlt dx xMin then dx else xMin in
    let yMin := if qlt dy yMin then dy else yMin in
    let dx := fadd dx 1 in
    let dy := fadd dy 1 in
    let xMax := if qlt xMax dx then dx else xMax in
    let yMax := if qlt yMax dy then dy else yMax in
    (xMin, yMin, xMax, yMax).
  Definition transformRect (r : rect) (m : aff) : rect :=
    let '(dx, dy) := applyAff m (rx0 r) (ry0 r) in
    let b := (dx, dy, fadd dx 1, fadd dy 1) in
    let b := spread b (applyAff m (rx1 r) (ry0 r)) in
    let b := spread b (applyAff m (rx1 r) (ry1 r)) in
    let '(xMin, yMin, xMax, yMax) := spread b (applyAff m (rx0 r) (ry1 r)) in
    Rct (Qfloor xMin) (Qfloor yMin) (Qceiling xMax) (Qceiling yMax).
End transform.
