(** Model of composite/layerimage.go: layers transformed by other matrices than the
    identity, with and without gamma table. *)
From Coq Require Import QArith SpecFloat.
From Verif Require Import Base MRect MThumb MSched MBlend MRender MTile MLoad MTileRender.
Open Scope Z_scope.

(** * layerimage.go:79-97: gamma tables *)

(** The tables as functions of the index, which is always in range (a byte, 16 bits). *)
Record gammaTable := GT { T8 : Z -> Z; T16 : Z -> Z }.
(** [pow]: math.Pow on float64 (standard library). The conversions to uint16 and uint8 are
    modelled for products in range. *)
Definition makeGammaTable (pow : spec_float -> spec_float -> spec_float) (g : spec_float) : gammaTable :=
  GT (fun i => u16 (ftrunc (fmul64 (pow (fdiv64 (fofZ i) (fofZ 255)) g) (fofZ 65535))))
     (fun i => let g := fdiv64 (fofZ 1) g in u8 (ftrunc (fmul64 (pow (fdiv64 (fofZ i) (fofZ 65535)) g) (fofZ 255)))).

(** * layerimage.go:99-176: the source image of the transformation *)

(** The pixels of an image are listed row by row, as in MTileRender. [None]: index out of
    range. Pixels whose alpha is 0 are left as they are in the new image, zero. *)
Definition pixelAt (get : Z -> option (option px)) (i : Z) : option px :=
  match get i with None => None | Some None => Some (Px 0 0 0 0) | Some (Some v) => Some v end.
Definition pixelsOf (get : Z -> option (option px)) (rc : rect) (dX : Z) : option (list px) :=
  allSome (map (fun i => pixelAt get (i * dX)) (zseq (Z.to_nat (rdx rc * rdy rc)))).
(** layerimage.go:100-106: the bytes are used in place; a slice that is too short makes the
    transformation panic. *)
Definition inPlace (r : bytes) (i : Z) : option (option px) :=
  let? a := idx r i in let? b := idx r (i + 1) in let? c := idx r (i + 2) in let? d := idx r (i + 3) in Some (Some (Px a b c d)).
Definition createImage (rc : rect) (r g b : bytes) (a : option bytes) (dX : Z) : option (list px) :=
  if dX =? 4 then pixelsOf (inPlace r) rc 4 else pixelsOf (getImage r g b a) rc dX.
(** layerimage.go:133-176: pixels of 16 bits per channel; the two bytes of alpha are equal. *)
Definition widen (t8 : Z -> Z) (v : px) : px := Px (t8 (pr v)) (t8 (pg v)) (t8 (pb v)) (pa v * 256 + pa v).
Definition createImageGamma (rc : rect) (r g b : bytes) (a : option bytes) (dX : Z) (t8 : Z -> Z) : option (list px) :=
  pixelsOf (fun i => match getImage r g b a i with Some (Some v) => Some (Some (widen t8 v)) | o => o end) rc dX.
(** The bytes of an image.NRGBA64. *)
Definition pix64Bytes (img : list px) : bytes :=
  flat_map (fun p => [Z.shiftr (pr p) 8; u8 (pr p); Z.shiftr (pg p) 8; u8 (pg p); Z.shiftr (pb p) 8; u8 (pb p); Z.shiftr (pa p) 8; u8 (pa p)]) img.
(** layerimage.go:178-187; the length is a multiple of 8. *)
Fixpoint restoreGamma (t16 : Z -> Z) (pix : bytes) : bytes :=
  match pix with
  | r1 :: r0 :: g1 :: g0 :: b1 :: b0 :: a1 :: a0 :: rest =>
      t16 (Z.lor (Z.shiftl r1 8) r0) :: r0 :: t16 (Z.lor (Z.shiftl g1 8) g0) :: g0 :: t16 (Z.lor (Z.shiftl b1 8) b0) :: b0 :: a1 :: a0 :: restoreGamma t16 rest
  | _ => pix
  end.

(** * layerimage.go:214-231 and 419-430 *)

Definition isIdentity (m : aff) : bool :=
  Qeq_bool (a0 m) 1 && Qeq_bool (a1 m) 0 && Qeq_bool (a2 m) 0 && Qeq_bool (a3 m) 0 && Qeq_bool (a4 m) 1 && Qeq_bool (a5 m) 0.

(** draw.BiLinear.Transform(tmp2, m, tmp, rect, draw.Src, nil) of golang.org/x/image/draw, for an
    image.NRGBA, an image.NRGBA64 and an image.Alpha: the pixels of the new image with the last
    rectangle as bounds, which was zero before, from the pixels of the image with the first. *)
Record library := Lib {
  warp8 : aff -> rect -> list px -> rect -> list px;
  warp16 : aff -> rect -> list px -> rect -> list px;
  warpA : aff -> rect -> list Z -> rect -> list Z }.

Section scaled.
  (** Rounding of float64, see MThumb.transformRect. *)
  Variable rnd : Q -> Q.
  Variable lib : library.
  Variable cpus : nat.
  Variable ts : Z.

  Definition newScaledTiledImage (rc : rect) (r g b : bytes) (a : option bytes) (dX : Z) (m : aff) (gt : option gammaTable) :=
    if isIdentity m then newTiledImage cpus ts rc r g b a dX
    else match gt with
    | None =>
        let? tmp := createImage rc r g b a dX in
        let trRect := transformRect rnd rc m in
        let pix := pixBytes (warp8 lib m rc tmp trRect) in
        newTiledImage cpus ts trRect pix (skipn 1 pix) (skipn 2 pix) (Some (skipn 3 pix)) 4
    | Some gt =>
        let? tmp := createImageGamma rc r g b a dX (T8 gt) in
        let trRect := transformRect rnd rc m in
        let pix := restoreGamma (T16 gt) (pix64Bytes (warp16 lib m rc tmp trRect)) in
        newTiledImage cpus ts trRect pix (skipn 2 pix) (skipn 4 pix) (Some (skipn 6 pix)) 8
    end.

  (** layerimage.go:391-397, 419-430; a slice that is too short makes the transformation panic. *)
  Definition newScaledTiledMask (rc : rect) (a : bytes) (defaultColor : Z) (m : aff) :=
    if isIdentity m then newTiledMask cpus ts rc a defaultColor
    else if zlen a <? rdx rc * rdy rc then None
    else
      let trRect := transformRect rnd rc m in
      newTiledMask cpus ts trRect (warpA lib m rc a trRect) defaultColor.

  (** layerimage.go:197-212, 399-417: Transform of a tiled image or mask; see
      MTileRender.transformImage and transformMask for the identity. *)
  Definition transformImageBy (m : aff) (gt : option gammaTable) (t t' : tilemap px) : Prop :=
    exists r, tilesRect ts t r /\
    if rempty r then t' = [] else
    exists img, rendered (Px 0 0 0 0) copyPx cpus ts r t (zrepeat (Px 0 0 0 0) (rdx r * rdy r)) img /\
      let pix := pixBytes img in
      built (newScaledTiledImage r pix (skipn 1 pix) (skipn 2 pix) (Some (skipn 3 pix)) 4 m gt) t'.
  Definition transformMaskBy (m : aff) (t t' : tilemap Z) : Prop :=
    exists r, tilesRect ts t r /\
    if rempty r then t' = [] else
    exists img, rendered 0 copyMask cpus ts r t (zrepeat 0 (rdx r * rdy r)) img /\
      built (newScaledTiledMask r img 0 m) t'.
End scaled.
