(** Model of picker.go: pixel pickers over channel planes; the colour values
    of image/color and /repo/color that they return. *)
From Verif Require Import Base MUtil MRect.

(** Colours. Field values are unsigned integers of the width of the Go field;
    float32 fields are given by their 32 bit pattern (util.go:70-72
    [readFloat32] is [math.Float32frombits] of the big endian word). *)
Inductive color :=
| CGray1 (y : bool)                 (* psdColor.Gray1 *)
| CGray (y : Z)                     (* color.Gray *)
| CGray16 (y : Z)                   (* color.Gray16 *)
| CGray32 (y : Z)                   (* psdColor.Gray32, float bits *)
| CNGrayA (y a : Z)                 (* psdColor.NGrayA *)
| CNGrayA32 (y a : Z)               (* psdColor.NGrayA32 *)
| CNGrayA64 (y a : Z)               (* psdColor.NGrayA64, float bits *)
| CNRGBA (r g b a : Z)              (* color.NRGBA *)
| CNRGBA64 (r g b a : Z)            (* color.NRGBA64 *)
| CNRGBA128 (r g b a : Z)           (* psdColor.NRGBA128, float bits *)
| CNCMYKA (c m y k a : Z)           (* psdColor.NCMYKA *)
| CNCMYKA80 (c m y k a : Z).        (* psdColor.NCMYKA80 *)

(** The picker types of picker.go:99-456. *)
Inductive pkind :=
| PkPalette (pal : list color)
| PkGray1 | PkGray8 | PkNGray8 | PkNGrayA8
| PkGray16 | PkNGray16 | PkNGrayA16
| PkGray32 | PkNGray32 | PkNGrayA32
| PkNRGB8 | PkNRGBA8 | PkNRGB16 | PkNRGBA16 | PkNRGB32 | PkNRGBA32
| PkNCMYK8 | PkNCMYKA8 | PkNCMYK16 | PkNCMYKA16.

(** A picker with its source. A nil plane is the empty list (both panic on
    every index). *)
Record picker := Picker { pk_kind : pkind; pk_rect : rect; pk_src : list bytes }.

(** Number of planes that [setSource] indexes. *)
Definition planes (k : pkind) : Z :=
  match k with
  | PkPalette _ | PkGray1 | PkGray8 | PkNGray8 | PkGray16 | PkNGray16 | PkGray32 | PkNGray32 => 1
  | PkNGrayA8 | PkNGrayA16 | PkNGrayA32 => 2
  | PkNRGB8 | PkNRGB16 | PkNRGB32 => 3
  | PkNRGBA8 | PkNRGBA16 | PkNRGBA32 | PkNCMYK8 | PkNCMYK16 => 4
  | PkNCMYKA8 | PkNCMYKA16 => 5
  end.

(** [setSource] (picker.go:105, 118, 132, 145-147, 160-162, 175, 188-190,
    203-205, 218, 231-233, 246-248, 264-266, 284-286, 299-301, 319-321,
    339-341, 359-361, 379-381, 400-402, 421-423, 442-444): takes the first
    planes of [src]; [None] is the index panic. *)
Definition setSource (k : pkind) (r : rect) (src : list bytes) : option picker :=
  if zlen src <? planes k then None
  else Some (Picker k r (firstn (Z.to_nat (planes k)) src)).

(** picker.go:41-60 *)
Definition findNGrayPicker (depth : Z) (hasAlpha : bool) : option pkind :=
  if depth =? 8 then Some (if hasAlpha then PkNGrayA8 else PkNGray8)
  else if depth =? 16 then Some (if hasAlpha then PkNGrayA16 else PkNGray16)
  else if depth =? 32 then Some (if hasAlpha then PkNGrayA32 else PkNGray32)
  else None.

(** picker.go:62-81 *)
Definition findNRGBAPicker (depth : Z) (hasAlpha : bool) : option pkind :=
  if depth =? 8 then Some (if hasAlpha then PkNRGBA8 else PkNRGB8)
  else if depth =? 16 then Some (if hasAlpha then PkNRGBA16 else PkNRGB16)
  else if depth =? 32 then Some (if hasAlpha then PkNRGBA32 else PkNRGB32)
  else None.

(** picker.go:83-97 *)
Definition findNCMYKAPicker (depth : Z) (hasAlpha : bool) : option pkind :=
  if depth =? 8 then Some (if hasAlpha then PkNCMYKA8 else PkNCMYK8)
  else if depth =? 16 then Some (if hasAlpha then PkNCMYKA16 else PkNCMYK16)
  else None.

(** picker.go:15-25; [None] is the nil interface. Colour modes: 0 Bitmap,
    1 Grayscale, 2 Indexed, 3 RGB, 4 CMYK (colormode.go:9-18). *)
Definition findPicker (depth colorMode : Z) (hasAlpha : bool) : option pkind :=
  if (colorMode =? 0) || (colorMode =? 1) then findNGrayPicker depth hasAlpha
  else if colorMode =? 3 then findNRGBAPicker depth hasAlpha
  else if colorMode =? 4 then findNCMYKAPicker depth hasAlpha
  else None.

(** picker.go:27-39 *)
Definition findGrayPicker (depth : Z) : option pkind :=
  if depth =? 1 then Some PkGray1
  else if depth =? 8 then Some PkGray8
  else if depth =? 16 then Some PkGray16
  else if depth =? 32 then Some PkGray32
  else None.

(** Sample readers: a byte, a 16 bit word, the bits of a float32
    (util.go:31-33, 40-42, 70-72), at the position of a pixel. *)
Definition s8 (p : bytes) (pos : Z) : option Z := idx p pos.
Definition s16 (p : bytes) (pos : Z) : option Z := readUint16 p (Z.shiftl pos 1).
Definition s32 (p : bytes) (pos : Z) : option Z := readUint32 p (Z.shiftl pos 2).

Definition plane (p : picker) (i : Z) : bytes :=
  match idx (pk_src p) i with Some b => b | None => [] end.

Definition o1 {A B} (f : A -> B) (x : option A) : option B := option_map f x.
Definition oap {A B} (f : option (A -> B)) (x : option A) : option B :=
  match f, x with Some f, Some x => Some (f x) | _, _ => None end.

(** 1.0 as a float32 bit pattern. *)
Definition one32 : Z := 1065353216.

(** [At] of all pickers: picker.go:108-111, 121-125, 135-138, 150-153,
    165-168, 178-181, 193-196, 208-211, 221-224, 236-239, 251-257, 269-277,
    289-292, 304-312, 324-332, 344-352, 364-372, 384-393, 405-414, 426-435,
    447-456. [None] is an index panic. *)
Definition picker_at (p : picker) (x y : Z) : option color :=
  let r := pk_rect p in
  let pos := (y - ry0 r) * rdx r + x - rx0 r in
  let g (s : bytes -> Z -> option Z) (i : Z) := s (plane p i) pos in
  match pk_kind p with
  | PkPalette pal =>
      match idx (plane p 0) pos with Some i => idx pal i | None => None end
  | PkGray1 =>
      let xx := x - rx0 r in
      let pos := Z.shiftr (rdx r + 7) 3 * (y - ry0 r) + Z.shiftr xx 3 in
      o1 (fun v => CGray1 (Z.land v (Z.shiftl 1 (Z.land (Z.lnot xx) 7)) =? 0)) (idx (plane p 0) pos)
  | PkGray8 => o1 CGray (g s8 0)
  | PkNGray8 => o1 (fun v => CNGrayA v 255) (g s8 0)
  | PkNGrayA8 => oap (o1 CNGrayA (g s8 0)) (g s8 1)
  | PkGray16 => o1 CGray16 (g s16 0)
  | PkNGray16 => o1 (fun v => CNGrayA32 v 65535) (g s16 0)
  | PkNGrayA16 => oap (o1 CNGrayA32 (g s16 0)) (g s16 1)
  | PkGray32 => o1 CGray32 (g s32 0)
  | PkNGray32 => o1 (fun v => CNGrayA64 v one32) (g s32 0)
  | PkNGrayA32 => oap (o1 CNGrayA64 (g s32 0)) (g s32 1)
  | PkNRGB8 => o1 (fun f => f 255) (oap (oap (o1 CNRGBA (g s8 0)) (g s8 1)) (g s8 2))
  | PkNRGBA8 => oap (oap (oap (o1 CNRGBA (g s8 0)) (g s8 1)) (g s8 2)) (g s8 3)
  | PkNRGB16 => o1 (fun f => f 65535) (oap (oap (o1 CNRGBA64 (g s16 0)) (g s16 1)) (g s16 2))
  | PkNRGBA16 => oap (oap (oap (o1 CNRGBA64 (g s16 0)) (g s16 1)) (g s16 2)) (g s16 3)
  | PkNRGB32 => o1 (fun f => f one32) (oap (oap (o1 CNRGBA128 (g s32 0)) (g s32 1)) (g s32 2))
  | PkNRGBA32 => oap (oap (oap (o1 CNRGBA128 (g s32 0)) (g s32 1)) (g s32 2)) (g s32 3)
  | PkNCMYK8 =>
      o1 (fun f => f 255) (oap (oap (oap (o1 CNCMYKA (g s8 0)) (g s8 1)) (g s8 2)) (g s8 3))
  | PkNCMYKA8 => oap (oap (oap (oap (o1 CNCMYKA (g s8 0)) (g s8 1)) (g s8 2)) (g s8 3)) (g s8 4)
  | PkNCMYK16 =>
      o1 (fun f => f 65535) (oap (oap (oap (o1 CNCMYKA80 (g s16 0)) (g s16 1)) (g s16 2)) (g s16 3))
  | PkNCMYKA16 => oap (oap (oap (oap (o1 CNCMYKA80 (g s16 0)) (g s16 1)) (g s16 2)) (g s16 3)) (g s16 4)
  end.

(** Colour models, picker.go [ColorModel] methods. *)
Inductive cmodel :=
| MdPalette (pal : list color) | MdGray1 | MdGray | MdGray16 | MdGray32
| MdNGrayA | MdNGrayA32 | MdNGrayA64 | MdNRGBA | MdNRGBA64 | MdNRGBA128
| MdNCMYKA | MdNCMYKA80.

Definition colorModel (k : pkind) : cmodel :=
  match k with
  | PkPalette pal => MdPalette pal
  | PkGray1 => MdGray1
  | PkGray8 => MdGray
  | PkNGray8 | PkNGrayA8 => MdNGrayA
  | PkGray16 => MdGray16
  | PkNGray16 | PkNGrayA16 => MdNGrayA32
  | PkGray32 => MdGray32
  | PkNGray32 | PkNGrayA32 => MdNGrayA64
  | PkNRGB8 | PkNRGBA8 => MdNRGBA
  | PkNRGB16 | PkNRGBA16 => MdNRGBA64
  | PkNRGB32 | PkNRGBA32 => MdNRGBA128
  | PkNCMYK8 | PkNCMYKA8 => MdNCMYKA
  | PkNCMYK16 | PkNCMYKA16 => MdNCMYKA80
  end.
