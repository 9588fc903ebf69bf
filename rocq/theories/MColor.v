(** Model of color/color.go: the colour types and their models. *)
From Verif Require Import Base MPicker.

(** * Floating point numbers, by their bit patterns *)

(** A decoded IEEE number: the value of [Ffin neg m e] is [m * 2^e], negated if
    [neg]. *)
Inductive fl := Fnan | Finf (neg : bool) | Ffin (neg : bool) (m e : Z).
(** binary32 and binary64. *)
Definition f32 (b : Z) : fl :=
  let neg := Z.testbit b 31 in
  let ex := Z.land (Z.shiftr b 23) 255 in
  let fr := Z.land b 8388607 in
  if ex =? 255 then (if fr =? 0 then Finf neg else Fnan)
  else if ex =? 0 then Ffin neg fr (-149) else Ffin neg (fr + 8388608) (ex - 150).
Definition f64 (b : Z) : fl :=
  let neg := Z.testbit b 63 in
  let ex := Z.land (Z.shiftr b 52) 2047 in
  let fr := Z.land b 4503599627370495 in
  if ex =? 2047 then (if fr =? 0 then Finf neg else Fnan)
  else if ex =? 0 then Ffin neg fr (-1074) else Ffin neg (fr + 4503599627370496) (ex - 1075).

(** [x >= 1] and [x <= 0]. *)
Definition f_ge1 (x : fl) : bool :=
  match x with
  | Fnan => false
  | Finf neg => negb neg
  | Ffin neg m e => negb neg && (if 0 <=? e then 1 <=? m else Z.shiftl 1 (- e) <=? m)
  end.
Definition f_le0 (x : fl) : bool :=
  match x with Fnan => false | Finf neg => neg | Ffin neg m e => neg || (m =? 0) end.

(** [m / 2^k] rounded to the nearest integer, ties to even. *)
Definition round_even (m k : Z) : Z :=
  let q := Z.shiftr m k in
  let r := m - Z.shiftl q k in
  let half := Z.shiftl 1 (k - 1) in
  if (half <? r) || ((r =? half) && Z.odd q) then q + 1 else q.

(** [uint32(x * 0xffff)] with the product rounded to [prec] bits, for
    [0 < x < 1]. (Products so small that they are subnormal are rounded more
    coarsely by the hardware; they are below one and give 0 in both cases.) For
    NaN the Go specification leaves the result to the implementation; amd64 and
    arm64 give 0. *)
Definition scale16 (prec : Z) (x : fl) : Z :=
  match x with
  | Ffin _ m e =>
      let p := m * 65535 in
      let k := Z.max 0 (Z.log2 p + 1 - prec) in
      let p' := Z.shiftl (if k =? 0 then p else round_even p k) k in
      u32 (Z.shiftr p' (- e))
  | _ => 0
  end.

(** * Colours *)

(** Any value of type color.Color: the colours of this package and package
    image, or another type, known by what its [RGBA] returns. *)
Inductive acolor := Known (c : color) | Other (r g b a : Z).

Section color.
  (** math.Pow(x, 1/2.2) for x given by its binary32 pattern; the result is a
      binary64 pattern. *)
  Variable pow : Z -> Z.
  (** [float32(math.Pow(float64(v) / 0xffff, 2.2))], binary32 pattern. *)
  Variable unpow : Z -> Z.
  (** binary32 quotient, product, [float32(a) / 0xffff] and [0xffff / float32(a)]. *)
  Variables fdiv fmul : Z -> Z -> Z.
  Variables alpha32 inv_alpha32 : Z -> Z.

  (** color.go:8-18 *)
  Definition fromFloat (v : Z) : Z :=
    let x := f64 (pow v) in
    if f_ge1 x then 65535 else if f_le0 x then 0 else scale16 53 x.

  (** color.go:30-35 Gray1, 52-56 Gray32, 74-85 NGrayA, 109-120 NGrayA32, 144-155
      NGrayA64, 179-195 NRGBA128, 229-246 NCMYKA, 266-283 NCMYKA80; image/color
      Gray, Gray16, NRGBA and NRGBA64. *)
  Definition mulA (y a : Z) : Z := u32 (y * a) / 65535.
  Definition rgba (c : color) : Z * Z * Z * Z :=
    match c with
    | CGray1 y => if y then (65535, 65535, 65535, 65535) else (0, 0, 0, 65535)
    | CGray y => let y := Z.lor y (Z.shiftl y 8) in (y, y, y, 65535)
    | CGray16 y => (y, y, y, 65535)
    | CGray32 y => let y := fromFloat y in (y, y, y, 65535)
    | CNGrayA y a =>
        let y := u32 (y * 257) in
        if a =? 255 then (y, y, y, 65535)
        else if a =? 0 then (0, 0, 0, 0)
        else let a := u32 (a * 257) in let y := mulA y a in (y, y, y, a)
    | CNGrayA32 y a =>
        if a =? 65535 then (y, y, y, 65535)
        else if a =? 0 then (0, 0, 0, 0)
        else let y := mulA y a in (y, y, y, a)
    | CNGrayA64 y a =>
        let y := fromFloat y in
        if f_ge1 (f32 a) then (y, y, y, 65535)
        else if f_le0 (f32 a) then (0, 0, 0, 0)
        else let a := scale16 24 (f32 a) in let y := mulA y a in (y, y, y, a)
    | CNRGBA r g b a =>
        let w v := u32 (Z.lor v (Z.shiftl v 8) * a) / 255 in
        (w r, w g, w b, Z.lor a (Z.shiftl a 8))
    | CNRGBA64 r g b a => (mulA r a, mulA g a, mulA b a, a)
    | CNRGBA128 r g b a =>
        let r := fromFloat r in let g := fromFloat g in let b := fromFloat b in
        if f_ge1 (f32 a) then (r, g, b, 65535)
        else if f_le0 (f32 a) then (0, 0, 0, 0)
        else let a := scale16 24 (f32 a) in (mulA r a, mulA g a, mulA b a, a)
    | CNCMYKA c m y k a =>
        let w := u32 (k * 66049) in
        let r := u32 (c * w) / 65535 in let g := u32 (m * w) / 65535 in let b := u32 (y * w) / 65535 in
        if a =? 255 then (r, g, b, 65535)
        else if a =? 0 then (0, 0, 0, 0)
        else let a := u32 (a * 257) in (mulA r a, mulA g a, mulA b a, a)
    | CNCMYKA80 c m y k a =>
        let r := mulA c k in let g := mulA m k in let b := mulA y k in
        if a =? 65535 then (r, g, b, 65535)
        else if a =? 0 then (0, 0, 0, 0)
        else (mulA r a, mulA g a, mulA b a, a)
    end.
  Definition argba (c : acolor) : Z * Z * Z * Z :=
    match c with Known c => rgba c | Other r g b a => (r, g, b, a) end.

  Definition luma (r g b : Z) : Z := u32 (299 * r + 587 * g + 114 * b + 500) / 1000.

  (** color.go:37-44 *)
  Definition gray1Model (c : acolor) : option color :=
    match c with
    | Known (CGray1 y) => Some (CGray1 y)
    | _ => let '(r, g, b, _) := argba c in Some (CGray1 (32768 <=? luma r g b))
    end.
  (** color.go:58-66 *)
  Definition gray32Model (c : acolor) : option color :=
    match c with
    | Known (CGray32 y) => Some (CGray32 y)
    | _ => let '(r, g, b, _) := argba c in Some (CGray32 (unpow (luma r g b)))
    end.
  (** color.go:87-101 *)
  Definition nGrayAModel (c : acolor) : option color :=
    match c with
    | Known (CNGrayA64 y a) => Some (CNGrayA64 y a)
    | _ =>
        let '(r, g, b, a) := argba c in
        if a =? 0 then Some (CNGrayA 0 0) else
        let y := luma r g b in
        if a =? 65535 then Some (CNGrayA (u8 (Z.shiftr y 8)) 255) else
        let y := u32 (y * 65535) / a in
        Some (CNGrayA (u8 (Z.shiftr y 8)) (u8 (Z.shiftr a 8)))
    end.
  (** color.go:122-136 *)
  Definition nGrayA32Model (c : acolor) : option color :=
    match c with
    | Known (CNGrayA64 y a) => Some (CNGrayA64 y a)
    | _ =>
        let '(r, g, b, a) := argba c in
        if a =? 0 then Some (CNGrayA32 0 0) else
        let y := luma r g b in
        if a =? 65535 then Some (CNGrayA32 (u16 y) 65535) else
        let y := u32 (y * 65535) / a in
        Some (CNGrayA32 (u16 y) (u16 a))
    end.
  (** color.go:157-172 *)
  Definition nGrayA64Model (c : acolor) : option color :=
    match c with
    | Known (CNGrayA64 y a) => Some (CNGrayA64 y a)
    | _ =>
        let '(r, g, b, a) := argba c in
        if a =? 0 then Some (CNGrayA64 0 0) else
        let x := unpow (luma r g b) in
        if a =? 65535 then Some (CNGrayA64 x one32) else
        let xa := alpha32 a in Some (CNGrayA64 (fdiv x xa) xa)
    end.
  (** color.go:197-217 *)
  Definition nRGBA128Model (c : acolor) : option color :=
    match c with
    | Known (CNRGBA128 r g b a) => Some (CNRGBA128 r g b a)
    | _ =>
        let '(r, g, b, a) := argba c in
        let fr := unpow r in let fg := unpow g in let fb := unpow b in
        if 65535 <=? a then Some (CNRGBA128 fr fg fb one32)
        else if a =? 0 then Some (CNRGBA128 0 0 0 0)
        else let fa := inv_alpha32 a in Some (CNRGBA128 (fmul fr fa) (fmul fg fa) (fmul fb fa) (alpha32 a))
    end.
  (** Go library image/color [RGBToCMYK]. *)
  Definition RGBToCMYK (r g b : Z) : Z * Z * Z * Z :=
    let w := Z.max (Z.max r g) b in
    if w =? 0 then (0, 0, 0, 255)
    else (u8 ((w - r) * 255 / w), u8 ((w - g) * 255 / w), u8 ((w - b) * 255 / w), u8 (255 - w)).
  (** color.go:248-259; [None] is the division by zero. *)
  Definition nCMYKAModel (c : acolor) : option color :=
    match c with
    | Known (CNCMYKA c m y k a) => Some (CNCMYKA c m y k a)
    | _ =>
        let '(r, g, b, a) := argba c in
        let '(cc, mm, yy, kk) := RGBToCMYK (u8 (Z.shiftr r 8)) (u8 (Z.shiftr g 8)) (u8 (Z.shiftr b 8)) in
        if a =? 0 then None else
        let d v := u8 (u32 (v * 65535) / a) in
        Some (CNCMYKA (u8 (255 - d cc)) (u8 (255 - d mm)) (u8 (255 - d yy)) (u8 (255 - d kk)) (u8 (Z.shiftr a 8)))
    end.
  (** color.go:285-315 *)
  Definition nCMYKA80Model (c : acolor) : option color :=
    match c with
    | Known (CNCMYKA c m y k a) => Some (CNCMYKA c m y k a)
    | _ =>
        let '(r, g, b, a) := argba c in
        if a =? 0 then Some (CNCMYKA80 65535 65535 65535 65535 0) else
        let w := Z.max (Z.max r g) b in
        if w =? 0 then Some (CNCMYKA80 65535 65535 65535 65535 (u16 a)) else
        let q v := u32 (u32 (w - v) * 65535) / w in
        let cc := q r in let mm := q g in let yy := q b in
        let kk := u32 (65535 - w) in
        let inv v := u16 (65535 - v) in
        if a =? 65535 then Some (CNCMYKA80 (inv cc) (inv mm) (inv yy) (inv kk) 65535)
        else
          let d v := u32 (v * 65535) / a in
          Some (CNCMYKA80 (inv (d cc)) (inv (d mm)) (inv (d yy)) (inv (d kk)) (u16 a))
    end.

  (** [color.Model.Convert] of the models that pickers return; the models of
      package image (palette, grey, NRGBA ...) are library code and not modelled:
      [None] outside of the eight models of this package. *)
  Definition convert (m : cmodel) (c : acolor) : option color :=
    match m with
    | MdGray1 => gray1Model c
    | MdGray32 => gray32Model c
    | MdNGrayA => nGrayAModel c
    | MdNGrayA32 => nGrayA32Model c
    | MdNGrayA64 => nGrayA64Model c
    | MdNRGBA128 => nRGBA128Model c
    | MdNCMYKA => nCMYKAModel c
    | MdNCMYKA80 => nCMYKA80Model c
    | _ => None
    end.
End color.
