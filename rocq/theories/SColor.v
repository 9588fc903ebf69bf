(** Specification vocabulary for C30 and C31. *)
From Verif Require Import Base MPicker.

(** A value of the Go type: fields within their width. *)
Definition u8_ok (x : Z) : Prop := 0 <= x < 256.
Definition u16_ok (x : Z) : Prop := 0 <= x < 65536.
Definition u32_ok (x : Z) : Prop := 0 <= x < 4294967296.
Definition color_ok (c : color) : Prop :=
  match c with
  | CGray1 _ => True
  | CGray y => u8_ok y
  | CGray16 y => u16_ok y
  | CGray32 y => u32_ok y
  | CNGrayA y a => u8_ok y /\ u8_ok a
  | CNGrayA32 y a => u16_ok y /\ u16_ok a
  | CNGrayA64 y a => u32_ok y /\ u32_ok a
  | CNRGBA r g b a => u8_ok r /\ u8_ok g /\ u8_ok b /\ u8_ok a
  | CNRGBA64 r g b a => u16_ok r /\ u16_ok g /\ u16_ok b /\ u16_ok a
  | CNRGBA128 r g b a => u32_ok r /\ u32_ok g /\ u32_ok b /\ u32_ok a
  | CNCMYKA c m y k a => u8_ok c /\ u8_ok m /\ u8_ok y /\ u8_ok k /\ u8_ok a
  | CNCMYKA80 c m y k a => u16_ok c /\ u16_ok m /\ u16_ok y /\ u16_ok k /\ u16_ok a
  end.

(** A valid alpha-premultiplied colour (documentation of color.Color). *)
Definition premultiplied (q : Z * Z * Z * Z) : Prop :=
  let '(r, g, b, a) := q in 0 <= r <= a /\ 0 <= g <= a /\ 0 <= b <= a /\ a <= 65535.

(** What [RGBA] is meant to be for the integer types, over unbounded integers:
    samples scaled to 16 bits, times alpha. *)
Definition exact_rgba (c : color) : option (Z * Z * Z * Z) :=
  let q (vals : Z * Z * Z) (a : Z) :=
    let '(r, g, b) := vals in Some (r * a / 65535, g * a / 65535, b * a / 65535, a) in
  match c with
  | CGray1 y => let v := if y then 65535 else 0 in q (v, v, v) 65535
  | CGray y => q (y * 257, y * 257, y * 257) 65535
  | CGray16 y => q (y, y, y) 65535
  | CNGrayA y a => q (y * 257, y * 257, y * 257) (a * 257)
  | CNGrayA32 y a => q (y, y, y) a
  | CNRGBA r g b a => q (r * 257, g * 257, b * 257) (a * 257)
  | CNRGBA64 r g b a => q (r, g, b) a
  | CNCMYKA c m y k a =>
      let v x := (x * 257) * (k * 257) / 65535 in q (v c, v m, v y) (a * 257)
  | CNCMYKA80 c m y k a => let v x := x * k / 65535 in q (v c, v m, v y) a
  | _ => None
  end.

(** The colour types of the models. *)
Definition of_model (m : cmodel) (c : color) : bool :=
  match m, c with
  | MdGray1, CGray1 _ | MdGray32, CGray32 _ | MdNGrayA, CNGrayA _ _ | MdNGrayA32, CNGrayA32 _ _
  | MdNGrayA64, CNGrayA64 _ _ | MdNRGBA128, CNRGBA128 _ _ _ _ | MdNCMYKA, CNCMYKA _ _ _ _ _
  | MdNCMYKA80, CNCMYKA80 _ _ _ _ _ => true
  | _, _ => false
  end.

(** The types of all colour models, those of package image and palettes included. *)
Definition colour_of (m : cmodel) (c : color) : Prop :=
  match m, c with
  | MdPalette pal, _ => In c pal
  | MdGray, CGray _ | MdGray16, CGray16 _ | MdNRGBA, CNRGBA _ _ _ _ | MdNRGBA64, CNRGBA64 _ _ _ _ => True
  | _, _ => of_model m c = true
  end.

(** The 16 bit level of an IEEE number with [mb] bits of mantissa and [eb] bits of
    exponent: 65535 for numbers from 1 on, 0 for negative numbers, zeros and NaN
    (conversion as on amd64 and arm64). A number [m / 2^d] between them has the level
    [n] with [n <= 65535 * m / 2^d < n + 1]; the rounding of the product may exceed
    this by 1/512. *)
Definition level (mb eb bits n : Z) : Prop :=
  let sign := bits / 2 ^ (mb + eb) in
  let ex := bits / 2 ^ mb mod 2 ^ eb in
  let frac := bits mod 2 ^ mb in
  let bias := 2 ^ (eb - 1) - 1 in
  if ex =? 2 ^ eb - 1 then n = (if (frac =? 0) && (sign =? 0) then 65535 else 0)
  else if (sign =? 1) || ((ex =? 0) && (frac =? 0)) then n = 0
  else if bias <=? ex then n = 65535
  else
    let m := if ex =? 0 then frac else frac + 2 ^ mb in
    let d := bias + mb - Z.max ex 1 in
    (512 * n - 1) * 2 ^ d <= 512 * 65535 * m < 512 * (n + 1) * 2 ^ d.
Notation level32 := (level 23 8).
Notation level64 := (level 52 11).

(** [RGBA] of the types with floating point samples; [pow y] is the binary64 number that
    the power function returns for the sample. *)
Definition float_rgba (pow : Z -> Z) (c : color) (q : Z * Z * Z * Z) : Prop :=
  match c with
  | CGray32 y => exists n, level64 (pow y) n /\ q = (n, n, n, 65535)
  | CNGrayA64 y a => exists n k, level64 (pow y) n /\ level32 a k /\ q = (n * k / 65535, n * k / 65535, n * k / 65535, k)
  | CNRGBA128 r g b a => exists n1 n2 n3 k, level64 (pow r) n1 /\ level64 (pow g) n2 /\ level64 (pow b) n3 /\ level32 a k /\
      q = (n1 * k / 65535, n2 * k / 65535, n3 * k / 65535, k)
  | _ => False
  end.
Definition is_float (c : color) : Prop :=
  match c with CGray32 _ | CNGrayA64 _ _ | CNRGBA128 _ _ _ _ => True | _ => False end.
