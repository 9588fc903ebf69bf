(** What a user expects of the blend modes, stated without the code's helpers. *)
From Coq Require Import QArith Qround.
From Verif Require Import Base MBlend.
Open Scope Z_scope.

(** A pixel of image.NRGBA: four bytes. A pixel of image.RGBA is premultiplied:
    no colour byte exceeds alpha. *)
Definition pixel_ok (p : px) : Prop :=
  0 <= pr p <= 255 /\ 0 <= pg p <= 255 /\ 0 <= pb p <= 255 /\ 0 <= pa p <= 255.
Definition premul_ok (top : Z) (p : px) : Prop :=
  0 <= pr p <= pa p /\ 0 <= pg p <= pa p /\ 0 <= pb p <= pa p /\ 0 <= pa p <= top.

Definition set_alpha (p : px) (a : Z) : px := Px (pr p) (pg p) (pb p) a.

(** The mode works on each colour channel by itself. *)
Definition is_separable (m : mode) : bool :=
  match m with DarkerColor | LighterColor | Hue | Saturation | Color | Luminosity => false | _ => true end.

(** * The documented formulas (https://www.w3.org/TR/compositing-1/#blending and
    the references named in genblend.go:66-69), on channel values between 0 and 1:
    [s] is the source, [b] the backdrop. *)
Open Scope Q_scope.
Definition qlt (a b : Q) : bool := negb (Qle_bool b a).
Definition qmin (a b : Q) : Q := if qlt a b then a else b.
Definition qmax (a b : Q) : Q := if qlt a b then b else a.

Definition doc_burn (s b : Q) : Q :=
  if Qeq_bool b 1 then 1 else if Qeq_bool s 0 then 0 else 1 - qmin 1 ((1 - b) / s).
Definition doc_dodge (s b : Q) : Q :=
  if Qeq_bool b 0 then 0 else if Qeq_bool s 1 then 1 else qmin 1 (b / (1 - s)).
Definition doc_screen (s b : Q) : Q := s + b - s * b.
Definition doc_hard (s b : Q) : Q :=
  if Qle_bool s (1 # 2) then b * (2 * s) else doc_screen (2 * s - 1) b.
(** The square root is given as a function: it is irrational. *)
Definition doc_soft (root : Q -> Q) (s b : Q) : Q :=
  if Qle_bool s (1 # 2) then b - (1 - 2 * s) * b * (1 - b)
  else
    let d := if Qle_bool b (1 # 4) then ((16 * b - 12) * b + 4) * b else root b in
    b + (2 * s - 1) * (d - b).
Definition doc (root : Q -> Q) (m : mode) (s b : Q) : Q :=
  match m with
  | Normal => s
  | Darken => qmin s b
  | Multiply => s * b
  | ColorBurn => doc_burn s b
  | LinearBurn => qmax 0 (s + b - 1)
  | Lighten => qmax s b
  | Screen => doc_screen s b
  | ColorDodge => doc_dodge s b
  | LinearDodge => qmin 1 (s + b)
  | Add => s + b
  | Overlay => doc_hard b s
  | SoftLight => doc_soft root s b
  | HardLight => doc_hard s b
  | LinearLight => qmin 1 (qmax 0 (b + 2 * s - 1))
  | VividLight => if Qle_bool s (1 # 2) then doc_burn (2 * s) b else doc_dodge (2 * s - 1) b
  | PinLight => if Qle_bool s (1 # 2) then qmin b (2 * s) else qmax b (2 * s - 1)
  | HardMix => if Qle_bool 1 (s + b) then 1 else 0
  | Difference => if qlt s b then b - s else s - b
  | Exclusion => s + b - 2 * s * b
  | Subtract => qmax 0 (b - s)
  | Divide => if Qeq_bool b 0 then 0 else if Qeq_bool s 0 then 1 else qmin 1 (b / s)
  | _ => 0
  end.

(** A byte as a number between 0 and 1. *)
Definition unit (c : Z) : Q := c # 255.
(** The square root of a byte, rounded down to a multiple of 1/255. *)
Definition root255 (b : Q) : Q := Z.sqrt (Qnum (Qred (b * (255 # 1))) * 255) # 255.
(** [c] differs from [255 * v] by at least [lo] and at most [hi]. *)
Definition err_between (lo hi : Q) (c : Z) (v : Q) : bool :=
  let e := (c # 1) - (255 # 1) * v in Qle_bool lo e && Qle_bool e hi.

Open Scope Z_scope.
(** How far the code may be from the formula. *)
Inductive rounding := Exact | Down | Up | Within1.
Definition rounding_of (m : mode) : option rounding :=
  match m with
  | Normal | Darken | Lighten | LinearBurn | LinearDodge | Add | Difference | Subtract => Some Exact
  | Multiply | ColorDodge | Divide => Some Down
  | ColorBurn | Screen => Some Up
  | Overlay | HardLight | LinearLight | PinLight | Exclusion => Some Within1
  | _ => None
  end.
Definition rounds (k : rounding) (c : Z) (v : Q) : bool :=
  match k with
  | Exact => err_between 0 0 c v
  | Down => c =? Qfloor ((255 # 1) * v)
  | Up => c =? Qceiling ((255 # 1) * v)
  | Within1 => err_between (-1 # 1) (1 # 1) c v
  end.
(** [c] is what the formula of the mode allows for the bytes [s] and [d]:
    SoftLight is up to 17 levels too dark for a bright source over a dark backdrop;
    VividLight and HardMix differ completely for the named pairs. *)
Definition within_formula (m : mode) (s d c : Z) : bool :=
  let v := doc root255 m (unit s) (unit d) in
  match rounding_of m with
  | Some k => rounds k c v
  | None =>
      match m with
      | SoftLight => err_between (-17 # 1) (2 # 1) c v && ((127 <? s) && (d <? 64) || err_between (-2 # 1) (2 # 1) c v)
      | VividLight => (s =? 0) && (d =? 255) || (s =? 255) && (d =? 0) || err_between (-1 # 1) (1 # 1) c v
      | HardMix => (s + d =? 255) || (s + d =? 256) || err_between 0 0 c v
      | _ => false
      end
  end.

(** Colours that leave an opaque destination as it is, at every opacity. *)
Definition neutral (m : mode) : option Z :=
  match m with
  | Darken | Multiply | ColorBurn | LinearBurn | Divide => Some 255
  | Lighten | Screen | ColorDodge | LinearDodge | Add | Difference | Exclusion | Subtract => Some 0
  | LinearLight | PinLight => Some 128
  | _ => None
  end.

(** Luminosity of a byte colour: 30% red, 59% green, 11% blue, in 256ths. *)
Definition luma (c : Z * Z * Z) : Z := let '(r, g, b) := c in (77 * r + 151 * g + 28 * b) / 256.
