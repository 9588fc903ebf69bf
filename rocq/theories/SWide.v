(** The formulas of the blend modes for 16 bit channels. *)
From Coq Require Import QArith Qround.
From Verif Require Import Base MBlend SBlend SHsl.
Open Scope Z_scope.

(** A 16 bit channel as a number between 0 and 1. *)
Definition unit16 (c : Z) : Q := c # 65535.
(** The square root of a channel, rounded down to a multiple of 1/65535. *)
Definition root16 (b : Q) : Q := Z.sqrt (Qnum (Qred (b * (65535 # 1))) * 65535) # 65535.
(** [c] differs from [65535 * v] by at least [lo] and at most [hi]. *)
Definition err16 (lo hi : Q) (c : Z) (v : Q) : bool :=
  let e := ((c # 1) - (65535 # 1) * v)%Q in Qle_bool lo e && Qle_bool e hi.

(** [c] is what the formula of the mode ([doc] of SBlend) allows for the 16 bit
    channels [s] (source) and [d] (backdrop). Differences of a few levels of 65535
    are rounding; SoftLight is up to 2304 levels (3.5%) too bright for a bright
    source over a dark backdrop; VividLight and HardMix differ completely for the
    named pairs. *)
Definition within_formula16 (m : mode) (s d c : Z) : bool :=
  let v := doc root16 m (unit16 s) (unit16 d) in
  match m with
  | Normal | Darken | Lighten | LinearBurn | LinearDodge | Add | Difference | Subtract => err16 0 0 c v
  | Multiply | ColorDodge | Divide => c =? Qfloor ((65535 # 1) * v)
  | ColorBurn | Screen => c =? Qceiling ((65535 # 1) * v)
  | LinearLight | PinLight => err16 (-1 # 1) 0 c v
  | Overlay | HardLight => err16 (-2 # 1) (1 # 1) c v
  | Exclusion => err16 0 (3 # 1) c v
  | SoftLight => err16 (-2 # 1) (2304 # 1) c v && ((32767 <? s) && (d <? 16384) || err16 (-2 # 1) (2 # 1) c v)
  | VividLight => (s =? 0) && (d =? 65535) || (s =? 65535) && (d =? 0) || err16 (-1 # 1) (1 # 1) c v
  | HardMix => (s + d =? 65535) || (s + d =? 65536) || err16 0 0 c v
  | _ => false
  end.

(** The straight 16 bit colour of a byte channel [c] with the alpha byte [a]. *)
Definition straight (premultiplied : bool) (a c : Z) : Z :=
  if premultiplied then if a =? 0 then 0 else c * 65535 / a else c * 257.
(** Brightness as a number without rounding: 30% red, 59% green, 11% blue, in
    65536ths. *)
Definition luma16 (c : Z * Z * Z) : Z := let '(r, g, b) := c in 19661 * r + 38666 * g + 7209 * b.

(** [b]: what blending the colour [s] with the backdrop [d] may give. The modes that
    mix hue, saturation and luminosity follow the W3C formulas of SHsl. *)
Definition doc_colour16 (m : mode) (s d b : Z * Z * Z) : Prop :=
  let '(sr, sg, sb) := s in let '(dr, dg, db) := d in let '(br, bg, bb) := b in
  match m with
  | Hue | Saturation | Color | Luminosity =>
      (0 <= br <= 65535 /\ 0 <= bg <= 65535 /\ 0 <= bb <= 65535) /\ match mixed m s d with Some e => all_down e b | None => False end
  | DarkerColor => b = if luma16 s <? luma16 d then s else d
  | LighterColor => b = if luma16 d <? luma16 s then s else d
  | _ => within_formula16 m sr dr br = true /\ within_formula16 m sg dg bg = true /\ within_formula16 m sb db bb = true
  end.

(** The compositing formula (SOver) with 16 bits: 65535 ^ 3 times its right side. *)
Definition compositing16 (t a s d b : Z) : Z := t * (65535 - a) * s + t * a * b + (65535 - t) * a * d.
(** The alpha of the union of two shapes, but for less than two levels. *)
Definition union16 (t a ao : Z) : Prop := 65535 * ao <= 65535 * (t + a) - t * a < 65535 * ao + 2 * 65535.
(** The channel [q] (premultiplied or not) is right but for less than three levels
    of 65535 of the premultiplied colour. *)
Definition composited16 (premultiplied : bool) (exact ao q : Z) : Prop :=
  if premultiplied then 65535 * 65535 * q <= exact < 65535 * 65535 * (q + 3)
  else 65535 * (ao * q) <= exact < 65535 * (ao * q) + 65535 * 65535 * 3.
