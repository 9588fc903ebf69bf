(** Porter and Duff, Compositing Digital Images, 1984: the fraction of the source
    and of the destination that remains, in 65535ths. *)
From Verif Require Import Base MBlend MPorter.
Open Scope Z_scope.

Definition frac_src (op : pdop) (sa da : Z) : Z :=
  match op with
  | Clear | Dest | DestIn | DestOut => 0
  | Copy | SrcOver => 65535
  | SrcIn | SrcAtop => da
  | DestOver | SrcOut | DestAtop | XOR => 65535 - da
  end.
Definition frac_dest (op : pdop) (sa da : Z) : Z :=
  match op with
  | Clear | Copy | SrcIn | SrcOut => 0
  | Dest | DestOver => 65535
  | DestIn | DestAtop => sa
  | SrcOver | DestOut | SrcAtop | XOR => 65535 - sa
  end.
(** The operator on premultiplied pixels with components 0..65535: every channel,
    alpha included, is the weighted sum, rounded down. *)
Definition textbook (op : pdop) (s d : px) : px :=
  let c x y := (x * frac_src op (pa s) (pa d) + y * frac_dest op (pa s) (pa d)) / 65535 in
  Px (c (pr s) (pr d)) (c (pg s) (pg d)) (c (pb s) (pb d)) (c (pa s) (pa d)).

(** A byte pixel as premultiplied 16 bit values; [straight]: the bytes are not
    premultiplied. *)
Definition wide (p : px) : px := Px (pr p * 257) (pg p * 257) (pb p * 257) (pa p * 257).
Definition premulx (p : px) : px := Px (pr p * pa p / 65535) (pg p * pa p / 65535) (pb p * pa p / 65535) (pa p).
Definition src16 (straight : bool) (p : px) : px := if straight then premulx (wide p) else wide p.

(** And back: the upper bytes, divided by alpha first if they are straight. *)
Definition unmulx (p : px) : px :=
  if pa p =? 0 then Px 0 0 0 0 else Px (pr p * 65535 / pa p) (pg p * 65535 / pa p) (pb p * 65535 / pa p) (pa p).
Definition low8 (p : px) : px := Px (pr p / 256) (pg p / 256) (pb p / 256) (pa p / 256).
Definition out16 (straight : bool) (p : px) : px := low8 (if straight then unmulx p else p).
