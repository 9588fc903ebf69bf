(** Specification vocabulary for C25: channel planes and the colours of
    pixels. Independent of the pickers. *)
From Verif Require Import Base SUtil MRect MPicker.

(** The number with the given bits, highest first. *)
Definition be_bits (bs : list Z) : Z := fold_left (fun acc b => 2 * acc + b) bs 0.

(** One row of [w] samples: packed bits from the highest bit on for depth 1
    (padding up to the next byte is whatever [f] is beyond [w]), big endian
    numbers otherwise. *)
Definition enc_samples (depth w : Z) (f : Z -> Z) : bytes :=
  if depth =? 1
  then map (fun j => be_bits (map (fun b => f (8 * j + b)) [0; 1; 2; 3; 4; 5; 6; 7])) (zseq (Z.to_nat ((w + 7) / 8)))
  else flat_map (fun x => be (Z.to_nat (depth / 8)) (f x)) (zseq (Z.to_nat w)).
(** A plane of [w] times [h] samples; [f x y] is the sample of column [x] and
    row [y]. *)
Definition enc_plane (depth w h : Z) (f : Z -> Z -> Z) : bytes :=
  flat_map (fun y => enc_samples depth w (fun x => f x y)) (zseq (Z.to_nat h)).
Definition samples_ok (depth : Z) (f : Z -> Z -> Z) : Prop := forall x y, 0 <= f x y < 2 ^ depth.

(** The size the decoder allocates for a plane (layer.go:462, psd.go:241). *)
Definition plane_size (depth : Z) (r : rect) : Z := (rdx r * depth + 7) / 8 * rdy r.

(** The opaque sample value of a depth (1.0 for floating point samples). *)
Definition opaque (depth : Z) : Z := if depth =? 8 then 255 else if depth =? 16 then 65535 else 1065353216.

(** The colour of a pixel with colour samples [ss] and alpha [a]. Modes: 0
    bitmap, 1 grey, 3 RGB, 4 CMYK. *)
Definition pixel_colour (depth mode : Z) (ss : list Z) (a : Z) : option color :=
  match ss with
  | [y] =>
      if (mode =? 0) || (mode =? 1) then
        Some (if depth =? 8 then CNGrayA y a else if depth =? 16 then CNGrayA32 y a else CNGrayA64 y a)
      else None
  | [r; g; b] =>
      if mode =? 3 then
        Some (if depth =? 8 then CNRGBA r g b a else if depth =? 16 then CNRGBA64 r g b a else CNRGBA128 r g b a)
      else None
  | [c; m; y; k] =>
      if mode =? 4 then Some (if depth =? 8 then CNCMYKA c m y k a else CNCMYKA80 c m y k a) else None
  | _ => None
  end.
(** The colour of a pixel of a single channel; set bits are black. *)
Definition channel_colour (depth s : Z) : color :=
  if depth =? 1 then CGray1 (s =? 0) else if depth =? 8 then CGray s else if depth =? 16 then CGray16 s else CGray32 s.
