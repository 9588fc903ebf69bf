(** Model of blend/zporterduffs.go (12 Porter-Duff operators). The arithmetic of the
    generated file was compared textually with its template genporterduff.go: in
    all 12 * 8 functions the lines between the reads and the writes of a pixel are
    the template's 16 bit code. *)
From Verif Require Import Base MPicker MColor MBlend.
Open Scope Z_scope.

Inductive pdop := Clear | Copy | Dest | SrcOver | DestOver | SrcIn | DestIn | SrcOut | DestOut
  | SrcAtop | DestAtop | XOR.

Section ops.
  Variable ar : arith.
  Notation add := (add ar).
  Notation sub := (sub ar).
  Notation mul := (mul ar).

  (** genporterduff.go:65-238, [Alpha16]/[Alpha]. *)
  Definition pdAlpha (op : pdop) (sa da : Z) : Z :=
    match op with
    | Clear => 0
    | Copy => sa
    | Dest => da
    | SrcOver => add sa (mul (sub 65535 sa) da / 65535)
    | DestOver => add da (mul (sub 65535 da) sa / 65535)
    | SrcIn | DestIn => mul da sa / 65535
    | SrcOut => mul (sub 65535 da) sa / 65535
    | DestOut => mul (sub 65535 sa) da / 65535
    | SrcAtop => da
    | DestAtop => sa
    | XOR => add (mul sa (sub 65535 da)) (mul da (sub 65535 sa)) / 65535
    end.

  (** genporterduff.go:65-238, [Code16]/[Code]: [tmp] is the value left by the alpha
      code. *)
  Definition pdColor (op : pdop) (sa da s d : Z) : Z :=
    match op with
    | Clear => 0
    | Copy => s
    | Dest => d
    | SrcOver => add s (mul (sub 65535 sa) d / 65535)
    | DestOver => add d (mul (sub 65535 da) s / 65535)
    | SrcIn => mul da s / 65535
    | DestIn => mul sa d / 65535
    | SrcOut => mul (sub 65535 da) s / 65535
    | DestOut => mul (sub 65535 sa) d / 65535
    | SrcAtop => add (mul s da) (mul d (sub 65535 sa)) / 65535
    | DestAtop => add (mul s (sub 65535 da)) (mul d sa) / 65535
    | XOR => add (mul s (sub 65535 da)) (mul d (sub 65535 sa)) / 65535
    end.

  Definition pd (op : pdop) (s d : px) : px :=
    let c := pdColor op (pa s) (pa d) in
    Px (c (pr s) (pr d)) (c (pg s) (pg d)) (c (pb s) (pb d)) (pdAlpha op (pa s) (pa d)).

  (** genporterduff.go:359-364: bytes to 16 bits, alpha scaled. (Channels that an
      operator does not read are read here too; no result depends on them.) *)
  Definition rd16 (alpha : Z) (p : px) : px :=
    Px (mul (pr p) 257) (mul (pg p) 257) (mul (pb p) 257) (mul (mul (pa p) 257) alpha / 65535).

  (** genporterduff.go:377-385, 388-396: premultiply. *)
  Definition premul (p : px) : px :=
    if pa p =? 0 then Px 0 0 0 (pa p)
    else if pa p <? 65535 then
      Px (mul (pr p) (pa p) / 65535) (mul (pg p) (pa p) / 65535) (mul (pb p) (pa p) / 65535) (pa p)
    else p.

  (** genporterduff.go:417-420. *)
  Definition setRGBA (p : px) : px :=
    let b c := w8 ar (Z.shiftr c 8) in Px (b (pr p)) (b (pg p)) (b (pb p)) (b (pa p)).

  (** genporterduff.go:423-436. *)
  Definition setNRGBA (p : px) : option px :=
    let b c := w8 ar (Z.shiftr c 8) in
    let a := pa p in
    if a =? 65535 then Some (Px (b (pr p)) (b (pg p)) (b (pb p)) (b a))
    else if a =? 0 then Some (Px 0 0 0 (b a))
    else
      let? r := udiv (mul (pr p) 65535) a in
      let? g := udiv (mul (pg p) 65535) a in
      let? bl := udiv (mul (pb p) 65535) a in
      Some (Px (b r) (b g) (b bl) (b a)).
  Definition setPx (dn : bool) (p : px) : option px := if dn then setNRGBA p else Some (setRGBA p).

  (** The destination read as 16 bit premultiplied values; [dn]: image.NRGBA. *)
  Definition rdDest (dn : bool) (d : px) : px :=
    let d := Px (mul (pr d) 257) (mul (pg d) 257) (mul (pb d) 257) (mul (pa d) 257) in
    if dn then premul d else d.

  (** genporterduff.go:350-481, one pixel; [sn]: the source is an image.NRGBA. *)
  Definition pdB (op : pdop) (sn dn : bool) (alpha : Z) (s d : px) : option px :=
    let s := rd16 alpha s in
    let s := if sn then premul s else s in
    setPx dn (pd op s (rdDest dn d)).

  (** genporterduff.go:483-580: the source is an image.Alpha. *)
  Definition pdA (op : pdop) (dn : bool) (alpha s : Z) (d : px) : option px :=
    setPx dn (pd op (Px 0 0 0 (mul (mul s 257) alpha / 65535)) (rdDest dn d)).

  (** genporterduff.go:582-667: the source is an image.Uniform, [s] its [RGBA()]
      (the scaling by the mask alpha, lines 333-340, never happens: Draw passes no
      mask). *)
  Definition pdU (op : pdop) (dn : bool) (s d : px) : option px := setPx dn (pd op s (rdDest dn d)).

  (** genporterduff.go:669-728, one pixel of the fallback (no mask): the value
      passed to [dst.Set]. *)
  Definition pdF (op : pdop) (s d : px) : px :=
    let p := pd op s d in Px (w16 ar (pr p)) (w16 ar (pg p)) (w16 ar (pb p)) (w16 ar (pa p)).
End ops.
