(** Model of blend/zblends.go (27 blend modes) and of the arithmetic helpers of
    blend/util.go. The generated file was compared textually with its template
    genblend.go: all 27 * 5 function bodies are the template with the code of the
    mode filled in, so the model follows the template. *)
From Coq Require Import SpecFloat.
From Verif Require Import Base MPicker MColor.

(** * Arithmetic *)

(** Conversions applied after every operation: [machine] is Go's wrap around,
    [ideal] is unbounded arithmetic, used to state that nothing overflows. *)
Record arith := Arith { w32 : Z -> Z; wi32 : Z -> Z; w64 : Z -> Z; w8 : Z -> Z; w16 : Z -> Z }.
Definition machine : arith := Arith u32 i32 u64 u8 u16.
Definition ideal : arith := let id := fun x : Z => x in Arith id id id id id.

(** Division: [None] is a division-by-zero panic. *)
Definition udiv (a b : Z) : option Z := if b =? 0 then None else Some (a / b).
Definition idiv (a b : Z) : option Z := if b =? 0 then None else Some (Z.quot a b).

Declare Scope blend_scope.
Notation "'let?' x ':=' e 'in' f" := (match e with Some x => f | None => None end)
  (at level 200, x pattern, right associativity) : blend_scope.
Open Scope blend_scope.

(** binary64 arithmetic (package math, float64): the standard library's
    executable IEEE 754 specification. *)
Definition fadd := SFadd 53 1024.
Definition fsub := SFsub 53 1024.
Definition fmul64 := SFmul 53 1024.
Definition fdiv64 := SFdiv 53 1024.
Definition fsqrt := SFsqrt 53 1024.
Definition fofZ (z : Z) : spec_float := binary_normalize 53 1024 z 0 false.
Definition fltb := SFltb.
(** [uint32(f)]: truncation; only used on values in range (NaN gives 0). *)
Definition ftrunc (f : spec_float) : Z :=
  match f with
  | S754_finite s m e =>
      let a := if 0 <=? e then Z.shiftl (Zpos m) e else Z.shiftr (Zpos m) (- e) in
      if s then - a else a
  | _ => 0
  end.

(** * Widths: the 8 bit code ([To8]) and the 16 bit code ([To16]) *)
Inductive width := W8 | W16.
Definition maxv (n : width) : Z := match n with W8 => 255 | W16 => 65535 end.
Definition halfv (n : width) : Z := match n with W8 => 128 | W16 => 32768 end.
Definition quarterv (n : width) : Z := match n with W8 => 64 | W16 => 16384 end.

Section ops.
  Variable ar : arith.
  Notation w := (w32 ar).
  Notation wi := (wi32 ar).

  Definition add a b := w (a + b).
  Definition sub a b := w (a - b).
  Definition mul a b := w (a * b).
  Definition shl1 a := w (a * 2).
  Definition isub a b := wi (a - b).
  Definition iadd a b := wi (a + b).
  Definition imul a b := wi (a * b).

  (** util.go:14-16 *)
  Definition sqrtw (n : width) (a : Z) : Z :=
    let b := fofZ (maxv n) in
    w (ftrunc (fmul64 (fsqrt (fdiv64 (fofZ a) b)) b)).

  (** util.go:18-58 *)
  Definition maxu (a b : Z) : Z := if b <? a then a else b.
  Definition minu (a b : Z) : Z := if a <? b then a else b.

  (** util.go:60-62 *)
  Definition sat (r g b : Z) : Z := sub (maxu r (maxu g b)) (minu r (minu g b)).

  (** util.go:85-90 *)
  Definition setSatMinMidMax (mn md mx st : Z) : option (Z * Z * Z) :=
    if mn <? mx then
      let? q := udiv (mul (sub md mn) st) (sub mx mn) in Some (0, q, st)
    else Some (0, 0, 0).

  (** util.go:64-83 *)
  Definition setSat (r g b st : Z) : option (Z * Z * Z) :=
    if r <=? g then
      if g <=? b then setSatMinMidMax r g b st
      else if r <=? b then
        let? (r, b, g) := setSatMinMidMax r b g st in Some (r, g, b)
      else
        let? (b, r, g) := setSatMinMidMax b r g st in Some (r, g, b)
    else if r <=? b then
      let? (g, r, b) := setSatMinMidMax g r b st in Some (r, g, b)
    else if g <=? b then
      let? (g, b, r) := setSatMinMidMax g b r st in Some (r, g, b)
    else
      let? (b, g, r) := setSatMinMidMax b g r st in Some (r, g, b).

  (** util.go:92-98 *)
  Definition lum8 (r g b : Z) : Z :=
    wi (Z.shiftr (add (add (mul r 77) (mul g 151)) (mul b 28)) 8).
  Definition lum8s (r g b : Z) : Z :=
    Z.shiftr (iadd (iadd (imul r 77) (imul g 151)) (imul b 28)) 8.

  (** util.go:184-192 *)
  Definition clamp8s (a : Z) : Z := if a <? 0 then 0 else if 255 <? a then 255 else w a.

  (** util.go:118-135. Note that [max] is not recomputed after the first
      adjustment. *)
  Definition scale8 (lm num den c : Z) : option Z :=
    let? q := idiv (imul (isub c lm) num) den in Some (iadd lm q).
  Definition clipColor8 (r g b : Z) : option (Z * Z * Z) :=
    let lm := lum8s r g b in
    let mn := minu r (minu g b) in
    let mx := maxu r (maxu g b) in
    let? (r, g, b) :=
      if mn <? 0 then
        let tmp := isub lm mn in
        let? r := scale8 lm lm tmp r in
        let? g := scale8 lm lm tmp g in
        let? b := scale8 lm lm tmp b in Some (r, g, b)
      else Some (r, g, b) in
    let? (r, g, b) :=
      if 255 <? mx then
        let tmp := isub 255 lm in let tmp2 := isub mx lm in
        let? r := scale8 lm tmp tmp2 r in
        let? g := scale8 lm tmp tmp2 g in
        let? b := scale8 lm tmp tmp2 b in Some (r, g, b)
      else Some (r, g, b) in
    Some (clamp8s r, clamp8s g, clamp8s b).

  (** util.go:108-111 *)
  Definition setLum8 (r g b lm : Z) : option (Z * Z * Z) :=
    let lm := isub lm (lum8 r g b) in
    clipColor8 (iadd (wi r) lm) (iadd (wi g) lm) (iadd (wi b) lm).

  (** util.go:100-106 *)
  Definition lum16f (r g b : spec_float) : spec_float :=
    fdiv64 (fadd (fadd (fmul64 r (fofZ 19661)) (fmul64 g (fofZ 38666))) (fmul64 b (fofZ 7209)))
      (fofZ 65536).
  Definition lum16 (r g b : Z) : spec_float := lum16f (fofZ r) (fofZ g) (fofZ b).

  (** util.go:194-202 *)
  Definition clamp16f (a : spec_float) : Z :=
    if fltb a (fofZ 0) then 0 else if fltb (fofZ 65535) a then 65535 else w (ftrunc a).

  (** util.go:137-154 *)
  Definition minf (a b : spec_float) := if fltb a b then a else b.
  Definition maxf (a b : spec_float) := if fltb b a then a else b.
  Definition clipColor16 (r g b : spec_float) : Z * Z * Z :=
    let lm := lum16f r g b in
    let mn := minf r (minf g b) in
    let mx := maxf r (maxf g b) in
    let scale num den c := fadd lm (fdiv64 (fmul64 (fsub c lm) num) den) in
    let '(r, g, b) :=
      if fltb mn (fofZ 0) then
        let f := scale lm (fsub lm mn) in (f r, f g, f b)
      else (r, g, b) in
    let '(r, g, b) :=
      if fltb (fofZ 65535) mx then
        let f := scale (fsub (fofZ 65535) lm) (fsub mx lm) in (f r, f g, f b)
      else (r, g, b) in
    (clamp16f r, clamp16f g, clamp16f b).

  (** util.go:113-116 *)
  Definition setLum16 (r g b : Z) (lm : spec_float) : Z * Z * Z :=
    let lm := fsub lm (lum16 r g b) in
    clipColor16 (fadd (fofZ r) lm) (fadd (fofZ g) lm) (fadd (fofZ b) lm).

  (** util.go:156-182. [clip0] tests the sign bit of the wrapped value. *)
  Definition clip0 (a : Z) : Z := if Z.land a 2147483648 =? 0 then a else 0.
  Definition clip (n : width) (a : Z) : Z := if a <? maxv n then a else maxv n.

  (** * The modes (genblend.go:64-405) *)

  (** [x * y / maxValue]: in the 8 bit code [x * y * 32897 >> 23]. *)
  Definition mulmax (n : width) (x y : Z) : Z :=
    match n with
    | W8 => Z.shiftr (mul (mul x y) 32897) 23
    | W16 => mul x y / 65535
    end.
  (** [x * y * 32897 >> 22] and [x * y / halfValue]. *)
  Definition mulhalf (n : width) (x y : Z) : Z :=
    match n with
    | W8 => Z.shiftr (mul (mul x y) 32897) 22
    | W16 => mul x y / 32768
    end.
  (** The int32 polynomial of SoftLight, genblend.go:218 and 230. *)
  Definition softPoly (n : width) (d : Z) : Z :=
    let d := wi d in
    match n with
    | W8 => w (Z.shiftr (imul (imul (iadd (imul (Z.shiftr (imul (isub (wi (d * 16)) 3060) 32897) 23) d) 1020) d) 32897) 23)
    | W16 => w (Z.quot (imul (iadd (imul (Z.quot (isub (wi (d * 16)) 786420) 65535) d) 262140) d) 65535)
    end.

  Inductive mode :=
  | Normal | Darken | Multiply | ColorBurn | LinearBurn | DarkerColor
  | Lighten | Screen | ColorDodge | LinearDodge | LighterColor | Add
  | Overlay | SoftLight | HardLight | LinearLight | VividLight | PinLight | HardMix
  | Difference | Exclusion | Subtract | Divide
  | Hue | Saturation | Color | Luminosity.

  (** [CodePerChannel] and [CodePerChannel16]: [s] is [src], [d] is [dest]. *)
  Definition chan (n : width) (m : mode) (s d : Z) : option Z :=
    let mx := maxv n in let hf := halfv n in
    match m with
    | Normal => Some s
    | Darken => Some (if s <? d then s else d)
    | Multiply => Some (mulmax n s d)
    | ColorBurn =>
        if d =? mx then Some mx else if s =? 0 then Some 0 else
        let? q := udiv (mul (sub mx d) mx) s in Some (sub mx (clip n q))
    | LinearBurn => let tmp := add d s in Some (if mx <? tmp then sub tmp mx else 0)
    | Lighten => Some (if d <? s then s else d)
    | Screen => Some (sub (add s d) (mulmax n s d))
    | ColorDodge =>
        if d =? 0 then Some 0 else if s =? mx then Some mx else
        let? q := udiv (mul d mx) (sub mx s) in Some (clip n q)
    | LinearDodge => Some (clip n (add s d))
    | Add => Some (add s d)
    | Overlay =>
        if d <? hf then Some (mulhalf n s d)
        else Some (sub mx (mulmax n (sub mx (shl1 (sub d hf))) (sub mx s)))
    | SoftLight =>
        if s <? hf then Some (sub d (mulmax n (mulmax n (sub mx (shl1 s)) d) (sub mx d)))
        else
          let tmp := if d <? quarterv n then softPoly n d else sqrtw n d in
          Some (add d (mulmax n (sub (shl1 s) mx) (sub tmp d)))
    | HardLight =>
        if s <? hf then Some (mulhalf n d s)
        else let tmp := sub (shl1 s) mx in Some (sub (add d tmp) (mulmax n d tmp))
    | LinearLight =>
        if s <? hf then Some (clip0 (sub (add d (shl1 s)) mx))
        else Some (clip n (add d (shl1 (sub s hf))))
    | VividLight =>
        if s <? hf then
          let tmp := shl1 s in
          if tmp =? 0 then Some 0 else
          let? q := udiv (mul (sub mx d) mx) tmp in Some (sub mx (clip n q))
        else
          let tmp := sub (shl1 s) mx in
          if tmp =? mx then Some mx else
          let? q := udiv (mul d mx) (sub mx tmp) in Some (clip n q)
    | PinLight =>
        if s <? hf then let tmp := shl1 s in Some (if tmp <? d then tmp else d)
        else let tmp := shl1 (sub s hf) in Some (if d <? tmp then tmp else d)
    | HardMix =>
        let? tmp :=
          if s <? hf then
            let tmp := shl1 s in
            if d =? mx then Some mx else if tmp =? 0 then Some 0 else
            let? q := udiv (mul (sub mx d) mx) tmp in Some (sub mx (clip n q))
          else
            let tmp := shl1 (sub s hf) in
            if d =? 0 then Some 0 else if tmp =? mx then Some mx else
            let? q := udiv (mul d mx) (sub mx tmp) in Some (clip n q) in
        Some (if tmp <=? hf then 0 else mx)
    | Difference => Some (if d <? s then sub s d else sub d s)
    | Exclusion => Some (sub (add d s) (mulhalf n d s))
    | Subtract => Some (if d <? s then 0 else sub d s)
    | Divide =>
        if d =? 0 then Some 0 else if s =? 0 then Some mx else
        let? q := udiv (mul d mx) s in Some (clip n q)
    | DarkerColor | LighterColor | Hue | Saturation | Color | Luminosity => None
    end.

  (** [Code]: the modes that mix the channels. *)
  Definition lumlt (n : width) (a b : Z * Z * Z) : bool :=
    let '(ar', ag, ab) := a in let '(br, bg, bb) := b in
    match n with
    | W8 => lum8 ar' ag ab <? lum8 br bg bb
    | W16 => fltb (lum16 ar' ag ab) (lum16 br bg bb)
    end.
  (** [setLum(c, lum(l))]. *)
  Definition setLum (n : width) (c l : Z * Z * Z) : option (Z * Z * Z) :=
    let '(r, g, b) := c in let '(lr, lg, lb) := l in
    match n with
    | W8 => setLum8 r g b (lum8 lr lg lb)
    | W16 => Some (setLum16 r g b (lum16 lr lg lb))
    end.
  Definition setSat3 (c st : Z * Z * Z) : option (Z * Z * Z) :=
    let '(r, g, b) := c in let '(sr, sg, sb) := st in setSat r g b (sat sr sg sb).

  Definition mix (n : width) (m : mode) (s d : Z * Z * Z) : option (Z * Z * Z) :=
    match m with
    | DarkerColor => Some (if lumlt n s d then s else d)
    | LighterColor => Some (if lumlt n d s then s else d)
    | Hue => let? c := setSat3 s d in setLum n c d
    | Saturation => let? c := setSat3 d s in setLum n c d
    | Color => setLum n s d
    | Luminosity => setLum n d s
    | _ =>
        let '(sr, sg, sb) := s in let '(dr, dg, db) := d in
        let? r := chan n m sr dr in
        let? g := chan n m sg dg in
        let? b := chan n m sb db in Some (r, g, b)
    end.

  (** [OverMax]. *)
  Definition overmax (m : mode) : bool := match m with Add => true | _ => false end.

  (** * Pixels *)

  (** Four bytes of image.NRGBA or image.RGBA, or the four results of [RGBA()]. *)
  Record px := Px { pr : Z; pg : Z; pb : Z; pa : Z }.

  (** [(c*a1 + sc*a2 + dc*a3)]. *)
  Definition wsum (a1 a2 a3 c sc dc : Z) : Z := add (add (mul c a1) (mul sc a2)) (mul dc a3).

  (** genblend.go:475-528, draw…NRGBAToNRGBA for one pixel (the second loop of
      these functions, lines 627-630, never runs: [y] is 0 after the first one).
      [alpha] is the opacity 0..255. *)
  Definition blend8 (m : mode) (alpha : Z) (s d : px) : option px :=
    let al := mul alpha 32897 in
    let tmp := mul (Z.shiftr (mul (pa s) al) 23) 32897 in
    if tmp =? 0 then Some d else
    let da := pa d in
    let a1 := Z.shiftr (mul tmp da) 23 in
    let a2 := Z.shiftr (mul tmp (sub 255 da)) 23 in
    let a3 := Z.shiftr (mul (sub 8388735 tmp) da) 23 in
    let a := add (add a1 a2) a3 in
    if a =? 0 then Some d else
    let? (r, g, b) := mix W8 m (pr s, pg s, pb s) (pr d, pg d, pb d) in
    let out c sc dc :=
      let? q := udiv (wsum a1 a2 a3 c sc dc) a in
      Some (w8 ar (if overmax m then clip W8 q else q)) in
    let? r' := out r (pr s) (pr d) in
    let? g' := out g (pg s) (pg d) in
    let? b' := out b (pb s) (pb d) in
    Some (Px r' g' b' (w8 ar a)).

  (** genblend.go:557-578: [c * 0xffff / a]. *)
  Definition unmul (a c : Z) : option Z :=
    if a =? 0 then Some 0 else if a <? 65535 then udiv (mul c 65535) a else Some c.
  Definition unmul3 (doit : bool) (a r g b : Z) : option (Z * Z * Z) :=
    if doit then
      let? r := unmul a r in let? g := unmul a g in let? b := unmul a b in Some (r, g, b)
    else Some (r, g, b).

  (** genblend.go:529-656, the byte paths computing with 16 bits: [sp] says that
      the source is an image.RGBA (premultiplied), [dp] that the destination is. *)
  Definition blendW (m : mode) (sp dp : bool) (alpha : Z) (s d : px) : option px :=
    let al := mul alpha 257 in
    let ex c := mul c 257 in
    let sa := ex (pa s) in
    let tmp := mul sa al / 65535 in
    if tmp =? 0 then Some d else
    let da := ex (pa d) in
    let a1 := mul tmp da / 65535 in
    let a2 := mul tmp (sub 65535 da) / 65535 in
    let a3 := mul (sub 65535 tmp) da / 65535 in
    let a := add (add a1 a2) a3 in
    if a =? 0 then Some d else
    let? (sr, sg, sb) := unmul3 sp sa (ex (pr s)) (ex (pg s)) (ex (pb s)) in
    let? (dr, dg, db) := unmul3 dp da (ex (pr d)) (ex (pg d)) (ex (pb d)) in
    let? (r, g, b) := mix W16 m (sr, sg, sb) (dr, dg, db) in
    let out c sc dc :=
      let? q := udiv (wsum a1 a2 a3 c sc dc) (if dp then 65535 else a) in
      Some (w8 ar (Z.shiftr (if overmax m then clip W16 q else q) 8)) in
    let? r' := out r sr dr in
    let? g' := out g sg dg in
    let? b' := out b sb db in
    Some (Px r' g' b' (w8 ar (Z.shiftr a 8))).

  (** genblend.go:658-729: one pixel of the fallback for arbitrary images. [s] and
      [d] are what [At(x, y).RGBA()] returns, [ma] the alpha of the mask. [None]
      in the inner position means that the destination pixel is not set. *)
  Definition blendF (m : mode) (ma : Z) (s d : px) : option (option px) :=
    if ma =? 0 then Some None else
    let sa := pa s in let da := pa d in
    let tmp := mul sa ma / 65535 in
    let a1 := mul tmp da / 65535 in
    let a2 := mul tmp (sub 65535 da) / 65535 in
    let a3 := mul (sub 65535 tmp) da / 65535 in
    let a := add (add a1 a2) a3 in
    if a =? 0 then Some None else
    let? (sr, sg, sb) := unmul3 true sa (pr s) (pg s) (pb s) in
    let? (dr, dg, db) := unmul3 true da (pr d) (pg d) (pb d) in
    let? (r, g, b) := mix W16 m (sr, sg, sb) (dr, dg, db) in
    let out c sc dc :=
      if overmax m then
        let? q := udiv (w64 ar (c * a1)) a in
        let v := w64 ar (add (mul sc a2) (mul dc a3) / 65535 + q) in
        Some (w16 ar (mul (if v <? 65535 then w v else 65535) a / 65535))
      else Some (w16 ar (wsum a1 a2 a3 c sc dc / 65535)) in
    let? r' := out r sr dr in
    let? g' := out g sg dg in
    let? b' := out b sb db in
    Some (Some (Px r' g' b' (w16 ar a))).
End ops.
