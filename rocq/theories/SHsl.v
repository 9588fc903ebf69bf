(** The modes that mix hue, saturation and brightness, for 16 bit channels, as the
    W3C document "Compositing and Blending" (section 10.2, non-separable blend modes)
    defines them: with exact numbers. *)
From Coq Require Import QArith.
From Verif Require Import Base MBlend.
Open Scope Z_scope.

Definition colour : Type := (Q * Q * Q)%type.
Definition each (f : Q -> Q) (c : colour) : colour := let '(r, g, b) := c in (f r, f g, f b).
Definition least (c : colour) : Q := let '(r, g, b) := c in
  if Qle_bool r g then if Qle_bool r b then r else b else if Qle_bool g b then g else b.
Definition greatest (c : colour) : Q := let '(r, g, b) := c in
  if Qle_bool g r then if Qle_bool b r then r else b else if Qle_bool b g then g else b.
(** Lum: 30% red, 59% green, 11% blue, in 65536ths *)
Definition lum_of (c : colour) : Q := let '(r, g, b) := c in ((19661 # 65536) * r + (38666 # 65536) * g + (7209 # 65536) * b)%Q.
(** ClipColor *)
Definition clip_color (c : colour) : colour :=
  let l := lum_of c in let n := least c in let x := greatest c in
  let c := if Qle_bool 0 n then c else each (fun v => (l + (v - l) * l / (l - n))%Q) c in
  if Qle_bool x (65535 # 1) then c else each (fun v => (l + (v - l) * ((65535 # 1) - l) / (x - l))%Q) c.
(** SetLum *)
Definition set_lum (c : colour) (l : Q) : colour := let d := (l - lum_of c)%Q in clip_color (each (fun v => (v + d)%Q) c).

Definition exact (c : Z * Z * Z) : colour := let '(r, g, b) := c in (inject_Z r, inject_Z g, inject_Z b).
(** Sat *)
Definition spread (c : Z * Z * Z) : Z := let '(r, g, b) := c in Z.max r (Z.max g b) - Z.min r (Z.min g b).
(** SetSat, rounded down to whole levels *)
Definition set_sat (c : Z * Z * Z) (s : Z) : Z * Z * Z :=
  let '(r, g, b) := c in let n := Z.min r (Z.min g b) in let x := Z.max r (Z.max g b) in
  let f v := if n =? x then 0 else (v - n) * s / (x - n) in (f r, f g, f b).

(** What the modes make of a source [s] and a backdrop [d] *)
Definition mixed (m : mode) (s d : Z * Z * Z) : option colour :=
  match m with
  | Hue => Some (set_lum (exact (set_sat s (spread d))) (lum_of (exact d)))
  | Saturation => Some (set_lum (exact (set_sat d (spread s))) (lum_of (exact d)))
  | Color => Some (set_lum (exact s) (lum_of (exact d)))
  | Luminosity => Some (set_lum (exact d) (lum_of (exact s)))
  | _ => None
  end.

(** [v] is [x] rounded down, but for a millionth. *)
Definition down (x : Q) (v : Z) : Prop := (x - 1 - (1 # 1000000) < inject_Z v /\ inject_Z v < x + (1 # 1000000))%Q.
Definition all_down (c : colour) (v : Z * Z * Z) : Prop :=
  let '(r, g, b) := c in let '(vr, vg, vb) := v in down r vr /\ down g vg /\ down b vb.
