(** The modes that mix hue, saturation and brightness, for 8 bit channels: the formulas of
    the W3C document (as in SHsl, which has 16 bit channels) with exact numbers. *)
From Coq Require Import QArith.
From Verif Require Import Base MBlend SHsl.
Open Scope Z_scope.

(** Lum: 30% red, 59% green, 11% blue, in 256ths *)
Definition lum8_of (c : colour) : Q := let '(r, g, b) := c in ((77 # 256) * r + (151 # 256) * g + (28 # 256) * b)%Q.
(** ClipColor *)
Definition clip_color8 (c : colour) : colour :=
  let l := lum8_of c in let n := least c in let x := greatest c in
  let c := if Qle_bool 0 n then c else each (fun v => (l + (v - l) * l / (l - n))%Q) c in
  if Qle_bool x (255 # 1) then c else each (fun v => (l + (v - l) * ((255 # 1) - l) / (x - l))%Q) c.
(** SetLum *)
Definition set_lum8 (c : colour) (l : Q) : colour := let d := (l - lum8_of c)%Q in clip_color8 (each (fun v => (v + d)%Q) c).

(** What the modes make of a source [s] and a backdrop [d] *)
Definition mixed8 (m : mode) (s d : Z * Z * Z) : option colour :=
  match m with
  | Hue => Some (set_lum8 (exact (set_sat s (spread d))) (lum8_of (exact d)))
  | Saturation => Some (set_lum8 (exact (set_sat d (spread s))) (lum8_of (exact d)))
  | Color => Some (set_lum8 (exact s) (lum8_of (exact d)))
  | Luminosity => Some (set_lum8 (exact d) (lum8_of (exact s)))
  | _ => None
  end.

(** A channel whose weight in the brightness is [k] 256ths is right up to one level of
    brightness and one level of its own. *)
Definition right_up_to (k : positive) (x : Q) (v : Z) : Prop := (- (1 + (256 # k)) < inject_Z v - x < 1 + (256 # k))%Q.
Definition all_near (c : colour) (v : Z * Z * Z) : Prop :=
  let '(r, g, b) := c in let '(vr, vg, vb) := v in right_up_to 77 r vr /\ right_up_to 151 g vg /\ right_up_to 28 b vb.

(** All channels are strictly between 0 and 255: ClipColor had nothing to do. *)
Definition inside (c : colour) : Prop := let '(r, g, b) := c in (0 < r < 255 # 1 /\ 0 < g < 255 # 1 /\ 0 < b < 255 # 1)%Q.
(** Less than one level apart *)
Definition within_one (c : colour) (v : Z * Z * Z) : Prop :=
  let '(r, g, b) := c in let '(vr, vg, vb) := v in let near x y := (-1 < inject_Z y - x < 1)%Q in near r vr /\ near g vg /\ near b vb.
