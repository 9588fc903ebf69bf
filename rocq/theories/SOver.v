(** What a layer with a blend mode and an opacity makes of the picture below it. *)
From Verif Require Import Base MBlend SBlend SHsl8.
Open Scope Z_scope.

(** [b]: the colour that blending the colour [s] with the backdrop [d] should give, by the documentation of the
    mode: the formula of SBlend for each channel, or the formulas of SHsl8 for the whole colour and what the mode
    says about its brightness. *)
Definition doc_colour (m : mode) (s d b : Z * Z * Z) : Prop :=
  let '(sr, sg, sb) := s in let '(dr, dg, db) := d in let '(br, bg, bb) := b in
  match m with
  | Hue | Saturation | Color | Luminosity =>
      (0 <= br <= 255 /\ 0 <= bg <= 255 /\ 0 <= bb <= 255) /\ Z.abs (luma b - luma (match m with Luminosity => s | _ => d end)) <= 1 /\
      match mixed8 m s d with Some e => all_near e b | None => False end
  | DarkerColor => b = if luma s <? luma d then s else d
  | LighterColor => b = if luma d <? luma s then s else d
  | _ => within_formula m sr dr br = true /\ within_formula m sg dg bg = true /\ within_formula m sb db bb = true
  end.

(** The compositing formula (https://www.w3.org/TR/compositing-1/#generalformula)
      ao * co = as * (1 - ab) * cs + as * ab * B(cb, cs) + (1 - as) * ab * cb
    for bytes: 255 ^ 3 times its right side. [t]: alpha of the source, [a]: of the backdrop. *)
Definition compositing (t a s d b : Z) : Z := t * (255 - a) * s + t * a * b + (255 - t) * a * d.
(** The pixel with the alpha [ao] and the channel [co] is right but for rounding: [ao * co] is at most three levels
    of 255 below the exact value, and not above it (by no more than 1/255 of a level); or the channel is
    saturated. *)
Definition rounded_down (exact ao co : Z) : Prop :=
  255 * (ao * co) - 255 <= exact /\ (exact < 255 * (ao * co) + 3 * (255 * 255) \/ co = 255).
(** Over an opaque backdrop: between the backdrop and the blend colour, in the ratio of the opacity [t] *)
Definition between (t d b : Z) : Z := Z.min 255 ((t * b + (255 - t) * d) / 255).
