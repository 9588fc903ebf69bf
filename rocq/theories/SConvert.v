(** Specification vocabulary for C67: what a converted colour should look like. *)
From Verif Require Import Base MPicker MColor.

(** [y] is the brightness of a colour: 0.299, 0.587 and 0.114 of red, green and blue, rounded
    to the nearest integer. *)
Definition brightness (r g b y : Z) : Prop := 1000 * y - 500 <= 299 * r + 587 * g + 114 * b < 1000 * y + 500.

(** Two colours (as [RGBA] returns them) differ by at most [d] in each component and [e] in
    alpha. *)
Definition near (d e : Z) (p q : Z * Z * Z * Z) : Prop :=
  let '(r, g, b, a) := p in let '(r', g', b', a') := q in
  Z.abs (r - r') <= d /\ Z.abs (g - g') <= d /\ Z.abs (b - b') <= d /\ Z.abs (a - a') <= e.

(** Colours that no model returns as they are: those of package image, and of other
    packages. *)
Definition strange (c : acolor) : Prop :=
  match c with
  | Known (CGray _) | Known (CGray16 _) | Known (CNRGBA _ _ _ _) | Known (CNRGBA64 _ _ _ _) | Other _ _ _ _ => True
  | _ => False
  end.
