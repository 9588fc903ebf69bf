(** How far the picture of a stack of layers may be from the exact one: the compositing formula
    for layer after layer, without any rounding. *)
From Coq Require Import QArith.
From Verif Require Import Base MRect MBlend SBlend SRecord SPipe SSharp SGlass.
Open Scope Z_scope.

(** The modes whose formula changes no faster than the backdrop does (and at most twice as fast as the source) *)
Definition gentle (m : mode) : bool :=
  match m with
  | Normal | Darken | Multiply | LinearBurn | Lighten | Screen | LinearDodge | Add | HardLight | LinearLight | PinLight
  | Difference | Exclusion | Subtract => true
  | _ => false
  end.

Definition colour : Type := (Q * Q * Q)%type.
(** A channel [e] of an opaque backdrop after a layer with the mode [m] and the channel [s] is put over it:
    co = (1 - as) * cb + as * B(cb, cs), and not more than white (only Add could give more) *)
Definition exact_over (m : mode) (t : Q) (s : Z) (e : Q) : Q :=
  qmin (255 # 1) ((1 - t) * e + t * ((255 # 1) * doc root255 m (unit s) (e / (255 # 1)))).
(** The mask of a layer at a point: 255 shows everything *)
Definition seen_at (l : slayer) (p : point) (v : Z) : Prop := if has_mask l then mask_at l p v else v = 255.
(** The alpha of the source: that of its pixel, its mask and the opacity of the layer *)
Definition exact_alpha (l : slayer) (s : px) (v : Z) : Q := (unit (pa s) * unit v * unit (sl_opacity l))%Q.
Definition exact_layer (l : slayer) (m : mode) (s : px) (v : Z) (c : colour) : colour :=
  let '(r, g, b) := c in let t := exact_alpha l s v in (exact_over m t (pr s) r, exact_over m t (pg s) g, exact_over m t (pb s) b).

(** The levels that a layer may cost: less than one for its alpha, less than one for the quotient, half a level
    for faint pixels (see C62), and one more if the formula of the mode has to be rounded; three more for a mask. *)
Definition cost (m : mode) : Q := match rounding_of m with Some Exact => 5 # 2 | _ => 7 # 2 end.
Definition mask_cost (l : slayer) : Q := if has_mask l then 3 # 1 else 0.

(** [stacked p ls c c' k]: putting the layers [ls] over the colour [c] at the point [p] gives the colour [c'] and
    costs at most [k] levels. *)
Inductive stacked (p : point) : list slayer -> colour -> colour -> Q -> Prop :=
| stacked_nil c : stacked p [] c c 0
| stacked_hidden l ls c c' k : hidden l = true -> stacked p ls c c' k -> stacked p (l :: ls) c c' k
| stacked_over l ls m s v c c' k : hidden l = false -> leaf_mode l m -> leaf_value l p s -> seen_at l p v ->
    stacked p ls (exact_layer l m s v c) c' k -> stacked p (l :: ls) c c' (cost m + mask_cost l + k).

(** A layer that is not clipped, with a gentle mode *)
Definition gentle_layer (l : slayer) : Prop := sl_clip l = 0 /\ forall m, leaf_mode l m -> gentle m = true.

Definition levels (v : px) : colour := (inject_Z (pr v), inject_Z (pg v), inject_Z (pb v)).
Definition close (k : Q) (x : Z) (e : Q) : Prop := (- k <= inject_Z x - e <= k)%Q.
Definition close_to (k : Q) (v : px) (c : colour) : Prop :=
  let '(r, g, b) := c in close k (pr v) r /\ close k (pg v) g /\ close k (pb v) b.
