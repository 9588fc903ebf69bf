(** Go library image.Point and image.Rectangle. *)
From Verif Require Import Base.

Record point := Pt { px : Z; py : Z }.
Record rect := Rct { rx0 : Z; ry0 : Z; rx1 : Z; ry1 : Z }.

(** [image.ZR]. *)
Definition ZR : rect := Rct 0 0 0 0.

(** [image.Rect]: well formed rectangle from two corners. *)
Definition mkRect (x0 y0 x1 y1 : Z) : rect :=
  Rct (Z.min x0 x1) (Z.min y0 y1) (Z.max x0 x1) (Z.max y0 y1).

Definition rdx (r : rect) : Z := rx1 r - rx0 r.
Definition rdy (r : rect) : Z := ry1 r - ry0 r.

Definition rempty (r : rect) : bool := (rx1 r <=? rx0 r) || (ry1 r <=? ry0 r).

(** [Point.In]. *)
Definition pt_in (p : point) (r : rect) : bool :=
  (rx0 r <=? px p) && (px p <? rx1 r) && (ry0 r <=? py p) && (py p <? ry1 r).

(** [Rectangle.Intersect]: the empty intersection is [ZR]. *)
Definition rintersect (r s : rect) : rect :=
  let t := Rct (Z.max (rx0 r) (rx0 s)) (Z.max (ry0 r) (ry0 s))
               (Z.min (rx1 r) (rx1 s)) (Z.min (ry1 r) (ry1 s)) in
  if rempty t then ZR else t.

(** [Rectangle.Union]: empty rectangles are ignored. *)
Definition runion (r s : rect) : rect :=
  if rempty r then s else if rempty s then r else
  Rct (Z.min (rx0 r) (rx0 s)) (Z.min (ry0 r) (ry0 s))
      (Z.max (rx1 r) (rx1 s)) (Z.max (ry1 r) (ry1 s)).

(** [Rectangle.Add], [Rectangle.Sub], [Point.Sub]. *)
Definition radd (r : rect) (p : point) : rect :=
  Rct (rx0 r + px p) (ry0 r + py p) (rx1 r + px p) (ry1 r + py p).
Definition rsub (r : rect) (p : point) : rect :=
  Rct (rx0 r - px p) (ry0 r - py p) (rx1 r - px p) (ry1 r - py p).
Definition rmin (r : rect) : point := Pt (rx0 r) (ry0 r).
Definition psub (p q : point) : point := Pt (px p - px q) (py p - py q).
Definition padd (p q : point) : point := Pt (px p + px q) (py p + py q).

(** [Rectangle.Overlaps]. *)
Definition roverlaps (r s : rect) : bool :=
  negb (rempty r) && negb (rempty s) &&
  (rx0 r <? rx1 s) && (rx0 s <? rx1 r) && (ry0 r <? ry1 s) && (ry0 s <? ry1 r).
