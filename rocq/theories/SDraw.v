(** What drawing should do, stated on pixels. *)
From Verif Require Import Base MRect MSched MDraw.
Open Scope Z_scope.

(** The point aligned with [p] when [r]'s corner is aligned with [sp]. *)
Definition aligned (r : rect) (sp p : point) : point := Pt (px p - rx0 r + px sp) (py p - ry0 r + py sp).

(** The points that are to be drawn. *)
Definition in_clip (db r sb : rect) (sp : point) (mb : option rect) (mp : point) (p : point) : Prop :=
  pt_in p r = true /\ pt_in p db = true /\ pt_in (aligned r sp p) sb = true /\
  match mb with None => True | Some m => pt_in (aligned r mp p) m = true end.

(** The pixel of an image at [p] occupies [bpp] cells from [paddr] on. *)
Definition paddr (bpp : Z) (v : view) (p : point) : Z :=
  vbase v + ((py p - ry0 (vrect v)) * vstride v + (px p - rx0 (vrect v)) * bpp).
Definition pixel_is {V} (h : list V) (bpp : Z) (v : view) (p : point) (l : list V) : Prop :=
  zlen l = bpp /\ forall k, 0 <= k < bpp -> idx h (paddr bpp v p + k) = idx l k.

(** An image whose slice is long enough and lies in a heap of [n] cells. *)
Definition view_ok (bpp : Z) (v : view) (n : Z) : Prop :=
  0 <= vbase v /\ 0 <= vlen v /\ vbase v + vlen v <= n /\
  (rempty (vrect v) = false ->
   bpp * rdx (vrect v) <= vstride v /\ (rdy (vrect v) - 1) * vstride v + rdx (vrect v) * bpp <= vlen v).

(** Images that share no memory. *)
Definition separate (v w : view) : Prop := vbase v + vlen v <= vbase w \/ vbase w + vlen w <= vbase v.

(** [h'] is [h] after drawing: each pixel of the area is [f] of the source cells (as
    they were in [h]) and of the old pixel, every other cell is unchanged. *)
Definition drawn {V} (ds : Z) (f : list V -> list V -> option (list V)) (area : point -> Prop)
    (sources : point -> list V -> Prop) (dst : view) (h h' : list V) : Prop :=
  zlen h' = zlen h /\
  (forall p ss dd, area p -> sources p ss -> pixel_is h ds dst p dd ->
     exists o, f ss dd = Some o /\ pixel_is h' ds dst p o) /\
  (forall a, (forall p, area p -> ~ (paddr ds dst p <= a < paddr ds dst p + ds)) -> idx h' a = idx h a).

(** All runs of the goroutines whose action lists are [ls], from heap [h], end
    without panic in a heap satisfying [Q]. *)
Definition all_runs {V} (ds : Z) (f : list V -> list V -> option (list V)) (ls : list (list pact))
    (h : list V) (Q : list V -> Prop) : Prop :=
  forall r, interleave ls r -> exists h', exec (step ds f) r (Some h) = Some h' /\ Q h'.

(** [f] is defined, and returns whole pixels, where it is to be applied. *)
Definition defined_on {V} (ds : Z) (f : list V -> list V -> option (list V)) (area : point -> Prop)
    (sources : point -> list V -> Prop) (dst : view) (h : list V) : Prop :=
  forall p s d, area p -> sources p s -> pixel_is h ds dst p d -> exists o, f s d = Some o /\ zlen o = ds.
