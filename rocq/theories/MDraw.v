(** Model of blend/draw.go and of the drawing loops in blend/util.go, genblend.go
    and genporterduff.go: clipping, loop directions, worker split, and the pixel
    loops as lists of memory accesses on a shared heap. *)
From Verif Require Import Base MRect MSched.
Open Scope Z_scope.

Local Notation "'let?' x ':=' e 'in' f" := (match e with Some x => f | None => None end)
  (at level 200, x pattern, right associativity).

(** A Go image with a [Pix] slice: the slice starts at heap address [vbase] and
    has [vlen] cells. Images that share memory (an image drawn onto itself, sub
    images) have overlapping address ranges. For generic images (draw.Image,
    image.Image, accessed with At and Set) a cell is one pixel. *)
Record view := View { vbase : Z; vlen : Z; vstride : Z; vrect : rect }.

(** Go library image.RGBA.PixOffset (and NRGBA: [bpp] = 4; Alpha: [bpp] = 1). *)
Definition pixOffset (bpp : Z) (v : view) (x y : Z) : Z :=
  (y - ry0 (vrect v)) * vstride v + (x - rx0 (vrect v)) * bpp.

(** Go library image.Uniform.Bounds. *)
Definition uniformBounds : rect := Rct (-1000000000) (-1000000000) 1000000000 1000000000.

(** blend/util.go:213-231. The mask pointer [mp] is never nil. *)
Definition clipRect (db r sb : rect) (sp : point) (mb : option rect) (mp : point) : rect * point * point :=
  let orig := rmin r in
  let r := rintersect r db in
  let r := rintersect r (radd sb (psub orig sp)) in
  let r := match mb with None => r | Some mb => rintersect r (radd mb (psub orig mp)) end in
  let dx := rx0 r - px orig in
  let dy := ry0 r - py orig in
  if (dx =? 0) && (dy =? 0) then (r, sp, mp)
  else (r, Pt (px sp + dx) (py sp + dy), Pt (px mp + dx) (py mp + dy)).

(** The loop parameters computed by [prepare4to4] and [prepare1to4]. *)
Record loop := Loop { l_d0 : Z; l_dx0 : Z; l_dx1 : Z; l_dxD : Z; l_dyD : Z;
                      l_s0 : Z; l_sx0 : Z; l_sx1 : Z; l_sxD : Z; l_syD : Z }.

Definition forwards (r : rect) (sp : point) : bool :=
  (ry0 r <? py sp) || ((ry0 r =? py sp) && (rx0 r <=? px sp)).

(** blend/util.go:237-255. *)
Definition prepare4to4 (dst src : view) (r : rect) (sp : point) : loop :=
  let dx := rdx r in let dy := rdy r in
  let d0 := pixOffset 4 dst (rx0 r) (ry0 r) in
  let s0 := pixOffset 4 src (px sp) (py sp) in
  if forwards r sp then Loop d0 0 (Z.shiftl dx 2) 4 (vstride dst) s0 0 (Z.shiftl dx 2) 4 (vstride src)
  else Loop (d0 + (dy - 1) * vstride dst) (Z.shiftl (dx - 1) 2) (-4) (-4) (- vstride dst)
            (s0 + (dy - 1) * vstride src) (Z.shiftl (dx - 1) 2) (-4) (-4) (- vstride src).

(** blend/util.go:257-275. *)
Definition prepare1to4 (dst src : view) (r : rect) (sp : point) : loop :=
  let dx := rdx r in let dy := rdy r in
  let d0 := pixOffset 4 dst (rx0 r) (ry0 r) in
  let s0 := pixOffset 1 src (px sp) (py sp) in
  if forwards r sp then Loop d0 0 (Z.shiftl dx 2) 4 (vstride dst) s0 0 dx 1 (vstride src)
  else Loop (d0 + (dy - 1) * vstride dst) (Z.shiftl (dx - 1) 2) (-4) (-4) (- vstride dst)
            (s0 + (dy - 1) * vstride src) (dx - 1) (-1) (-1) (- vstride src).

(** One pixel of a drawing loop: the heap address [aw] of the destination pixel,
    the addresses [ars] of the source cells, and whether all slice and index
    expressions of the iteration are in range. *)
Record pact := PA { aw : Z; ars : list Z; aok : bool }.

Definition addrs (a n : Z) : list Z := map (fun k => a + k) (zseq (Z.to_nat n)).

(** Reading cells; [None]: an address outside the heap. *)
Fixpoint reads {V} (h : list V) (l : list Z) : option (list V) :=
  match l with [] => Some [] | a :: t => let? v := idx h a in let? vs := reads h t in Some (v :: vs) end.

(** Execution of one pixel as an atomic action: read the source cells and the
    [ds] destination cells, compute, write [ds] cells. [None] is a panic (of the
    whole program: a panic in a goroutine is not recovered). The atomicity is a
    simplification: the Go code reads and writes byte by byte. *)
Definition step {V} (ds : Z) (f : list V -> list V -> option (list V)) (a : pact) (s : option (list V)) : option (list V) :=
  let? h := s in
  if aok a then
    let? ss := reads h (ars a) in
    let? dd := reads h (addrs (aw a) ds) in
    let? o := f ss dd in
    if zlen o =? ds then Some (exec store (seq_stores (aw a) o) h) else None
  else None.

(** The inner loop [for i, j := sx0, dx0; i != sx1; i, j = i+sxDelta, j+dxDelta]
    (genblend.go drawMain1, genporterduff.go:357): the pairs (i, j). If the loop
    terminates it does so within |sx1 - sx0| rounds, [None]: it does not. *)
Fixpoint cols (fuel : nat) (i sx1 sxD j dxD : Z) : option (list (Z * Z)) :=
  if i =? sx1 then Some [] else
  match fuel with
  | O => None
  | S fuel => let? t := cols fuel (i + sxD) sx1 sxD (j + dxD) dxD in Some ((i, j) :: t)
  end.
Definition loopCols (l : loop) : option (list (Z * Z)) :=
  cols (Z.to_nat (Z.abs (l_sx1 l - l_sx0 l))) (l_sx0 l) (l_sx1 l) (l_sxD l) (l_dx0 l) (l_dxD l).

(** One iteration: [dpix := dest[d0:]], [spix := src[s0:]], the pixel [dpix[j:j+4]]
    and the [ss] source bytes [spix[i:i+ss]]. *)
Definition inSlice (len lo j n : Z) : bool := (0 <=? lo) && (lo <=? len) && (0 <=? j) && (j + n <=? len - lo).
Definition pixel (ss : Z) (dst src : view) (d0 s0 : Z) (ij : Z * Z) : pact :=
  let (i, j) := ij in
  PA (vbase dst + d0 + j) (addrs (vbase src + s0 + i) ss)
     (inSlice (vlen dst) d0 j 4 && inSlice (vlen src) s0 i ss).

(** The outer loop over [y] rows (genblend.go drawMain1-3, genporterduff.go:352-442):
    the list of its rows. *)
Fixpoint rows (y : nat) (row : Z -> Z -> list pact) (d0 s0 dyD syD : Z) : list (list pact) :=
  match y with
  | O => []
  | S y => row d0 s0 :: rows y row (d0 + dyD) (s0 + syD) dyD syD
  end.

(** blend/draw.go:37-39, 67-69, 102-104: [for n > 1 && n<<1 > y { n-- }]. *)
Fixpoint fitWorkers (n : nat) (y : Z) : nat :=
  match n with
  | O => O
  | S n' => match n' with O => n | S _ => if y <? Z.shiftl (Z.of_nat n) 1 then fitWorkers n' y else n end
  end.

(** blend/draw.go:46-59, the workers' [(d0, s0, y)]; [m] = n - 1 workers get [step]
    rows each, the last one the rest. *)
Fixpoint split (m : nat) (d0 s0 y step dyD syD : Z) : list (Z * Z * Z) :=
  match m with
  | O => [(d0, s0, y)]
  | S m => (d0, s0, step) :: split m (d0 + dyD * step) (s0 + syD * step) (y - step) step dyD syD
  end.

(** blend/draw.go:35-61: the action list of each goroutine. (For n = 1 the call is
    not made in a new goroutine; it is the only worker.) *)
Definition parallel (cpus : nat) (y : Z) (row : Z -> Z -> list pact) (d0 s0 dyD syD : Z) : list (list pact) :=
  let n := fitWorkers cpus y in
  let work w := let '(d0, s0, y) := w in concat (rows (Z.to_nat y) row d0 s0 dyD syD) in
  map work (if Nat.eqb n 1 then [(d0, s0, y)] else split (n - 1) d0 s0 y (y / Z.of_nat n) dyD syD).

(** blend/draw.go:130-234 for a [*image.RGBA] or [*image.NRGBA] destination and a
    source of the same kind ([ss] = 4) or a [*image.Alpha] ([ss] = 1), with the
    drawer's draw...Uniform method (genblend.go:446-473, genporterduff.go:274-320).
    [mask]: none or the 16 bit alpha of a [*image.Uniform] with [zero] telling when
    the method returns at once. The result: the action lists of the workers;
    [None]: a loop does not terminate. *)
Definition drawPix (cpus : nat) (ss : Z) (dst src : view) (r : rect) (sp : point)
    (mask : option Z) (mp : point) (zero : Z -> bool) : option (list (list pact)) :=
  let '(r, sp, _) := clipRect (vrect dst) r (vrect src) sp (match mask with None => None | Some _ => Some uniformBounds end) mp in
  if rempty r then Some [] else
  if match mask with None => false | Some a => zero a end then Some [] else
  let l := if ss =? 1 then prepare1to4 dst src r sp else prepare4to4 dst src r sp in
  let? cs := loopCols l in
  Some (parallel cpus (rdy r) (fun d0 s0 => map (pixel ss dst src d0 s0) cs) (l_d0 l) (l_s0 l) (l_dyD l) (l_syD l)).

(** blend/draw.go:76-88: the uniform workers; [off] is the start of the current
    [dest] slice. [None]: [dest[dyDelta*step:]] panics. *)
Fixpoint splitUniform (m : nat) (len off y step dyD : Z) : option (list (Z * Z)) :=
  match m with
  | O => Some [(off, y)]
  | S m => if (0 <=? dyD * step) && (dyD * step <=? len - off) then
             let? t := splitUniform m len (off + dyD * step) (y - step) step dyD in Some ((off, step) :: t)
           else None
  end.

(** genporterduff.go:585-587: the loop over one uniform worker's [dest] slice, that
    starts at [off]; [dpix := dest[dPos:]]. *)
Definition pixelU (dst : view) (off dPos j : Z) : pact :=
  PA (vbase dst + off + dPos + j) [] (inSlice (vlen dst - off) dPos j 4).
Definition rowsU (dst : view) (js : list Z) (off y dyD : Z) : list (list pact) :=
  rows (Z.to_nat y) (fun d _ => map (pixelU dst off d) js) 0 0 dyD 0.

(** blend/draw.go:207-231 with genporterduff.go:322-348 and blend/draw.go:65-90: an
    [*image.Uniform] source. [None]: a panic while the work is split or a loop that
    does not terminate. (Porter-Duff drawers are never given a mask.) *)
Definition drawUniform (cpus : nat) (dst : view) (r : rect) (sp : point) : option (list (list pact)) :=
  let '(r, sp, _) := clipRect (vrect dst) r uniformBounds sp None (Pt 0 0) in
  if rempty r then Some [] else
  let off := pixOffset 4 dst (rx0 r) (ry0 r) in
  if (0 <=? off) && (off <=? vlen dst) then
    let dx1 := Z.shiftl (rdx r) 2 in
    let? cs := cols (Z.to_nat dx1) 0 dx1 4 0 4 in
    let n := fitWorkers cpus (rdy r) in
    let? ws := (if Nat.eqb n 1 then Some [(off, rdy r)]
                else splitUniform (n - 1) (vlen dst) off (rdy r) (rdy r / Z.of_nat n) (vstride dst)) in
    Some (map (fun w => concat (rowsU dst (map snd cs) (fst w) (snd w) (vstride dst))) ws)
  else None.

(** blend/util.go:204-208; [same]: [image.Image(dst) == src]. *)
Definition processBackward (same : bool) (r : rect) (sp : point) : bool :=
  same && roverlaps r (radd r (psub sp (rmin r))) &&
  ((py sp <? ry0 r) || ((py sp =? ry0 r) && (px sp <? rx0 r))).

(** One iteration of the fallback's inner loop (genblend.go:661-727,
    genporterduff.go:669-728) on generic images: [src.At], [mask.At], [dst.At] and
    [dst.Set], one heap cell per pixel. (The code does not read the source where the
    mask is transparent; reading has no effect.) Accesses outside the bounds would
    not panic in Go; here they do. *)
Definition cellOf (v : view) (x y : Z) : Z := vbase v + pixOffset 1 v x y.
Definition pixelF (dst src : view) (mask : option view) (x y sx sy mx my : Z) : pact :=
  PA (cellOf dst x y)
     (cellOf src sx sy :: match mask with None => [] | Some m => [cellOf m mx my] end)
     (pt_in (Pt x y) (vrect dst) && pt_in (Pt sx sy) (vrect src)
      && match mask with None => true | Some m => pt_in (Pt mx my) (vrect m) end).

(** The loops [for y, sy, my := ...; y != endY; ...] and the same in x. *)
Fixpoint steps (fuel : nat) (y endY dy : Z) : option (list Z) :=
  if y =? endY then Some [] else
  match fuel with O => None | S fuel => let? t := steps fuel (y + dy) endY dy in Some (y :: t) end.
Definition loopF (from to delta : Z) : option (list Z) := steps (Z.to_nat (Z.abs (to - from))) from to delta.

(** The body of the fallback for rows [pY] to [endY] (genblend.go:658-729). *)
Definition bodyF (dst src : view) (mask : option view) (pX pY spX spY mpX mpY endX endY d : Z) : option (list (list pact)) :=
  let? ys := loopF pY endY d in
  let? xs := loopF pX endX d in
  Some (map (fun y => map (fun x => pixelF dst src mask x y (spX + (x - pX)) (spY + (y - pY)) (mpX + (x - pX)) (mpY + (y - pY))) xs) ys).

(** blend/draw.go:111-126: the workers' [(pY, spY, mpY, endY)]. *)
Fixpoint splitF (m : nat) (pY spY mpY endY2 endY step : Z) : list (Z * Z * Z * Z) :=
  match m with
  | O => [(pY, spY, mpY, endY)]
  | S m => (pY, spY, mpY, endY2) :: splitF m (pY + step) (spY + step) (mpY + step) (endY2 + step) endY step
  end.

Fixpoint omapM {A B} (f : A -> option B) (l : list A) : option (list B) :=
  match l with [] => Some [] | x :: t => let? y := f x in let? ys := omapM f t in Some (y :: ys) end.

(** blend/draw.go:233 with genblend.go:731-743 and blend/draw.go:94-128. *)
Definition drawFallback (cpus : nat) (same : bool) (dst src : view) (r : rect) (sp : point)
    (mask : option view) (mp : point) : option (list (list pact)) :=
  let '(r, sp, mp) := clipRect (vrect dst) r (vrect src) sp (match mask with None => None | Some m => Some (vrect m) end) mp in
  if rempty r then Some [] else
  let '(pX, pY, endX, endY, d) :=
    if processBackward same r sp then (rx1 r - 1, ry1 r - 1, rx0 r - 1, ry0 r - 1, -1)
    else (rx0 r, ry0 r, rx1 r, ry1 r, 1) in
  let ofsX := pX - rx0 r in let ofsY := pY - ry0 r in
  let y := if 0 <? d then endY - pY else pY - endY in
  let n := fitWorkers cpus y in
  let st := y / Z.of_nat n * d in
  let ws := if Nat.eqb n 1 then [(pY, py sp + ofsY, py mp + ofsY, endY)]
            else splitF (n - 1) pY (py sp + ofsY) (py mp + ofsY) (pY + st) endY st in
  let? ls := omapM (fun w => let '(pY, spY, mpY, endY) := w in
                             bodyF dst src mask pX pY (px sp + ofsX) spY (px mp + ofsX) mpY endX endY d) ws in
  Some (map (@concat pact) ls).
