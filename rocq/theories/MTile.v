(** Model of composite/layerimage.go: splitting layer images and masks into tiles. *)
From Verif Require Import Base MRect MSched MDraw MBlend.
Open Scope Z_scope.

(** A Go loop [for d, s := d0, s0; d < dEnd; d += dStep { ...; s += sStep }] with
    [dStep > 0]: the pairs (d, s). *)
Fixpoint spanLoop (n : nat) (d s dStep sStep : Z) : list (Z * Z) :=
  match n with O => [] | S n => (d, s) :: spanLoop n (d + dStep) (s + sStep) dStep sStep end.
Definition trips (lo hi step : Z) : nat := Z.to_nat ((hi - lo + step - 1) / step).
Definition forPairs (d dEnd dStep s sStep : Z) : list (Z * Z) := spanLoop (trips d dEnd dStep) d s dStep sStep.
(** [for t := t0; t < t1; t += step] *)
Definition forUp (t0 t1 step : Z) : list Z := map fst (forPairs t0 t1 step 0 0).

(** layerimage.go:45-61, 234-251, 358-374, 428-444 and renderer.go:238-254: the
    tile grid and the rows given to the workers. Go's division truncates. *)
Definition gridStart (ts m : Z) : Z := (Z.quot m ts) * ts.
Fixpoint splitRows (m : nat) (y0 y1 step : Z) : list (Z * Z) :=
  match m with O => [(y0, y1)] | S m => (y0, y0 + step) :: splitRows m (y0 + step) y1 step end.
Definition tileWorkers (cpus : nat) (ts y0 y1 : Z) : list (Z * Z) :=
  let ylen := Z.quot (y1 - y0) ts in
  let n := fitWorkers cpus ylen in
  splitRows (n - 1) y0 y1 (Z.quot ylen (Z.of_nat n) * ts).

(** layer.go:64-76, thumbnail.go:119-134, 199-212: indices given to the workers. *)
Definition indexWorkers (cpus : nat) (len : Z) : list (Z * Z) :=
  let n := fitWorkers cpus len in splitRows (n - 1) 0 len (Z.quot len (Z.of_nat n)).

(** layerimage.go:271-279 (and 281-289, 463-471, 473-481): one axis of a tile at [t]
    of a source interval [r0, r1): (dMin, dMax, sMin). *)
Definition tileSpan (ts t r0 r1 : Z) : Z * Z * Z :=
  let sMin := t - r0 in
  let '(dMin, sMin) := if sMin <? 0 then (0 - sMin, 0) else (0, sMin) in
  let e := r0 + sMin + (ts - dMin) in
  let dMax := if r1 <? e then ts - (e - r1) else ts in
  (dMin, dMax, sMin).

Section tile.
  (** A cell of a tile is a pixel of an NRGBA tile (four bytes; the offsets [dx] are
      divided by 4 throughout) or a byte of an Alpha tile. *)
  Context {V : Type}.
  Variable zero : V.
  (** What the loop body does with the source index [sx]: [None]: index out of
      range; [Some None]: nothing; [Some (Some v)]: store [v] and set [used]. *)
  Variable get : Z -> option (option V).

  Definition putCell (p : Z * Z) (st : option (list V * bool)) : option (list V * bool) :=
    match st with
    | None => None
    | Some (buf, used) =>
        match get (snd p) with
        | None => None
        | Some None => Some (buf, used)
        | Some (Some v) => match upd buf (fst p) v with Some buf => Some (buf, true) | None => None end
        end
    end.

  (** layerimage.go:271-320, 463-509: the cells written for the tile at ([tx], [ty]):
      (destination index, source index). [dX]: distance of the samples of neighbouring
      pixels in the source slices. *)
  Definition tileCells (ts : Z) (r : rect) (dX tx ty : Z) : list (Z * Z) :=
    let '(dxMin, dxMax, sxMin) := tileSpan ts tx (rx0 r) (rx1 r) in
    let '(dyMin, dyMax, syMin) := tileSpan ts ty (ry0 r) (ry1 r) in
    let sw := rdx r * dX in
    flat_map (fun '(dy, sy) => forPairs (dy + dxMin) (dy + dxMax) 1 (sy + sxMin * dX) dX)
      (forPairs (dyMin * ts) (dyMax * ts) ts (syMin * sw) sw).
  Definition fillTile (ts : Z) (r : rect) (dX tx ty : Z) (buf : list V) : option (list V * bool) :=
    exec putCell (tileCells ts r dX tx ty) (Some (buf, false)).

  (** layerimage.go:258-333, 451-522: one worker; the tiles it stores into the map.
      The abort check is not modelled: an aborted run returns no map. *)
  Definition freshBuf (ts : Z) : list V := zrepeat zero (ts * ts).
  Fixpoint tileLoop (ts : Z) (r : rect) (dX : Z) (pts : list point) (buf : list V) : option (list (point * list V)) :=
    match pts with
    | [] => Some []
    | p :: pts =>
        match fillTile ts r dX (MRect.px p) (py p) buf with
        | None => None
        | Some (buf, true) => match tileLoop ts r dX pts (freshBuf ts) with Some l => Some ((p, buf) :: l) | None => None end
        | Some (buf, false) => tileLoop ts r dX pts buf
        end
    end.
  Definition gridPoints (ts x0 x1 y0 y1 : Z) : list point :=
    flat_map (fun ty => map (fun tx => Pt tx ty) (forUp x0 x1 ts)) (forUp y0 y1 ts).
  Definition tileWorker (ts : Z) (r : rect) (dX x0 x1 y0 y1 : Z) : option (list (point * list V)) :=
    tileLoop ts r dX (gridPoints ts x0 x1 y0 y1) (freshBuf ts).

  (** layerimage.go:233-256, 427-449: the stores of all workers; [None]: one of them
      panics. The tile size is positive (layer.go:194-196 replaces 0). *)
  Fixpoint allSome {A} (l : list (option A)) : option (list A) :=
    match l with [] => Some [] | None :: _ => None | Some a :: t => match allSome t with Some t => Some (a :: t) | None => None end end.
  Definition newTiled (cpus : nat) (ts : Z) (r : rect) (dX : Z) : option (list (list (point * list V))) :=
    let x0 := gridStart ts (rx0 r) in
    let y0 := gridStart ts (ry0 r) in
    allSome (map (fun '(a, b) => tileWorker ts r dX x0 (rx1 r) a b) (tileWorkers cpus ts y0 (ry1 r))).
End tile.

(** A map from tile positions to tiles; the stores are made under a lock, in the
    order of the schedule. *)
Definition pt_eqb (p q : point) : bool := (MRect.px p =? MRect.px q) && (py p =? py q).
Definition tilemap (V : Type) := list (point * list V).
Definition putTile {V} (w : point * list V) (m : tilemap V) : tilemap V := m_set pt_eqb m (fst w) (snd w).

(** The loop bodies: layerimage.go:294-307 (with alpha channel), 308-320 (without). *)
Definition getImage (r g b : bytes) (a : option bytes) (sx : Z) : option (option px) :=
  match a with
  | Some a =>
      let? av := idx a sx in
      if 0 <? av then let? bv := idx b sx in let? gv := idx g sx in let? rv := idx r sx in Some (Some (Px rv gv bv av))
      else Some None
  | None => let? bv := idx b sx in let? gv := idx g sx in let? rv := idx r sx in Some (Some (Px rv gv bv 255))
  end.
Definition newTiledImage (cpus : nat) (ts : Z) (rc : rect) (r g b : bytes) (a : option bytes) (dX : Z) :=
  newTiled (Px 0 0 0 0) (getImage r g b a) cpus ts rc dX.
(** layerimage.go:485-509: masks keep the distance from the default colour. *)
Definition getMask (a : bytes) (defaultColor : Z) (sx : Z) : option (option Z) :=
  let? alpha := idx a sx in
  if defaultColor =? 0 then (if alpha =? 0 then Some None else Some (Some alpha))
  else (if alpha =? 255 then Some None else Some (Some (255 - alpha))).
Definition newTiledMask (cpus : nat) (ts : Z) (rc : rect) (a : bytes) (defaultColor : Z) :=
  newTiled 0 (getMask a defaultColor) cpus ts rc 1.
