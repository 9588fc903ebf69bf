(** Model of composite/layerimage.go: drawing a tiled image or mask into one image
    (Render), and Transform with the identity matrix, which cuts the image drawn by
    Render into tiles again; composite/layer.go: Tree.Transform. *)
From Verif Require Import Base MRect MSched MDraw MBlend MPorter MRender MTile MLoad.
Open Scope Z_scope.

(** The points of a rectangle, row by row. *)
Definition rectPoints (r : rect) : list point := gridPoints 1 (rx0 r) (rx1 r) (ry0 r) (ry1 r).
(** The position of a point in an image with bounds [rc] whose rows follow each other
    without gap (image.NewNRGBA and image.NewAlpha in Transform, the Stride in
    thumbnail.go:76-79). A cell is a pixel, as in MTile. *)
Definition cellIx (rc : rect) (p : point) : Z := (py p - ry0 rc) * rdx rc + (MRect.px p - rx0 rc).

Section render.
  Context {V : Type}.
  Variable zero : V.
  (** One pixel of [blend.Copy.Draw]: the value stored for a pixel of the tile; [None]: a
      panic. No operand is taken from the destination (genporterduff.go: Copy). *)
  Variable cp : V -> option V.

  (** layerimage.go:64-76, 378-389: the stores into an image with bounds [rc] for the tile at
      [k]. Draw clips the tile's rectangle to [rc]. The stores are listed row by row; Draw
      distributes its rows to goroutines of its own, which store into distinct cells (C33).
      [blend.Clear.Draw] stores [zero]. *)
  Definition renderTile (ts : Z) (rc : rect) (tiles : tilemap V) (k : point) : option (list (Z * V)) :=
    let ps := rectPoints (rintersect (tileRect ts k) rc) in
    match m_get pt_eqb tiles k with
    | Some c => allSome (map (fun p =>
        let? v := idx c ((py p - py k) * ts + (MRect.px p - MRect.px k)) in
        let? v := cp v in Some (cellIx rc p, v)) ps)
    | None => Some (map (fun p => (cellIx rc p, zero)) ps)
    end.
  Definition renderWorker (ts : Z) (rc : rect) (tiles : tilemap V) (x0 x1 y0 y1 : Z) : option (list (Z * V)) :=
    option_map (@concat _) (allSome (map (renderTile ts rc tiles) (gridPoints ts x0 x1 y0 y1))).
  (** layerimage.go:39-62, 352-376: the stores of all workers; the tile size is positive. The
      context is not cancelled (C53 is about cancellation). *)
  Definition renderTiled (cpus : nat) (ts : Z) (rc : rect) (tiles : tilemap V) : option (list (list (Z * V))) :=
    let x0 := gridStart ts (rx0 rc) in
    let y0 := gridStart ts (ry0 rc) in
    allSome (map (fun '(a, b) => renderWorker ts rc tiles x0 (rx1 rc) a b) (tileWorkers cpus ts y0 (ry1 rc))).
  (** The image after Render, for some schedule; [old]: its pixels before. layerimage.go:40-43:
      nothing happens without tiles. *)
  Definition rendered (cpus : nat) (ts : Z) (rc : rect) (tiles : tilemap V) (old new : list V) : Prop :=
    match tiles with
    | [] => new = old
    | _ => exists ws s, renderTiled cpus ts rc tiles = Some ws /\ interleave ws s /\ new = exec store s old
    end.
End render.

(** Copying a pixel from an image.NRGBA to an image.NRGBA (zporterduffs.go,
    drawCopyNRGBAToNRGBA without mask). *)
Definition copyPx (s : px) : option px := pdB machine Copy true true 65535 s (Px 0 0 0 0).
(** zporterduffs.go:930-976: an image.Alpha is copied by the fallback. [color.Alpha.RGBA] gives
    four times the value scaled to 16 bits, [image.Alpha.Set] stores the high byte of alpha. *)
Definition copyMask (s : Z) : option Z :=
  let e := s * 257 in Some (u8 (Z.shiftr (pa (pdF machine Copy (Px e e e e) (Px 0 0 0 0))) 8)).

(** The bytes of an image.NRGBA. *)
Definition pixBytes (img : list px) : bytes := flat_map (fun p => [pr p; pg p; pb p; pa p]) img.

(** layerimage.go:197-212 with the identity matrix, for which newScaledTiledImage is
    newTiledImage whatever the gamma table (layerimage.go:214-217). The new image of
    layerimage.go:207 is zero. *)
Definition transformImage (cpus : nat) (ts : Z) (m m' : tilemap px) : Prop :=
  exists r, tilesRect ts m r /\
  if rempty r then m' = [] else
  exists img, rendered (Px 0 0 0 0) copyPx cpus ts r m (zrepeat (Px 0 0 0 0) (rdx r * rdy r)) img /\
    built (newTiledImage cpus ts r (pixBytes img) (skipn 1 (pixBytes img)) (skipn 2 (pixBytes img)) (Some (skipn 3 (pixBytes img))) 4) m'.
(** layerimage.go:399-418: a mask tile already holds the distance from the default colour. *)
Definition transformMask (cpus : nat) (ts : Z) (m m' : tilemap Z) : Prop :=
  exists r, tilesRect ts m r /\
  if rempty r then m' = [] else
  exists img, rendered 0 copyMask cpus ts r m (zrepeat 0 (rdx r * rdy r)) img /\
    built (newTiledMask cpus ts r img 0) m'.

(** layer.go:93-109: one layer image; a nil map stays nil. *)
Definition transformOpt {A} (f : A -> A -> Prop) (o o' : option A) : Prop :=
  match o, o' with None, None => True | Some a, Some b => f a b | _, _ => False end.
Definition transformLI (cpus : nat) (ts : Z) (li li' : limage) : Prop :=
  transformOpt (transformImage cpus ts) (liCanvas li) (liCanvas li') /\
  transformOpt (transformMask cpus ts) (liMask li) (liMask li').
(** layer.go:51-79: the layer images are listed in some order ([imgs]), the workers take
    intervals of the list and store the transformed images into a new map. *)
Definition sliceZ {A} (l : list A) (a b : Z) : list A := firstn (Z.to_nat (b - a)) (skipn (Z.to_nat a) l).
Definition putImage (w : Z * limage) (m : list (Z * limage)) : list (Z * limage) := m_set Z.eqb m (fst w) (snd w).
Definition transformTree (cpus : nat) (ts : Z) (imgs out : list (Z * limage)) : Prop :=
  exists imgs' s, Forall2 (fun a b => fst b = fst a /\ transformLI cpus ts (snd a) (snd b)) imgs imgs' /\
    interleave (map (fun '(a, b) => sliceZ imgs' a b) (indexWorkers cpus (zlen imgs))) s /\
    out = exec putImage s [].
