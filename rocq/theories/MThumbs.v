(** Model of composite/thumbnail.go: Thumbnail, Thumbnails and the picture of
    ThumbnailSheet. *)
From Coq Require Import Permutation.
From Verif Require Import Base MRect MSched MThumb MDraw MBlend MRender MTile MLoad MTileRender.
Open Scope Z_scope.

(** The bytes of an image.NRGBA as pixels; what is left over is dropped. *)
Fixpoint pixelsFrom (b : bytes) : list px :=
  match b with r :: g :: b :: a :: rest => Px r g b a :: pixelsFrom rest | _ => [] end.

(** An image.NRGBA whose rows follow each other without gap *)
Record picture := Pic { picRect : rect; picPix : list px }.
(** What Thumbnail does: it returns an image or one of three errors (thumbnail.go:70-72,
    73-75 and 97-99, 106-108), or it panics. *)
Inductive thumb := ThPanic | ThNotFound | ThNoCanvas | ThScaleError | ThOk (p : picture).

Section thumbs.
  (** The package downscale: the pixels that NRGBAFast stores into an empty image with the
      bounds [rect] for the source image; [None]: it returns an error. *)
  Variable downscale : rect -> img -> option (list px).
  Variable cpus : nat.
  Variable ts : Z.
  Variable size : Z.

  (** thumbnail.go:95-110; products of sizes do not overflow. *)
  Definition scaleTrimmed (i : img) : thumb :=
    match thumbDims (iw i) (ih i) size with
    | None => ThNoCanvas
    | Some (w, h) =>
        let r := mkRect 0 0 w h in
        match downscale r i with Some p => ThOk (Pic r p) | None => ThScaleError end
    end.
  (** thumbnail.go:69-110; [layer]: the entry of the map of layer images; [buf]: tempBuffer.
      [Canvas.Render] with the background context returns no error. *)
  Definition thumbnail (layer : option limage) (buf : bytes) (o : thumb) : Prop :=
    match layer with
    | None => o = ThNotFound
    | Some li =>
        match liCanvas li with
        | None => o = ThNoCanvas
        | Some m =>
            exists r, tilesRect ts m r /\
            if rempty r then o = ThNoCanvas
            else
              let stride := rdx r * 4 in
              let n := stride * rdy r in
              let old := if zlen buf <? n then zrepeat (Px 0 0 0 0) (rdx r * rdy r) else pixelsFrom (firstn (Z.to_nat n) buf) in
              (m <> [] /\ renderTiled (Px 0 0 0 0) copyPx cpus ts r m = None /\ o = ThPanic) \/
              exists im, rendered (Px 0 0 0 0) copyPx cpus ts r m old im /\
                o = match trimUnusedArea (rdx r) (rdy r) stride (pixBytes im) r 0 with
                    | None => ThPanic
                    | Some i => scaleTrimmed i
                    end
        end
    end.

  (** thumbnail.go:112-117: the SeqIDs. The layers of a clipping group are children of the
      same folder, right behind the first layer of the group (see [layer]). *)
  Fixpoint gatherLayer (l : layer) : list Z :=
    let go := fix go (ls : list layer) := match ls with [] => [] | l :: ls => gatherLayer l ++ go ls end in
    match l with Lay a ks cs => lseq a :: go ks ++ go cs end.

  (** thumbnail.go:144-170: the stores of one worker for the outcomes [os] of the layers
      [qs]. *)
  Definition thumbStores (qos : list (Z * thumb)) : list (Z * picture) :=
    flat_map (fun '(q, o) => match o with ThOk p => [(q, p)] | _ => [] end) qos.
  Definition putThumb (w : Z * picture) (m : list (Z * picture)) : list (Z * picture) := m_set Z.eqb m (fst w) (snd w).
  (** thumbnail.go:119-142, not cancelled. A worker gives the same buffer to Thumbnail again
      and again; here the buffer may hold anything each time. [None]: a worker panics. *)
  Definition thumbnails (imgs : list (Z * limage)) (qs : list Z) (res : option (list (Z * picture))) : Prop :=
    exists qos, map fst qos = qs /\ Forall (fun '(q, o) => exists buf, thumbnail (m_get Z.eqb imgs q) buf o) qos /\
      if existsb (fun qo => match snd qo with ThPanic => true | _ => false end) qos then res = None
      else exists s, interleave (map (fun '(a, b) => thumbStores (sliceZ qos a b)) (indexWorkers cpus (zlen qs))) s /\
        res = Some (exec putThumb s []).
End thumbs.

(** thumbnail.go:218-237: the pixels stored for a thumbnail that is drawn at [pic] of a sheet
    of side [side]. Draw clips the rectangle to the sheet. [None]: a panic. *)
Definition sheetDraw (side : Z) (p : picture) (pic : rect) : option (list (Z * px)) :=
  let sheet := Rct 0 0 side side in
  allSome (map (fun q =>
    let? v := idx (picPix p) (cellIx (picRect p) (Pt (MRect.px q - rx0 pic) (py q - ry0 pic))) in
    let? v := copyPx v in Some (cellIx sheet q, v)) (rectPoints (rintersect pic sheet))).
(** thumbnail.go:172-216: the sheet for the thumbnails [m], listed in the order in which the
    map is visited. [None]: an error or a panic (see thumbnailSheet); else the image and the
    rectangle of every layer. The workers run one after the other (the code lacks [go]). *)
Definition thumbnailSheetPx (size : Z) (m : list (Z * picture)) : option (list px * list (Z * rect)) :=
  match thumbnailSheet size (map (fun e => (rdx (picRect (snd e)), rdy (picRect (snd e)))) m) with
  | SheetOk side cells pics =>
      let? ws := allSome (map (fun '(e, pic) => sheetDraw side (snd e) pic) (combine m pics)) in
      Some (exec store (concat ws) (zrepeat (Px 0 0 0 0) (side * side)), combine (map fst m) cells)
  | _ => None
  end.
