(** Model of composite/renderer.go and composite/draw.go: one tile of the renderer.

    All steps of the renderer that concern the tile at a point [pt] read and write only
    the cache entries and the pixels of that point, so that the model describes them for
    one point; [MRenderAll] puts the tiles together. *)
From Coq Require Import String Ascii.
From Verif Require Import Base.
Close Scope string_scope.

(** Attributes of a layer that the renderer uses (layer.go:111-137). [lclipping] is used
    for layers that belong to no clipping group only: see [layer]. [lmdc]:
    MaskDefaultColor == 255. *)
Record lattr := Lattr {
  lseq : Z; lvis : bool; lopa : Z; lbm : bytes; lclipping : bool; lbce : bool; lmen : bool; lmdc : bool }.

(** A layer with its children and its clipping group [lclip] (the field Clip). The layers
    of a clipping group are not repeated in the list of children: the loops over
    the children call drawLayer for them too, which returns at renderer.go:350 or 353
    without any effect, since they are clipping layers. *)
Inductive layer := Lay (a : lattr) (kids lclip : list layer).
Definition latt (l : layer) : lattr := match l with Lay a _ _ => a end.
Definition lkids (l : layer) : list layer := match l with Lay _ ks _ => ks end.
Definition lgroup (l : layer) : list layer := match l with Lay _ _ cs => cs end.

(** renderer.go:13-22 *)
Inductive drawResult := DrDrew | DrDrewFromCache | DrDrewFromCacheInvisible | DrDefered | DrSkipped | DrInvisible.
Definition isDrew (d : drawResult) : bool := match d with DrDrew | DrDrewFromCache => true | _ => false end.

(** A string constant as bytes *)
Definition str (s : string) : bytes := map (fun c => Z.of_N (N_of_ascii c)) (list_ascii_of_string s).
(** blendmode.go:10 *)
Definition passThrough : bytes := str "pass".
Definition isPT (a : lattr) : bool := list_eqb (lbm a) passThrough.

Section render.
  (** Contents of a tile of an image and of a mask, and the drawing operations of
      package blend on whole tiles, by their result. They are modelled in MBlend,
      MPorter and MDraw and put in place in [MRenderPx].
      [copyT s]: Copy.Draw of [s] (every pixel of the destination is replaced).
      [blendOf m]: blendModes[m].DrawMask with an opacity, source and destination;
      [None]: the map has no such mode. *)
  Context {img msk : Type}.
  Variable zero : img.
  Variable copyT : img -> img.
  Variable blendOf : bytes -> option (Z -> img -> img -> img).
  Variable destInM destOutM : msk -> img -> img.
  Variable destInT destOverT : img -> img -> img.
  Variable clearT removeAlpha : img -> img.
  (** tree.layerImage[seqID].Canvas[pt] and Mask[pt]; [hasCanvas]: Canvas is not nil *)
  Variable canvas : Z -> option img.
  Variable hasCanvas : Z -> bool.
  Variable mask : Z -> option msk.

  (** The entries of all caches for the point: [None] csCachedEmpty, [Some i] csCached
      with the image [i] (an image whose key is not in Cached is never read). [tlog]:
      the layers of the changeList. *)
  Record tstate := Tst { tent : list (Z * option img); tlog : list Z }.

  (** renderer.go:321-343: updateCache. [cached]: c != nil *)
  Definition updateCache (dr : drawResult) (s : Z) (b : img) (cached : bool) (st : tstate) : tstate :=
    if cached then
      match dr with
      | DrDrew => Tst (m_set Z.eqb (tent st) s (Some (copyT b))) (tlog st ++ [s])
      | DrDrewFromCache | DrDrewFromCacheInvisible => st
      | _ => Tst (m_set Z.eqb (tent st) s None) (tlog st ++ [s])
      end
    else st.

  (** draw.go:42-44. [None]: nil interface, panic *)
  Definition drawWithOpacity (b buf : img) (opacity : Z) (bm : bytes) : option img :=
    match blendOf bm with Some f => Some (f opacity buf b) | None => None end.
  (** The copy or blend at renderer.go:369-373, 422-426, 440-444 *)
  Definition putTile (a : lattr) (b buf : img) (opacity : Z) : option img :=
    if isPT a then Some (copyT buf) else drawWithOpacity b buf opacity (lbm a).

  (** renderer.go:404-419 *)
  Definition applyMask (a : lattr) (b buf : img) : img :=
    if lmen a then
      let buf :=
        match mask (lseq a) with
        | Some m => if negb (lmdc a) then destInM m buf else destOutM m buf
        | None => if negb (lmdc a) then clearT buf else buf
        end in
      if isPT a then destOverT b buf else buf
    else buf.

  (** renderer.go:345-469: drawLayer. The argument blendMode is always l.BlendMode and
      is left out. Pool buffers are all zero when they are handed out (putBuffer).
      [None]: panic. *)
  Fixpoint drawLayer (st : tstate) (b : img) (l : layer) (opacity : Z) (forceNoClip : bool) {struct l}
      : option (tstate * img * drawResult) :=
    match l with
    | Lay a ks cs =>
        if negb (lvis a) || (opacity =? 0) then Some (st, b, DrInvisible)
        else if lclipping a && negb forceNoClip then Some (st, b, DrDefered)
        else
          (* 404-469 *)
          let finish (st : tstate) (buf : img) (cached : bool) : option (tstate * img * drawResult) :=
            let buf := applyMask a b buf in
            match cs with
            | [] =>
                match putTile a b buf opacity with
                | Some b => Some (updateCache DrDrew (lseq a) buf cached st, b, DrDrew)
                | None => None
                end
            | _ =>
                if lbce a then
                  match (fix clips (cs : list layer) (st : tstate) (clipBuf : img) {struct cs} : option (tstate * img) :=
                           match cs with
                           | [] => Some (st, clipBuf)
                           | c :: cs =>
                               match drawLayer st clipBuf c (lopa (latt c)) true with
                               | Some (st, clipBuf, _) => clips cs st clipBuf
                               | None => None
                               end
                           end) cs st (removeAlpha (copyT buf)) with
                  | Some (st, clipBuf) =>
                      let clipBuf := destInT buf clipBuf in
                      match putTile a b clipBuf opacity with
                      | Some b => Some (updateCache DrDrew (lseq a) clipBuf cached st, b, DrDrew)
                      | None => None
                      end
                  | None => None
                  end
                else
                  (* 449-455: the clipped layers are not drawn: drDefered *)
                  match drawWithOpacity b buf opacity (lbm a) with
                  | Some b => Some (updateCache DrDrew (lseq a) buf cached st, b, DrDrew)
                  | None => None
                  end
            end in
          match ks with
          | [] =>
              match canvas (lseq a) with
              | None => Some (st, b, DrSkipped)
              | Some t => finish st (copyT t) false
              end
          | _ =>
              match m_get Z.eqb (tent st) (lseq a) with
              | Some (Some ci) =>
                  match putTile a b ci opacity with Some b => Some (st, b, DrDrewFromCache) | None => None end
              | Some None => Some (st, b, DrDrewFromCacheInvisible)
              | None =>
                  let buf := if isPT a then copyT b else zero in
                  let al := (if isPT a then opacity else 255) * 32897 in
                  match (fix draws (ks : list layer) (st : tstate) (buf : img) (drew : bool) {struct ks} : option (tstate * img * bool) :=
                           match ks with
                           | [] => Some (st, buf, drew)
                           | k :: ks =>
                               match drawLayer st buf k (Z.shiftr (lopa (latt k) * al) 23) false with
                               | Some (st, buf, dr) => draws ks st buf (drew || isDrew dr)
                               | None => None
                               end
                           end) ks st buf false with
                  | None => None
                  | Some (st, buf, drew) =>
                      if drew then finish st buf true
                      else Some (updateCache DrInvisible (lseq a) buf true st, b, DrInvisible)
                  end
              end
          end
    end.

  (** renderer.go:297-319: updateTile. SeqIDRoot is the SeqID of the root. *)
  Fixpoint drawTop (ks : list layer) (st : tstate) (buf : img) (drew : bool) : option (tstate * img * bool) :=
    match ks with
    | [] => Some (st, buf, drew)
    | k :: ks =>
        match drawLayer st buf k (lopa (latt k)) false with
        | Some (st, buf, dr) => drawTop ks st buf (drew || isDrew dr)
        | None => None
        end
    end.
  Definition updateTile (root : layer) (st : tstate) : option (tstate * bool) :=
    match m_get Z.eqb (tent st) (lseq (latt root)) with
    | Some _ => Some (st, false)
    | None =>
        match drawTop (lkids root) st zero false with
        | Some (st, buf, drew) => Some (updateCache (if drew then DrDrew else DrInvisible) (lseq (latt root)) buf true st, true)
        | None => None
        end
    end.

  (** renderer.go:281-293: what is drawn into the destination for the tile; [d]: its
      pixels before. [None]: panic (or nil image). *)
  Definition paint (root : layer) (st : tstate) (d : img) : option img :=
    match m_get Z.eqb (tent st) (lseq (latt root)) with
    | Some (Some ci) => Some (copyT ci)
    | Some None => Some (clearT d)
    | None => None
    end.
  Definition renderTile (diffOnly : bool) (root : layer) (st : tstate) (d : img) : option (tstate * img) :=
    match updateTile root st with
    | None => None
    | Some (st, modified) =>
        if modified || negb diffOnly then match paint root st d with Some d => Some (st, d) | None => None end
        else Some (st, d)
    end.
  (** renderer.go:255-267: the entries of the change list are deleted *)
  Definition revert (st : tstate) : tstate := Tst (fold_left (m_del Z.eqb) (tlog st) (tent st)) [].

  (** * Invalidation *)

  (** renderer.go:88-124: is the point in the area of the layer? *)
  Fixpoint areaRec (l : layer) : bool :=
    match l with
    | Lay _ ks _ =>
        existsb (fun k => let a := latt k in
          lvis a && negb (lopa a =? 0) && negb (lclipping a) &&
          (if hasCanvas (lseq a) then match canvas (lseq a) with Some _ => true | None => false end
           else match lkids k with [] => false | _ => areaRec k end)) ks
    end.
  Definition inArea (l : layer) : bool :=
    if hasCanvas (lseq (latt l)) then match canvas (lseq (latt l)) with Some _ => true | None => false end
    else match lkids l with [] => false | _ => areaRec l end.

  (** renderer.go:126-140: setDirtyByLayerPassThrough: the caches whose entry is deleted *)
  Fixpoint dirtyPT (l : layer) : list Z :=
    match l with
    | Lay a ks _ =>
        lseq a :: flat_map (fun k => match k with Lay b _ cs =>
          (if isPT b then dirtyPT k else []) ++ flat_map (fun c => if isPT (latt c) then dirtyPT c else []) cs end) ks
    end.
  (** The loop over the siblings, renderer.go:156-163 *)
  Definition dirtySibs (l : layer) : list Z :=
    flat_map (fun k => (if isPT (latt k) then dirtyPT k else []) ++
                       flat_map (fun c => if isPT (latt c) then dirtyPT c else []) (lgroup k)) (lkids l).

  (** A position below a layer: child [i], or member [j] of the clipping group of child [i] *)
  Definition step : Type := nat * option nat.
  Definition child (l : layer) (s : step) : option layer :=
    match nth_error (lkids l) (fst s), snd s with
    | Some k, None => Some k
    | Some k, Some j => nth_error (lgroup k) j
    | None, _ => None
    end.
  Fixpoint layerAt (l : layer) (p : list step) : option layer :=
    match p with [] => Some l | s :: p => match child l s with Some c => layerAt c p | None => None end end.

  (** renderer.go:142-165: setDirtyByLayerRecursive for the layer at [p] below [l]: the
      caches whose entry is deleted, and whether the recursion has reached [l]. The
      pointers Parent and ClippedBy are the containing layer and the base of
      the group, as in a cloned tree. [top]: [l] is the root of a tree whose
      layers have no Parent (as New leaves them). *)
  Fixpoint dirty (top : bool) (l : layer) (p : list step) : list Z * bool :=
    match p with
    | [] => ([lseq (latt l)], true)
    | s :: p =>
        match child l s with
        | None => ([], false)
        | Some c =>
            let '(d, up) := dirty false c p in
            if up then
              let d := match snd s, nth_error (lkids l) (fst s) with Some _, Some k => d ++ [lseq (latt k)] | _, _ => d end in
              let orphan := match snd s, nth_error (lkids l) (fst s) with
                            | None, _ => lclipping (latt c) | Some _, Some k => lclipping (latt k) | Some _, None => true end in
              if orphan || top then (d, false) else (d ++ dirtySibs l ++ [lseq (latt l)], true)
            else (d, false)
        end
    end.
  (** renderer.go:167-170: setDirtyByLayer at the point *)
  Definition setDirty (top : bool) (root : layer) (p : list step) (st : tstate) : tstate :=
    match layerAt root p with
    | Some l => if inArea l then Tst (fold_left (m_del Z.eqb) (fst (dirty top root p)) (tent st)) (tlog st) else st
    | None => st
    end.
End render.
Arguments tstate : clear implicits.
