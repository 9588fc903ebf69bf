(** Model of the loader of composite/layer.go: the goroutines of createCanvas build the
    tiles of the layers while psd.Decode goes on, and change the layers that Decode copies
    into its tree. *)
From Coq Require Import Permutation.
From Verif Require Import Base MRect MSched MBlend MRender MTile.
Open Scope Z_scope.

(** What the loader uses of a psd.Layer (layer.go:14-50, 71-88 and 97-101 of package psd):
    SeqID, SectionDividerSetting.Type, Rect, the channels 0, 1, 2 and -1, and of the mask
    Rect, channel -2, DefaultColor and Flags. A missing colour channel is an empty plane:
    the zero Channel has nil Data. *)
Record player := PL {
  pseq : Z; ptype : Z; prect : rect; pr_ : bytes; pg_ : bytes; pb_ : bytes; pa_ : option bytes;
  pmrect : rect; pmchan : option bytes; pmdc : Z; pflags : Z }.
(** [l.Rect = ...] and [l.Mask.Rect = ...]. A rectangle is stored in one step: copies in
    which only some of its four numbers have changed are not modelled. *)
Definition setRect (l : player) (r : rect) : player :=
  PL (pseq l) (ptype l) r (pr_ l) (pg_ l) (pb_ l) (pa_ l) (pmrect l) (pmchan l) (pmdc l) (pflags l).
Definition setMaskRect (l : player) (r : rect) : player :=
  PL (pseq l) (ptype l) (prect l) (pr_ l) (pg_ l) (pb_ l) (pa_ l) r (pmchan l) (pmdc l) (pflags l).
(** layer.go:53-55 of package psd *)
Definition hasImage (l : player) : bool := ptype l =? 0.

(** layerimage.go:15-18; [None]: a nil map *)
Record limage := LI { liCanvas : option (tilemap px); liMask : option (tilemap Z) }.

(** layerimage.go:31-37, 337-343: the order in which Go visits a map is not determined. *)
Definition tileRect (ts : Z) (k : point) : rect := Rct (MRect.px k) (py k) (MRect.px k + ts) (py k + ts).
Definition tilesRect {V} (ts : Z) (m : tilemap V) (r : rect) : Prop :=
  exists ks, Permutation ks (map fst m) /\ r = fold_left (fun r k => runion (tileRect ts k) r) ks ZR.
(** The map that the workers of newTiledImage or newTiledMask fill in some order. *)
Definition built {V} (ws : option (list (list (point * list V)))) (m : tilemap V) : Prop :=
  exists l s, ws = Some l /\ interleave l s /\ m = exec putTile s [].

(** A worker of createCanvasInner with a layer, given by its index: before the canvas, before
    the mask, before the lock. *)
Inductive job := JCanvas (i : nat) | JMask (i : nat) (c : option (tilemap px)) | JStore (i : nat) (ld : limage).
(** The layers in the slice of Decode, the number of layers sent over the channel, the
    workers that have a layer, the map layerImages, and the layers that buildTree has copied
    ([for i, l := range layer]). *)
Record loader := LD { ldLayers : list player; ldSent : nat; ldBusy : list job; ldImages : list (Z * limage); ldCopied : list player }.

Section loader.
  (** GOMAXPROCS and the tile size. The transformation is the identity and there is no
      gamma table, then newScaledTiledImage and newScaledTiledMask are newTiledImage and
      newTiledMask (layerimage.go:214-217, 415-418). *)
  Variable cpus : nat.
  Variable ts : Z.

  (** layer.go:291-303 *)
  Definition canvasOf (l : player) (l' : player) (c : option (tilemap px)) : Prop :=
    if hasImage l && negb (rempty (prect l)) then
      exists m r, built (newTiledImage cpus ts (prect l) (pr_ l) (pg_ l) (pb_ l) (pa_ l) 1) m /\ tilesRect ts m r /\ c = Some m /\ l' = setRect l r
    else c = None /\ l' = l.
  (** layer.go:304-313 *)
  Definition maskOf (l : player) (l' : player) (c : option (tilemap Z)) : Prop :=
    if negb (rempty (pmrect l)) then
      match pmchan l with
      | Some a => exists m r, built (newTiledMask cpus ts (pmrect l) a (pmdc l)) m /\ tilesRect ts m r /\ c = Some m /\ l' = setMaskRect l r
      | None => c = None /\ l' = l
      end
    else c = None /\ l' = l.

  Fixpoint setNth {A} (i : nat) (v : A) (l : list A) : list A :=
    match l, i with
    | [], _ => []
    | _ :: l, O => v :: l
    | x :: l, S i => x :: setNth i v l
    end.

  (** The steps of layer.go:252-319 and of layer.go:205 of package psd. A context that is
      cancelled, errors of Decode and panics of the workers are not modelled (then New
      returns no tree); for the waiting see MWait. *)
  Inductive lstep : loader -> loader -> Prop :=
  (** [ch <- l] meets a worker at [range ch] *)
  | L_send ls n js ims cs : (n < length ls)%nat -> (length js < cpus)%nat ->
      lstep (LD ls n js ims cs) (LD ls (S n) (js ++ [JCanvas n]) ims cs)
  | L_canvas ls n j1 i j2 ims cs l l' c : nth_error ls i = Some l -> canvasOf l l' c ->
      lstep (LD ls n (j1 ++ JCanvas i :: j2) ims cs) (LD (setNth i l' ls) n (j1 ++ JMask i c :: j2) ims cs)
  | L_mask ls n j1 i c j2 ims cs l l' m : nth_error ls i = Some l -> maskOf l l' m ->
      lstep (LD ls n (j1 ++ JMask i c :: j2) ims cs) (LD (setNth i l' ls) n (j1 ++ JStore i (LI c m) :: j2) ims cs)
  | L_store ls n j1 i ld j2 ims cs l : nth_error ls i = Some l ->
      lstep (LD ls n (j1 ++ JStore i ld :: j2) ims cs) (LD ls n (j1 ++ j2) (m_set Z.eqb ims (pseq l) ld) cs)
  (** buildTree copies the next layer; all layers have been sent *)
  | L_copy ls js ims cs l : nth_error ls (length cs) = Some l ->
      lstep (LD ls (length ls) js ims cs) (LD ls (length ls) js ims (cs ++ [l])).

  Definition lstart (ls : list player) : loader := LD ls 0 [] [] [].
  (** Decode has returned and so has Wait *)
  Definition lended (st : loader) : Prop :=
    ldSent st = length (ldLayers st) /\ ldBusy st = [] /\ length (ldCopied st) = length (ldLayers st).
End loader.

(** builder.go:50-51 with layer.go:91-93 of package psd; [l]: the copy of the layer *)
Definition maskEnabled (l : player) : bool := (Z.land (pflags l) 2 =? 0) && negb (rempty (pmrect l)).
(** builder.go:53 and layer.go:242: the rectangle of the tree. buildTree drops the layers
    that only end a folder (type 3). The union is taken in the order of the file instead of
    depth first from the top of each folder; the order is visible only in empty unions,
    which the intersection makes the same. *)
Definition treeRect (cs : list player) (config : rect) : rect :=
  rintersect (fold_left (fun r l => runion r (prect l)) (filter (fun l => negb (ptype l =? 3)) cs) ZR) config.

(** renderer.go:356-357, 405: the tiles that the renderer finds for a layer *)
Definition canvasTile (ims : list (Z * limage)) (k : point) (seq : Z) : option (list px) :=
  match m_get Z.eqb ims seq with Some (LI (Some m) _) => m_get pt_eqb m k | _ => None end.
Definition maskTile (ims : list (Z * limage)) (k : point) (seq : Z) : option (list Z) :=
  match m_get Z.eqb ims seq with Some (LI _ (Some m)) => m_get pt_eqb m k | _ => None end.
(** builder.go:20-51: the attributes that the renderer sees of a layer, [l]: its copy *)
Definition attrsOf (l : player) (vis : bool) (op : Z) (bm : bytes) (clip bce : bool) : lattr :=
  Lattr (pseq l) vis op bm clip bce (maskEnabled l) (pmdc l =? 255).
