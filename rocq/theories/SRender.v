(** What is meant by rendering: a tree drawn without any cache; trees that can be drawn;
    changes of layers, as the user of the renderer makes them. *)
From Verif Require Import Base MRender.

Fixpoint mapnth {A} (f : A -> A) (i : nat) (l : list A) : list A :=
  match l, i with
  | [], _ => []
  | x :: l, O => f x :: l
  | x :: l, S i => x :: mapnth f i l
  end.
(** The tree in which the layer at the position has the attributes [a] *)
Fixpoint chg (p : list step) (a : lattr) (l : layer) : layer :=
  match p with
  | [] => Lay a (lkids l) (lgroup l)
  | (i, None) :: p => Lay (latt l) (mapnth (chg p a) i (lkids l)) (lgroup l)
  | (i, Some j) :: p => Lay (latt l) (mapnth (fun k => Lay (latt k) (lkids k) (mapnth (chg p a) j (lgroup k))) i (lkids l)) (lgroup l)
  end.

Definition alphaOf (a : lattr) (opacity : Z) : Z := (if isPT a then opacity else 255) * 32897.
Definition isNil {A} (l : list A) : bool := match l with [] => true | _ => false end.
(** All SeqIDs of a layer *)
Fixpoint seqs (l : layer) : list Z :=
  match l with Lay a ks cs => lseq a :: flat_map seqs ks ++ flat_map seqs cs end.


(** A change keeps the SeqID and Clipping *)
Definition same_but (a a' : lattr) : Prop := lseq a' = lseq a /\ lclipping a' = lclipping a.
(** The trees have the same shape and differ only in attributes of the layers at the
    positions [ps] *)
Definition changed (ps : list (list step)) (root root' : layer) : Prop :=
  forall p, match layerAt root p, layerAt root' p with
            | Some t, Some t' => same_but (latt t) (latt t') /\ (latt t' = latt t \/ In p ps)
            | None, None => True
            | _, _ => False
            end.
(** No pass-through folder has become a folder of another mode that has pass-through
    folders in it *)
Definition okChange (root root' : layer) : Prop :=
  forall p t t', layerAt root p = Some t -> layerAt root' p = Some t' ->
    isPT (latt t) = true -> isPT (latt t') = false -> forall k, In k (lkids t') -> isPT (latt k) = false.

Section render.
  Context {img msk : Type}.
  Variable zero : img.
  Variable copyT : img -> img.
  Variable blendOf : bytes -> option (Z -> img -> img -> img).
  Variable destInM destOutM : msk -> img -> img.
  Variable destInT destOverT : img -> img -> img.
  Variable clearT removeAlpha : img -> img.
  Variable canvas : Z -> option img.
  Variable hasCanvas : Z -> bool.
  Variable mask : Z -> option msk.

  (** A buffer seen through the mask of the layer: outside of the tiles of the mask
      everything is hidden (or, if the default colour is white, shown); what is
      hidden in a pass-through folder lets the pixels below through. *)
  Definition maskT (a : lattr) (b x : img) : img :=
    let under y := if isPT a then destOverT b y else y in
    match lmen a, lmdc a, mask (lseq a) with
    | false, _, _ => x
    | true, false, Some m => under (destInM m x)
    | true, false, None => under (clearT x)
    | true, true, Some m => under (destOutM m x)
    | true, true, None => under x
    end.
  Definition startBuf (a : lattr) (b : img) : img := if isPT a then copyT b else zero.

  (** * Rendering without caches *)
  Definition blendT (m : bytes) (op : Z) (src dst : img) : img := match blendOf m with Some f => f op src dst | None => dst end.
  Definition putT (a : lattr) (b x : img) (op : Z) : img := if isPT a then copyT x else blendT (lbm a) op x b.
  Definition dr1 (a : lattr) (bd : option img) (b : img) (op : Z) : img * bool :=
    if negb (lvis a) || (op =? 0) then (b, false) else match bd with None => (b, false) | Some x => (putT a b x op, true) end.
  Definition kidOp (a : lattr) (op o : Z) : Z := Z.shiftr (o * alphaOf a op) 23.

  Fixpoint body (l : layer) (b : img) (op : Z) {struct l} : option img :=
    match l with
    | Lay a ks cs =>
        let grp (m : img) : img :=
          match cs with
          | [] => m
          | _ => if lbce a then
                   destInT m ((fix clipsP (cs : list layer) (x : img) : img :=
                                 match cs with
                                 | [] => x
                                 | c :: cs => clipsP cs (fst (dr1 (latt c) (body c x (lopa (latt c))) x (lopa (latt c))))
                                 end) cs (removeAlpha (copyT m)))
                 else m
          end in
        match ks with
        | [] => match canvas (lseq a) with None => None | Some t => Some (grp (maskT a b (copyT t))) end
        | _ =>
            let r := (fix drawsP (ks : list layer) (buf : img) (drew : bool) : img * bool :=
                        match ks with
                        | [] => (buf, drew)
                        | k :: ks =>
                            let o := kidOp a op (lopa (latt k)) in
                            let r := if lclipping (latt k) then (buf, false) else dr1 (latt k) (body k buf o) buf o in
                            drawsP ks (fst r) (drew || snd r)
                        end) ks (startBuf a b) false in
            if snd r then Some (grp (maskT a b (fst r))) else None
        end
    end.
  Definition kidP (f : Z -> Z) (k : layer) (buf : img) : img * bool :=
    let o := f (lopa (latt k)) in if lclipping (latt k) then (buf, false) else dr1 (latt k) (body k buf o) buf o.
  Fixpoint drawsP (f : Z -> Z) (ks : list layer) (buf : img) (drew : bool) : img * bool :=
    match ks with
    | [] => (buf, drew)
    | k :: ks => drawsP f ks (fst (kidP f k buf)) (drew || snd (kidP f k buf))
    end.
  Definition clipP (c : layer) (x : img) : img := fst (dr1 (latt c) (body c x (lopa (latt c))) x (lopa (latt c))).
  Fixpoint clipsP (cs : list layer) (x : img) : img := match cs with [] => x | c :: cs => clipsP cs (clipP c x) end.
  Definition grp (a : lattr) (cs : list layer) (m : img) : img :=
    match cs with [] => m | _ => if lbce a then destInT m (clipsP cs (removeAlpha (copyT m))) else m end.
  (** The buffer after masking, before the clipping group *)
  Definition pre (l : layer) (b : img) (op : Z) : option img :=
    match l with
    | Lay a ks cs =>
        if isNil ks then match canvas (lseq a) with None => None | Some t => Some (maskT a b (copyT t)) end
        else let r := drawsP (kidOp a op) ks (startBuf a b) false in if snd r then Some (maskT a b (fst r)) else None
    end.
  Definition idOp (o : Z) : Z := o.

  (** The pixels that the whole tree shows; [d]: the pixels of the destination before.
      The finished buffer is copied twice, to the cache of the root and to the destination. *)
  Definition shown (root : layer) (d : img) : img :=
    let r := drawsP idOp (lkids root) zero false in if snd r then copyT (copyT (fst r)) else clearT d.

  (** Buffers that are not changed by storing them in the cache *)
  Fixpoint stable (l : layer) (b : img) (op : Z) {struct l} : Prop :=
    match l with
    | Lay a ks cs =>
        if negb (lvis a) || (op =? 0) then True
        else
          (fix stableKs (ks : list layer) (buf : img) : Prop :=
             match ks with
             | [] => True
             | k :: ks => (lclipping (latt k) = false -> stable k buf (kidOp a op (lopa (latt k)))) /\ stableKs ks (fst (kidP (kidOp a op) k buf))
             end) ks (startBuf a b) /\
          match pre l b op with
          | None => True
          | Some m =>
              (if lbce a then
                 (fix stableCs (cs : list layer) (x : img) : Prop :=
                    match cs with [] => True | c :: cs => stable c x (lopa (latt c)) /\ stableCs cs (clipP c x) end) cs (removeAlpha (copyT m))
               else True) /\
              (isNil ks = false -> copyT (grp a cs m) = grp a cs m)
          end
    end.
  Fixpoint stableKs (f : Z -> Z) (ks : list layer) (buf : img) : Prop :=
    match ks with
    | [] => True
    | k :: ks => (lclipping (latt k) = false -> stable k buf (f (lopa (latt k)))) /\ stableKs f ks (fst (kidP f k buf))
    end.
  Fixpoint stableCs (cs : list layer) (x : img) : Prop :=
    match cs with [] => True | c :: cs => stable c x (lopa (latt c)) /\ stableCs cs (clipP c x) end.
  Definition stableRoot (root : layer) : Prop := stableKs idOp (lkids root) zero.

  (** Trees whose drawing does not panic, with the shape that New and Clone produce *)
  Definition modeOK (a : lattr) (cs : list layer) : Prop :=
    if isPT a then cs = [] \/ lbce a = true else blendOf (lbm a) <> None.
  Inductive lwf : layer -> Prop :=
  | Lwf a ks cs : modeOK a cs -> (ks <> [] -> hasCanvas (lseq a) = false) ->
      (forall k, In k ks -> lclipping (latt k) = true -> lgroup k = []) -> (forall c, In c cs -> lgroup c = []) ->
      Forall lwf ks -> Forall lwf cs -> lwf (Lay a ks cs).

  (** Every layer has a mode that can be drawn *)
  Inductive modesOK : layer -> Prop :=
  | ModesOK a ks cs : modeOK a cs -> Forall modesOK ks -> Forall modesOK cs -> modesOK (Lay a ks cs).
End render.
