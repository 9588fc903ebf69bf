(** Model of composite.New (composite/layer.go:190-250 with builder.go): from the decoded file to the
    tree that the renderer draws. *)
From Coq Require Import String.
From Verif Require Import Base MRect MConfig MLayer MBlend MRender MTile MLoad.
Close Scope string_scope.
Open Scope Z_scope.

(** layer.go:266-275: the options for psd.Decode. The callback LayerImageLoaded sends the
    layer to the loader, see [playerOf] and MLoad. *)
Definition newOptions : options := Opts false true (fun c => negb (cfg_mode c =? 3)).

(** layer.go:291-313: what the loader reads of a layer *)
Definition planeOf (l : lrec) (id : Z) : option bytes := option_map ch_data (m_get Z.eqb (l_channels l) id).
Definition plane0 (l : lrec) (id : Z) : bytes := match planeOf l id with Some d => d | None => [] end.
Definition playerOf (l : lrec) : player :=
  PL (l_seq l) (l_sdtype l) (l_rect l) (plane0 l 0) (plane0 l 1) (plane0 l 2) (planeOf l (-1))
     (mk_rect (l_mask l)) (planeOf l (-2)) (mk_color (l_mask l)) (mk_flags (l_mask l)).

(** layer.go:48-50, 58-60 of package psd *)
Definition lVisible (l : lrec) : bool := Z.land (l_flags l) 2 =? 0.
Definition lFolder (l : lrec) : bool := (l_sdtype l =? 1) || (l_sdtype l =? 2).
(** builder.go:34-42 *)
Definition blendModeOf (l : lrec) : bytes :=
  if lFolder l then l_sdblend l else if list_eqb (l_blend l) passThrough then str "norm"%string else l_blend l.
(** builder.go:20-51 without the name; [c]: the copy of the layer in the tree of Decode,
    which the loader may have changed. The other attributes are not changed by the loader. *)
Definition buildAttr (l : lrec) (c : player) : lattr :=
  attrsOf c (lVisible l) (l_opacity l) (blendModeOf l) (l_clipping l) (l_blendclip l).

(** builder.go:60-66: reverse, by swaps *)
Definition swapAt (ls : list nat) (i j : nat) : list nat := upd_nat (upd_nat ls i (nth j ls O)) j (nth i ls O).
Definition reverse (ls : list nat) : list nat :=
  fold_left (fun ls i => swapAt ls i (length ls - i - 1)) (seq 0 (Nat.div2 (length ls))) ls.
(** builder.go:68-87: registerClippingGroup for one list of layers, given by their flags
    Clipping; [i]: the loop variable plus one. The fields Clip that are set, by the
    indices; ClippedBy is set for the members to the layer with the group. *)
Fixpoint registerClip (cl : list bool) (i : nat) (clip : list nat) (set : list (nat * list nat)) : list (nat * list nat) :=
  match i with
  | O => set
  | S i =>
      if nth i cl false then registerClip cl i (clip ++ [i]) set
      else match clip with
           | [] => registerClip cl i clip set
           | _ => registerClip cl i [] (set ++ [(i, reverse clip)])
           end
  end.
Definition clipGroups (cl : list bool) : list (nat * list nat) := registerClip cl (length cl) [] [].
Definition groupOf (gs : list (nat * list nat)) (i : nat) : list nat := match m_get Nat.eqb gs i with Some g => g | None => [] end.
(** ClippedBy: the layer whose group was set last with [j] in it; nil otherwise *)
Definition clippedBy (gs : list (nat * list nat)) (j : nat) : option nat :=
  fold_left (fun o g => if existsb (Nat.eqb j) (snd g) then Some (fst g) else o) gs None.
(** The layers as the renderer sees them (see [MRender.layer]): with their groups, and
    without the members of the groups. *)
Definition layer0 : MRender.layer := Lay (Lattr 0 false 0 [] false false false false) [] [].
Definition withGroups (ks : list MRender.layer) : list MRender.layer :=
  let gs := clipGroups (map (fun k => lclipping (latt k)) ks) in
  flat_map (fun i => match clippedBy gs i with Some _ => [] | None =>
                     let k := nth i ks layer0 in [Lay (latt k) (lkids k) (map (fun j => nth j ks layer0) (groupOf gs i))] end)
    (seq 0 (length ks)).

(** builder.go:20-58 and layer.go:220-231. [cs]: the copies of the layers, by their SeqID
    (the index in the slice of Decode). *)
Fixpoint treeOf (cs : list player) (l : MLayer.layer) : MRender.layer :=
  match l with
  | MLayer.Layer r ls =>
      Lay (match nth_error cs (Z.to_nat (l_seq r)) with Some c => buildAttr r c | None => latt layer0 end) (withGroups (map (treeOf cs) ls)) []
  end.
Definition rootOf (cs : list player) (ls : list MLayer.layer) : MRender.layer :=
  Lay (Lattr (-1) true 255 (str "norm"%string) false false false false) (withGroups (map (treeOf cs) ls)) [].

(** Canvas != nil, renderer.go:357 *)
Definition hasCanvasOf (ims : list (Z * limage)) (seq : Z) : bool :=
  match m_get Z.eqb ims seq with Some (LI (Some _) _) => true | _ => false end.
