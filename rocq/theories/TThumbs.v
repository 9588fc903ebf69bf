(** Theorems about the thumbnails of layers (property C76). *)
From Coq Require Import Permutation.
From Verif Require Import Base BaseFacts MRect MSched PSched MThumb SThumb MBlend SBlend MRender MTile STile MLoad SLoad MTileRender STileRender MThumbs SThumbs PThumbs PThumbs2.
From Verif Require MWait.
Open Scope Z_scope.

Local Notation z4 := (Px 0 0 0 0).

(** * C76: thumbnails *)

(** For all layers with tiles as the loader makes them, all scaling functions, sizes, contents
    and lengths of the buffer, processor counts and schedules: Thumbnail does not panic, it
    has one result, and this is the scaled picture of the part of the layer inside the
    smallest box around its visible pixels. Missing for the full property: the last row and
    column of the box (C55), without which nothing may be left. *)
Theorem C76_thumbnail_partial : forall downscale ts size m mask, 0 < ts -> 0 <= size -> goodImage ts m -> no_blank m -> m <> [] ->
  exists b i, tight ts m b /\ cut_out ts m b i /\ forall cpus buf, (1 <= cpus)%nat ->
    (exists o, thumbnail downscale cpus ts size (Some (LI (Some m) mask)) buf o) /\
    forall o, thumbnail downscale cpus ts size (Some (LI (Some m) mask)) buf o ->
      o = if rdx b * rdy b =? 0 then ThNoCanvas else scaled downscale size b i.
Proof. intros downscale ts size m mask Ht Hs G N H. exact (thumbnail_one downscale ts size m Ht G N H mask Hs). Qed.
Print Assumptions C76_thumbnail_partial.

(** A layer of one visible pixel has no thumbnail. *)
Theorem C76_line_refuted : exists ts m p, goodImage ts m /\ no_blank m /\ visible_at ts m p /\
  forall downscale cpus size buf mask o, (1 <= cpus)%nat -> 0 <= size -> thumbnail downscale cpus ts size (Some (LI (Some m) mask)) buf o -> o = ThNoCanvas.
Proof.
  set (m := [(Pt 0 0, [Px 9 9 9 255])] : tilemap px). exists 1, m, (Pt 0 0).
  assert (goodImage 1 m) as G.
  { split; intros k c.
    - intros H. unfold m in H. cbn [m_get] in H. destruct (PTile.pt_eqb_spec k (Pt 0 0)) as [->|_]; [|discriminate]. injection H as <-.
      split; [exists 0; reflexivity|split; [exists 0; reflexivity|reflexivity]].
    - intros v H Hv. unfold m in H. cbn [m_get] in H. destruct (PTile.pt_eqb_spec k (Pt 0 0)) as [->|_]; [|discriminate]. injection H as <-.
      destruct Hv as [<-|[]]. unfold pixel_ok. cbn [pr pg pb pa]. lia. }
  assert (no_blank m) as N.
  { intros k c H. unfold m in H. cbn [m_get] in H. destruct (pt_eqb k (Pt 0 0)); [|discriminate]. injection H as <-. exists (Px 9 9 9 255). split; [now left|cbn; lia]. }
  split; [exact G|]. split; [exact N|]. split.
  { exists (Px 9 9 9 255). split; [left; exists (Pt 0 0), [Px 9 9 9 255]; split; [reflexivity|]; split; [unfold in_tile; cbn; lia|reflexivity]|cbn; lia]. }
  intros downscale cpus size buf mask o Hc Hs H.
  destruct (C76_thumbnail_partial downscale 1 size m mask ltac:(lia) Hs G N ltac:(discriminate)) as (b & i & (_ & (y0 & V0) & (y1 & V1) & _) & _ & D).
  assert (forall q, visible_at 1 m q -> MRect.px q = 0) as P.
  { intros q (v & [(k & c & E & T & _)|[-> _]] & Hv); [|cbn in Hv; lia]. unfold m in E. cbn [m_get] in E.
    destruct (PTile.pt_eqb_spec k (Pt 0 0)) as [->|_]; [|discriminate]. unfold in_tile in T. cbn [MRect.px py] in T. lia. }
  rewrite (proj2 (D cpus buf Hc) o H). pose proof (P _ V0) as P0. pose proof (P _ V1) as P1. cbn [MRect.px] in P0, P1.
  replace (rdx b) with 0 by (unfold rdx; lia). reflexivity.
Qed.
Print Assumptions C76_line_refuted.

(** Thumbnails does not panic and returns exactly the thumbnails that Thumbnail makes without
    a buffer for each of the layers, whatever the workers do. *)
Theorem C76_thumbnails : forall downscale ts size imgs cpus qs, 0 < ts -> 0 <= size -> (1 <= cpus)%nat ->
  (forall q li m, m_get Z.eqb imgs q = Some li -> liCanvas li = Some m -> goodImage ts m /\ no_blank m) ->
  (exists res, thumbnails downscale cpus ts size imgs qs res) /\
  forall res, thumbnails downscale cpus ts size imgs qs res -> exists out, res = Some out /\
    forall q p, m_get Z.eqb out q = Some p <-> In q qs /\ thumbnail downscale cpus ts size (m_get Z.eqb imgs q) [] (ThOk p).
Proof.
  intros downscale ts size imgs cpus qs Ht Hs Hc F. apply thumbnails_spec; try assumption. intros q li E m. exact (F q li m E).
Qed.
Print Assumptions C76_thumbnails.
(** The layers it asks for are all layers of the tree, also those in folders and in clipping
    groups. *)
Theorem C76_all_layers : forall root q, In q (gatherLayer root) <-> exists l, layer_in l root /\ lseq (latt l) = q.
Proof. intros root q. apply gatherLayer_spec. Qed.
Print Assumptions C76_all_layers.

(** The loader makes such tiles, in every run, and so does Transform by the identity. *)
Theorem C76_loaded : forall cpus ts ls st q li, (1 <= cpus)%nat -> 0 < ts -> NoDup (map pseq ls) ->
  Forall (fun l => bytes_ok (pr_ l) /\ bytes_ok (pg_ l) /\ bytes_ok (pb_ l) /\ match pa_ l with Some a => bytes_ok a | None => True end) ls ->
  MWait.steps (lstep cpus ts) (lstart ls) st -> lended st -> m_get Z.eqb (ldImages st) q = Some li ->
  forall m, liCanvas li = Some m -> goodImage ts m /\ no_blank m.
Proof. exact loaded_fit. Qed.
Print Assumptions C76_loaded.
Theorem C76_transformed : forall cpus ts m m', (1 <= cpus)%nat -> 0 < ts -> goodImage ts m -> transformImage cpus ts m m' -> goodImage ts m' /\ no_blank m'.
Proof.
  intros cpus ts m m' Hc Ht G T. split; [exact (proj1 (PTileRender.transform_image cpus ts Hc Ht m m' G T))|].
  destruct T as (r & _ & T). destruct (rempty r); [subst m'; intros k c H; discriminate|]. destruct T as (im & _ & B). exact (built_no_blank _ _ _ _ _ _ _ _ _ Hc Ht B).
Qed.
Print Assumptions C76_transformed.

(** The sheet: every layer has a square of the given size, in which its thumbnail is shown
    (C62 explains [nearly]), the squares do not overlap, and the rest is transparent. It
    fails only if the squares do not fit. *)
Theorem C76_sheet : forall size m, 0 < size < 2 ^ 31 -> zlen m < 2 ^ 31 -> Forall (fun e => good_picture size (snd e)) m ->
  match thumbnailSheetPx size m with
  | None => room 4096 size < zlen m
  | Some (im, cells) => map fst cells = map fst m /\ exists side pics, 0 <= side <= 4096 /\ zlen im = side * side /\ zlen pics = zlen m /\
      (forall i q p, idx m i = Some (q, p) -> exists c pic, idx cells i = Some (q, c) /\ idx pics i = Some pic /\
         rdx c = size /\ rdy c = size /\ within c (Rct 0 0 side side) /\ within pic c /\ sheet_shows side im p pic) /\
      (forall i j c c', i <> j -> idx (map snd cells) i = Some c -> idx (map snd cells) j = Some c' -> apart c c') /\
      (forall x, pt_in x (Rct 0 0 side side) = true -> (forall i pic, idx pics i = Some pic -> pt_in x pic = false) ->
         image_at (Rct 0 0 side side) im x z4)
  end.
Proof. exact sheet_spec. Qed.
Print Assumptions C76_sheet.

(** Thumbnails of size 2 of two layers *)
Definition exPics : list (Z * picture) := [(7, Pic (Rct 0 0 2 1) [Px 1 2 3 255; Px 4 5 6 200]); (9, Pic (Rct 0 0 1 2) [Px 7 7 7 255; Px 8 8 8 128])].
Example C76_sheet_example : Forall (fun e => good_picture 2 (snd e)) exPics /\
  thumbnailSheetPx 2 exPics = Some ([Px 1 2 3 255; Px 4 5 6 200; Px 7 7 7 255; z4; z4; z4; Px 8 8 8 128; z4; z4; z4; z4; z4; z4; z4; z4; z4],
    [(7, Rct 0 0 2 2); (9, Rct 2 0 4 2)]).
Proof.
  split; [|vm_compute; reflexivity]. repeat constructor; cbn; lia.
Qed.
(** A tile of side 2, of which the upper left pixel is scaled to a size of 1; the buffer is
    too long and dirty. *)
Definition exTile : tilemap px := [(Pt 2 4, [Px 1 2 3 255; Px 4 5 6 200; z4; Px 7 8 9 128])].
Definition firstPixel (r : rect) (i : img) : option (list px) :=
  match ipix i with [a; b; c; d] => Some (zrepeat (Px a b c d) (rdx r * rdy r)) | _ => None end.
Example C76_example : thumbnail firstPixel 2 2 1 (Some (LI (Some exTile) None)) (zrepeat 77 99) (ThOk (Pic (Rct 0 0 1 1) [Px 1 2 3 255])) /\
  no_blank exTile.
Proof.
  split.
  - exists (Rct 2 4 4 6). split; [exists [Pt 2 4]; split; [apply Permutation_refl|reflexivity]|]. change (rempty (Rct 2 4 4 6)) with false. cbv iota zeta. right.
    destruct (renderTiled z4 copyPx 2 2 (Rct 2 4 4 6) exTile) as [ws|] eqn:E; [|vm_compute in E; discriminate].
    eexists. split; [exists ws, (concat ws); split; [exact E|]; split; [apply interleave_concat|reflexivity]|].
    vm_compute in E. injection E as <-. vm_compute. reflexivity.
  - intros k c H. unfold exTile in H. cbn [m_get] in H. destruct (pt_eqb k (Pt 2 4)); [|discriminate]. injection H as <-. exists (Px 1 2 3 255). split; [now left|cbn; lia].
Qed.
