(** Loading a file with several goroutines (properties C58, C60). *)
From Coq Require Import String.
From Verif Require Import Base BaseFacts MRect MSched PSched MBlend MPorter MWait MRender SRender MRenderPx MTile STile MLoad SLoad PLoad.
Close Scope string_scope.
Open Scope Z_scope.

(** * C60: what is loaded does not depend on the schedule *)

(** Proved: the images of all layers are the same for any two schedules, also with
    different numbers of goroutines. Missing: the rectangles of the layers in the tree, see
    C60_tree_refuted. *)
Theorem C60_images_partial : forall cpus cpus' ts ls st st', (1 <= cpus)%nat -> (1 <= cpus')%nat -> 0 < ts -> NoDup (map pseq ls) ->
  steps (lstep cpus ts) (lstart ls) st -> lended st -> steps (lstep cpus' ts) (lstart ls) st' -> lended st' ->
  forall q, sameImages (m_get Z.eqb (ldImages st) q) (m_get Z.eqb (ldImages st') q).
Proof. exact same_images. Qed.
Print Assumptions C60_images_partial.

(** Proved: the layers in the tree are those of the file, but their rectangles, and those
    of their masks, are either those of the file or those of the tiles. Missing: which. *)
Theorem C60_layers_partial : forall cpus ts ls st, (1 <= cpus)%nat -> 0 < ts -> NoDup (map pseq ls) ->
  steps (lstep cpus ts) (lstart ls) st -> lended st ->
  length (ldCopied st) = length ls /\
  forall i l, nth_error ls i = Some l -> exists l' c m, nth_error (ldCopied st) i = Some l' /\ sameButRects l l' /\
    m_get Z.eqb (ldImages st) (pseq l) = Some (LI c m) /\
    (prect l' = prect l \/ exists t, c = Some t /\ bounds ts t (prect l')) /\
    (pmrect l' = pmrect l \/ exists t, m = Some t /\ bounds ts t (pmrect l')).
Proof. exact copies. Qed.
Print Assumptions C60_layers_partial.

(** * C58: masks hide what they cover *)

(** The pixels after applying a mask (renderer.go:404-419), with tiles of [ts] * [ts] pixels *)
Definition masked (ts : Z) := applyMask destInMPx destOutMPx destOverPx (clearPx (Z.to_nat (ts * ts))).
(** Proved: whatever the schedule, a mask with the default colour 0 or 255 that is not
    everywhere equal to its default colour hides the pixels where it is 0, inside and
    outside of its rectangle. [k]: the position of the tile; [b]: what is below. Missing:
    negative coordinates (C43), masks equal to their default colour and other default
    colours (C58_black_refuted, C58_default_colour_refuted), pass-through folders. *)
Theorem C58_hidden_partial : forall cpus ts ls st i l0 l a vis op bm clip bce, (1 <= cpus)%nat -> 0 < ts -> NoDup (map pseq ls) ->
  steps (lstep cpus ts) (lstart ls) st -> lended st -> nth_error ls i = Some l0 -> nth_error (ldCopied st) i = Some l ->
  pmchan l0 = Some a -> plane_ok (pmrect l0) 1 a -> Z.land (pflags l0) 2 = 0 -> pmdc l0 = 0 \/ pmdc l0 = 255 ->
  (exists p v, pt_in p (pmrect l0) = true /\ 0 <= MRect.px p /\ 0 <= py p /\ maskAt l0 a p v /\ v <> pmdc l0) ->
  maskEnabled l = true /\
  forall k p b buf, 0 <= MRect.px p -> 0 <= py p -> (ts | MRect.px k) -> (ts | py k) -> in_tile ts k p -> maskAt l0 a p 0 ->
    zlen buf = ts * ts -> list_eqb bm passThrough = false ->
    tile_at ts k (masked ts (maskTile (ldImages st) k) (attrsOf l vis op bm clip bce) b buf) p = Some black.
Proof. exact mask_hides. Qed.
Print Assumptions C58_hidden_partial.

(** * Files *)

(** A layer of one red pixel with a mask of one pixel: its value, DefaultColor *)
Definition redLayer (v dc : Z) : player := PL 7 0 (Rct 0 0 1 1) [255] [0] [0] None (Rct 0 0 1 1) (Some [v]) dc 0.
(** The layer changed by the worker, with its image *)
Definition runBuilt {V} (ws : option (list (list (point * list V)))) : tilemap V := match ws with Some l => exec putTile (concat l) [] | None => [] end.
Definition redCanvas (ts : Z) : tilemap px := runBuilt (newTiledImage 1 ts (Rct 0 0 1 1) [255] [0] [0] None 1).
Definition redMask (ts v dc : Z) : tilemap Z := runBuilt (newTiledMask 1 ts (Rct 0 0 1 1) [v] dc).
Definition rectOf {V} (ts : Z) (m : tilemap V) : rect := fold_left (fun r k => runion (tileRect ts k) r) (map fst m) ZR.
Definition red1 ts v dc : player := setRect (redLayer v dc) (rectOf ts (redCanvas ts)).
Definition red2 ts v dc : player := setMaskRect (red1 ts v dc) (rectOf ts (redMask ts v dc)).
Definition redImage ts v dc : limage := LI (Some (redCanvas ts)) (Some (redMask ts v dc)).
(** The worker is ready before or after the tree is built. *)
Definition early ts v dc : loader := LD [red2 ts v dc] 1 [] [(7, redImage ts v dc)] [red2 ts v dc].
Definition late ts v dc : loader := LD [red2 ts v dc] 1 [] [(7, redImage ts v dc)] [redLayer v dc].

Lemma runBuilt_built {V} (ws : option (list (list (point * list V)))) : ws <> None -> built ws (runBuilt ws).
Proof. destruct ws as [l|]; [intros _|congruence]. exists l, (concat l). split; [reflexivity|]. split; [apply interleave_concat|reflexivity]. Qed.
Lemma rectOf_tilesRect {V} ts (m : tilemap V) : tilesRect ts m (rectOf ts m).
Proof. exists (map fst m). split; [apply Permutation.Permutation_refl|reflexivity]. Qed.
Definition canBuild ts v dc : bool :=
  match newTiledImage 1 ts (Rct 0 0 1 1) [255] [0] [0] None 1, newTiledMask 1 ts (Rct 0 0 1 1) [v] dc with Some _, Some _ => true | _, _ => false end.
Lemma red_canvas ts v dc : canBuild ts v dc = true -> canvasOf 1 ts (redLayer v dc) (red1 ts v dc) (Some (redCanvas ts)).
Proof.
  intros H. unfold canBuild in H. exists (redCanvas ts), (rectOf ts (redCanvas ts)). split; [|split; [apply rectOf_tilesRect|auto]]. apply runBuilt_built.
  unfold redLayer, prect, pr_, pg_, pb_, pa_. destruct (newTiledImage 1 ts (Rct 0 0 1 1) [255] [0] [0] None 1); discriminate.
Qed.
Lemma red_mask ts v dc : canBuild ts v dc = true -> maskOf 1 ts (red1 ts v dc) (red2 ts v dc) (Some (redMask ts v dc)).
Proof.
  intros H. unfold canBuild in H. exists (redMask ts v dc), (rectOf ts (redMask ts v dc)). split; [|split; [apply rectOf_tilesRect|auto]]. apply runBuilt_built.
  unfold red1, redLayer, setRect, pmrect, pmchan, pmdc. destruct (newTiledImage 1 ts (Rct 0 0 1 1) [255] [0] [0] None 1); [|discriminate].
  destruct (newTiledMask 1 ts (Rct 0 0 1 1) [v] dc); discriminate.
Qed.
Lemma early_runs ts v dc : canBuild ts v dc = true -> steps (lstep 1 ts) (lstart [redLayer v dc]) (early ts v dc) /\ lended (early ts v dc).
Proof.
  intros H. split; [|repeat split]. unfold lstart, early.
  eapply steps_next; [eapply steps_next; [eapply steps_next; [eapply steps_next; [eapply steps_next; [apply steps_refl|]|]|]|]|].
  - apply L_send; cbn; lia.
  - apply (L_canvas 1 ts [redLayer v dc] 1 [] 0 [] [] [] (redLayer v dc) (red1 ts v dc)); [reflexivity|]. now apply red_canvas.
  - apply (L_mask 1 ts [red1 ts v dc] 1 [] 0 _ [] [] [] (red1 ts v dc) (red2 ts v dc)); [reflexivity|]. now apply red_mask.
  - apply (L_store 1 ts [red2 ts v dc] 1 [] 0 _ [] [] [] (red2 ts v dc)). reflexivity.
  - apply (L_copy 1 ts [red2 ts v dc] [] _ [] (red2 ts v dc)). reflexivity.
Qed.
Lemma late_runs ts v dc : canBuild ts v dc = true -> steps (lstep 1 ts) (lstart [redLayer v dc]) (late ts v dc) /\ lended (late ts v dc).
Proof.
  intros H. split; [|repeat split]. unfold lstart, late.
  eapply steps_next; [eapply steps_next; [eapply steps_next; [eapply steps_next; [eapply steps_next; [apply steps_refl|]|]|]|]|].
  - apply L_send; cbn; lia.
  - apply (L_copy 1 ts [redLayer v dc] _ _ [] (redLayer v dc)). reflexivity.
  - apply (L_canvas 1 ts [redLayer v dc] 1 [] 0 [] [] _ (redLayer v dc) (red1 ts v dc)); [reflexivity|]. now apply red_canvas.
  - apply (L_mask 1 ts [red1 ts v dc] 1 [] 0 _ [] [] _ (red1 ts v dc) (red2 ts v dc)); [reflexivity|]. now apply red_mask.
  - apply (L_store 1 ts [red2 ts v dc] 1 [] 0 _ [] [] _ (red2 ts v dc)). reflexivity.
Qed.

(** The tile at (0, 0) that the renderer shows of a file whose layers are not in folders,
    visible and of mode normal *)
Definition pixels (ts : Z) (st : loader) : tile :=
  let n := Z.to_nat (ts * ts) in
  shown (zeroPx n) copyPx blendPx destInMPx destOutMPx destInPx destOverPx (clearPx n) removeAlphaPx (canvasTile (ldImages st) (Pt 0 0)) (maskTile (ldImages st) (Pt 0 0))
    (Lay (Lattr (-1) true 255 (str "norm") false true false false) (map (fun l => Lay (attrsOf l true 255 (str "norm") false true) [] []) (ldCopied st)) []) (zeroPx n).
(** The enabled mask of the layer is everywhere 0. *)
Definition blackMask (l : player) : Prop :=
  exists a, pmchan l = Some a /\ Z.land (pflags l) 2 = 0 /\ rempty (pmrect l) = false /\ prect l = pmrect l /\
    forall p, pt_in p (pmrect l) = true -> maskAt l a p 0.

Lemma red_black dc : blackMask (redLayer 0 dc).
Proof.
  exists [0]. repeat split. intros [x y] H. unfold maskAt. rewrite H. unfold pt_in, redLayer in H. cbn in H. assert (x = 0) by lia. assert (y = 0) by lia. now subst.
Qed.

(** C58 is false: when the worker has built the tiles of a completely black mask before the
    tree is built, the mask has no tiles, an empty rectangle, and is not enabled. *)
Theorem C58_black_refuted : exists l st, blackMask l /\ pmdc l = 0 /\
  steps (lstep 1 1) (lstart [l]) st /\ lended st /\ pixels 1 st = [Px 255 0 0 255].
Proof.
  exists (redLayer 0 0), (early 1 0 0). split; [apply red_black|]. split; [reflexivity|].
  destruct (early_runs 1 0 0 eq_refl) as [H1 H2]. split; [exact H1|]. split; [exact H2|]. vm_compute. reflexivity.
Qed.
Print Assumptions C58_black_refuted.
(** C58 is false in all schedules for default colours other than 0 and 255: the tiles are
    inverted, but the renderer does not expect it. *)
Theorem C58_default_colour_refuted : exists l, blackMask l /\ forall cpus st, (1 <= cpus)%nat ->
  steps (lstep cpus 1) (lstart [l]) st -> lended st -> pixels 1 st = [Px 255 0 0 255].
Proof.
  exists (redLayer 0 128). split; [apply red_black|]. intros cpus st Hc S E.
  assert (NoDup (map pseq [redLayer 0 128])) as Hq by (repeat constructor; intros []).
  destruct (early_runs 1 0 128 eq_refl) as [S' E'].
  pose proof (same_images cpus 1 1 _ _ _ Hc ltac:(lia) ltac:(lia) Hq S E S' E' 7) as Im.
  destruct (copies cpus 1 _ st Hc ltac:(lia) Hq S E) as [L C]. destruct (C 0%nat _ eq_refl) as (l' & c & m & Hl & Sb & G & _ & Mr).
  assert (ldCopied st = [l']) as Ec. { destruct (ldCopied st) as [|x [|y t]]; cbn in L, Hl; try discriminate. congruence. }
  cbn [pseq redLayer] in G. rewrite G in Im. cbn [early ldImages m_get Z.eqb Pos.eqb] in Im. destruct Im as [I1 I2]. cbn [liCanvas liMask redImage] in I1, I2.
  destruct c as [c|]; [|contradiction]. destruct m as [m|]; [|contradiction]. cbn [sameTiles] in I1, I2.
  assert (maskEnabled l' = true) as Me.
  { unfold maskEnabled. assert (pflags l' = 0) as -> by now rewrite Sb. destruct Mr as [->|(t & [= <-] & Bt)]; [reflexivity|].
    rewrite (bounds_nonempty 1 m _ (Pt 0 0) [255] ltac:(lia) Bt); [reflexivity|]. rewrite I2. reflexivity. }
  unfold pixels. rewrite Ec. cbn [map].
  assert (attrsOf l' true 255 (str "norm") false true = Lattr 7 true 255 (str "norm") false true true false) as ->.
  { unfold attrsOf. rewrite Me. rewrite Sb. reflexivity. }
  unfold shown. cbn [lkids drawsP kidP latt lopa lclipping body canvasTile lseq].
  assert (canvasTile (ldImages st) (Pt 0 0) 7 = Some [Px 255 0 0 255]) as Cv by (unfold canvasTile; rewrite G; rewrite I1; reflexivity).
  assert (maskTile (ldImages st) (Pt 0 0) 7 = Some [255]) as Mk by (unfold maskTile; rewrite G; rewrite I2; reflexivity).
  unfold kidP. cbn [latt lopa lclipping body lseq]. rewrite Cv. unfold maskT. cbn [lmen lmdc lseq]. rewrite Mk. vm_compute. reflexivity.
Qed.
Print Assumptions C58_default_colour_refuted.

(** C60 is false: the same file shows different pixels, and its tree has different
    rectangles. *)
Theorem C60_pixels_refuted : exists ls st st',
  steps (lstep 1 1) (lstart ls) st /\ lended st /\ steps (lstep 1 1) (lstart ls) st' /\ lended st' /\ pixels 1 st <> pixels 1 st'.
Proof.
  exists [redLayer 0 0], (early 1 0 0), (late 1 0 0). destruct (early_runs 1 0 0 eq_refl) as [H1 H2]. destruct (late_runs 1 0 0 eq_refl) as [H3 H4].
  repeat (split; [assumption|]). vm_compute. discriminate.
Qed.
Print Assumptions C60_pixels_refuted.
Theorem C60_tree_refuted : exists ls st st', 
  steps (lstep 1 8) (lstart ls) st /\ lended st /\ steps (lstep 1 8) (lstart ls) st' /\ lended st' /\
  treeRect (ldCopied st) (Rct 0 0 100 100) <> treeRect (ldCopied st') (Rct 0 0 100 100).
Proof.
  exists [redLayer 255 0], (early 8 255 0), (late 8 255 0). destruct (early_runs 8 255 0 eq_refl) as [H1 H2]. destruct (late_runs 8 255 0 eq_refl) as [H3 H4].
  repeat (split; [assumption|]). vm_compute. discriminate.
Qed.
Print Assumptions C60_tree_refuted.

(** * The hypotheses can be met *)
Example C60_used : steps (lstep 1 8) (lstart [redLayer 255 0]) (early 8 255 0) /\ lended (early 8 255 0) /\
  steps (lstep 1 8) (lstart [redLayer 255 0]) (late 8 255 0) /\ lended (late 8 255 0) /\ NoDup (map pseq [redLayer 255 0]).
Proof.
  destruct (early_runs 8 255 0 eq_refl), (late_runs 8 255 0 eq_refl). repeat (split; [assumption|]). repeat constructor. intros [].
Qed.
(** A mask that is white at (0, 0) and black outside hides the pixel at (3, 2), which is in
    the same tile. *)
Example C58_used : forall b buf, zlen buf = 64 ->
  tile_at 8 (Pt 0 0) (masked 8 (maskTile (ldImages (early 8 255 0)) (Pt 0 0)) (attrsOf (red2 8 255 0) true 255 (str "norm") false true) b buf) (Pt 3 2) = Some black.
Proof.
  intros b buf Hb. destruct (early_runs 8 255 0 eq_refl) as [H1 H2].
  refine (proj2 (C58_hidden_partial 1 8 [redLayer 255 0] (early 8 255 0) 0 (redLayer 255 0) (red2 8 255 0) [255] true 255 (str "norm") false true _ _ _ H1 H2 eq_refl eq_refl eq_refl _ eq_refl (or_introl eq_refl) _) (Pt 0 0) (Pt 3 2) b buf _ _ _ _ _ _ Hb _); try (cbn; lia); try reflexivity.
  - repeat constructor. intros [].
  - vm_compute. discriminate.
  - exists (Pt 0 0), 255. cbn. repeat split; lia || discriminate.
  - now exists 0.
  - now exists 0.
  - unfold in_tile. cbn. lia.
Qed.
