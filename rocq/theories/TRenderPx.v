(** The renderer on real pixels: examples for the theorems of TRender and histories after
    which the renderer shows something else than a new one (properties C48 - C51, C57). *)
From Coq Require Import String.
From Verif Require Import Base BaseFacts MRect MSched PSched MBlend MPorter MDraw MTile MRender SRender PRender PRender4 MRenderAll SRenderAll PRenderAll MRenderPx PRenderPx MRenderStrict SRenderStrict PRenderStrict TRender.
Close Scope string_scope.
Open Scope Z_scope.

(** Tiles of one pixel; the canvases as a list *)
Definition cv (l : list (Z * px)) (q : point) (s : Z) : option tile := option_map (fun p => [p]) (m_get Z.eqb l s).
Definition hcv (l : list (Z * px)) (s : Z) : bool := match m_get Z.eqb l s with Some _ => true | None => false end.
Definition nomask (q : point) (s : Z) : option mtile := None.
Notation renderedPx cs := (rendered (zeroPx 1) copyPx blendPx destInMPx destOutMPx destInPx destOverPx (clearPx 1) removeAlphaPx (cv cs) nomask).
Notation abortedPx cs := (aborted (zeroPx 1) copyPx blendPx destInMPx destOutMPx destInPx destOverPx (clearPx 1) removeAlphaPx (cv cs) nomask).
Notation historyPx cs := (history (zeroPx 1) copyPx blendPx destInMPx destOutMPx destInPx destOverPx (clearPx 1) removeAlphaPx (cv cs) (hcv cs) nomask).
Notation seqPx cs := (seqRender (zeroPx 1) copyPx blendPx destInMPx destOutMPx destInPx destOverPx (clearPx 1) removeAlphaPx (cv cs) nomask).
Notation okDrawPx cs := (okDraw (zeroPx 1) copyPx blendPx destInMPx destOutMPx destInPx destOverPx (clearPx 1) removeAlphaPx (cv cs) nomask).
Notation okTreePx cs := (okTree blendPx (hcv cs)).
Definition shownPx cs q := shown (zeroPx 1) copyPx blendPx destInMPx destOutMPx destInPx destOverPx (clearPx 1) removeAlphaPx (cv cs q) (nomask q).

Definition norm : bytes := str "norm".
(** SeqID, Visible, Opacity, BlendMode *)
Definition la (s : Z) (v : bool) (o : Z) (m : bytes) : lattr := Lattr s v o m false true false false.
Definition image : rect := Rct 0 0 1 1.
Definition w0 : world tile := fun _ => Some (Tst [] [], [Px 9 9 9 9]).
Definition pixelAt (w : world tile) : option tile := option_map snd (w (Pt 0 0)).
Definition always (root root' : layer) : Prop := True.
Definition any (l : layer) : Prop := True.

Lemma w0_new : new w0.
Proof. intros q. eexists. reflexivity. Qed.
Lemma clear_const : forall d d' : tile, clearPx 1 d = clearPx 1 d'.
Proof. reflexivity. Qed.
Lemma cv_nil cs : forall q s, hcv cs s = false -> cv cs q s = None.
Proof. intros q s. unfold hcv, cv. destruct (m_get Z.eqb cs s); [discriminate|reflexivity]. Qed.

(** A render, then changes that are announced *)
Lemma render_changes cs top newDest (kind : bool -> Prop) (okC : layer -> layer -> Prop) (okT okD : layer -> Prop) dO root root' ps : kind dO -> okT root -> okD root ->
  changed ps root root' -> okC root root' -> okT root' ->
  historyPx cs 1 image top newDest kind okC okT okD root'
    (dirtiedAll (cv cs) (hcv cs) top root' ps (seqPx cs 1 1 image dO root w0)).
Proof.
  intros K T D C O T'. eapply H_change; try eassumption.
  apply (H_render _ _ _ _ _ _ _ _ _ _ _ _ _ _ _ _ _ _ _ _ _ w0 1%nat image dO);
    [apply H_new; [exact w0_new|exact T]|lia|exact K|exact D|now left|apply seqRender_rendered].
Qed.
Lemma render_change cs top newDest (kind : bool -> Prop) (okC : layer -> layer -> Prop) (okT okD : layer -> Prop) dO root p t a : kind dO -> okT root -> okD root ->
  layerAt root p = Some t -> same_but (latt t) a -> okC root (chg p a root) -> okT (chg p a root) ->
  historyPx cs 1 image top newDest kind okC okT okD (chg p a root)
    (dirtied (cv cs) (hcv cs) top (chg p a root) p (seqPx cs 1 1 image dO root w0)).
Proof. intros K T D L S C T'. apply (render_changes cs top newDest kind okC okT okD dO root _ [p]); auto. now apply (changed_chg p a root t). Qed.

Lemma modeOK_px a cs : (if isPT a then isNil cs || lbce a else match m_get list_eqb blendModes (lbm a) with Some _ => true | None => false end) = true ->
  modeOK blendPx a cs.
Proof.
  unfold modeOK, blendPx. destruct (isPT a).
  - destruct cs; [now left|]. now right.
  - destruct (m_get list_eqb blendModes (lbm a)); [discriminate|congruence].
Qed.
Ltac tree_ok :=
  split;
  [repeat match goal with
   | |- lwf _ _ _ => constructor
   | |- Forall _ _ => constructor
   | |- modeOK _ _ _ => apply modeOK_px; vm_compute; reflexivity
   | |- _ <> _ -> _ => first [intros _; reflexivity | intros X; contradiction]
   | |- forall k, In k _ -> _ => let k := fresh in let H := fresh in intros k H; cbn in H; intuition (subst; first [reflexivity | discriminate])
   end
  |repeat (constructor; [cbn; intuition discriminate|]); constructor].
Ltac draw_ok := intros q; vm_compute; repeat (split || intros _ || exact I).

Ltac change_ok := eapply okChange_at; [eapply changed_chg; [reflexivity|split; reflexivity]|
  intros ? [<-|[]] ? ? [= <-] [= <-] ? ?; discriminate].

(** * C48 is false of the code *)

(** The claim of C48 *)
Definition shows_fresh (cs : list (Z * px)) (root : layer) (w : world tile) : Prop :=
  forall w1 w2, renderedPx cs 1%nat 1 image false root w w1 -> renderedPx cs 1%nat 1 image false root w0 w2 -> pixelAt w1 = pixelAt w2.

(** (a) In a tree of New, whose top-level layers have no Parent (C47): hiding the only
    layer and announcing it changes nothing. *)
Definition csA : list (Z * px) := [(1, Px 200 100 50 255)].
Definition treeA (v : bool) : layer := Lay (la (-1) true 255 norm) [Lay (la 1 v 255 norm) [] []] [].
Definition wA : world tile := dirtied (cv csA) (hcv csA) true (treeA false) [(0%nat, None)] (seqPx csA 1 1 image false (treeA true) w0).
Theorem C48_no_parent_refuted : exists cs root w,
  historyPx cs 1 image true true (fun _ => True) always any any root w /\ ~ shows_fresh cs root w.
Proof.
  exists csA, (treeA false), wA. split; [apply (render_change csA true true (fun _ => True) always any any false (treeA true) [(0%nat, None)] (Lay (la 1 true 255 norm) [] [])); repeat split|]. intros H.
  specialize (H _ _ (seqRender_rendered _ _ _ _ _ _ _ _ _ _ _ _ _ _ _ _ _) (seqRender_rendered _ _ _ _ _ _ _ _ _ _ _ _ _ _ _ _ _)).
  vm_compute in H. discriminate.
Qed.
Print Assumptions C48_no_parent_refuted.

(** (b) In a tree with Parent links: a pass-through folder 2 lies in a pass-through folder 1
    over the layer 4. Folder 1 is changed to "normal". The cache of folder 2 still
    contains the layer 4 below. *)
Definition csB : list (Z * px) := [(3, Px 200 200 200 255); (4, Px 100 100 100 255)].
Definition treeB (m : bytes) : layer := Lay (la (-1) true 255 norm)
  [Lay (la 4 true 255 norm) [] []; Lay (la 1 true 255 m) [Lay (la 2 true 255 passThrough) [Lay (la 3 true 255 (str "mul ")) [] []] []] []] [].
Theorem C48_pass_through_refuted : exists cs root w,
  historyPx cs 1 image false true (fun _ => True) always (okTreePx cs) (okDrawPx cs) root w /\ ~ shows_fresh cs root w.
Proof.
  exists csB, (treeB norm), (dirtied (cv csB) (hcv csB) false (treeB norm) [(1%nat, None)] (seqPx csB 1 1 image false (treeB passThrough) w0)). split.
  - apply (render_change csB false true (fun _ => True) always (okTreePx csB) (okDrawPx csB) false (treeB passThrough) [(1%nat, None)]
      (Lay (la 1 true 255 passThrough) [Lay (la 2 true 255 passThrough) [Lay (la 3 true 255 (str "mul ")) [] []] []] [])).
    + exact I.
    + tree_ok.
    + draw_ok.
    + reflexivity.
    + split; reflexivity.
    + exact I.
    + tree_ok.
  - intros H.
    specialize (H _ _ (seqRender_rendered _ _ _ _ _ _ _ _ _ _ _ _ _ _ _ _ _) (seqRender_rendered _ _ _ _ _ _ _ _ _ _ _ _ _ _ _ _ _)).
    vm_compute in H. discriminate.
Qed.
Print Assumptions C48_pass_through_refuted.
(** (c) A folder with a very faint layer under a layer that is hidden: the pixels in the
    cache of the folder are not those that were drawn (C42), and they are copied once
    more. *)
Definition csC : list (Z * px) := [(2, Px 10 10 10 255); (3, Px 0 0 0 255)].
Definition treeC (v : bool) : layer := Lay (la (-1) true 255 norm)
  [Lay (la 1 true 255 norm) [Lay (la 2 true 1 norm) [] []] []; Lay (la 3 v 255 norm) [] []] [].
Theorem C48_lossy_copy_refuted : exists cs root w,
  historyPx cs 1 image false true (fun _ => True) okChange (okTreePx cs) any root w /\ ~ shows_fresh cs root w.
Proof.
  exists csC, (treeC false), (dirtied (cv csC) (hcv csC) false (treeC false) [(1%nat, None)] (seqPx csC 1 1 image false (treeC true) w0)). split.
  - apply (render_change csC false true (fun _ => True) okChange (okTreePx csC) any false (treeC true) [(1%nat, None)] (Lay (la 3 true 255 norm) [] [])).
    + exact I.
    + tree_ok.
    + exact I.
    + reflexivity.
    + split; reflexivity.
    + change_ok.
    + tree_ok.
  - intros H.
    specialize (H _ _ (seqRender_rendered _ _ _ _ _ _ _ _ _ _ _ _ _ _ _ _ _) (seqRender_rendered _ _ _ _ _ _ _ _ _ _ _ _ _ _ _ _ _)).
    vm_compute in H. discriminate.
Qed.
Print Assumptions C48_lossy_copy_refuted.

(** A case of C48_history_partial: a folder (opacity 200) in which a layer has been hidden
    after the first render, with a layer below. *)
Definition csE : list (Z * px) := [(2, Px 200 100 50 255); (3, Px 0 0 250 255); (4, Px 10 20 30 255)].
Definition treeE (v : bool) : layer := Lay (la (-1) true 255 norm)
  [Lay (la 4 true 255 norm) [] []; Lay (la 1 true 200 passThrough) [Lay (la 2 true 255 norm) [] []; Lay (la 3 v 128 (str "scrn")) [] []] []] [].
Definition wE : world tile := dirtied (cv csE) (hcv csE) false (treeE false) [(1%nat, None); (1%nat, None)] (seqPx csE 1 1 image false (treeE true) w0).
Example C48_history_used :
  historyPx csE 1 image false true (fun _ => True) okChange (okTreePx csE) (okDrawPx csE) (treeE false) wE /\ okDrawPx csE (treeE false) /\
  pixelAt (seqPx csE 1 1 image false (treeE true) w0) = Some [Px 159 82 125 255] /\
  pixelAt (seqPx csE 1 1 image false (treeE false) wE) = Some [Px 159 82 45 255] /\
  shownPx csE (Pt 0 0) (treeE false) [] = [Px 159 82 45 255].
Proof.
  split; [|split; [draw_ok|vm_compute; auto]].
  apply (render_change csE false true (fun _ => True) okChange (okTreePx csE) (okDrawPx csE) false (treeE true) [(1%nat, None); (1%nat, None)] (Lay (la 3 true 128 (str "scrn")) [] [])).
  - exact I.
  - tree_ok.
  - draw_ok.
  - reflexivity.
  - split; reflexivity.
  - change_ok.
  - tree_ok.
Qed.

(** Two changes that are announced together: the layer in the folder is hidden, then the
    folder gets the mode "normal". *)
Definition treeE2 : layer := chg [(1%nat, None)] (la 1 true 100 norm) (treeE false).
Definition psE : list (list step) := [[(1%nat, None); (1%nat, None)]; [(1%nat, None)]].
Definition wE2 : world tile := dirtiedAll (cv csE) (hcv csE) false treeE2 psE (seqPx csE 1 1 image false (treeE true) w0).
Example C48_two_changes_used :
  historyPx csE 1 image false true (fun _ => True) okChange (okTreePx csE) (okDrawPx csE) treeE2 wE2 /\ okDrawPx csE treeE2 /\
  pixelAt (seqPx csE 1 1 image false treeE2 wE2) = Some (shownPx csE (Pt 0 0) treeE2 []) /\
  shownPx csE (Pt 0 0) treeE2 [] <> shownPx csE (Pt 0 0) (treeE false) [] /\
  shownPx csE (Pt 0 0) treeE2 [] <> shownPx csE (Pt 0 0) (treeE true) [].
Proof.
  assert (C : changed psE (treeE true) treeE2).
  { apply (changed_trans [[(1%nat, None); (1%nat, None)]] [[(1%nat, None)]] _ (treeE false)).
    - apply (changed_chg [(1%nat, None); (1%nat, None)] (la 3 false 128 (str "scrn")) (treeE true) (Lay (la 3 true 128 (str "scrn")) [] [])); [|split]; reflexivity.
    - eapply changed_chg; [reflexivity|split; reflexivity]. }
  split; [|split; [draw_ok|vm_compute; repeat split; discriminate]].
  apply render_changes.
  - exact I.
  - tree_ok.
  - draw_ok.
  - exact C.
  - apply (okChange_at psE); [exact C|]. intros p [<-|[<-|[]]] t t' [= <-] [= <-] P P' k K; [discriminate|].
    cbn in K. destruct K as [<-|[<-|[]]]; reflexivity.
  - tree_ok.
Qed.

(** C49: the same history with RenderDiff; only the changed tile is drawn again. *)
Example C49_diff_used :
  historyPx csE 1 image false false (eq true) okChange (okTreePx csE) (okDrawPx csE) (treeE false)
    (dirtied (cv csE) (hcv csE) false (treeE false) [(1%nat, None); (1%nat, None)] (seqPx csE 1 1 image true (treeE true) w0)) /\
  pixelAt (seqPx csE 1 1 image true (treeE false)
    (dirtied (cv csE) (hcv csE) false (treeE false) [(1%nat, None); (1%nat, None)] (seqPx csE 1 1 image true (treeE true) w0))) = Some [Px 159 82 45 255].
Proof.
  split; [|vm_compute; auto].
  apply (render_change csE false false (eq true) okChange (okTreePx csE) (okDrawPx csE) true (treeE true) [(1%nat, None); (1%nat, None)] (Lay (la 3 true 128 (str "scrn")) [] [])).
  - reflexivity.
  - tree_ok.
  - draw_ok.
  - reflexivity.
  - split; reflexivity.
  - change_ok.
  - tree_ok.
Qed.

(** C50, C51: an image of two columns and four rows, two workers; the first has drawn its
    first row and the second nothing when they are stopped. *)
Definition image2 : rect := Rct 0 0 2 4.
Definition partRows : list (list (list point)) := [[[Pt 0 0; Pt 1 0]]; []].
Definition wP : world tile := runRows (zeroPx 1) copyPx blendPx destInMPx destOutMPx destInPx destOverPx (clearPx 1) removeAlphaPx (cv csE) nomask partRows false (treeE true) w0.
Example C50_caches_used : abortedPx csE 2%nat 1 image2 false (treeE true) w0 (undo wP) /\
  option_map snd (undo wP (Pt 1 0)) = Some [Px 159 82 125 255] /\ option_map (fun x => tent (fst x)) (undo wP (Pt 1 0)) = Some [] /\
  option_map snd (undo wP (Pt 1 2)) = Some [Px 9 9 9 9].
Proof.
  split; [|vm_compute; auto]. apply (Aborted _ _ _ _ _ _ _ _ _ _ _ _ _ _ _ _ _ partRows); [|apply runRows_ran].
  apply Forall2_cons; [exists [[Pt 0 1; Pt 1 1]]; reflexivity|]. apply Forall2_cons; [eexists; reflexivity|constructor].
Qed.
Example C51_schedule_used : tileOf 1 image2 (Pt 1 3) /\ length (workerRows 2 1 image2) = 2%nat /\
  option_map snd (seqPx csE 2 1 image2 false (treeE true) w0 (Pt 1 3)) = Some [Px 159 82 125 255] /\
  option_map snd (seqPx csE 2 1 image2 false (treeE true) w0 (Pt 2 3)) = Some [Px 9 9 9 9].
Proof. split; [exists 1, 3; vm_compute; intuition congruence|]. vm_compute. auto. Qed.

(** * C57 is false of the code *)

(** A layer with the blend mode "dissolve" of the format; any other unknown mode *)
Theorem C57_dissolve_refuted : exists root, lbm (latt root) = norm /\ (exists k, lkids root = [k] /\ lbm (latt k) = str "diss") /\
  forall st d, m_get Z.eqb (tent st) (-1) = None ->
    renderPx 1 (cv csA (Pt 0 0)) (nomask (Pt 0 0)) false root st d = None.
Proof.
  exists (Lay (la (-1) true 255 norm) [Lay (la 1 true 255 (str "diss")) [] []] []). split; [reflexivity|]. split; [eexists; split; reflexivity|].
  intros st d H. unfold renderPx, renderTile, updateTile. cbn [latt lseq la]. rewrite H. reflexivity.
Qed.
Print Assumptions C57_dissolve_refuted.
(** The modes that the table contains *)
Example C57_table : map (fun m => match blendPx (str m) with Some _ => true | None => false end)
  ["norm"; "mul "; "lddg"; "lum "; "diss"; "pass"; ""]%string = [true; true; true; true; false; false; false].
Proof. reflexivity. Qed.
Example C57_known_used : Forall (modesOK blendPx) (lkids (treeE true)).
Proof. repeat (apply Forall_cons || apply Forall_nil || apply ModesOK || (apply modeOK_px; vm_compute; reflexivity)). Qed.

(** ** No pixel operation panics

    Tiles of [n] pixels of four bytes and masks of [n] bytes, every layer with a mode of
    the table: the render that would end with a panic of a pixel operation or with an
    index out of range ends without one, and it leaves tiles of [n] pixels of four
    bytes in the caches and in the destination. *)
Theorem C57_pixels_partial : forall n canvas mask,
  (forall s t, canvas s = Some t -> tileOK n t) -> (forall s m, mask s = Some m -> mtileOK n m) ->
  forall diffOnly root st d, stateOK n st -> tileOK n d -> Forall (modesOK blendPx) (lkids root) ->
  exists st' t, renderS n canvas mask diffOnly root (strictS st) (Some d) = Some (strictS st', Some t) /\ stateOK n st' /\ tileOK n t /\
    renderPx n canvas mask diffOnly root st d = Some (st', t).
Proof. exact render_strict_total. Qed.
Print Assumptions C57_pixels_partial.
(** The operations of this render are strict: they give a tile exactly if no operation on a pixel
    panics and no index is out of range. *)
Theorem C57_strict_operations :
  (forall s r, copyS (Some s) = Some r <-> pixelwise (fun s => pdB machine Copy true true 65535 s black) s r) /\
  (forall k b md op s d r, blendS k = Some b -> m_get list_eqb blendModes k = Some md ->
     (b op (Some s) (Some d) = Some r <-> pixelwise2 (fun s d => blend8 machine md (op mod 256) s d) s d r)) /\
  (forall m d r, destInMS m (Some d) = Some r <-> pixelwise2 (fun s d => pdA machine DestIn true 65535 s d) m d r) /\
  (forall m d r, destOutMS m (Some d) = Some r <-> pixelwise2 (fun s d => pdA machine DestOut true 65535 s d) m d r) /\
  (forall s d r, destInS (Some s) (Some d) = Some r <-> pixelwise2 (fun s d => pdB machine DestIn true true 65535 s d) s d r) /\
  (forall s d r, destOverS (Some s) (Some d) = Some r <-> pixelwise2 (fun s d => pdB machine DestOver true true 65535 s d) s d r).
Proof. exact strict_operations. Qed.
Print Assumptions C57_strict_operations.
(** The operations do fail: a tile that is too short *)
Example C57_pixels_used : Forall (modesOK blendPx) (lkids (treeE true)) /\
  option_map snd (renderS 1 (cv csE (Pt 0 0)) (nomask (Pt 0 0)) false (treeE true) (Tst [] []) (Some [Px 9 9 9 9])) = Some (Some [Px 159 82 125 255]) /\
  option_map snd (renderS 2 (cv csE (Pt 0 0)) (nomask (Pt 0 0)) false (treeE true) (Tst [] []) (Some [Px 9 9 9 9])) = Some None.
Proof. split; [exact C57_known_used|]. vm_compute. auto. Qed.
