(** Theorems about renders between a change of layers and its announcement (property C48). *)
From Coq Require Import String.
From Verif Require Import Base BaseFacts MRect MSched PSched MBlend MPorter MDraw MTile MRender SRender SRenderLate PRender PRender4 MRenderAll SRenderAll PRenderAll MRenderLate
  MRenderPx PRenderPx MRenderStrict SRenderStrict PRenderStrict PLate5 TRender TRenderPx.
Close Scope string_scope.
Open Scope Z_scope.

Section renderer.
  Context {img msk : Type}.
  Variable zero : img.
  Variable copyT : img -> img.
  Variable blendOf : bytes -> option (Z -> img -> img -> img).
  Variable destInM destOutM : msk -> img -> img.
  Variable destInT destOverT : img -> img -> img.
  Variable clearT removeAlpha : img -> img.
  Variable canvas : point -> Z -> option img.
  Variable hasCanvas : Z -> bool.
  Variable mask : point -> Z -> option msk.
  Notation rendered := (rendered zero copyT blendOf destInM destOutM destInT destOverT clearT removeAlpha canvas mask).
  Notation okTree := (okTree blendOf hasCanvas).
  Notation okDraw := (okDraw zero copyT blendOf destInM destOutM destInT destOverT clearT removeAlpha canvas mask).
  Notation okFirm := (okFirm zero copyT blendOf destInM destOutM destInT destOverT clearT removeAlpha canvas mask).
  Notation session := (session zero copyT blendOf destInM destOutM destInT destOverT clearT removeAlpha canvas hasCanvas mask).
  Notation shown q := (shown zero copyT blendOf destInM destOutM destInT destOverT clearT removeAlpha (canvas q) (mask q)).

  (** In trees with right Parent links: layers may be changed at any time, also while a
      render draws the tiles, and announced at any later time and in any order, with any number of
      renders, diff renders and aborted renders before, in between and after. As
      soon as every change is announced, Render shows the pixels that a new renderer shows,
      namely those of the tree drawn without caches, and does not panic.
      The conditions as in C48_history_partial; [okSwitch] also excludes the change of
      a pass-through layer into another mode if pass-through layers are clipped
      to it, and [okFirm] speaks also of the layers in hidden folders. Missing for C48:
      exactly these, and trees of New, see TRenderPx. *)
Theorem C48_late_partial : forall ts root w w0 r cpus cpus' w1 w2, 0 < ts -> (1 <= cpus)%nat -> (1 <= cpus')%nat ->
    (forall q s, hasCanvas s = false -> canvas q s = None) -> (forall d d', clearT d = clearT d') ->
    session ts okSwitch okTree okFirm root [] w -> okDraw root -> new w0 ->
    rendered cpus ts r false root w w1 -> rendered cpus' ts r false root w0 w2 ->
    forall q, tileOf ts r q -> exists st1 st2 d, w1 q = Some (st1, d) /\ w2 q = Some (st2, d) /\ forall d0, d = shown q root d0.
  Proof.
    intros. apply (session_fresh zero copyT blendOf destInM destOutM destInT destOverT clearT removeAlpha canvas hasCanvas mask) with (ts := ts)
      (w := w) (w0 := w0) (r := r) (cpus := cpus) (cpus' := cpus'); auto. now apply tileOf_grid.
  Qed.

  (** While changes are pending a render may show old pixels, but it does not panic. *)
Theorem C48_pending_no_panic_partial : forall ts root pend w, 0 < ts -> (forall q s, hasCanvas s = false -> canvas q s = None) ->
    session ts okSwitch okTree okFirm root pend w -> forall q, w q <> None.
  Proof.
    intros ts root pend w Ht Hn HS q. destruct (session_late zero copyT blendOf destInM destOutM destInT destOverT clearT removeAlpha canvas hasCanvas mask Hn ts root pend w Ht HS) as [_ V].
    destruct (V q) as (st & d & E & _). congruence.
  Qed.

  (** If copying a tile is exact, the condition on the buffers holds. *)
Theorem C48_late_exact_copy_partial : (forall i, copyT i = i) -> forall root, okFirm root.
  Proof. exact (firm_exact zero copyT blendOf destInM destOutM destInT destOverT clearT removeAlpha canvas mask). Qed.
End renderer.
Print Assumptions C48_late_partial.
Print Assumptions C48_pending_no_panic_partial.
Print Assumptions C48_late_exact_copy_partial.

(** A session: after a render the layer 3 in the folder is hidden and the layer 4 below gets
    another opacity. Layer 4 is announced, the next render still shows layer 3 in
    the folder, whose cache is used; it is neither the old nor the new image. Then layer 3
    is announced. *)
Notation sessionPx cs := (session (zeroPx 1) copyPx blendPx destInMPx destOutMPx destInPx destOverPx (clearPx 1) removeAlphaPx (cv cs) (hcv cs) nomask).
Notation okFirmPx cs := (okFirm (zeroPx 1) copyPx blendPx destInMPx destOutMPx destInPx destOverPx (clearPx 1) removeAlphaPx (cv cs) nomask).
Definition treeL (v : bool) (o : Z) : layer := Lay (la (-1) true 255 norm)
  [Lay (la 4 true o norm) [] []; Lay (la 1 true 200 norm) [Lay (la 2 true 255 norm) [] []; Lay (la 3 v 128 (str "scrn")) [] []] []] [].
Definition pos4 : list step := [(0%nat, None)].
Definition pos3 : list step := [(1%nat, None); (1%nat, None)].
Definition newL : layer := treeL false 100.
Definition wL1 : world tile := seqPx csE 1 1 image false (treeL true 255) w0.
Definition wL2 : world tile := seqPx csE 1 1 image false newL (dirtied (cv csE) (hcv csE) false newL pos4 wL1).
Definition wL3 : world tile := dirtied (cv csE) (hcv csE) false newL pos3 wL2.
Lemma all_subs (P : layer -> Prop) l : Forall P l -> forall t, In t l -> P t.
Proof. intros H. now apply Forall_forall. Qed.
Ltac firm_ok := split; [draw_ok|]; intros q p t E; apply layerAt_subs in E; revert t E;
  match goal with |- forall t, In t ?l -> @?P t => refine (all_subs P l _) end;
  repeat (constructor; [vm_compute; repeat (split || intros _ || exact I)|]); constructor.
Example C48_late_used :
  sessionPx csE 1 okSwitch (okTreePx csE) (okFirmPx csE) newL [] wL3 /\ okDrawPx csE newL /\
  pixelAt wL1 = Some (shownPx csE (Pt 0 0) (treeL true 255) []) /\
  pixelAt wL2 <> Some (shownPx csE (Pt 0 0) newL []) /\ pixelAt wL2 <> pixelAt wL1 /\
  pixelAt (seqPx csE 1 1 image false newL wL3) = Some (shownPx csE (Pt 0 0) newL []).
Proof.
  assert (C : changed [pos4; pos3] (treeL true 255) newL).
  { apply (changed_trans [pos4] [pos3] _ (treeL true 100)).
    - apply (changed_chg pos4 (la 4 true 100 norm) (treeL true 255) (Lay (la 4 true 255 norm) [] [])); [|split]; reflexivity.
    - apply (changed_chg pos3 (la 3 false 128 (str "scrn")) (treeL true 100) (Lay (la 3 true 128 (str "scrn")) [] [])); [|split]; reflexivity. }
  assert (O : okSwitch (treeL true 255) newL).
  { intros p t t' E _ Pt. apply layerAt_subs in E. exfalso. revert Pt. apply Bool.not_true_iff_false. revert t E. apply Forall_forall. repeat (constructor; [reflexivity|]). constructor. }
  split; [|split; [draw_ok|vm_compute; repeat split; discriminate]].
  change (@nil (list step)) with (without pos3 (without pos4 ([pos4; pos3] ++ []))). unfold wL3, wL2. apply S_announce.
  eapply S_render with (cpus := 1%nat); [|lia|firm_ok|apply seqRender_rendered]. apply S_announce.
  eapply S_change; [|exact C|exact O|tree_ok].
  eapply S_render with (cpus := 1%nat); [|lia|firm_ok|apply seqRender_rendered]. apply S_new; [exact w0_new|tree_ok].
Qed.

(** The same with a render that is going on while layer 3 is hidden, and that is aborted; the
    announcement comes after a further render. *)
Definition wM : world tile := dirtied (cv csE) (hcv csE) false (treeL false 255) pos3
  (seqPx csE 1 1 image true (treeL false 255)
    (undo (act (Pt 0 0, tileAct (zeroPx 1) copyPx blendPx destInMPx destOutMPx destInPx destOverPx (clearPx 1) removeAlphaPx (cv csE) nomask true (treeL false 255) (Pt 0 0))
      (act (Pt 7 7, tileAct (zeroPx 1) copyPx blendPx destInMPx destOutMPx destInPx destOverPx (clearPx 1) removeAlphaPx (cv csE) nomask true (treeL true 255) (Pt 7 7)) (start wL1))))).
Example C48_late_during_used :
  sessionPx csE 1 okSwitch (okTreePx csE) (okFirmPx csE) (treeL false 255) [] wM /\
  pixelAt (seqPx csE 1 1 image false (treeL false 255) wM) = Some (shownPx csE (Pt 0 0) (treeL false 255) []).
Proof.
  split; [|vm_compute; reflexivity]. change (@nil (list step)) with (without pos3 ([pos3] ++ [])). unfold wM. apply S_announce.
  eapply S_render with (cpus := 1%nat); [|lia|firm_ok|apply seqRender_rendered]. apply S_undo. apply S_tile; [|firm_ok].
  apply (S_change _ _ _ _ _ _ _ _ _ _ _ _ _ _ _ _ (treeL true 255) []).
  - apply S_tile; [|firm_ok]. apply S_start. eapply S_render with (cpus := 1%nat); [|lia|firm_ok|apply seqRender_rendered]. apply S_new; [exact w0_new|tree_ok].
  - apply (changed_chg pos3 (la 3 false 128 (str "scrn")) (treeL true 255) (Lay (la 3 true 128 (str "scrn")) [] [])); [|split]; reflexivity.
  - intros p t t' E _ Pt. apply layerAt_subs in E. exfalso. revert Pt. apply Bool.not_true_iff_false. revert t E. apply Forall_forall. repeat (constructor; [reflexivity|]). constructor.
  - tree_ok.
Qed.
