(** Theorems about drawing the tiles of a layer into one image (property C62) and about
    transforming a tree by the identity (property C63). *)
From Coq Require Import Permutation.
From Verif Require Import Base BaseFacts MRect MSched PSched MBlend SBlend MRender MTile STile MLoad SLoad MTileRender STileRender PTileRender.
Open Scope Z_scope.

Notation z4 := (Px 0 0 0 0).

(** * C62: the tiles of a layer are drawn completely *)

(** For all tiles as the tile builder makes them, all processor counts, schedules and former
    contents of the image: Render does not panic, the image keeps its size, and every pixel
    of the layer's rectangle becomes the pixel that the tiles show there, up to one level of
    colour for alpha below 128. Missing for the full property: equality for faint pixels
    ([C62_faint_refuted]). *)
Theorem C62_image_partial : forall cpus ts m r, (1 <= cpus)%nat -> 0 < ts -> goodImage ts m -> tilesRect ts m r -> rempty r = false ->
  (exists ws, renderTiled z4 copyPx cpus ts r m = Some ws) /\
  forall old img, zlen old = (rx1 r - rx0 r) * (ry1 r - ry0 r) -> rendered z4 copyPx cpus ts r m old img ->
    zlen img = zlen old /\
    forall p, pt_in p r = true -> exists v w, shows ts z4 m p v /\ image_at r img p w /\ nearly v w.
Proof.
  intros cpus ts m r Hc Ht G T Er. split; [now apply render_image_total|]. intros old img L R.
  destruct (render_image cpus ts Hc Ht r m old img G (tilesRect_ne ts m r T Er) L R) as [H1 H2]. split; [exact H1|].
  intros p Hp. apply H2; [exact Hp|]. right. apply (tilesRect_div ts m r (proj1 G) T).
Qed.
Print Assumptions C62_image_partial.

(** Masks are drawn exactly. *)
Theorem C62_mask : forall cpus ts m r, (1 <= cpus)%nat -> 0 < ts -> goodMask ts m -> tilesRect ts m r -> rempty r = false ->
  (exists ws, renderTiled 0 copyMask cpus ts r m = Some ws) /\
  forall old img, zlen old = (rx1 r - rx0 r) * (ry1 r - ry0 r) -> rendered 0 copyMask cpus ts r m old img ->
    zlen img = zlen old /\ forall p, pt_in p r = true -> exists v, shows ts 0 m p v /\ image_at r img p v.
Proof.
  intros cpus ts m r Hc Ht G T Er. split; [now apply render_mask_total|]. intros old img L R.
  destruct (render_mask cpus ts Hc Ht r m old img G (tilesRect_ne ts m r T Er) L R) as [H1 H2]. split; [exact H1|].
  intros p Hp. apply H2; [exact Hp|]. right. apply (tilesRect_div ts m r (proj1 G) T).
Qed.
Print Assumptions C62_mask.

(** Any other rectangle: every point with coordinates that are not negative. *)
Theorem C62_any_rect_partial : forall cpus ts m rc old img, (1 <= cpus)%nat -> 0 < ts -> goodImage ts m -> m <> [] ->
  zlen old = (rx1 rc - rx0 rc) * (ry1 rc - ry0 rc) -> rendered z4 copyPx cpus ts rc m old img ->
  zlen img = zlen old /\
  forall p, pt_in p rc = true -> 0 <= MRect.px p -> 0 <= py p -> exists v w, shows ts z4 m p v /\ image_at rc img p w /\ nearly v w.
Proof.
  intros cpus ts m rc old img Hc Ht G Hm L R. destruct (render_image cpus ts Hc Ht rc m old img G Hm L R) as [H1 H2].
  split; [exact H1|]. intros p Hp X Y. apply H2; [exact Hp|]. left. auto.
Qed.
Print Assumptions C62_any_rect_partial.

(** The tiles that the tile builder makes from planes of bytes satisfy the hypotheses. *)
Theorem C62_built : forall cpus ts rc r g b a dX m, (1 <= cpus)%nat -> 0 < ts ->
  bytes_ok r -> bytes_ok g -> bytes_ok b -> match a with Some a => bytes_ok a | None => True end ->
  built (newTiledImage cpus ts rc r g b a dX) m -> goodImage ts m.
Proof. exact built_goodImage. Qed.
Print Assumptions C62_built.
Theorem C62_built_mask : forall cpus ts rc a dc m, (1 <= cpus)%nat -> 0 < ts -> bytes_ok a -> built (newTiledMask cpus ts rc a dc) m -> goodMask ts m.
Proof. exact built_goodMask. Qed.
Print Assumptions C62_built_mask.

(** Two tiles of side 2 with a gap between them, left of and above the origin too, drawn
    into an image that held other pixels. *)
Definition exTiles : tilemap px :=
  [(Pt 2 0, [Px 1 2 3 255; Px 4 5 6 200; z4; Px 7 8 9 128]); (Pt (-2) (-2), [Px 9 9 9 255; z4; z4; Px 8 8 8 255])].
Lemma exTiles_good : goodImage 2 exTiles.
Proof.
  split.
  - intros k c H. unfold exTiles in H. cbn [m_get] in H. destruct (PTile.pt_eqb_spec k (Pt 2 0)) as [->|_];
      [injection H as <-; split; [exists 1; reflexivity|split; [exists 0; reflexivity|reflexivity]]|].
    destruct (PTile.pt_eqb_spec k (Pt (-2) (-2))) as [->|_]; [|discriminate].
    injection H as <-. split; [exists (-1); reflexivity|split; [exists (-1); reflexivity|reflexivity]].
  - intros k c v H Hv. unfold exTiles in H. cbn [m_get] in H. unfold pixel_ok.
    destruct (PTile.pt_eqb_spec k (Pt 2 0)) as [->|_]; [injection H as <-; cbn [In] in Hv; intuition (subst v; cbn [pr pg pb pa]; lia)|].
    destruct (PTile.pt_eqb_spec k (Pt (-2) (-2))) as [->|_]; [|discriminate]. injection H as <-. cbn [In] in Hv; intuition (subst v; cbn [pr pg pb pa]; lia).
Qed.
Example C62_example : exists img, rendered z4 copyPx 2 2 (Rct (-2) (-2) 4 2) exTiles (zrepeat (Px 77 77 77 77) 24) img /\
  tilesRect 2 exTiles (Rct (-2) (-2) 4 2) /\ idx img 0 = Some (Px 9 9 9 255) /\ idx img 17 = Some (Px 4 5 6 200) /\ idx img 2 = Some z4.
Proof.
  destruct (renderTiled z4 copyPx 2 2 (Rct (-2) (-2) 4 2) exTiles) as [ws|] eqn:E; [|vm_compute in E; discriminate].
  exists (exec store (concat ws) (zrepeat (Px 77 77 77 77) 24)). split; [exists ws, (concat ws); auto using interleave_concat|].
  split; [exists [Pt 2 0; Pt (-2) (-2)]; split; [apply Permutation_refl|reflexivity]|].
  vm_compute in E. injection E as <-. vm_compute. auto.
Qed.

(** A faint pixel is drawn with another colour. *)
Theorem C62_faint_refuted : exists cpus ts m r old img p v w, (1 <= cpus)%nat /\ goodImage ts m /\ tilesRect ts m r /\
  zlen old = (rx1 r - rx0 r) * (ry1 r - ry0 r) /\ rendered z4 copyPx cpus ts r m old img /\
  shows ts z4 m p v /\ image_at r img p w /\ v <> w.
Proof.
  set (m := [(Pt 0 0, [Px 1 1 1 1])] : tilemap px). exists 1%nat, 1, m, (Rct 0 0 1 1), [z4], [Px 0 0 0 1], (Pt 0 0), (Px 1 1 1 1), (Px 0 0 0 1).
  split; [lia|]. split.
  { split; intros k c.
    - intros H. unfold m in H. cbn [m_get] in H. destruct (PTile.pt_eqb_spec k (Pt 0 0)) as [->|_]; [|discriminate]. injection H as <-.
      split; [exists 0; reflexivity|split; [exists 0; reflexivity|reflexivity]].
    - intros v H Hv. unfold m in H. cbn [m_get] in H. destruct (PTile.pt_eqb_spec k (Pt 0 0)) as [->|_]; [|discriminate]. injection H as <-.
      destruct Hv as [<-|[]]. unfold pixel_ok. cbn [pr pg pb pa]. lia. }
  split; [exists [Pt 0 0]; split; [apply Permutation_refl|reflexivity]|]. split; [reflexivity|].
  split; [exists [[(0, Px 0 0 0 1)]], [(0, Px 0 0 0 1)]; split; [vm_compute; reflexivity|split; [apply (interleave_concat [[(0, Px 0 0 0 1)]])|reflexivity]]|].
  split; [left; exists (Pt 0 0), [Px 1 1 1 1]; split; [reflexivity|]; split; [unfold in_tile; cbn; lia|reflexivity]|].
  split; [reflexivity|discriminate].
Qed.
Print Assumptions C62_faint_refuted.

(** * C63: transforming by the identity keeps the layers *)

(** For all layer images as the tile builder makes them, all processor counts and schedules
    (including the order in which the map of images is visited): after Transform with the
    identity matrix exactly the same layers have images, every point of each mask shows the
    same value, every point of each canvas shows the same alpha, and the same colour up to
    one level if alpha is below 128. The new images satisfy the hypotheses again. Missing for
    the full property: equality for faint pixels ([C63_drift_refuted]). *)
Theorem C63_identity_partial : forall cpus ts imgs, (1 <= cpus)%nat -> 0 < ts -> NoDup (map fst imgs) ->
  (forall q li, In (q, li) imgs -> goodLayer ts li) ->
  (exists out, transformTree cpus ts imgs out) /\
  forall out, transformTree cpus ts imgs out ->
    (forall q li, m_get Z.eqb imgs q = Some li -> exists li', m_get Z.eqb out q = Some li' /\ goodLayer ts li' /\ nearlyLayer ts li li') /\
    (forall q, m_get Z.eqb imgs q = None -> m_get Z.eqb out q = None).
Proof. intros cpus ts imgs Hc Ht N G. split; [now apply transformTree_ex|]. intros out. now apply transform_tree. Qed.
Print Assumptions C63_identity_partial.

(** No schedule panics: drawing succeeds, and so does cutting whatever was drawn. *)
Theorem C63_total : forall cpus ts m r, (1 <= cpus)%nat -> 0 < ts -> goodImage ts m -> tilesRect ts m r -> rempty r = false ->
  (exists ws, renderTiled z4 copyPx cpus ts r m = Some ws) /\
  forall img, rendered z4 copyPx cpus ts r m (zrepeat z4 (rdx r * rdy r)) img ->
    newTiledImage cpus ts r (pixBytes img) (skipn 1 (pixBytes img)) (skipn 2 (pixBytes img)) (Some (skipn 3 (pixBytes img))) 4 <> None.
Proof.
  intros cpus ts m r Hc Ht G T Er. split; [now apply render_image_total|]. intros img R.
  destruct (proj1 (retile_image cpus ts Hc Ht m r img G T Er R)) as [ws W]. change (newTiled z4 (getPix img) cpus ts r 4 <> None). congruence.
Qed.
Print Assumptions C63_total.

(** The example of C62 and a mask. *)
Example C63_example : goodLayer 2 (LI (Some exTiles) (Some [(Pt 0 0, [1; 2; 3; 4])])) /\ goodLayer 2 (LI None None).
Proof.
  split; [|split; exact I]. split; [exact exTiles_good|]. split; intros k c.
  - intros H. cbn [liMask m_get] in H. destruct (PTile.pt_eqb_spec k (Pt 0 0)) as [->|_]; [|discriminate]. injection H as <-.
    split; [exists 0; reflexivity|split; [exists 0; reflexivity|reflexivity]].
  - intros v H Hv. cbn [liMask m_get] in H. destruct (PTile.pt_eqb_spec k (Pt 0 0)) as [->|_]; [|discriminate]. injection H as <-.
    cbn [In] in Hv. unfold byteZ. lia.
Qed.

(** The loss adds up: 127 transformations by the identity turn a grey pixel black. *)
Fixpoint transforms (n : nat) (cpus : nat) (ts : Z) (m m' : tilemap px) : Prop :=
  match n with O => m' = m | S n => exists m1, transformImage cpus ts m m1 /\ transforms n cpus ts m1 m' end.
Definition step1 (m : tilemap px) : option (tilemap px) :=
  let r := Rct 0 0 1 1 in
  let? ws := renderTiled z4 copyPx 1 1 r m in
  let img := exec store (concat ws) [z4] in
  let? l := newTiledImage 1 1 r (pixBytes img) (skipn 1 (pixBytes img)) (skipn 2 (pixBytes img)) (Some (skipn 3 (pixBytes img))) 4 in
  Some (exec putTile (concat l) []).
Lemma step1_ok c m' : step1 [(Pt 0 0, c)] = Some m' -> transformImage 1 1 [(Pt 0 0, c)] m'.
Proof.
  unfold step1. destruct (renderTiled z4 copyPx 1 1 (Rct 0 0 1 1) [(Pt 0 0, c)]) as [ws|] eqn:E; [|discriminate].
  destruct (newTiledImage _ _ _ _ _ _ _ _) as [l|] eqn:E'; [|discriminate]. intros H. injection H as <-.
  exists (Rct 0 0 1 1). split; [exists [Pt 0 0]; split; [apply Permutation_refl|reflexivity]|]. change (rempty (Rct 0 0 1 1)) with false. cbv iota.
  exists (exec store (concat ws) [z4]). split; [exists ws, (concat ws); auto using interleave_concat|].
  exists l, (concat l). auto using interleave_concat.
Qed.
Fixpoint steps (n : nat) (c : list px) : option (list px) :=
  match n with
  | O => Some c
  | S n => match step1 [(Pt 0 0, c)] with Some [(Pt 0 0, c')] => steps n c' | _ => None end
  end.
Lemma steps_ok n : forall c c', steps n c = Some c' -> transforms n 1 1 [(Pt 0 0, c)] [(Pt 0 0, c')].
Proof.
  induction n as [|n IH]; intros c c' E; cbn [steps transforms] in *; [now injection E as ->|].
  destruct (step1 [(Pt 0 0, c)]) as [m1|] eqn:S1; [|discriminate]. destruct m1 as [|[[[] []] c1] [|]]; try discriminate.
  exists [(Pt 0 0, c1)]. split; [now apply step1_ok|now apply IH].
Qed.
Theorem C63_drift_refuted : exists n m m' p, goodImage 1 m /\ transforms n 1 1 m m' /\
  shows 1 z4 m p (Px 127 127 127 1) /\ shows 1 z4 m' p (Px 0 0 0 1).
Proof.
  exists 127%nat, [(Pt 0 0, [Px 127 127 127 1])], [(Pt 0 0, [Px 0 0 0 1])], (Pt 0 0). split; [|split; [apply steps_ok; vm_compute; reflexivity|split]].
  - split; intros k c.
    + intros H. cbn [m_get] in H. destruct (PTile.pt_eqb_spec k (Pt 0 0)) as [->|_]; [|discriminate]. injection H as <-.
      split; [exists 0; reflexivity|split; [exists 0; reflexivity|reflexivity]].
    + intros v H Hv. cbn [m_get] in H. destruct (PTile.pt_eqb_spec k (Pt 0 0)) as [->|_]; [|discriminate]. injection H as <-.
      destruct Hv as [<-|[]]. unfold pixel_ok. cbn [pr pg pb pa]. lia.
  - left. exists (Pt 0 0), [Px 127 127 127 1]. split; [reflexivity|]; split; [unfold in_tile; cbn; lia|reflexivity].
  - left. exists (Pt 0 0), [Px 0 0 0 1]. split; [reflexivity|]; split; [unfold in_tile; cbn; lia|reflexivity].
Qed.
Print Assumptions C63_drift_refuted.
