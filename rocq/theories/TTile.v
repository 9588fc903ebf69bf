(** Theorems about tiling (property C43) and about the split of tile rows and layers
    (part of C44). *)
From Verif Require Import Base BaseFacts MRect MSched PSched MDraw MBlend MTile STile PTile.
Open Scope Z_scope.

(** * C43: tiling keeps every pixel *)

(** For all rectangles, tile sizes, processor counts, schedules and planes that are
    long enough: building the tiles does not panic, the tiles do not overlap, every
    point of the layer with coordinates that are not negative shows its source
    pixel, and no point outside the layer shows anything. Points with negative
    coordinates show their source pixel or nothing (see [C43_negative_refuted]); this
    is what is missing for the full property. *)
Theorem C43_image_partial : forall cpus ts rc r g b a dX, (1 <= cpus)%nat -> 0 < ts -> 0 < dX ->
  plane_ok rc dX r -> plane_ok rc dX g -> plane_ok rc dX b -> match a with Some a => plane_ok rc dX a | None => True end ->
  exists ws, newTiledImage cpus ts rc r g b a dX = Some ws /\
  forall s, interleave ws s -> let m := exec putTile s [] in
    well_tiled ts m /\
    (forall p, pt_in p rc = true -> 0 <= MRect.px p -> 0 <= py p ->
       exists v, source_px r g b a (sample_pos rc dX p) v /\ shows ts (Px 0 0 0 0) m p v) /\
    (forall p, pt_in p rc = true -> MRect.px p < 0 \/ py p < 0 ->
       exists v, source_px r g b a (sample_pos rc dX p) v /\ (shows ts (Px 0 0 0 0) m p v \/ shows ts (Px 0 0 0 0) m p (Px 0 0 0 0))) /\
    (forall p, pt_in p rc = false -> shows ts (Px 0 0 0 0) m p (Px 0 0 0 0)).
Proof. exact newTiledImage_spec. Qed.
Print Assumptions C43_image_partial.

(** A layer of 5 x 3 pixels at (3, 1), tiles of side 4, four processors: two tiles. *)
Definition ex_plane : bytes := [0; 0; 3; 4; 5; 6; 7; 8; 9; 10; 11; 12; 13; 14; 15].
Example C43_example :
  let rc := Rct 3 1 8 4 in
  plane_ok rc 1 ex_plane /\
  option_map (fun ws => map fst (concat ws)) (newTiledImage 4 4 rc ex_plane ex_plane ex_plane (Some ex_plane) 1) = Some [Pt 0 0; Pt 4 0] /\
  option_map (fun ws => match concat ws with (_, c) :: _ => idx c 11 | _ => None end) (newTiledImage 4 4 rc ex_plane ex_plane ex_plane (Some ex_plane) 1) = Some (Some (Px 6 6 6 6)) /\
  source_px ex_plane ex_plane ex_plane (Some ex_plane) (sample_pos rc 1 (Pt 3 2)) (Px 6 6 6 6).
Proof.
  split; [vm_compute; discriminate|]. split; [vm_compute; reflexivity|]. split; [vm_compute; reflexivity|].
  exists 6, 6, 6, 6. vm_compute. auto.
Qed.

(** A layer that begins at x = -10 loses its opaque pixel there: no tile contains the
    point, because Go's division rounds towards zero. *)
Theorem C43_negative_refuted : exists cpus ts rc r g b a dX ws p v,
  plane_ok rc dX r /\ plane_ok rc dX g /\ plane_ok rc dX b /\
  newTiledImage cpus ts rc r g b a dX = Some ws /\ pt_in p rc = true /\
  source_px r g b a (sample_pos rc dX p) v /\ v <> Px 0 0 0 0 /\
  (forall k c, In (k, c) (concat ws) -> ~ in_tile ts k p).
Proof.
  exists 1%nat, 64, (Rct (-10) 0 2 1), (zrepeat 7 12), (zrepeat 7 12), (zrepeat 7 12), None, 1.
  destruct (newTiledImage 1 64 (Rct (-10) 0 2 1) (zrepeat 7 12) (zrepeat 7 12) (zrepeat 7 12) None 1) as [ws|] eqn:E; [|vm_compute in E; discriminate].
  exists ws, (Pt (-10) 0), (Px 7 7 7 255). split; [vm_compute; discriminate|]. split; [vm_compute; discriminate|]. split; [vm_compute; discriminate|].
  split; [reflexivity|]. split; [reflexivity|]. split; [exists 7, 7, 7, 255; vm_compute; auto|]. split; [discriminate|].
  intros k c Hin Hk.
  assert (forallb (fun kc => 0 <=? MRect.px (fst kc)) (concat ws) = true) as F.
  { assert (option_map (fun ws => forallb (fun kc => 0 <=? MRect.px (fst kc)) (concat ws)) (newTiledImage 1 64 (Rct (-10) 0 2 1) (zrepeat 7 12) (zrepeat 7 12) (zrepeat 7 12) None 1) = Some true) as H by (vm_compute; reflexivity).
    rewrite E in H. cbn [option_map] in H. congruence. }
  rewrite forallb_forall in F. specialize (F _ Hin). cbn [fst] in F. unfold in_tile in Hk. cbn [MRect.px py] in Hk. lia.
Qed.
Print Assumptions C43_negative_refuted.

(** Masks: the tiles hold the distance from the default colour, so that a point shows
    its mask value if its coordinates are not negative, and points outside the mask's
    rectangle show the default colour. *)
Theorem C43_mask_partial : forall cpus ts rc a dc, (1 <= cpus)%nat -> 0 < ts -> plane_ok rc 1 a ->
  exists ws, newTiledMask cpus ts rc a dc = Some ws /\
  forall s, interleave ws s -> let m := exec putTile s [] in
    well_tiled ts m /\
    (forall p, pt_in p rc = true -> 0 <= MRect.px p -> 0 <= py p ->
       exists v, shows ts 0 m p v /\ idx a (sample_pos rc 1 p) = Some (mask_value dc v)) /\
    (forall p, pt_in p rc = false -> shows ts 0 m p 0).
Proof. exact newTiledMask_spec. Qed.
Print Assumptions C43_mask_partial.
Example C43_mask_example :
  plane_ok (Rct 3 1 8 4) 1 ex_plane /\
  option_map (fun ws => match concat ws with (_, c) :: _ => idx c 11 | _ => None end) (newTiledMask 2 4 (Rct 3 1 8 4) ex_plane 255) = Some (Some 249) /\
  mask_value 255 249 = 6.
Proof. split; [vm_compute; discriminate|]. split; vm_compute; reflexivity. Qed.

(** * C44: tile rows, render rows, layers and thumbnails are split without gaps and overlaps *)

(** The rows [y0, y0 + ts, ...] below [y1] are handed out completely, in order and
    each once, to at least one and at most [cpus] workers (layerimage.go and
    renderer.go). *)
Theorem C44_tiles : forall cpus ts y0 y1, (1 <= cpus)%nat -> 0 < ts ->
  progression y0 y1 ts (concat (map (fun '(a, b) => forUp a b ts) (tileWorkers cpus ts y0 y1))) /\
  (1 <= length (tileWorkers cpus ts y0 y1) <= cpus)%nat.
Proof.
  intros cpus ts y0 y1 Hc Ht. destruct (tileWorkers_forUp cpus ts y0 y1 Hc Ht) as [E H]. rewrite E. split; [now apply forUp_progression|exact H].
Qed.
Print Assumptions C44_tiles.
(** Indices of layers (layer.go, thumbnail.go). *)
Theorem C44_indices : forall cpus len, (1 <= cpus)%nat -> 0 <= len ->
  progression 0 len 1 (concat (map (fun '(a, b) => forUp a b 1) (indexWorkers cpus len))) /\
  (1 <= length (indexWorkers cpus len) <= cpus)%nat.
Proof.
  intros cpus len Hc Hl. destruct (indexWorkers_forUp cpus len Hc Hl) as [E H]. split; [|exact H]. rewrite E.
  split; [apply NoDup_zseq|]. intros t. rewrite PDraw.in_zseq. split; [intros; split; [lia|exists t; lia]|intros [? _]; lia].
Qed.
Print Assumptions C44_indices.
Example C44_examples : tileWorkers 3 10 20 97 = [(20, 40); (40, 60); (60, 97)] /\ indexWorkers 4 9 = [(0, 2); (2, 4); (4, 6); (6, 9)].
Proof. split; reflexivity. Qed.
