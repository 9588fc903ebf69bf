(** Theorems about layers that are transformed by a translation by whole pixels
    (property C75). *)
From Coq Require Import QArith SpecFloat.
From Verif Require Import Base BaseFacts MRect MThumb SThumb MSched PSched MBlend SBlend MRender MTile STile MLoad MTileRender STileRender MScale SScale PScale.
Open Scope Z_scope.

(** * C75: moving by whole pixels *)

(** A layer of a file that New loads with a translation and without gamma table. For all ways
    to round, libraries that copy whole pixels, processor counts, tile sizes, schedules,
    rectangles and planes that are long enough: nothing panics, the tiles do not overlap, an
    opaque pixel is shown with its colour at the moved place if the coordinates there are not
    negative, and nothing is shown where the layer is transparent or beyond its rectangle.
    Missing for the full property: negative coordinates (C43), partly transparent pixels
    (their fate is up to the library), gamma tables ([C75_gamma_refuted]). *)
Theorem C75_layer_partial : forall rnd lib cpus ts rc dx dy r g b a dX,
  SThumb.rounding rnd -> good_library lib -> (1 <= cpus)%nat -> 0 < ts -> moderate rc dx dy -> 0 < dX -> dX <> 4 ->
  plane_ok rc dX r -> plane_ok rc dX g -> plane_ok rc dX b -> match a with Some a => plane_ok rc dX a | None => True end ->
  let ws := newScaledTiledImage rnd lib cpus ts rc r g b a dX (translation dx dy) None in
  (exists m, built ws m) /\
  forall m, built ws m -> well_tiled ts m /\
    (forall p v, pt_in p rc = true -> 0 <= MRect.px p + dx -> 0 <= py p + dy -> source_px r g b a (sample_pos rc dX p) v -> pa v = 255 -> shows ts z4 m (shifted p dx dy) v) /\
    (forall p v, pt_in p rc = true -> source_px r g b a (sample_pos rc dX p) v -> pa v = 0 -> shows ts z4 m (shifted p dx dy) z4) /\
    (forall p, pt_in p rc = false -> shows ts z4 m (shifted p dx dy) z4).
Proof. intros. now apply shift_plain. Qed.
Print Assumptions C75_layer_partial.

(** The same for the tiles of a tree that is moved by Transform: whatever a point shows is
    shown at the moved place, if it is opaque or transparent. *)
Theorem C75_transform_partial : forall rnd lib cpus ts dx dy t,
  SThumb.rounding rnd -> good_library lib -> (1 <= cpus)%nat -> 0 < ts -> goodImage ts t ->
  (forall r, tilesRect ts t r -> rempty r = false -> moderate r dx dy) ->
  (exists t', transformImageBy rnd lib cpus ts (translation dx dy) None t t') /\
  forall t', transformImageBy rnd lib cpus ts (translation dx dy) None t t' ->
    forall p v, shows ts z4 t p v ->
      (pa v = 255 -> 0 <= MRect.px p + dx -> 0 <= py p + dy -> shows ts z4 t' (shifted p dx dy) v) /\ (pa v = 0 -> shows ts z4 t' (shifted p dx dy) z4).
Proof. intros. now apply transform_shift. Qed.
Print Assumptions C75_transform_partial.

(** With a gamma table: every opaque colour is sent through both tables. *)
Theorem C75_gamma : forall rnd lib cpus ts rc dx dy r g b a dX pow gamma,
  SThumb.rounding rnd -> good_library lib -> (1 <= cpus)%nat -> 0 < ts -> moderate rc dx dy -> 0 < dX -> dx <> 0 \/ dy <> 0 ->
  plane_ok rc dX r -> plane_ok rc dX g -> plane_ok rc dX b -> match a with Some a => plane_ok rc dX a | None => True end ->
  let gt := makeGammaTable pow gamma in let f c := T16 gt (T8 gt c) in
  let ws := newScaledTiledImage rnd lib cpus ts rc r g b a dX (translation dx dy) (Some gt) in
  (exists m, built ws m) /\
  forall m, built ws m -> well_tiled ts m /\
    (forall p v, pt_in p rc = true -> 0 <= MRect.px p + dx -> 0 <= py p + dy -> source_px r g b a (sample_pos rc dX p) v -> pa v = 255 ->
       shows ts z4 m (shifted p dx dy) (Px (f (pr v)) (f (pg v)) (f (pb v)) 255)) /\
    (forall p v, pt_in p rc = true -> source_px r g b a (sample_pos rc dX p) v -> pa v = 0 -> shows ts z4 m (shifted p dx dy) z4) /\
    (forall p, pt_in p rc = false -> shows ts z4 m (shifted p dx dy) z4).
Proof. intros. apply shift_gamma; try assumption. apply table_range. Qed.
Print Assumptions C75_gamma.

(** The tables do not invert each other: both round down, so that with gamma 2 and with gamma
    1/2 every value except 0 and 255 is lowered by one. With gamma 1 they do. *)
Theorem C75_tables : forall pow, go_pow pow -> forall c, 0 <= c < 256 ->
  let back g := let gt := makeGammaTable pow g in T16 gt (T8 gt c) in
  back (fofZ 1) = c /\
  back (fofZ 2) = (if (c =? 0) || (c =? 255) then c else c - 1) /\
  back (fdiv64 (fofZ 1) (fofZ 2)) = (if (c =? 0) || (c =? 255) then c else c - 1).
Proof.
  intros pow G c H back. split; [exact (gamma_one pow c G H)|]. split; [exact (gamma_two pow c G H)|exact (gamma_half pow c G H)].
Qed.
Print Assumptions C75_tables.

(** The hypotheses are met: a library that copies, and a function [pow]. *)
Theorem C75_assumptions : good_library exactLib /\ go_pow somePow.
Proof. split; [exact exactLib_good|exact somePow_ok]. Qed.
Print Assumptions C75_assumptions.
Example C75_pixel_moved :
  option_map (fun ws => concat ws) (newScaledTiledImage (fun x => x) exactLib 1 2 (Rct 0 0 1 1) [100] [150] [200] None 1 (translation 2 1) None) =
    Some [(Pt 2 0, [z4; z4; Px 100 150 200 255; z4])] /\
  option_map (fun ws => concat ws) (newScaledTiledImage (fun x => x) exactLib 1 2 (Rct 0 0 1 1) [100] [150] [200] None 1 (translation 2 1) (Some (makeGammaTable somePow (fofZ 2)))) =
    Some [(Pt 2 0, [z4; z4; Px 99 149 199 255; z4])].
Proof. split; vm_compute; reflexivity. Qed.

(** So a layer that is moved by one pixel changes its colours, whatever the library does with
    whole pixels: the layer of one grey pixel. *)
Theorem C75_gamma_refuted : exists gamma rc dx dy r g b p v w, forall rnd lib cpus ts pow,
  SThumb.rounding rnd -> good_library lib -> (1 <= cpus)%nat -> 0 < ts -> go_pow pow ->
  let ws := newScaledTiledImage rnd lib cpus ts rc r g b None 1 (translation dx dy) (Some (makeGammaTable pow gamma)) in
  (exists m, built ws m) /\ forall m, built ws m ->
    source_px r g b None (sample_pos rc 1 p) v /\ shows ts z4 m (shifted p dx dy) w /\ w <> v.
Proof.
  exists (fofZ 2), (Rct 0 0 1 1), 1, 0, [100], [100], [100], (Pt 0 0), (Px 100 100 100 255), (Px 99 99 99 255).
  intros rnd lib cpus ts pow Hr Hl Hc Ht Hp.
  assert (moderate (Rct 0 0 1 1) 1 0) as Hm by (unfold moderate; cbn; lia).
  assert (plane_ok (Rct 0 0 1 1) 1 [100]) as Hpl by (unfold plane_ok, rdx, rdy, zlen; cbn; lia).
  destruct (C75_gamma rnd lib cpus ts (Rct 0 0 1 1) 1 0 [100] [100] [100] None 1 pow (fofZ 2) Hr Hl Hc Ht Hm ltac:(reflexivity) (or_introl (fun H : 1 = 0 => ltac:(discriminate H))) Hpl Hpl Hpl I) as [E M].
  split; [exact E|]. intros m B. assert (source_px [100] [100] [100] None (sample_pos (Rct 0 0 1 1) 1 (Pt 0 0)) (Px 100 100 100 255)) as S by (exists 100, 100, 100, 255; repeat split; reflexivity).
  split; [exact S|]. split; [|discriminate]. destruct (M m B) as (_ & M2 & _). specialize (M2 (Pt 0 0) _ eq_refl ltac:(cbn; lia) ltac:(cbn; lia) S eq_refl).
  cbn [pr pg pb] in M2. destruct (C75_tables pow Hp 100 ltac:(lia)) as (_ & T & _). cbv zeta in T. rewrite T in M2. exact M2.
Qed.
Print Assumptions C75_gamma_refuted.

(** Masks: the value of every point of the mask is moved. Beyond its rectangle the mask keeps
    its default colour 0. *)
Theorem C75_mask_partial : forall rnd lib cpus ts rc dx dy a dc,
  SThumb.rounding rnd -> good_library lib -> (1 <= cpus)%nat -> 0 < ts -> moderate rc dx dy -> plane_ok rc 1 a ->
  exists ws, newScaledTiledMask rnd lib cpus ts rc a dc (translation dx dy) = Some ws /\
  forall m, built (Some ws) m -> well_tiled ts m /\
    (forall p, pt_in p rc = true -> 0 <= MRect.px p + dx -> 0 <= py p + dy ->
       exists v, shows ts 0 m (shifted p dx dy) v /\ idx a (sample_pos rc 1 p) = Some (mask_value dc v)) /\
    (forall p, pt_in p rc = false -> 0 <= MRect.px p + dx -> 0 <= py p + dy -> dc = 0 -> shows ts 0 m (shifted p dx dy) 0).
Proof.
  intros rnd lib cpus ts rc dx dy a dc Hr Hl Hc Ht Hm Ha. destruct (shift_mask rnd lib cpus ts Hr Hl Hc Ht rc dx dy a dc Hm Ha) as (ws & E & W).
  exists ws. split; [exact E|]. intros m B. destruct (W m B) as (W1 & W2 & W3). split; [exact W1|]. split; [exact W2|].
  intros p Hp X Y ->. now apply W3.
Qed.
Print Assumptions C75_mask_partial.
(** Masks with the default colour 255 (visible): the transformed rectangle has one row and one
    column more (C56), which the library leaves at 0, so that the layer is hidden there. *)
Theorem C75_white_mask_refuted : exists rc dx dy a p, forall rnd lib cpus ts,
  SThumb.rounding rnd -> good_library lib -> (1 <= cpus)%nat -> 0 < ts ->
  (exists m, built (newScaledTiledMask rnd lib cpus ts rc a 255 (translation dx dy)) m) /\
  forall m, built (newScaledTiledMask rnd lib cpus ts rc a 255 (translation dx dy)) m ->
    pt_in p rc = false /\ exists v, shows ts 0 m (shifted p dx dy) v /\ mask_value 255 v = 0.
Proof.
  exists (Rct 0 0 1 1), 1, 0, [255], (Pt 1 0). intros rnd lib cpus ts Hr Hl Hc Ht.
  destruct (shift_mask rnd lib cpus ts Hr Hl Hc Ht (Rct 0 0 1 1) 1 0 [255] 255) as (ws & E & W); [unfold moderate; cbn; lia|vm_compute; discriminate|].
  rewrite E. split; [apply built_ex|]. intros m B. split; [reflexivity|]. exists 255. split; [|reflexivity].
  destruct (W m B) as (_ & _ & W3). exact (W3 (Pt 1 0) eq_refl ltac:(cbn; lia) ltac:(cbn; lia)).
Qed.
Print Assumptions C75_white_mask_refuted.
Example C75_mask_moved :
  option_map (fun ws => concat ws) (newScaledTiledMask (fun x => x) exactLib 1 4 (Rct 0 0 2 1) [7; 250] 0 (translation 1 1)) =
    Some [(Pt 0 0, [0; 0; 0; 0; 0; 7; 250; 0; 0; 0; 0; 0; 0; 0; 0; 0])] /\
  option_map (fun ws => concat ws) (newScaledTiledMask (fun x => x) exactLib 1 4 (Rct 0 0 2 1) [7; 250] 255 (translation 1 1)) =
    Some [(Pt 0 0, [0; 0; 0; 0; 0; 248; 5; 255; 0; 255; 255; 255; 0; 0; 0; 0])].
Proof. split; vm_compute; reflexivity. Qed.
