(** Theorems about what a layer with a blend mode and an opacity makes of the picture below it: C71 for the
    drawing function, C72 from the bytes of a file to the pixels. *)
From Coq Require Import String.
From Verif Require Import Base SUtil SConfig MRect MPicker MConfig MReader MLayer MApi SCompress SRecord SLayer XRecord
  MSched MBlend MPorter SBlend MWait MRender SRender MRenderAll SRenderAll MRenderPx PRenderPx
  MDraw MTile STile MLoad SLoad MPipe SPipe SSharp PPipe5 XPipe PSharp3 PSharp4 TPipe TSharp PPipe4 SGlass PGlass4 TGlass SOver POver PTop.
Close Scope string_scope.
Open Scope Z_scope.

(** ** C71 *)

(** For every blend mode, opacity, source and destination of image.NRGBA: the result is that of the compositing
    formula with the documented colour of the mode, rounded down by less than three levels of the premultiplied
    colour (the alpha of the result: C38). Over an opaque destination it is the exact quotient. *)
Theorem C71_compositing : forall m alpha s d, 0 <= alpha <= 255 -> pixel_ok s -> pixel_ok d ->
  exists r g b p, doc_colour m (pr s, pg s, pb s) (pr d, pg d, pb d) (r, g, b) /\ blend8 machine m alpha s d = Some p /\
    let t := pa s * alpha / 255 in
    rounded_down (compositing t (pa d) (pr s) (pr d) r) (pa p) (pr p) /\
    rounded_down (compositing t (pa d) (pg s) (pg d) g) (pa p) (pg p) /\
    rounded_down (compositing t (pa d) (pb s) (pb d) b) (pa p) (pb p) /\
    (pa d = 255 -> p = Px (between t (pr d) r) (between t (pg d) g) (between t (pb d) b) 255).
Proof. exact blend_composited. Qed.
Print Assumptions C71_compositing.

(** Screen with half opacity: the blend colour of 200 over 100 is 222 (doc: 200 + 100 - 200 * 100 / 255 = 221.57); over an
    opaque destination half of it, over a half transparent one by the formula. *)
Example C71_used :
  within_formula Screen 200 100 222 = true /\ within_formula Screen 200 100 221 = false /\
  blend8 machine Screen 128 (Px 200 200 200 255) (Px 100 100 100 255) = Some (Px 161 161 161 255) /\ between 128 100 222 = 161 /\
  blend8 machine Screen 128 (Px 200 200 200 255) (Px 100 100 100 128) = Some (Px 174 174 174 190) /\
  rounded_down (compositing 128 128 200 100 222) 190 174 /\ ~ rounded_down (compositing 128 128 200 100 222) 190 168 /\
  ~ rounded_down (compositing 128 128 200 100 222) 190 177.
Proof. do 5 (split; [vm_compute; reflexivity|]). unfold rounded_down. vm_compute. intuition discriminate. Qed.

(** ** C72 *)

(** An RGB file of 8 bits, with any layers as in C70 and on top of them a visible layer without a mask, with any blend
    mode key and any opacity: wherever its pixel has an alpha of at least 128, every Render after New shows the picture of
    the layers below, changed by the compositing formula with the documented colour of the mode. (Fainter
    pixels lose a level when they are copied into a buffer, see C62.) *)
Theorem C72_top_layer :
  forall inflate kind procs h rsv cmd res neg pl sf l pad gmask bs tail rest cpus ts, (1 <= procs)%nat -> (1 <= cpus)%nat -> 0 < ts ->
  header_valid h -> h_mode h = 3 -> h_depth h = 8 -> zlen rsv = 6 -> zlen cmd < 4294967296 ->
  Forall rblock_valid res -> zlen (enc_rblocks res) < 4294967296 ->
  let large := h_version h =? 2 in
  section_valid inflate large neg 8 3 pl (flat_map sflatten (sf ++ [SLeaf l])) pad gmask bs tail ->
  Forall stree_valid (sf ++ [SLeaf l]) -> glass_forest (sf ++ [SLeaf l]) ->
  hidden l = false -> has_mask l = false -> sl_clip l = 0 ->
  let enc := enc_config h rsv cmd res ++ enc_section large neg pl (flat_map sflatten (sf ++ [SLeaf l])) pad gmask bs tail in
  exists f evs, Decode inflate kind procs newOptions (enc ++ rest) = (Ok (f, zlen enc, rest), evs) /\
    forall st, MWait.steps (lstep cpus ts) (lstart (map (fun e => playerOf (ev_layer e)) evs)) st -> lended st ->
    forall cpus' r' w0 w1, (1 <= cpus')%nat -> new w0 ->
    renderedPx ts (ldImages st) cpus' ts r' false (rootOf (ldCopied st) (f_layer f)) w0 w1 ->
    forall q p m s d, tileOf ts r' q -> in_tile ts q p -> 0 <= MRect.px p -> 0 <= py p ->
    leaf_mode l m -> leaf_value l p s -> 128 <= pa s -> laid (square ts q) p None sf nothing d ->
    exists u t r g b c, w1 q = Some (u, t) /\ doc_colour m (pr s, pg s, pb s) (pr d, pg d, pb d) (r, g, b) /\
      let a := pa s * sl_opacity l / 255 in
      rounded_down (compositing a (pa d) (pr s) (pr d) r) (pa c) (pr c) /\
      rounded_down (compositing a (pa d) (pg s) (pg d) g) (pa c) (pg c) /\
      rounded_down (compositing a (pa d) (pb s) (pb d) b) (pa c) (pb c) /\
      (pa d = 255 -> c = Px (between a (pr d) r) (between a (pg d) g) (between a (pb d) b) 255) /\
      tile_at ts q t p = Some (stored (stored c)) /\ (128 <= pa c -> tile_at ts q t p = Some c).
Proof. exact top_shown. Qed.
Print Assumptions C72_top_layer.

(** A file: an opaque picture, and over it a layer with the mode screen, the opacity 128 and pixels of the alphas 255 and 200 *)
Definition floor : slayer := lay (ascii "norm") 255 0 SNone [] (rgb [100; 10] [150; 20] [250; 30]).
Definition light : slayer := lay (ascii "scrn") 128 0 SNone [] ((-1, PRaw [255; 200]) :: rgb [200; 100] [0; 100] [255; 100]).
Definition lit : list stree := [SLeaf floor] ++ [SLeaf light].
Example C72_used :
  section_valid noinflate false false 8 3 InPlace (flat_map sflatten lit) [] [] [] [] /\ Forall stree_valid lit /\ glass_forest lit /\
  hidden light = false /\ has_mask light = false /\ sl_clip light = 0 /\ leaf_mode light Screen /\
  leaf_value light (Pt 0 0) (Px 200 0 255 255) /\ leaf_value light (Pt 1 0) (Px 100 100 100 200) /\
  laid (square 1 (Pt 0 0)) (Pt 0 0) None [SLeaf floor] nothing (Px 100 150 250 255) /\
  doc_colour Screen (200, 0, 255) (100, 150, 250) (222, 150, 255) /\
  (between 128 100 222, between 128 150 150, between 128 250 255) = (161, 150, 252) /\
  showWith 1 (fileOf lit) [Pt 0 0; Pt 1 0] = Some [Some [Px 161 150 252 255]; Some [Px 48 56 64 255]].
Proof.
  assert (G : layers_grouped lit [(SLeaf floor, []); (SLeaf light, [])]).
  { apply (lg_base _ [] [SLeaf light]); [reflexivity|constructor|reflexivity|]. apply (lg_base _ [] []); [reflexivity|constructor|exact I|constructor]. }
  split. { split.
    - repeat apply Forall_cons; try apply Forall_nil; (apply slayer_check; [vm_compute; reflexivity|exact I|exact I]).
    - split; [reflexivity|]. split; [exact I|]. split; [reflexivity|]. split; [constructor|].
      split; [split; [apply no8b_ok; reflexivity|right; left; reflexivity]|]. vm_compute. reflexivity. }
  split. { repeat apply Forall_cons; try apply Forall_nil; (apply (sleaf_valid _ 0); [reflexivity|lia|lia|lia]). }
  split. { split.
    - repeat apply Forall_cons; try apply Forall_nil.
      + apply (lay_glass floor [100; 10] [150; 20] [250; 30] Normal); [now apply no_mask|cbv; intuition discriminate|reflexivity|left; now left|reflexivity|reflexivity|reflexivity|reflexivity].
      + apply (lay_glass light [200; 100] [0; 100] [255; 100] Screen); [now apply no_mask|cbv; intuition discriminate|reflexivity|left; do 7 right; now left|reflexivity|reflexivity|reflexivity|reflexivity].
    - intros gs t cs G' Hi. rewrite <- (lg_fun _ _ G _ G') in Hi. destruct Hi as [[= <- <-]|[[= <- <-]|[]]]; now left. }
  split; [reflexivity|]. split; [reflexivity|]. split; [reflexivity|]. split; [left; do 7 right; now left|].
  split; [eapply (pixel light (Pt 0 0) 200 0 255 255); reflexivity|]. split; [eapply (pixel light (Pt 1 0) 100 100 100 200); reflexivity|].
  split. { econstructor; [now apply one_is|]. change (Px 100 150 250 255) with (blended Normal 255 (stored (Px 100 150 250 255)) nothing). econstructor; [|constructor].
    eapply put_over; [reflexivity|discriminate|left; now left| |apply topped_alone; now left]. apply plain_image; [|reflexivity]. eapply (pixel floor (Pt 0 0) 100 150 250 255); reflexivity. }
  split; [vm_compute; auto|]. split; vm_compute; reflexivity.
Qed.
