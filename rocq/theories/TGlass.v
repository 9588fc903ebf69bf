(** Theorems: from the bytes of a file with layers of any transparency to the pixels of the
    renderer, C70; when the picture does not depend on the size of the tiles, C69. *)
From Coq Require Import String.
From Verif Require Import Base SUtil SConfig MRect MPicker MConfig MReader MLayer MApi SCompress SRecord SLayer XRecord
  MSched MBlend MPorter SBlend MWait MRender SRender MRenderAll SRenderAll MRenderPx PRenderPx
  MDraw MTile STile MLoad SLoad MPipe SPipe SSharp PPipe5 XPipe PSharp3 PSharp4 TPipe TSharp PPipe4 SGlass PGlass4.
Close Scope string_scope.
Open Scope Z_scope.

(** ** C70 *)

(** An RGB file of 8 bits with any tree of folders, pass-through folders and layers, with pixels,
    masks and opacities of any values, clipping groups, any of the blend
    modes, any compression, PSD or PSB: Decode reads it, the loader has an execution that
    ends, and after every execution of the loader that ends, every Render with any number of
    workers shows at every point of the image the pixel that putting the layers one over the other
    gives (copied twice); that pixel is the only one. *)
Theorem C70_composited :
  forall inflate kind procs h rsv cmd res neg pl sf pad gmask bs tail rest cpus ts, (1 <= procs)%nat -> (1 <= cpus)%nat -> 0 < ts ->
  header_valid h -> h_mode h = 3 -> h_depth h = 8 -> zlen rsv = 6 -> zlen cmd < 4294967296 ->
  Forall rblock_valid res -> zlen (enc_rblocks res) < 4294967296 ->
  let large := h_version h =? 2 in
  section_valid inflate large neg 8 3 pl (flat_map sflatten sf) pad gmask bs tail ->
  Forall stree_valid sf -> glass_forest sf ->
  let enc := enc_config h rsv cmd res ++ enc_section large neg pl (flat_map sflatten sf) pad gmask bs tail in
  exists f evs, Decode inflate kind procs newOptions (enc ++ rest) = (Ok (f, zlen enc, rest), evs) /\
    (exists st, MWait.steps (lstep cpus ts) (lstart (map (fun e => playerOf (ev_layer e)) evs)) st /\ lended st) /\
    forall st, MWait.steps (lstep cpus ts) (lstart (map (fun e => playerOf (ev_layer e)) evs)) st -> lended st ->
    forall cpus' r' w0 w1, (1 <= cpus')%nat -> new w0 ->
    renderedPx ts (ldImages st) cpus' ts r' false (rootOf (ldCopied st) (f_layer f)) w0 w1 ->
    forall q p, tileOf ts r' q -> in_tile ts q p -> 0 <= MRect.px p -> 0 <= py p ->
    exists s t c, w1 q = Some (s, t) /\ (forall c', laid (square ts q) p None sf nothing c' <-> c' = c) /\ tile_at ts q t p = Some (stored (stored c)).
Proof. exact glass_shown. Qed.
Print Assumptions C70_composited.

(** ** C69 *)

(** If no folder passes through and no mask that is on has the default colour white, the pixel shown at a point
    does not depend on the size of the tiles, the number of workers, the order in which they
    ran, or the rectangle rendered. *)
Theorem C69_glass_partial :
  forall inflate kind procs h rsv cmd res neg pl sf pad gmask bs tail rest, (1 <= procs)%nat ->
  header_valid h -> h_mode h = 3 -> h_depth h = 8 -> zlen rsv = 6 -> zlen cmd < 4294967296 ->
  Forall rblock_valid res -> zlen (enc_rblocks res) < 4294967296 ->
  let large := h_version h =? 2 in
  section_valid inflate large neg 8 3 pl (flat_map sflatten sf) pad gmask bs tail ->
  Forall stree_valid sf -> glass_forest sf -> Forall steady_tree sf ->
  let enc := enc_config h rsv cmd res ++ enc_section large neg pl (flat_map sflatten sf) pad gmask bs tail in
  exists f evs, Decode inflate kind procs newOptions (enc ++ rest) = (Ok (f, zlen enc, rest), evs) /\
    forall p v v', 0 <= MRect.px p -> 0 <= py p -> shownBy f evs p v -> shownBy f evs p v' -> v = v'.
Proof. exact glass_size_free. Qed.
Print Assumptions C69_glass_partial.

(** *** A file of two pixels. From the bottom: a picture whose first pixel is half transparent, with the opacity 200; a
    layer multiplied, with the opacity 128, and clipped to it; a folder with the opacity 150 and a grey mask, with a
    picture in it. *)
Definition half : slayer := lay (ascii "norm") 200 0 SNone [] ((-1, PRaw [128; 255]) :: rgb [200; 10] [100; 20] [50; 30]).
Definition shade : slayer := lay (ascii "mul ") 128 1 SNone [] (rgb [51; 51] [255; 255] [102; 102]).
Definition pink : slayer := lay (ascii "norm") 180 0 SNone [] ((-1, PRaw [255; 64]) :: rgb [255; 255] [0; 0] [0; 0]).
Definition veil (mode m : bytes) : slayer :=
  SLayer ZR [(-2, PRaw m)] (ascii "norm") 150 0 0 0 (SShort (Rct 0 0 2 1) 0 0 None [0; 0]) [] [66] [0; 0]
    [IBlock [] false (ascii "lsct") (be 4 1 ++ ascii "8BIM" ++ mode)] [].
Definition glassy (mode : bytes) : list stree := [SLeaf half; SLeaf shade; SFolder divider (veil mode [100; 0]) [SLeaf pink]].

Lemma bytes_check d : forallb (fun b => (0 <=? b) && (b <? 256)) d = true -> bytes_ok d.
Proof. intros H. apply Forall_forall. intros b Hb. rewrite forallb_forall in H. specialize (H b Hb). unfold is_byte. lia. Qed.
Lemma lay_glass l d0 d1 d2 m : glass_mask l false -> is_byte (sl_opacity l) -> has_type l 0 -> leaf_mode l m ->
  chan_data l 8 0 = Some d0 -> chan_data l 8 1 = Some d1 -> chan_data l 8 2 = Some d2 ->
  forallb (fun b => (0 <=? b) && (b <? 256)) (d0 ++ d1 ++ d2 ++ match chan_data l 8 (-1) with Some da => da | None => [] end) = true -> glass_tree (SLeaf l).
Proof.
  intros Hm Ho T M E0 E1 E2 B. rewrite !forallb_app, !andb_true_iff in B. destruct B as (B0 & B1 & B2 & B3).
  apply glass_sleaf; [exact Ho|exact Hm|]. split; [exact T|]. split; [now exists m|]. split; [exists d0; split; [exact E0|now apply bytes_check]|].
  split; [exists d1; split; [exact E1|now apply bytes_check]|]. split; [exists d2; split; [exact E2|now apply bytes_check]|].
  destruct (chan_data l 8 (-1)); [now apply bytes_check|exact I].
Qed.
Lemma veil_norm m : folder_mode (veil (ascii "norm") m) (Some Normal).
Proof.
  exists (ascii "norm"). split; [|now left]. exists (be 4 1 ++ ascii "8BIM" ++ ascii "norm"), 1, (Some (ascii "norm")), 0. split; [reflexivity|]. split; [now apply div1|reflexivity].
Qed.
Lemma veil_pass m : folder_mode (veil (ascii "pass") m) None.
Proof.
  exists (ascii "pass"). split; [|reflexivity]. exists (be 4 1 ++ ascii "8BIM" ++ ascii "pass"), 1, (Some (ascii "pass")), 0. split; [reflexivity|]. split; [now apply div1|reflexivity].
Qed.
Lemma veil_mask mode m th : m = [100; 0] \/ m = [100; 200] -> glass_mask (veil mode m) th.
Proof.
  intros [-> | ->] _; (split; [reflexivity|]); (split; [eexists; split; [reflexivity|now apply bytes_check]|]); (split; [now left|]); right; exists (Pt 0 0), 100;
    (split; [cbn; lia|]); (split; [cbn; lia|]); (split; [reflexivity|]); (split; [eexists; split; reflexivity|discriminate]).
Qed.
Lemma no_mask l th : sl_mask l = SNone -> glass_mask l th.
Proof. intros H. unfold glass_mask, mask_on. rewrite H. discriminate. Qed.
Lemma one_is l : clips (SLeaf l) = false -> layers_grouped [SLeaf l] [(SLeaf l, [])].
Proof. intros H. apply (lg_base _ [] []); [exact H|constructor|exact I|constructor]. Qed.
Lemma one_groups l : clips (SLeaf l) = false -> glass_groups [SLeaf l].
Proof. intros H gs t cs G Hi. rewrite <- (lg_fun _ _ (one_is l H) _ G) in Hi. destruct Hi as [[= <- <-]|[]]. now left. Qed.
Lemma glassy_is mode : layers_grouped (glassy mode) [(SLeaf half, [SLeaf shade]); (SFolder divider (veil mode [100; 0]) [SLeaf pink], [])].
Proof. apply (lg_base _ [SLeaf shade]); [reflexivity|now constructor|reflexivity|]. apply (lg_base _ [] []); [reflexivity|constructor|exact I|constructor]. Qed.
Lemma glassy_glass mode fm : folder_mode (veil mode [100; 0]) fm -> glass_forest (glassy mode).
Proof.
  intros Hf. split.
  - repeat apply Forall_cons; try apply Forall_nil.
    + apply (lay_glass half [200; 10] [100; 20] [50; 30] Normal); [now apply no_mask|cbv; intuition discriminate|reflexivity|left; now left|reflexivity|reflexivity|reflexivity|reflexivity].
    + apply (lay_glass shade [51; 51] [255; 255] [102; 102] Multiply); [now apply no_mask|cbv; intuition discriminate|reflexivity|left; right; right; now left|reflexivity|reflexivity|reflexivity|reflexivity].
    + apply (glass_sfolder _ _ _ fm); [cbv; intuition discriminate|exact Hf|now apply veil_mask; left| |now apply one_groups]. constructor; [|constructor].
      apply (lay_glass pink [255; 255] [0; 0] [0; 0] Normal); [now apply no_mask|cbv; intuition discriminate|reflexivity|left; now left|reflexivity|reflexivity|reflexivity|reflexivity].
  - intros gs t cs G Hi. rewrite <- (lg_fun _ _ (glassy_is mode) _ G) in Hi. destruct Hi as [[= <- <-]|[[= <- <-]|[]]]; [right; now left|now left].
Qed.
Lemma glassy_valid mode : mode = ascii "norm" \/ mode = ascii "pass" ->
  section_valid noinflate false false 8 3 InPlace (flat_map sflatten (glassy mode)) [] [] [] [] /\ Forall stree_valid (glassy mode).
Proof.
  intros H. split.
  - split.
    + change (flat_map sflatten (glassy mode)) with [half; shade; divider; pink; veil mode [100; 0]].
      repeat apply Forall_cons; try apply Forall_nil; (apply slayer_check; [destruct H as [-> | ->]; vm_compute; reflexivity|exact I|]); try exact I.
      * exists 3, None, 0. exact div3.
      * exists 1, (Some mode), 0. apply div1. destruct H as [-> | ->]; reflexivity.
    + split; [reflexivity|]. split; [exact I|]. split; [reflexivity|]. split; [constructor|].
      split; [split; [apply no8b_ok; reflexivity|right; left; reflexivity]|]. destruct H as [-> | ->]; vm_compute; reflexivity.
  - repeat apply Forall_cons; try apply Forall_nil; try (apply (sleaf_valid _ 0); [reflexivity|lia|lia|lia]).
    apply (sfolder_valid _ _ _ 1); [exists None, 0; exact div3|exists (Some mode), 0; apply div1; destruct H as [-> | ->]; reflexivity|now left|].
    repeat apply Forall_cons; try apply Forall_nil. apply (sleaf_valid _ 0); [reflexivity|lia|lia|lia].
Qed.
Lemma pixel l p r g b a d0 d1 d2 : chan_data l 8 0 = Some d0 -> chan_data l 8 1 = Some d1 -> chan_data l 8 2 = Some d2 -> pt_in p (sl_rect l) = true ->
  let i := Z.to_nat ((py p - ry0 (sl_rect l)) * rdx (sl_rect l) + (MRect.px p - rx0 (sl_rect l))) in
  nth_error d0 i = Some r -> nth_error d1 i = Some g -> nth_error d2 i = Some b ->
  match chan_data l 8 (-1) with Some da => nth_error da i = Some a | None => a = 255 end -> leaf_value l p (if a =? 0 then nothing else Px r g b a).
Proof. intros E0 E1 E2 Hp i H0 H1 H2 H3. unfold leaf_value. rewrite Hp. exists d0, d1, d2, r, g, b, a. repeat (split; [assumption|]). reflexivity. Qed.
Lemma plain_image A p l op d s : leaf_value l p s -> sl_mask l = SNone -> image A p (SLeaf l) op d (stored s).
Proof. intros H N. eapply image_leaf; [exact H|]. unfold SGlass.masked, has_mask, mask_on. now rewrite N. Qed.

(** The hypotheses hold, for a folder of the mode normal and one that passes through; the pixels shown are those that the layers give. *)
Example C70_used :
  header_valid head8 /\ new w0 /\
  (forall mode, mode = ascii "norm" \/ mode = ascii "pass" ->
    section_valid noinflate false false 8 3 InPlace (flat_map sflatten (glassy mode)) [] [] [] [] /\ Forall stree_valid (glassy mode) /\ glass_forest (glassy mode)) /\
  showWith 1 (fileOf (glassy (ascii "norm"))) [Pt 0 0; Pt 1 0] = Some [Some [Px 163 67 22 123]; Some [Px 5 20 20 200]] /\
  showWith 2 (fileOf (glassy (ascii "norm"))) [Pt 0 0] = Some [Some [Px 163 67 22 123; Px 5 20 20 200; nothing; nothing]] /\
  showWith 2 (fileOf (glassy (ascii "pass"))) [Pt 0 0] = Some [Some [Px 159 70 24 138; Px 5 20 20 200; nothing; nothing]] /\
  (exists c, laid (square 2 (Pt 0 0)) (Pt 0 0) None (glassy (ascii "norm")) nothing c /\ stored (stored c) = Px 163 67 22 123) /\
  (exists c, laid (square 2 (Pt 0 0)) (Pt 0 0) None (glassy (ascii "pass")) nothing c /\ stored (stored c) = Px 159 70 24 138).
Proof.
  split; [unfold header_valid, dim_limit; cbn; lia|]. split; [intros q; eexists; reflexivity|]. split.
  { intros mode H. destruct (glassy_valid mode H) as [V T]. split; [exact V|]. split; [exact T|]. destruct H as [-> | ->]; [exact (glassy_glass _ _ (veil_norm _))|exact (glassy_glass _ _ (veil_pass _))]. }
  do 3 (split; [vm_compute; reflexivity|]).
  assert (P1 : exists d, put (square 2 (Pt 0 0)) (Pt 0 0) (SLeaf half) [SLeaf shade] 200 nothing d /\ d = Px 119 100 34 100).
  { eexists. split.
    - eapply put_over; [reflexivity|discriminate|left; now left| |].
      + apply plain_image; [|reflexivity]. eapply (pixel half (Pt 0 0) 200 100 50 128); reflexivity.
      + apply topped_group; [discriminate|reflexivity|]. eapply clips_next; [|apply clips_done]. eapply put_over; [reflexivity|discriminate|left; right; right; now left| |apply topped_alone; now left].
        apply plain_image; [|reflexivity]. eapply (pixel shade (Pt 0 0) 51 255 102 255); reflexivity.
    - vm_compute. reflexivity. }
  destruct P1 as (d1 & P1 & E1).
  split; eexists.
  - split.
    + eapply laid_groups; [exact (glassy_is _)|]. eapply heaped_cons; [exact P1|]. eapply heaped_cons; [|apply heaped_nil].
      eapply put_over; [reflexivity|discriminate|exact (veil_norm _)| |apply topped_alone; now left].
      eapply image_folder; [exact (veil_norm _)| |].
      * eapply laid_groups; [now apply one_is|]. eapply heaped_cons; [|apply heaped_nil]. eapply put_over; [reflexivity|discriminate|left; now left| |apply topped_alone; now left].
        apply plain_image; [|reflexivity]. eapply (pixel pink (Pt 0 0) 255 0 0 255); reflexivity.
      * exists 100. eexists. split; [eexists; split; reflexivity|]. split; [left; split; reflexivity|reflexivity].
    + rewrite E1. vm_compute. reflexivity.
  - split.
    + eapply laid_groups; [exact (glassy_is _)|]. eapply heaped_cons; [exact P1|]. eapply heaped_cons; [|apply heaped_nil].
      eapply put_through; [reflexivity|discriminate|exact (veil_pass _)| | |apply topped_alone; now left].
      * eapply touches_folder; [reflexivity|discriminate|exact (veil_pass _)|now apply one_is|now left|]. eapply (touches_leaf _ pink _ (Pt 0 0)); [reflexivity|discriminate|unfold square, in_tile; cbn; lia| |].
        -- eapply (pixel pink (Pt 0 0) 255 0 0 255); reflexivity.
        -- discriminate.
      * eapply image_through; [exact (veil_pass _)| |].
        -- eapply laid_groups; [now apply one_is|]. eapply heaped_cons; [|apply heaped_nil]. eapply put_over; [reflexivity|discriminate|left; now left| |apply topped_alone; now left].
           apply plain_image; [|reflexivity]. eapply (pixel pink (Pt 0 0) 255 0 0 255); reflexivity.
        -- exists 100. eexists. split; [eexists; split; reflexivity|]. split; [left; split; reflexivity|reflexivity].
    + rewrite E1. vm_compute. reflexivity.
Qed.
(** The tree with the folder of the mode normal is one of C69_glass_partial. *)
Example C69_glass_used : Forall steady_tree (glassy (ascii "norm")).
Proof.
  repeat apply Forall_cons; try apply Forall_nil; try (apply steady_sleaf; discriminate).
  apply steady_sfolder; [intros _; reflexivity| |repeat constructor; discriminate]. intros H. discriminate (folder_mode_fun _ _ _ H (veil_norm _)).
Qed.

(** ** C69: folders that pass through, and white masks *)

(** The property is false for all files. A pass-through folder with a mask lies over a half transparent
    picture, and the only picture in the folder covers the first pixel. With tiles of one
    pixel the second pixel has the alpha 128 of the picture; with tiles of two pixels, where the picture is also
    laid below itself, it has 178. *)
Definition half2 : slayer := lay (ascii "norm") 255 0 SNone [] ((-1, PRaw [255; 128]) :: rgb [200; 10] [100; 20] [50; 30]).
Definition spot : slayer := lay (ascii "norm") 180 0 SNone [] ((-1, PRaw [255; 0]) :: rgb [255; 255] [0; 0] [0; 0]).
Definition doubled : list stree := [SLeaf half2; SFolder divider (veil (ascii "pass") [100; 200]) [SLeaf spot]].
Theorem C69_masked_folder_refuted : exists sf f n rest evs p v v',
  section_valid noinflate false false 8 3 InPlace (flat_map sflatten sf) [] [] [] [] /\ Forall stree_valid sf /\ glass_forest sf /\
  Decode noinflate Plain 1 newOptions (fileOf sf) = (Ok (f, n, rest), evs) /\ shownBy f evs p v /\ shownBy f evs p v' /\ pa v = 128 /\ pa v' = 178.
Proof.
  destruct (shows_with 1 (fileOf doubled) [Pt 1 0] [[Px 10 20 30 128]] ltac:(lia)) as (f & n & rest & evs & ED & Sh); [vm_compute; reflexivity|].
  destruct (shows_with 2 (fileOf doubled) [Pt 0 0] [[Px 209 83 41 255; Px 10 20 30 178; nothing; nothing]] ltac:(lia)) as (f' & n' & rest' & evs' & ED' & Sh'); [vm_compute; reflexivity|].
  rewrite ED in ED'. injection ED' as <- <- <- <-.
  exists doubled, f, n, rest, evs, (Pt 1 0), (Px 10 20 30 128), (Px 10 20 30 178). split.
  { split.
    - change (flat_map sflatten doubled) with [half2; divider; spot; veil (ascii "pass") [100; 200]]. repeat apply Forall_cons; try apply Forall_nil; (apply slayer_check; [vm_compute; reflexivity|exact I|]); try exact I.
      + exists 3, None, 0. exact div3.
      + exists 1, (Some (ascii "pass")), 0. now apply div1.
    - split; [reflexivity|]. split; [exact I|]. split; [reflexivity|]. split; [constructor|].
      split; [split; [apply no8b_ok; reflexivity|right; left; reflexivity]|]. vm_compute. reflexivity. }
  split. { repeat apply Forall_cons; try apply Forall_nil; try (apply (sleaf_valid _ 0); [reflexivity|lia|lia|lia]).
    apply (sfolder_valid _ _ _ 1); [exists None, 0; exact div3|exists (Some (ascii "pass")), 0; now apply div1|now left|].
    repeat apply Forall_cons; try apply Forall_nil. apply (sleaf_valid _ 0); [reflexivity|lia|lia|lia]. }
  split. { split.
    - repeat apply Forall_cons; try apply Forall_nil.
      + apply (lay_glass half2 [200; 10] [100; 20] [50; 30] Normal); [now apply no_mask|cbv; intuition discriminate|reflexivity|left; now left|reflexivity|reflexivity|reflexivity|reflexivity].
      + apply (glass_sfolder _ _ _ None); [cbv; intuition discriminate|exact (veil_pass _)|now apply veil_mask; right| |now apply one_groups]. constructor; [|constructor].
        apply (lay_glass spot [255; 255] [0; 0] [0; 0] Normal); [now apply no_mask|cbv; intuition discriminate|reflexivity|left; now left|reflexivity|reflexivity|reflexivity|reflexivity].
    - assert (G0 : layers_grouped doubled [(SLeaf half2, []); (SFolder divider (veil (ascii "pass") [100; 200]) [SLeaf spot], [])]).
      { apply (lg_base _ []); [reflexivity|constructor|reflexivity|]. apply (lg_base _ [] []); [reflexivity|constructor|exact I|constructor]. }
      intros gs t cs G Hi. rewrite <- (lg_fun _ _ G0 _ G) in Hi. destruct Hi as [[= <- <-]|[[= <- <-]|[]]]; now left. }
  split; [exact ED|]. split; [|split; [|split; reflexivity]].
  - apply (Sh (Pt 1 0) [Px 10 20 30 128]); [now left| | |reflexivity]; [exists 1, 0; repeat split; cbn; lia|unfold in_tile; cbn; lia].
  - apply (Sh' (Pt 0 0) [Px 209 83 41 255; Px 10 20 30 178; nothing; nothing]); [now left| | |reflexivity]; [exists 0, 0; repeat split; cbn; lia|unfold in_tile; cbn; lia].
Qed.
Print Assumptions C69_masked_folder_refuted.

(** Nor is it true for all masks: a picture with a faint pixel and a mask whose default colour is white. *)
Definition faint : slayer := lay (ascii "norm") 255 0 (SShort (Rct 0 0 2 1) 255 0 None [0; 0]) [] ((-1, PRaw [10; 255]) :: (-2, PRaw [255; 100]) :: rgb [8; 10] [0; 20] [0; 30]).
Theorem C69_white_mask_refuted : exists l f n rest evs p v v',
  section_valid noinflate false false 8 3 InPlace [l] [] [] [] [] /\ Forall stree_valid [SLeaf l] /\ glass_forest [SLeaf l] /\
  Decode noinflate Plain 1 newOptions (fileOf [SLeaf l]) = (Ok (f, n, rest), evs) /\ shownBy f evs p v /\ shownBy f evs p v' /\ v <> v'.
Proof.
  destruct (shows_with 1 (fileOf [SLeaf faint]) [Pt 0 0] [[Px 5 0 0 10]] ltac:(lia)) as (f & n & rest & evs & ED & Sh); [vm_compute; reflexivity|].
  destruct (shows_with 2 (fileOf [SLeaf faint]) [Pt 0 0] [[Px 4 0 0 10; Px 10 20 30 100; nothing; nothing]] ltac:(lia)) as (f' & n' & rest' & evs' & ED' & Sh'); [vm_compute; reflexivity|].
  rewrite ED in ED'. injection ED' as <- <- <- <-.
  exists faint, f, n, rest, evs, (Pt 0 0), (Px 5 0 0 10), (Px 4 0 0 10). split.
  { split.
    - repeat apply Forall_cons; try apply Forall_nil. apply slayer_check; [vm_compute; reflexivity|exact I|exact I].
    - split; [reflexivity|]. split; [exact I|]. split; [reflexivity|]. split; [constructor|].
      split; [split; [apply no8b_ok; reflexivity|right; left; reflexivity]|]. vm_compute. reflexivity. }
  split. { repeat apply Forall_cons; try apply Forall_nil. apply (sleaf_valid _ 0); [reflexivity|lia|lia|lia]. }
  split. { split; [|now apply one_groups]. constructor; [|constructor].
    apply (lay_glass faint [8; 10] [0; 20] [0; 30] Normal); [|cbv; intuition discriminate|reflexivity|left; now left|reflexivity|reflexivity|reflexivity|reflexivity].
    intros _. split; [reflexivity|]. split; [eexists; split; [reflexivity|now apply bytes_check]|]. split; [now right|]. left. split; [reflexivity|now right]. }
  split; [exact ED|]. split; [|split; [|discriminate]].
  - apply (Sh (Pt 0 0) [Px 5 0 0 10]); [now left| | |reflexivity]; [exists 0, 0; repeat split; cbn; lia|unfold in_tile; cbn; lia].
  - apply (Sh' (Pt 0 0) [Px 4 0 0 10; Px 10 20 30 100; nothing; nothing]); [now left| | |reflexivity]; [exists 0, 0; repeat split; cbn; lia|unfold in_tile; cbn; lia].
Qed.
Print Assumptions C69_white_mask_refuted.
