(** Theorems: from the bytes of a file with masks and clipping groups to the pixels of the
    renderer, C68; the picture does not depend on the size of the tiles, C69. *)
From Coq Require Import String.
From Verif Require Import Base SUtil SConfig MRect MPicker MConfig MReader MLayer MApi SCompress SRecord SLayer XRecord
  MSched MBlend MPorter SBlend MWait MRender SRender MRenderAll SRenderAll MRenderPx PRenderPx
  MDraw MTile STile MLoad SLoad MPipe SPipe SSharp PPipe5 XPipe PSharp3 PSharp4 TPipe.
Close Scope string_scope.
Open Scope Z_scope.

(** ** C68 *)

(** An RGB file of 8 bits with any tree of folders and layers with pixels that are opaque or
    invisible, with opacities 0 and 255, masks of black and white, and clipping groups, in any of the blend
    modes, in any compression, PSD or PSB: Decode reads it, the loader has an execution that
    ends, and after every execution of the loader that ends, every Render with any number of
    workers shows at every point of the image what painting the groups one over the other
    gives; the painting is the only one. *)
Theorem C68_painted_partial :
  forall inflate kind procs h rsv cmd res neg pl sf pad gmask bs tail rest cpus ts, (1 <= procs)%nat -> (1 <= cpus)%nat -> 0 < ts ->
  header_valid h -> h_mode h = 3 -> h_depth h = 8 -> zlen rsv = 6 -> zlen cmd < 4294967296 ->
  Forall rblock_valid res -> zlen (enc_rblocks res) < 4294967296 ->
  let large := h_version h =? 2 in
  section_valid inflate large neg 8 3 pl (flat_map sflatten sf) pad gmask bs tail ->
  Forall stree_valid sf -> sharp_forest sf ->
  let enc := enc_config h rsv cmd res ++ enc_section large neg pl (flat_map sflatten sf) pad gmask bs tail in
  exists f evs, Decode inflate kind procs newOptions (enc ++ rest) = (Ok (f, zlen enc, rest), evs) /\
    (exists st, MWait.steps (lstep cpus ts) (lstart (map (fun e => playerOf (ev_layer e)) evs)) st /\ lended st) /\
    forall st, MWait.steps (lstep cpus ts) (lstart (map (fun e => playerOf (ev_layer e)) evs)) st -> lended st ->
    forall cpus' r' w0 w1, (1 <= cpus')%nat -> new w0 ->
    renderedPx ts (ldImages st) cpus' ts r' false (rootOf (ldCopied st) (f_layer f)) w0 w1 ->
    forall q p, tileOf ts r' q -> in_tile ts q p -> 0 <= MRect.px p -> 0 <= py p ->
    exists s t c, w1 q = Some (s, t) /\ (forall c', painted p sf None c' <-> c' = c) /\ tile_at ts q t p = Some (shown_as c).
Proof. exact sharp_shown. Qed.
Print Assumptions C68_painted_partial.

(** ** C69 *)

(** For these files the pixel shown at a point does not depend on the size of the tiles, the
    number of workers, the order in which they ran, or the rectangle rendered. *)
Theorem C69_tile_size_partial :
  forall inflate kind procs h rsv cmd res neg pl sf pad gmask bs tail rest, (1 <= procs)%nat ->
  header_valid h -> h_mode h = 3 -> h_depth h = 8 -> zlen rsv = 6 -> zlen cmd < 4294967296 ->
  Forall rblock_valid res -> zlen (enc_rblocks res) < 4294967296 ->
  let large := h_version h =? 2 in
  section_valid inflate large neg 8 3 pl (flat_map sflatten sf) pad gmask bs tail ->
  Forall stree_valid sf -> sharp_forest sf ->
  let enc := enc_config h rsv cmd res ++ enc_section large neg pl (flat_map sflatten sf) pad gmask bs tail in
  exists f evs, Decode inflate kind procs newOptions (enc ++ rest) = (Ok (f, zlen enc, rest), evs) /\
    forall p v v', 0 <= MRect.px p -> 0 <= py p -> shownBy f evs p v -> shownBy f evs p v' -> v = v'.
Proof. exact tile_size_free. Qed.
Print Assumptions C69_tile_size_partial.

(** *** A file of two pixels. From the bottom: a clipping layer without a base; a picture whose second
    pixel is invisible; a layer multiplied and clipped to it; a folder whose mask hides the first
    pixel, with a picture in it; a picture of opacity 0. *)
Definition lay (mode : bytes) (opacity clip : Z) (m : smask) (info : list iblock) (chs : list (Z * payload)) : slayer :=
  SLayer (Rct 0 0 2 1) chs mode opacity clip 0 0 m [] [65] [0; 0] info [].
Definition rgb (r g b : bytes) : list (Z * payload) := [(0, PRaw r); (1, PRaw g); (2, PRaw b)].
Definition lost : slayer := lay (ascii "norm") 255 1 SNone [] (rgb [9; 9] [9; 9] [9; 9]).
Definition base : slayer := lay (ascii "norm") 255 0 SNone [] ((-1, PRaw [255; 0]) :: rgb [200; 10] [100; 20] [50; 30]).
Definition tint : slayer := lay (ascii "mul ") 255 1 SNone [] (rgb [51; 51] [255; 255] [102; 102]).
Definition red : slayer := lay (ascii "norm") 255 0 SNone [] (rgb [255; 255] [0; 0] [0; 0]).
Definition ghost : slayer := lay (ascii "norm") 0 0 SNone [] (rgb [7; 7] [7; 7] [7; 7]).
Definition masked : slayer :=
  SLayer ZR [(-2, PRaw [0; 255])] (ascii "norm") 255 0 0 0 (SShort (Rct 0 0 2 1) 0 0 None [0; 0]) [] [66] [0; 0]
    [IBlock [] false (ascii "lsct") (be 4 1 ++ ascii "8BIM" ++ ascii "norm")] [].
Definition groups : list stree := [SLeaf lost; SLeaf base; SLeaf tint; SFolder divider masked [SLeaf red]; SLeaf ghost].
Definition fileOf (sf : list stree) : bytes := enc_config head8 (repeat 0 6%nat) [] [] ++ enc_section false false InPlace (flat_map sflatten sf) [] [] [] [].

(** Load the file and render it with tiles of some size. *)
Definition showWith (ts : Z) (file : bytes) (qs : list point) : option (list (option tile)) :=
  match Decode noinflate Plain 1 newOptions file with
  | (Ok (f, _, _), evs) =>
      match loadSeq ts (map (fun e => playerOf (ev_layer e)) evs) with
      | Some st =>
          let n := Z.to_nat (ts * ts) in
          let w1 := seqRender (zeroPx n) MRenderPx.copyPx blendPx destInMPx destOutMPx destInPx destOverPx (clearPx n) removeAlphaPx
            (canvasTile (ldImages st)) (maskTile (ldImages st)) 1 ts (Rct 0 0 2 1) false (rootOf (ldCopied st) (f_layer f)) w0 in
          Some (map (fun q => option_map snd (w1 q)) qs)
      | None => None
      end
  | _ => None
  end.

Lemma shows_with ts file qs tiles : 0 < ts -> showWith ts file qs = Some (map Some tiles) -> exists f n rest evs, Decode noinflate Plain 1 newOptions file = (Ok (f, n, rest), evs) /\
  forall q t p v, In (q, t) (combine qs tiles) -> tileOf ts (Rct 0 0 2 1) q -> in_tile ts q p -> tile_at ts q t p = Some v -> shownBy f evs p v.
Proof.
  intros Ht. unfold showWith. destruct (Decode _ _ _ _ file) as [[[[f n] rest]| | |] evs]; try discriminate. destruct (loadSeq ts _) as [st|] eqn:E; [|discriminate].
  destruct (loadSeq_runs _ _ _ E) as [S L]. cbv zeta. set (w1 := seqRender _ _ _ _ _ _ _ _ _ _ _ _ _ _ _ _ _). intros [= H]. exists f, n, rest, evs. split; [reflexivity|].
  intros q t p v Hi Hq Hp Hv. assert (G : option_map snd (w1 q) = Some t).
  { clear -H Hi. revert tiles H Hi. induction qs as [|q' qs IH]; intros [|u us] H Hi; cbn [combine In map] in *; try easy. injection H as H1 H2. destruct Hi as [[= <- <-]|Hi]; [exact H1|eauto]. }
  destruct (w1 q) as [[s t']|] eqn:W; [|discriminate]. injection G as ->.
  exists 1%nat, 1%nat, ts, st, (Rct 0 0 2 1), w0, w1, q, s, t. split; [lia|]. split; [lia|]. split; [exact Ht|]. split; [exact S|]. split; [exact L|].
  split; [intros x; eexists; reflexivity|]. split; [apply seqRender_rendered|]. auto.
Qed.

Lemma div3 : divider_is (be 4 3) 3 None 0.
Proof. split; [lia|]. left. split; [reflexivity|]. split; [reflexivity|]. exists []. split; reflexivity. Qed.
Lemma div1 key : zlen key = 4 -> divider_is (be 4 1 ++ ascii "8BIM" ++ key) 1 (Some key) 0.
Proof. intros H. split; [lia|]. right. left. exists key, []. rewrite app_nil_r. repeat split; auto. Qed.
Lemma groups_valid : Forall (slayer_valid noinflate false 8 3) (flat_map sflatten groups) /\ Forall stree_valid groups.
Proof.
  split.
  - change (flat_map sflatten groups) with [lost; base; tint; divider; red; masked; ghost].
    repeat apply Forall_cons; try apply Forall_nil; (apply slayer_check; [vm_compute; reflexivity|exact I|]); try exact I.
    + exists 3, None, 0. exact div3.
    + exists 1, (Some (ascii "norm")), 0. now apply div1.
  - repeat apply Forall_cons; try apply Forall_nil; try (apply (sleaf_valid _ 0); [reflexivity|lia|lia|lia]).
    apply (sfolder_valid _ _ _ 1); [exists None, 0; exact div3|exists (Some (ascii "norm")), 0; now apply div1|now left|].
    repeat apply Forall_cons; try apply Forall_nil. apply (sleaf_valid _ 0); [reflexivity|lia|lia|lia].
Qed.
Lemma groups_are : layers_grouped groups [(SLeaf base, [SLeaf tint]); (SFolder divider masked [SLeaf red], []); (SLeaf ghost, [])].
Proof.
  apply lg_alone; [reflexivity|]. apply (lg_base _ [SLeaf tint]); [reflexivity|now constructor|reflexivity|].
  apply (lg_base _ []); [reflexivity|constructor|reflexivity|]. apply (lg_base _ [] []); [reflexivity|constructor|exact I|constructor].
Qed.
Lemma red_is : layers_grouped [SLeaf red] [(SLeaf red, [])].
Proof. apply (lg_base _ [] []); [reflexivity|constructor|exact I|constructor]. Qed.
Lemma masked_mode : folder_mode masked (Some Normal).
Proof.
  exists (ascii "norm"). split; [|now left]. exists (be 4 1 ++ ascii "8BIM" ++ ascii "norm"), 1, (Some (ascii "norm")), 0. split; [reflexivity|]. split; [now apply div1|reflexivity].
Qed.
Lemma lay_sharp l d0 d1 d2 m : sl_mask l = SNone -> sl_opacity l = 0 \/ sl_opacity l = 255 -> has_type l 0 -> leaf_mode l m ->
  chan_data l 8 0 = Some d0 -> chan_data l 8 1 = Some d1 -> chan_data l 8 2 = Some d2 ->
  forallb (fun b => (0 <=? b) && (b <? 256)) (d0 ++ d1 ++ d2) = true ->
  match chan_data l 8 (-1) with Some da => Forall (fun a => a = 0 \/ a = 255) da | None => True end -> sharp_tree (SLeaf l).
Proof.
  intros Hm Ho T M E0 E1 E2 B A. assert (Bs : forall d, forallb (fun b => (0 <=? b) && (b <? 256)) d = true -> bytes_ok d).
  { intros d H. apply Forall_forall. intros b Hb. rewrite forallb_forall in H. specialize (H b Hb). unfold is_byte. lia. }
  rewrite !forallb_app, !andb_true_iff in B. destruct B as (B0 & B1 & B2).
  apply sharp_sleaf; [split; [exact Ho|unfold sharp_mask, mask_on; rewrite Hm; discriminate]|]. split; [exact T|]. split; [now exists m|]. repeat split; [exists d0|exists d1|exists d2|]; auto.
Qed.
Lemma groups_sharp : sharp_forest groups.
Proof.
  split.
  - repeat apply Forall_cons; try apply Forall_nil.
    + apply (lay_sharp lost [9; 9] [9; 9] [9; 9] Normal); [reflexivity|now right|reflexivity|left; now left|reflexivity|reflexivity|reflexivity|reflexivity|exact I].
    + apply (lay_sharp base [200; 10] [100; 20] [50; 30] Normal); [reflexivity|now right|reflexivity|left; now left|reflexivity|reflexivity|reflexivity|reflexivity|repeat (constructor; [lia|]); constructor].
    + apply (lay_sharp tint [51; 51] [255; 255] [102; 102] Multiply); [reflexivity|now right|reflexivity|left; right; right; now left|reflexivity|reflexivity|reflexivity|reflexivity|exact I].
    + apply (sharp_sfolder _ _ _ (Some Normal)); [|exact masked_mode| |].
      * split; [now right|]. intros _. split; [reflexivity|]. split; [exists [0; 255]; split; [reflexivity|repeat (constructor; [lia|]); constructor]|]. right. split; [reflexivity|].
        exists (Pt 1 0). split; [cbn; lia|]. split; [cbn; lia|]. split; [reflexivity|]. exists [0; 255]. split; reflexivity.
      * constructor; [|constructor]. apply (lay_sharp red [255; 255] [0; 0] [0; 0] Normal); [reflexivity|now right|reflexivity|left; now left|reflexivity|reflexivity|reflexivity|reflexivity|exact I].
      * intros gs t cs H Hi. rewrite <- (lg_fun _ _ red_is _ H) in Hi. destruct Hi as [[= <- <-]|[]]. now left.
    + apply (lay_sharp ghost [7; 7] [7; 7] [7; 7] Normal); [reflexivity|now left|reflexivity|left; now left|reflexivity|reflexivity|reflexivity|reflexivity|exact I].
  - intros gs t cs H Hi. rewrite <- (lg_fun _ _ groups_are _ H) in Hi. destruct Hi as [[= <- <-]|[[= <- <-]|[[= <- <-]|[]]]]; [right; split; [reflexivity|intros []]|now left|now left].
Qed.
(** The hypotheses hold. The first pixel is the product of the base and the layer clipped to it; the
    second one is red from the folder. *)
Example C68_used :
  header_valid head8 /\ section_valid noinflate false false 8 3 InPlace (flat_map sflatten groups) [] [] [] [] /\
  Forall stree_valid groups /\ sharp_forest groups /\ new w0 /\
  showWith 1 (fileOf groups) [Pt 0 0; Pt 1 0] = Some [Some [Px 40 100 20 255]; Some [Px 255 0 0 255]] /\
  showWith 2 (fileOf groups) [Pt 0 0] = Some [Some [Px 40 100 20 255; Px 255 0 0 255; Px 0 0 0 0; Px 0 0 0 0]] /\
  painted (Pt 0 0) groups None (Some (Px 40 100 20 255)) /\ painted (Pt 1 0) groups None (Some (Px 255 0 0 255)).
Proof.
  destruct groups_valid as [V T]. split; [unfold header_valid, dim_limit; cbn; lia|]. split.
  { split; [exact V|]. split; [reflexivity|]. split; [exact I|]. split; [reflexivity|]. split; [constructor|].
    split; [split; [apply no8b_ok; reflexivity|right; left; reflexivity]|]. vm_compute. reflexivity. }
  split; [exact T|]. split; [exact groups_sharp|]. split; [intros q; eexists; reflexivity|]. split; [vm_compute; reflexivity|]. split; [vm_compute; reflexivity|].
  assert (P : forall p s1 s1' b, picture p (SLeaf base) None s1 -> clipped p [SLeaf tint] s1 s1' -> leaf_px red p (Some (Px 255 0 0 255)) -> mask_shows masked p b ->
    painted p groups None (over Normal (if b then Some (Px 255 0 0 255) else None) (over Normal s1' None))).
  { intros p s1 s1' b H1 H2 H3 H4. eapply painted_groups; [exact groups_are|]. eapply stacked_cons; [eapply placed_over; [reflexivity|left; now left|exact H1|exact H2]|].
    eapply stacked_cons; [eapply placed_over; [reflexivity|exact masked_mode| |]|eapply stacked_cons; [apply placed_unseen; reflexivity|constructor]].
    - eapply picture_folder; [exact masked_mode| |exact H4]. eapply painted_groups; [exact red_is|]. eapply stacked_cons; [|constructor].
      apply (placed_over p (SLeaf red) [] Normal None (Some (Px 255 0 0 255)) (Some (Px 255 0 0 255))); [reflexivity|left; now left| |constructor].
      exact (picture_leaf p red None (Some (Px 255 0 0 255)) true H3 eq_refl).
    - destruct b; constructor. }
  split.
  - apply (P (Pt 0 0) (Some (Px 200 100 50 255)) (Some (Px 40 100 20 255)) false); cbn.
    + apply (picture_leaf (Pt 0 0) base None (Some (Px 200 100 50 255)) true); [|reflexivity]. exists [200; 10], [100; 20], [50; 30], 200, 100, 50, 255. repeat split.
    + eapply clipped_next; [|constructor]. apply (placed_over (Pt 0 0) (SLeaf tint) [] Multiply (Some (Px 200 100 50 255)) (Some (Px 51 255 102 255)) (Some (Px 51 255 102 255))); [reflexivity|left; right; right; now left| |constructor].
      apply (picture_leaf (Pt 0 0) tint _ (Some (Px 51 255 102 255)) true); [|reflexivity]. exists [51; 51], [255; 255], [102; 102], 51, 255, 102, 255. repeat split.
    + exists [255; 255], [0; 0], [0; 0], 255, 0, 0, 255. repeat split.
    + exists 0. split; [|reflexivity]. exists [0; 255]. split; reflexivity.
  - apply (P (Pt 1 0) None None true); cbn.
    + apply (picture_leaf (Pt 1 0) base None None true); [|reflexivity]. exists [200; 10], [100; 20], [50; 30], 10, 20, 30, 0. repeat split.
    + constructor.
    + exists [255; 255], [0; 0], [0; 0], 255, 0, 0, 255. repeat split.
    + exists 255. split; [|reflexivity]. exists [0; 255]. split; reflexivity.
Qed.

(** ** C68: groups that are not blended as groups *)

(** When "blend clipped layers as group" is off for the base ("clbl" is 0), the layers clipped to
    it are not drawn at all: an opaque, visible layer of the mode normal at the top of the file, clipped to
    an opaque picture, is not seen. *)
Definition open_base : slayer := lay (ascii "norm") 255 0 SNone [IBlock [] false (ascii "clbl") [0; 0; 0; 0]] (rgb [200; 10] [100; 20] [50; 30]).
Definition top : slayer := lay (ascii "norm") 255 1 SNone [] (rgb [1; 4] [2; 5] [3; 6]).
Definition opens : list stree := [SLeaf open_base; SLeaf top].
Definition solid (l : slayer) (p : point) (c : px) : Prop := unseen l = false /\ sl_opacity l = 255 /\ leaf_mode l Normal /\ mask_on l = false /\ leaf_px l p (Some c).
Theorem C68_open_groups_refuted : exists b t p cb ct f n rest evs,
  section_valid noinflate false false 8 3 InPlace [b; t] [] [] [] [] /\ Forall stree_valid [SLeaf b; SLeaf t] /\ Forall sharp_tree [SLeaf b; SLeaf t] /\
  solid b p cb /\ solid t p ct /\ clips (SLeaf b) = false /\ clips (SLeaf t) = true /\
  Decode noinflate Plain 1 newOptions (fileOf [SLeaf b; SLeaf t]) = (Ok (f, n, rest), evs) /\ shownBy f evs p cb /\ cb <> ct.
Proof.
  destruct (shows_with 1 (fileOf opens) [Pt 0 0] [[Px 200 100 50 255]] ltac:(lia)) as (f & n & rest & evs & ED & Sh); [vm_compute; reflexivity|].
  exists open_base, top, (Pt 0 0), (Px 200 100 50 255), (Px 1 2 3 255), f, n, rest, evs. split.
  { split; [repeat apply Forall_cons; try apply Forall_nil; apply slayer_check; try exact I; vm_compute; reflexivity|]. split; [reflexivity|]. split; [exact I|]. split; [reflexivity|]. split; [constructor|].
    split; [split; [apply no8b_ok; reflexivity|right; left; reflexivity]|]. vm_compute. reflexivity. }
  split; [repeat apply Forall_cons; try apply Forall_nil; (apply (sleaf_valid _ 0); [reflexivity|lia|lia|lia])|].
  split. { repeat apply Forall_cons; try apply Forall_nil.
    - apply (lay_sharp open_base [200; 10] [100; 20] [50; 30] Normal); [reflexivity|now right|reflexivity|left; now left|reflexivity|reflexivity|reflexivity|reflexivity|exact I].
    - apply (lay_sharp top [1; 4] [2; 5] [3; 6] Normal); [reflexivity|now right|reflexivity|left; now left|reflexivity|reflexivity|reflexivity|reflexivity|exact I]. }
  split. { split; [reflexivity|]. split; [reflexivity|]. split; [left; now left|]. split; [reflexivity|]. exists [200; 10], [100; 20], [50; 30], 200, 100, 50, 255. repeat split. }
  split. { split; [reflexivity|]. split; [reflexivity|]. split; [left; now left|]. split; [reflexivity|]. exists [1; 4], [2; 5], [3; 6], 1, 2, 3, 255. repeat split. }
  split; [reflexivity|]. split; [reflexivity|]. split; [exact ED|]. split; [|discriminate].
  apply (Sh (Pt 0 0) [Px 200 100 50 255]); [now left| | |reflexivity].
  - exists 0, 0. repeat split; cbn; lia.
  - unfold in_tile. cbn. lia.
Qed.
Print Assumptions C68_open_groups_refuted.

(** ** C69: clipping to folders that pass through *)

(** The property is false for all files: a layer is clipped to a pass-through folder whose only picture covers
    the first pixel. Rendered with tiles of one pixel, the clipped layer is not seen at the second
    pixel; with tiles of two pixels it covers it. *)
Definition dot : slayer := lay (ascii "norm") 255 0 SNone [] ((-1, PRaw [255; 0]) :: rgb [200; 10] [100; 20] [50; 30]).
Definition ground : slayer := lay (ascii "norm") 255 0 SNone [] (rgb [70; 70] [80; 80] [90; 90]).
Definition through : list stree := [SLeaf ground; SFolder divider folder [SLeaf dot]; SLeaf top].
Theorem C69_through_refuted : exists sf f n rest evs p v v',
  section_valid noinflate false false 8 3 InPlace (flat_map sflatten sf) [] [] [] [] /\ Forall stree_valid sf /\ Forall sharp_tree sf /\
  Decode noinflate Plain 1 newOptions (fileOf sf) = (Ok (f, n, rest), evs) /\ shownBy f evs p v /\ shownBy f evs p v' /\ v <> v'.
Proof.
  destruct (shows_with 1 (fileOf through) [Pt 1 0] [[Px 70 80 90 255]] ltac:(lia)) as (f & n & rest & evs & ED & Sh); [vm_compute; reflexivity|].
  destruct (shows_with 2 (fileOf through) [Pt 0 0] [[Px 1 2 3 255; Px 4 5 6 255; Px 0 0 0 0; Px 0 0 0 0]] ltac:(lia)) as (f' & n' & rest' & evs' & ED' & Sh'); [vm_compute; reflexivity|].
  rewrite ED in ED'. injection ED' as <- <- <- <-.
  exists through, f, n, rest, evs, (Pt 1 0), (Px 70 80 90 255), (Px 4 5 6 255). split.
  { split.
    - change (flat_map sflatten through) with [ground; divider; dot; folder; top]. repeat apply Forall_cons; try apply Forall_nil; (apply slayer_check; [vm_compute; reflexivity|exact I|]); try exact I.
      + exists 3, None, 0. exact div3.
      + exists 1, (Some (ascii "pass")), 0. now apply div1.
    - split; [reflexivity|]. split; [exact I|]. split; [reflexivity|]. split; [constructor|].
      split; [split; [apply no8b_ok; reflexivity|right; left; reflexivity]|]. vm_compute. reflexivity. }
  split. { repeat apply Forall_cons; try apply Forall_nil; try (apply (sleaf_valid _ 0); [reflexivity|lia|lia|lia]).
    apply (sfolder_valid _ _ _ 1); [exists None, 0; exact div3|exists (Some (ascii "pass")), 0; now apply div1|now left|].
    repeat apply Forall_cons; try apply Forall_nil. apply (sleaf_valid _ 0); [reflexivity|lia|lia|lia]. }
  split. { repeat apply Forall_cons; try apply Forall_nil.
    - apply (lay_sharp ground [70; 70] [80; 80] [90; 90] Normal); [reflexivity|now right|reflexivity|left; now left|reflexivity|reflexivity|reflexivity|reflexivity|exact I].
    - apply (sharp_sfolder _ _ _ None).
      + split; [now right|discriminate].
      + exists (ascii "pass"). split; [|reflexivity]. exists (be 4 1 ++ ascii "8BIM" ++ ascii "pass"), 1, (Some (ascii "pass")), 0. split; [reflexivity|]. split; [now apply div1|reflexivity].
      + constructor; [|constructor]. apply (lay_sharp dot [200; 10] [100; 20] [50; 30] Normal); [reflexivity|now right|reflexivity|left; now left|reflexivity|reflexivity|reflexivity|reflexivity|repeat (constructor; [lia|]); constructor].
      + assert (Dt : layers_grouped [SLeaf dot] [(SLeaf dot, [])]) by (apply (lg_base _ [] []); [reflexivity|constructor|exact I|constructor]).
        intros gs t cs H Hi. rewrite <- (lg_fun _ _ Dt _ H) in Hi. destruct Hi as [[= <- <-]|[]]. now left.
    - apply (lay_sharp top [1; 4] [2; 5] [3; 6] Normal); [reflexivity|now right|reflexivity|left; now left|reflexivity|reflexivity|reflexivity|reflexivity|exact I]. }
  split; [exact ED|]. split; [|split; [|discriminate]].
  - apply (Sh (Pt 1 0) [Px 70 80 90 255]); [now left| | |reflexivity]; [exists 1, 0; repeat split; cbn; lia|unfold in_tile; cbn; lia].
  - apply (Sh' (Pt 0 0) [Px 1 2 3 255; Px 4 5 6 255; Px 0 0 0 0; Px 0 0 0 0]); [now left| | |reflexivity]; [exists 0, 0; repeat split; cbn; lia|unfold in_tile; cbn; lia].
Qed.
Print Assumptions C69_through_refuted.
