(** Theorems: an opaque layer hides what is below it, C92. *)
From Coq Require Import String QArith.
From Verif Require Import Base SUtil SConfig MRect MPicker MConfig MReader MLayer MApi SCompress SRecord SLayer XRecord
  MSched MBlend MPorter SBlend MWait MRender SRender MRenderAll SRenderAll MRenderPx PRenderPx
  MDraw MTile STile MLoad SLoad MPipe SPipe SSharp PPipe5 XPipe PSharp3 PSharp4 TPipe TSharp PPipe4 SGlass PGlass4 PTop PCover TGlass SFrame STidy PTidy SDissolve PDissolve TCover TTidy TDissolve SBelow PBelow.
Close Scope string_scope.
Open Scope Z_scope.

(** ** C92 *)

(** Two RGB files of 8 bits as in C70. From a layer (or isolated folder) of the mode normal and the full opacity on, both have the same layers; below it they
    may have entirely different ones. The layer may also be in pass-through folders without masks and of the full opacity, and then there may be different layers
    below each of them too; and all this may be in isolated folders. Where the picture of the layer, with its mask and what is clipped to it, is opaque, both files show the
    same pixel if they are rendered with tiles of the same size. *)
Theorem C92_below :
  forall inflate kind procs h rsv cmd res neg pl sf pad gmask bs tail rest inflate' kind' procs' h' rsv' cmd' res' neg' pl' sf' pad' gmask' bs' tail' rest' cpus cpus1 ts,
  (1 <= procs)%nat -> (1 <= procs')%nat -> (1 <= cpus)%nat -> (1 <= cpus1)%nat -> 0 < ts ->
  header_valid h -> h_mode h = 3 -> h_depth h = 8 -> zlen rsv = 6 -> zlen cmd < 4294967296 ->
  Forall rblock_valid res -> zlen (enc_rblocks res) < 4294967296 ->
  header_valid h' -> h_mode h' = 3 -> h_depth h' = 8 -> zlen rsv' = 6 -> zlen cmd' < 4294967296 ->
  Forall rblock_valid res' -> zlen (enc_rblocks res') < 4294967296 ->
  let large := h_version h =? 2 in let large' := h_version h' =? 2 in
  section_valid inflate large neg 8 3 pl (flat_map sflatten sf) pad gmask bs tail -> Forall stree_valid sf -> glass_forest sf ->
  section_valid inflate' large' neg' 8 3 pl' (flat_map sflatten sf') pad' gmask' bs' tail' -> Forall stree_valid sf' -> glass_forest sf' ->
  let enc := enc_config h rsv cmd res ++ enc_section large neg pl (flat_map sflatten sf) pad gmask bs tail in
  let enc' := enc_config h' rsv' cmd' res' ++ enc_section large' neg' pl' (flat_map sflatten sf') pad' gmask' bs' tail' in
  exists f evs f' evs', Decode inflate kind procs newOptions (enc ++ rest) = (Ok (f, zlen enc, rest), evs) /\ Decode inflate' kind' procs' newOptions (enc' ++ rest') = (Ok (f', zlen enc', rest'), evs') /\
    forall st st', MWait.steps (lstep cpus ts) (lstart (map (fun e => playerOf (ev_layer e)) evs)) st -> lended st ->
    MWait.steps (lstep cpus1 ts) (lstart (map (fun e => playerOf (ev_layer e)) evs')) st' -> lended st' ->
    forall n n' r r' w0 w1 w0' w1', (1 <= n)%nat -> (1 <= n')%nat -> new w0 -> new w0' ->
    renderedPx ts (ldImages st) n ts r false (rootOf (ldCopied st) (f_layer f)) w0 w1 ->
    renderedPx ts (ldImages st') n' ts r' false (rootOf (ldCopied st') (f_layer f')) w0' w1' ->
    forall q p, tileOf ts r q -> tileOf ts r' q -> in_tile ts q p -> 0 <= MRect.px p -> 0 <= py p ->
    same_above (square ts q) p sf sf' ->
    exists u t u' t' v, w1 q = Some (u, t) /\ w1' q = Some (u', t') /\ tile_at ts q t p = Some v /\ tile_at ts q t' p = Some v.
Proof. exact below_shown. Qed.
Print Assumptions C92_below.
(** For a picture without a mask to which nothing is clipped, it is enough that its pixel is opaque. *)
Theorem C92_picture : forall (A : point -> Prop) p l v, glass_tree (SLeaf l) -> hidden l = false -> sl_opacity l = 255 -> leaf_mode l Normal -> has_mask l = false ->
  leaf_value l p v -> pa v = 255 -> opaque_here A p (SLeaf l) [].
Proof. exact picture_opaque. Qed.
Print Assumptions C92_picture.

(** *** An example in a pass-through folder in an isolated folder with a mask: below the opaque layer there is nothing in one file, a layer in the other; below
    the pass-through folder there are a clipping group in one file, a folder in the other; above the layer there are a clipped layer, a faint one and another *)
Definition pane : slayer :=
  SLayer ZR [] (ascii "norm") 255 0 0 0 SNone [] [67] [0; 0] [IBlock [] false (ascii "lsct") (be 4 1 ++ ascii "8BIM" ++ ascii "pass")] [].
Lemma pane_pass : folder_mode pane None.
Proof. exact window_pass. Qed.
Definition above : list stree := [SLeaf red; SLeaf shade; SLeaf pink; SLeaf right_pixel].
Definition over_group : list stree := [SLeaf half; SLeaf shade] ++ [SFolder divider pane above].
Definition over_folder : list stree := [SFolder divider window in_folder] ++ [SFolder divider pane (SLeaf pink :: above)].
Definition file_a : list stree := [SLeaf half; SFolder divider (veil (ascii "norm") [100; 0]) over_group].
Definition file_b : list stree := [SLeaf half; SFolder divider (veil (ascii "norm") [100; 0]) over_folder].
Lemma below_valid sf c : sf = file_a /\ c = over_group \/ sf = file_b /\ c = over_folder ->
  section_valid noinflate false false 8 3 InPlace (flat_map sflatten sf) [] [] [] [] /\ Forall stree_valid sf /\ glass_forest sf.
Proof.
  destruct glass_parts as (G1 & G2 & _ & _ & G5 & _ & G7). pose proof red_glass as G0. intros H. split; [|split].
  - split.
    + destruct H as [[-> _]|[-> _]]; cbn [file_a file_b over_group over_folder above in_folder pane flat_map sflatten app];
        repeat apply Forall_cons; try apply Forall_nil; (apply slayer_check; [vm_compute; reflexivity|exact I|]); try exact I; try (exists 3, None, 0; exact div3);
        solve [exists 1, (Some (ascii "norm")), 0; now apply div1|exists 1, (Some (ascii "pass")), 0; now apply div1].
    + split; [destruct H as [[-> _]|[-> _]]; reflexivity|]. split; [exact I|]. split; [reflexivity|]. split; [constructor|].
      split; [split; [apply no8b_ok; reflexivity|right; left; reflexivity]|]. destruct H as [[-> _]|[-> _]]; vm_compute; reflexivity.
  - assert (V : Forall stree_valid c).
    { assert (Va : Forall stree_valid above) by (unfold above; repeat apply Forall_cons; try apply Forall_nil; (apply (sleaf_valid _ 0); [reflexivity|lia|lia|lia])).
      assert (Vp : forall a, Forall stree_valid a -> Forall stree_valid [SFolder divider pane a]).
      { intros a Ha. constructor; [|constructor]. apply (sfolder_valid _ _ _ 1); [exists None, 0; exact div3|exists (Some (ascii "pass")), 0; now apply div1|now left|exact Ha]. }
      destruct H as [[_ ->]|[_ ->]]; apply Forall_app; (split; [|apply Vp; first [exact Va|constructor; [apply (sleaf_valid _ 0); [reflexivity|lia|lia|lia]|exact Va]]]).
      - repeat apply Forall_cons; try apply Forall_nil; (apply (sleaf_valid _ 0); [reflexivity|lia|lia|lia]).
      - constructor; [|constructor]. apply (sfolder_valid _ _ _ 1); [exists None, 0; exact div3|exists (Some (ascii "pass")), 0; now apply div1|now left|].
        repeat apply Forall_cons; try apply Forall_nil; (apply (sleaf_valid _ 0); [reflexivity|lia|lia|lia]). }
    assert (sf = [SLeaf half; SFolder divider (veil (ascii "norm") [100; 0]) c]) as -> by (destruct H as [[-> ->]|[-> ->]]; reflexivity).
    constructor; [apply (sleaf_valid _ 0); [reflexivity|lia|lia|lia]|]. constructor; [|constructor].
    apply (sfolder_valid _ _ _ 1); [exists None, 0; exact div3|exists (Some (ascii "norm")), 0; now apply div1|now left|exact V].
  - assert (Gf : Forall glass_tree c /\ forall t, In t c -> blends_group (rec_of t) = true).
    { assert (Ga : Forall glass_tree above) by (unfold above; repeat apply Forall_cons; try apply Forall_nil; assumption).
      assert (Gp : forall a, Forall glass_tree a -> (forall t, In t a -> blends_group (rec_of t) = true) -> Forall glass_tree [SFolder divider pane a]).
      { intros a Ha Hb. constructor; [|constructor]. apply (glass_sfolder _ _ _ None); [cbv; intuition discriminate|exact pane_pass|now apply no_mask|exact Ha|now apply all_glass_groups]. }
      assert (Gq : Forall glass_tree [SFolder divider pane above] /\ Forall glass_tree [SFolder divider pane (SLeaf pink :: above)]).
      { split; apply Gp; try exact Ga; try (constructor; assumption); intros t Ht; repeat (destruct Ht as [<-|Ht]; [reflexivity|]); destruct Ht. }
      split.
      - destruct H as [[_ ->]|[_ ->]]; apply Forall_app; (split; [|apply Gq]); repeat apply Forall_cons; try apply Forall_nil; try assumption.
        apply (glass_sfolder _ _ _ None); [cbv; intuition discriminate|exact window_pass|now apply no_mask| |apply all_glass_groups; intros t Ht; repeat (destruct Ht as [<-|Ht]; [reflexivity|]); destruct Ht].
        unfold in_folder. repeat apply Forall_cons; try apply Forall_nil; assumption.
      - destruct H as [[_ ->]|[_ ->]]; intros t Ht; repeat (destruct Ht as [<-|Ht]; [reflexivity|]); destruct Ht. }
    assert (sf = [SLeaf half; SFolder divider (veil (ascii "norm") [100; 0]) c]) as -> by (destruct H as [[-> ->]|[-> ->]]; reflexivity).
    split; [|apply all_glass_groups; intros t Ht; repeat (destruct Ht as [<-|Ht]; [reflexivity|]); destruct Ht].
    constructor; [exact G1|]. constructor; [|constructor].
    apply (glass_sfolder _ _ _ (Some Normal)); [cbv; intuition discriminate|exact (veil_norm _)|now apply veil_mask; left|apply Gf|apply all_glass_groups, Gf].
Qed.
Lemma red_pixel p : p = Pt 0 0 \/ p = Pt 1 0 -> leaf_value red p (Px 255 0 0 255).
Proof. intros [-> | ->]; [exact (pixel red (Pt 0 0) 255 0 0 255 [255; 255] [0; 0] [0; 0] eq_refl eq_refl eq_refl eq_refl eq_refl eq_refl eq_refl eq_refl)|exact (pixel red (Pt 1 0) 255 0 0 255 [255; 255] [0; 0] [0; 0] eq_refl eq_refl eq_refl eq_refl eq_refl eq_refl eq_refl eq_refl)]. Qed.
(** With [shade] clipped to the red layer *)
Lemma red_shaded : opaque_here (square 2 (Pt 0 0)) (Pt 0 0) (SLeaf red) [SLeaf shade].
Proof.
  split; [reflexivity|]. split; [reflexivity|]. split; [left; now left|].
  exists (stored (Px 255 0 0 255)), (pdpx DestIn (stored (Px 255 0 0 255)) (blended Multiply 128 (stored (Px 51 255 102 255)) (opaque (stored (stored (Px 255 0 0 255)))))). split; [|split; [|reflexivity]].
  - apply plain_image; [apply red_pixel; now left|reflexivity].
  - apply topped_group; [discriminate|reflexivity|]. eapply clips_next; [|apply clips_done].
    change (sl_opacity (rec_of (SLeaf shade))) with 128. eapply put_over; [reflexivity|discriminate|left; right; right; now left| |apply topped_alone; now left].
    apply plain_image; [|reflexivity]. exact (pixel shade (Pt 0 0) 51 255 102 255 [51; 51] [255; 255] [102; 102] eq_refl eq_refl eq_refl eq_refl eq_refl eq_refl eq_refl eq_refl).
Qed.
Example C92_used : same_above (square 2 (Pt 0 0)) (Pt 0 0) file_a file_b /\
  (forall sf c, sf = file_a /\ c = over_group \/ sf = file_b /\ c = over_folder -> section_valid noinflate false false 8 3 InPlace (flat_map sflatten sf) [] [] [] [] /\ Forall stree_valid sf /\ glass_forest sf) /\
  opaque_here (square 2 (Pt 0 0)) (Pt 1 0) (SLeaf red) [] /\
  showWith 2 (fileOf file_a) [Pt 0 0] = showWith 2 (fileOf file_b) [Pt 0 0] /\ exists v w, showWith 2 (fileOf file_a) [Pt 0 0] = Some [Some [v; w; nothing; nothing]] /\ v <> w.
Proof.
  split; [|split; [exact below_valid|split; [|split; [vm_compute; reflexivity|eexists; eexists; split; [vm_compute; reflexivity|discriminate]]]]].
  - apply (same_inside _ _ [SLeaf half] divider _ over_group over_folder Normal []); [reflexivity|exact (veil_norm _)|].
    apply same_cut. apply (cut_through _ _ [SLeaf half; SLeaf shade] [SFolder divider window in_folder] divider pane above (SLeaf pink :: above) []); try reflexivity; [exact pane_pass|].
    apply (cut_here _ _ [] [SLeaf pink] (SLeaf red) [SLeaf shade] [SLeaf pink; SLeaf right_pixel]); [reflexivity|now constructor|reflexivity|exact red_shaded].
  - apply (C92_picture _ (Pt 1 0) red (Px 255 0 0 255)); try reflexivity; [exact red_glass|left; now left|apply red_pixel; now right].
Qed.
