(** Theorems: the picture depends only on what the layers show, C91. *)
From Coq Require Import String QArith.
From Verif Require Import Base SUtil SConfig MRect MPicker MConfig MReader MLayer MApi SCompress SRecord SLayer XRecord
  MSched MBlend MPorter SBlend MWait MRender SRender MRenderAll SRenderAll MRenderPx PRenderPx
  MDraw MTile STile MLoad SLoad MPipe SPipe SSharp PPipe5 XPipe PSharp3 PSharp4 TPipe TSharp PPipe4 SGlass PGlass2 PGlass4 TGlass TTidy PFrame SLook PLook.
Close Scope string_scope.
Open Scope Z_scope.

(** ** C91 *)

(** Two RGB files of 8 bits as in C70 with the same tree of layers. The layers at the same place of the trees have the same pixels in the part of the
    plane that can be shown, the same eye, opacity, blending mode, clipping and mask values (and a mask that is white everywhere
    counts as none, except on a pass-through folder). Everything else may differ: the rectangles (a transparent margin more or less, parts with negative
    coordinates), the compression and the order of the planes, more planes, the colour of invisible pixels, an alpha plane that is
    opaque everywhere or none, the names, the other information of the layers, a mask that is switched off, the headers
    and so on. Loaded and rendered with tiles of the same size, both show the same pixel at every point. *)
Theorem C91_looks :
  forall inflate kind procs h rsv cmd res neg pl sf pad gmask bs tail rest inflate' kind' procs' h' rsv' cmd' res' neg' pl' sf' pad' gmask' bs' tail' rest' cpus cpus1 ts,
  (1 <= procs)%nat -> (1 <= procs')%nat -> (1 <= cpus)%nat -> (1 <= cpus1)%nat -> 0 < ts ->
  header_valid h -> h_mode h = 3 -> h_depth h = 8 -> zlen rsv = 6 -> zlen cmd < 4294967296 ->
  Forall rblock_valid res -> zlen (enc_rblocks res) < 4294967296 ->
  header_valid h' -> h_mode h' = 3 -> h_depth h' = 8 -> zlen rsv' = 6 -> zlen cmd' < 4294967296 ->
  Forall rblock_valid res' -> zlen (enc_rblocks res') < 4294967296 ->
  let large := h_version h =? 2 in let large' := h_version h' =? 2 in
  section_valid inflate large neg 8 3 pl (flat_map sflatten sf) pad gmask bs tail -> Forall stree_valid sf -> glass_forest sf ->
  section_valid inflate' large' neg' 8 3 pl' (flat_map sflatten sf') pad' gmask' bs' tail' -> Forall stree_valid sf' -> glass_forest sf' ->
  Forall2 looks sf sf' ->
  let enc := enc_config h rsv cmd res ++ enc_section large neg pl (flat_map sflatten sf) pad gmask bs tail in
  let enc' := enc_config h' rsv' cmd' res' ++ enc_section large' neg' pl' (flat_map sflatten sf') pad' gmask' bs' tail' in
  exists f evs f' evs', Decode inflate kind procs newOptions (enc ++ rest) = (Ok (f, zlen enc, rest), evs) /\ Decode inflate' kind' procs' newOptions (enc' ++ rest') = (Ok (f', zlen enc', rest'), evs') /\
    forall st st', MWait.steps (lstep cpus ts) (lstart (map (fun e => playerOf (ev_layer e)) evs)) st -> lended st ->
    MWait.steps (lstep cpus1 ts) (lstart (map (fun e => playerOf (ev_layer e)) evs')) st' -> lended st' ->
    forall n n' r r' w0 w1 w0' w1', (1 <= n)%nat -> (1 <= n')%nat -> new w0 -> new w0' ->
    renderedPx ts (ldImages st) n ts r false (rootOf (ldCopied st) (f_layer f)) w0 w1 ->
    renderedPx ts (ldImages st') n' ts r' false (rootOf (ldCopied st') (f_layer f')) w0' w1' ->
    forall q p, tileOf ts r q -> tileOf ts r' q -> in_tile ts q p -> 0 <= MRect.px p -> 0 <= py p ->
    exists u t u' t' v, w1 q = Some (u, t) /\ w1' q = Some (u', t') /\ tile_at ts q t p = Some v /\ tile_at ts q t' p = Some v.
Proof. exact looks_shown. Qed.
Print Assumptions C91_looks.

(** *** An example: a picture with a margin, planes in another order, one of them compressed, a white mask, an opaque alpha plane, other names, and on a folder
    a mask with a margin of its default colour *)
Definition red_b : slayer := SLayer (Rct 0 0 2 1) [(2, PRaw [0; 0]); (0, PRle [[Rep 2 255]]); (-1, PRle [[Rep 2 255]]); (1, PRaw [0; 0])] (ascii "norm") 255 0 0 0 SNone [] [66; 67; 68] [] [] [].
Definition half_b : slayer :=
  SLayer (Rct (-1) 0 3 1) [(2, PRaw [9; 50; 30; 1]); (-2, PRle [[Rep 2 255]]); (-1, PRaw [77; 128; 255; 0]); (1, PRaw [8; 100; 20; 2]); (0, PRaw [7; 200; 10; 3])]
    (ascii "norm") 200 0 0 0 (SShort (Rct 0 0 2 1) 255 0 None [0; 0]) [] [66] [0; 0] [] [].
Definition veil_b : slayer :=
  SLayer ZR [(-2, PRaw [100; 0; 0])] (ascii "norm") 150 0 0 0 (SShort (Rct 0 0 3 1) 0 0 None [0; 0]) [] [67] [0; 0] (sl_info (veil (ascii "norm") [100; 0])) (sl_tail (veil (ascii "norm") [100; 0])).
Definition look_a : list stree := [SLeaf red; SLeaf half; SLeaf shade; SFolder divider (veil (ascii "norm") [100; 0]) [SLeaf pink]].
Definition look_b : list stree := [SLeaf red_b; SLeaf half_b; SLeaf shade; SFolder divider veil_b [SLeaf pink]].

Lemma value_is l q v0 : leaf_value l q v0 -> forall v, leaf_value l q v <-> v = v0.
Proof. intros H v. split; [|now intros ->]. intros H'. exact (leaf_only _ _ _ _ H' H). Qed.
Lemma value_out l q : pt_in q (sl_rect l) = false -> leaf_value l q nothing.
Proof. intros H. unfold leaf_value. now rewrite H. Qed.
Lemma same_value l l' q v0 : leaf_value l q v0 -> leaf_value l' q v0 -> forall v, leaf_value l q v <-> leaf_value l' q v.
Proof. intros H H' v. now rewrite (value_is _ _ _ H), (value_is _ _ _ H'). Qed.
Lemma mask_same l l' q v0 : mask_at l q v0 -> mask_at l' q v0 -> forall v, mask_at l q v <-> mask_at l' q v.
Proof. intros H H' v. split; intros K; [rewrite (mask_only _ _ _ _ K H)|rewrite (mask_only _ _ _ _ K H')]; assumption. Qed.
Lemma looks_refl t : looks t t.
Proof.
  induction t as [l|dv f c IH] using stree_ind2.
  - apply looks_leaf; [repeat split; auto|left; split; [reflexivity|intros _; split; intuition]|intuition|intuition].
  - apply looks_folder; [repeat split; auto|left; split; [reflexivity|intros _; split; intuition]|intuition|]. induction IH; constructor; auto.
Qed.
Lemma veil_b_norm : folder_mode veil_b (Some Normal). Proof. exact (veil_norm [100; 0]). Qed.
Lemma look_same : Forall2 looks look_a look_b.
Proof.
  constructor; [|constructor; [|constructor; [apply looks_refl|constructor; [|constructor]]]].
  - apply looks_leaf; [repeat split; auto|right; split; [auto|split; discriminate]|intuition|].
    intros [x y] v [Sx Sy]. cbn [MRect.px py] in *. destruct (Z.eqb_spec y 0) as [-> |Ny].
    + destruct (Z.eqb_spec x 0) as [-> |N0]; [apply (same_value red red_b (Pt 0 0) (Px 255 0 0 255)); eapply (pixel _ (Pt 0 0) 255 0 0 255); reflexivity|].
      destruct (Z.eqb_spec x 1) as [-> |N1]; [apply (same_value red red_b (Pt 1 0) (Px 255 0 0 255)); eapply (pixel _ (Pt 1 0) 255 0 0 255); reflexivity|].
      apply (same_value red red_b _ nothing); apply value_out; unfold pt_in; cbn; lia.
    + apply (same_value red red_b _ nothing); apply value_out; unfold pt_in; cbn; lia.
  - apply looks_leaf; [repeat split; auto| |intuition|].
    + right. split; [auto|]. split; [discriminate|]. intros _. split; [discriminate|]. intros [x y] [Sx Sy]. cbn [MRect.px py] in *.
      unfold mask_at. cbn [mask_rect half_b sl_mask mask_colour]. destruct (pt_in (Pt x y) (Rct 0 0 2 1)) eqn:E; [|reflexivity].
      exists [255; 255]. split; [reflexivity|]. unfold pt_in in E. cbn in E. assert (y = 0) as -> by lia. assert (x = 0 \/ x = 1) as [-> | ->] by lia; reflexivity.
    + intros [x y] v [Sx Sy]. cbn [MRect.px py] in *. destruct (Z.eqb_spec y 0) as [-> |Ny].
      * destruct (Z.eqb_spec x 0) as [-> |N0]; [apply (same_value half half_b (Pt 0 0) (Px 200 100 50 128)); eapply (pixel _ (Pt 0 0) 200 100 50 128); reflexivity|].
        destruct (Z.eqb_spec x 1) as [-> |N1]; [apply (same_value half half_b (Pt 1 0) (Px 10 20 30 255)); eapply (pixel _ (Pt 1 0) 10 20 30 255); reflexivity|].
        destruct (Z.eqb_spec x 2) as [-> |N2]; [apply (same_value half half_b (Pt 2 0) nothing); [now apply value_out|eapply (pixel _ (Pt 2 0) 3 2 1 0); reflexivity]|].
        apply (same_value half half_b _ nothing); apply value_out; unfold pt_in; cbn; lia.
      * apply (same_value half half_b _ nothing); apply value_out; unfold pt_in; cbn; lia.
  - apply looks_folder; [repeat split; auto| |intuition|constructor; [apply looks_refl|constructor]].
    left. split; [reflexivity|]. intros _. split; [reflexivity|]. intros [x y] v [Sx Sy]. cbn [MRect.px py] in *. destruct (Z.eqb_spec y 0) as [-> |Ny].
    + destruct (Z.eqb_spec x 0) as [-> |N0]; [apply (mask_same _ veil_b (Pt 0 0) 100); [exists [100; 0]|exists [100; 0; 0]]; split; reflexivity|].
      destruct (Z.eqb_spec x 1) as [-> |N1]; [apply (mask_same _ veil_b (Pt 1 0) 0); [exists [100; 0]|exists [100; 0; 0]]; split; reflexivity|].
      destruct (Z.eqb_spec x 2) as [-> |N2]; [apply (mask_same _ veil_b (Pt 2 0) 0); [reflexivity|exists [100; 0; 0]; split; reflexivity]|].
      apply (mask_same _ veil_b _ 0); unfold mask_at; cbn [mask_rect veil veil_b sl_mask mask_colour];
        (destruct (pt_in _ _) eqn:E; [unfold pt_in in E; cbn in E; lia|reflexivity]).
    + apply (mask_same _ veil_b _ 0); unfold mask_at; cbn [mask_rect veil veil_b sl_mask mask_colour];
        (destruct (pt_in _ _) eqn:E; [unfold pt_in in E; cbn in E; lia|reflexivity]).
Qed.
Lemma white_mask : glass_mask half_b false.
Proof. intros _. split; [reflexivity|]. split; [exists [255; 255]; split; [reflexivity|now apply bytes_check]|]. split; [now right|]. left. split; [reflexivity|now right]. Qed.
Lemma veil_b_mask : glass_mask veil_b false.
Proof.
  intros _. split; [reflexivity|]. split; [exists [100; 0; 0]; split; [reflexivity|now apply bytes_check]|]. split; [now left|]. right.
  exists (Pt 0 0), 100. repeat split; [cbn; lia|cbn; lia|exists [100; 0; 0]; split; reflexivity|discriminate].
Qed.
Lemma looks_valid sf : sf = look_a \/ sf = look_b ->
  section_valid noinflate false false 8 3 InPlace (flat_map sflatten sf) [] [] [] [] /\ Forall stree_valid sf /\ glass_forest sf.
Proof.
  destruct glass_parts as (G1 & G2 & _ & _ & _ & _ & G7). intros H. split; [|split].
  - split.
    + destruct H as [-> | ->]; cbn [look_a look_b flat_map sflatten app];
        repeat apply Forall_cons; try apply Forall_nil; (apply slayer_check; [vm_compute; reflexivity|exact I|]); try exact I; try (exists 3, None, 0; exact div3); exists 1, (Some (ascii "norm")), 0; now apply div1.
    + split; [destruct H as [-> | ->]; reflexivity|]. split; [exact I|]. split; [reflexivity|]. split; [constructor|].
      split; [split; [apply no8b_ok; reflexivity|right; left; reflexivity]|]. destruct H as [-> | ->]; vm_compute; reflexivity.
  - destruct H as [-> | ->]; repeat apply Forall_cons; try apply Forall_nil; try (apply (sleaf_valid _ 0); [reflexivity|lia|lia|lia]);
      (apply (sfolder_valid _ _ _ 1); [exists None, 0; exact div3|exists (Some (ascii "norm")), 0; now apply div1|now left|]);
      repeat apply Forall_cons; try apply Forall_nil; (apply (sleaf_valid _ 0); [reflexivity|lia|lia|lia]).
  - split; [|apply all_glass_groups; destruct H as [-> | ->]; intros t Ht; repeat (destruct Ht as [<-|Ht]; [reflexivity|]); destruct Ht].
    destruct H as [-> | ->]; unfold look_a, look_b; repeat apply Forall_cons; try apply Forall_nil; try assumption.
    + apply (lay_glass red [255; 255] [0; 0] [0; 0] Normal); [now apply no_mask|cbv; intuition discriminate|reflexivity|left; now left|reflexivity|reflexivity|reflexivity|reflexivity].
    + apply (glass_sfolder _ _ _ (Some Normal)); [cbv; intuition discriminate|exact (veil_norm _)|now apply veil_mask; left|now constructor|now apply one_groups].
    + apply (lay_glass red_b [255; 255] [0; 0] [0; 0] Normal); [now apply no_mask|cbv; intuition discriminate|reflexivity|left; now left|reflexivity|reflexivity|reflexivity|reflexivity].
    + apply (lay_glass half_b [7; 200; 10; 3] [8; 100; 20; 2] [9; 50; 30; 1] Normal); [exact white_mask|cbv; intuition discriminate|reflexivity|left; now left|reflexivity|reflexivity|reflexivity|reflexivity].
    + apply (glass_sfolder _ _ _ (Some Normal)); [cbv; intuition discriminate|exact veil_b_norm|exact veil_b_mask|now constructor|now apply one_groups].
Qed.
(** The hypotheses hold; both files show the same two pixels. *)
Example C91_used : Forall2 looks look_a look_b /\
  (forall sf, sf = look_a \/ sf = look_b -> section_valid noinflate false false 8 3 InPlace (flat_map sflatten sf) [] [] [] [] /\ Forall stree_valid sf /\ glass_forest sf) /\
  showWith 2 (fileOf look_a) [Pt 0 0] = showWith 2 (fileOf look_b) [Pt 0 0] /\ exists v w, showWith 2 (fileOf look_b) [Pt 0 0] = Some [Some [v; w; nothing; nothing]] /\ v <> w.
Proof. split; [exact look_same|]. split; [exact looks_valid|]. split; [vm_compute; reflexivity|]. eexists. eexists. split; [vm_compute; reflexivity|discriminate]. Qed.
