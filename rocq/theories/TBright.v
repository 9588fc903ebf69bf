(** Theorems: the picture is not brighter than its layers, C97. *)
From Coq Require Import String QArith.
From Verif Require Import Base SUtil SConfig MRect MPicker MConfig MReader MLayer MApi SCompress SRecord SLayer XRecord
  MSched MBlend MPorter SBlend MWait MRender SRender MRenderAll SRenderAll MRenderPx PRenderPx
  MDraw MTile STile MLoad SLoad MPipe SPipe SSharp PPipe5 XPipe PSharp3 PSharp4 TPipe TSharp PPipe4 SGlass PGlass2 PGlass4 TGlass TTidy TDissolve SFrame PFrame SBright PBright.
Close Scope string_scope.
Open Scope Z_scope.

(** ** C97 *)

(** An RGB file of 8 bits as in C70 with layers of the modes Normal, Darken, Multiply, Color Burn, Linear Burn, Darker Color, Lighten, Lighter Color, Pin Light, Difference and Subtract, with
    any alphas and opacities, in any folders and clipping groups. If at a point no picture of the file is brighter than some colour, in red, green and blue, then what is shown is not,
    in spite of all the divisions by alphas. Masks are black or white at the point, and pass-through folders have none. *)
Theorem C97_bright :
  forall inflate kind procs h rsv cmd res neg pl sf pad gmask bs tail rest cpus ts k,
  (1 <= procs)%nat -> (1 <= cpus)%nat -> 0 < ts ->
  header_valid h -> h_mode h = 3 -> h_depth h = 8 -> zlen rsv = 6 -> zlen cmd < 4294967296 ->
  Forall rblock_valid res -> zlen (enc_rblocks res) < 4294967296 ->
  let large := h_version h =? 2 in
  section_valid inflate large neg 8 3 pl (flat_map sflatten sf) pad gmask bs tail ->
  Forall stree_valid sf -> glass_forest sf -> pixel_ok k ->
  let enc := enc_config h rsv cmd res ++ enc_section large neg pl (flat_map sflatten sf) pad gmask bs tail in
  exists f evs, Decode inflate kind procs newOptions (enc ++ rest) = (Ok (f, zlen enc, rest), evs) /\
    (exists st, MWait.steps (lstep cpus ts) (lstart (map (fun e => playerOf (ev_layer e)) evs)) st /\ lended st) /\
    forall st, MWait.steps (lstep cpus ts) (lstart (map (fun e => playerOf (ev_layer e)) evs)) st -> lended st ->
    forall cpus' r' w0 w1, (1 <= cpus')%nat -> new w0 ->
    renderedPx ts (ldImages st) cpus' ts r' false (rootOf (ldCopied st) (f_layer f)) w0 w1 ->
    forall q p, tileOf ts r' q -> in_tile ts q p -> 0 <= MRect.px p -> 0 <= py p -> Forall (calm p k) sf ->
    exists s t v, w1 q = Some (s, t) /\ tile_at ts q t p = Some v /\ dim k v.
Proof. exact bright_shown. Qed.
Print Assumptions C97_bright.

(** *** An example: a translucent layer, one of the mode Multiply clipped to it, and one of the mode Difference in a folder with a mask *)
Definition haze : slayer := lay (ascii "norm") 200 0 SNone [] ((-1, PRaw [128; 255]) :: rgb [200; 10] [100; 20] [50; 30]).
Definition murk : slayer := lay (ascii "mul ") 128 1 SNone [] (rgb [51; 51] [90; 255] [102; 102]).
Definition flip : slayer := lay (ascii "diff") 180 0 SNone [] ((-1, PRaw [200; 64]) :: rgb [210; 255] [30; 0] [120; 0]).
Definition hardly : slayer := veil (ascii "norm") [255; 7].
Definition darks : list stree := [SLeaf haze; SLeaf murk; SFolder divider hardly [SLeaf flip]].
Lemma murk_mode : leaf_mode murk Multiply. Proof. left. cbv. repeat (first [now left|right]). Qed.
Lemma flip_mode : leaf_mode flip Difference. Proof. left. cbv. repeat (first [now left|right]). Qed.
Lemma haze_mode : leaf_mode haze Normal. Proof. left. now left. Qed.
Lemma hardly_mask : glass_mask hardly false.
Proof.
  intros _. split; [reflexivity|]. split; [eexists; split; [reflexivity|now apply bytes_check]|]. split; [now left|]. right. exists (Pt 0 0), 255.
  split; [cbn; lia|]. split; [cbn; lia|]. split; [reflexivity|]. split; [eexists; split; reflexivity|discriminate].
Qed.
Lemma darks_valid : section_valid noinflate false false 8 3 InPlace (flat_map sflatten darks) [] [] [] [] /\ Forall stree_valid darks /\ glass_forest darks.
Proof.
  split; [|split].
  - split.
    + cbn [darks flat_map sflatten app]. repeat apply Forall_cons; try apply Forall_nil; (apply slayer_check; [vm_compute; reflexivity|exact I|]); try exact I; try (exists 3, None, 0; exact div3); exists 1, (Some (ascii "norm")), 0; now apply div1.
    + split; [reflexivity|]. split; [exact I|]. split; [reflexivity|]. split; [constructor|].
      split; [split; [apply no8b_ok; reflexivity|right; left; reflexivity]|]. vm_compute; reflexivity.
  - repeat apply Forall_cons; try apply Forall_nil; try (apply (sleaf_valid _ 0); [reflexivity|lia|lia|lia]).
    apply (sfolder_valid _ _ _ 1); [exists None, 0; exact div3|exists (Some (ascii "norm")), 0; now apply div1|now left|].
    repeat apply Forall_cons; try apply Forall_nil; (apply (sleaf_valid _ 0); [reflexivity|lia|lia|lia]).
  - assert (G1 : glass_tree (SLeaf haze)) by (apply (lay_glass haze [200; 10] [100; 20] [50; 30] Normal); [now apply no_mask|cbv; intuition discriminate|reflexivity|exact haze_mode|reflexivity|reflexivity|reflexivity|reflexivity]).
    assert (G2 : glass_tree (SLeaf murk)) by (apply (lay_glass murk [51; 51] [90; 255] [102; 102] Multiply); [now apply no_mask|cbv; intuition discriminate|reflexivity|exact murk_mode|reflexivity|reflexivity|reflexivity|reflexivity]).
    assert (G3 : glass_tree (SLeaf flip)) by (apply (lay_glass flip [210; 255] [30; 0] [120; 0] Difference); [now apply no_mask|cbv; intuition discriminate|reflexivity|exact flip_mode|reflexivity|reflexivity|reflexivity|reflexivity]).
    split; [|apply all_glass_groups; intros t Ht; repeat (destruct Ht as [<-|Ht]; [reflexivity|]); destruct Ht].
    constructor; [exact G1|]. constructor; [exact G2|]. constructor; [|constructor].
    apply (glass_sfolder _ _ _ (Some Normal)); [cbv; intuition discriminate|exact (veil_norm _)|exact hardly_mask|constructor; [exact G3|constructor]|now apply one_groups].
Qed.
Lemma dim_leaf k l r g b a d0 d1 d2 : chan_data l 8 0 = Some d0 -> chan_data l 8 1 = Some d1 -> chan_data l 8 2 = Some d2 -> pt_in (Pt 0 0) (sl_rect l) = true ->
  let i := Z.to_nat ((0 - ry0 (sl_rect l)) * rdx (sl_rect l) + (0 - rx0 (sl_rect l))) in
  nth_error d0 i = Some r -> nth_error d1 i = Some g -> nth_error d2 i = Some b ->
  match chan_data l 8 (-1) with Some da => nth_error da i = Some a | None => a = 255 end -> dim k (if a =? 0 then nothing else Px r g b a) -> forall v, leaf_value l (Pt 0 0) v -> dim k v.
Proof.
  intros E0 E1 E2 Hp i H0 H1 H2 H3 D v H. now rewrite (leaf_only _ _ _ _ H (pixel l (Pt 0 0) r g b a d0 d1 d2 E0 E1 E2 Hp H0 H1 H2 H3)).
Qed.
Example C97_used : Forall (calm (Pt 0 0) (Px 210 100 120 255)) darks /\
  (section_valid noinflate false false 8 3 InPlace (flat_map sflatten darks) [] [] [] [] /\ Forall stree_valid darks /\ glass_forest darks) /\
  exists v w, showWith 2 (fileOf darks) [Pt 0 0] = Some [Some [v; w; nothing; nothing]] /\ dim (Px 210 100 120 255) v /\ v <> nothing.
Proof.
  split; [|split; [exact darks_valid|eexists; eexists; split; [vm_compute; reflexivity|split; [cbv; repeat split; discriminate|discriminate]]]].
  constructor; [|constructor; [|constructor; [|constructor]]].
  - apply (calm_leaf _ _ _ Normal haze_mode Logic.I); [intros H; discriminate H|]. eapply (dim_leaf _ haze 200 100 50 128); try reflexivity. cbv. repeat split; discriminate.
  - apply (calm_leaf _ _ _ Multiply murk_mode Logic.I); [intros H; discriminate H|]. eapply (dim_leaf _ murk 51 90 102 255); try reflexivity. cbv. repeat split; discriminate.
  - apply (calm_folder _ _ _ _ _ Normal (veil_norm _) Logic.I).
    + intros _ v (d & E & N). right. injection E as <-. now injection N as <-.
    + constructor; [|constructor]. apply (calm_leaf _ _ _ Difference flip_mode Logic.I); [intros H; discriminate H|]. eapply (dim_leaf _ flip 210 30 120 200); try reflexivity. cbv. repeat split; discriminate.
Qed.

(** With a grey mask it is false: a file with one layer of the mode Normal, of the grey 160 with the alpha 21, and the value 18 of its mask, shows the grey 161. *)
Definition thin : slayer := lay (ascii "norm") 255 0 (SShort (Rct 0 0 2 1) 0 0 None [0; 0]) [] ((-1, PRaw [21; 255]) :: rgb [160; 0] [160; 0] [160; 0] ++ [(-2, PRaw [18; 255])]).
Theorem C97_grey_mask_refuted : exists sf k, (section_valid noinflate false false 8 3 InPlace (flat_map sflatten sf) [] [] [] [] /\ Forall stree_valid sf /\ glass_forest sf) /\ pixel_ok k /\
  (forall t l v, In t sf -> picture_in l t -> leaf_mode l Normal /\ (leaf_value l (Pt 0 0) v -> dim k v)) /\
  exists v vs, showWith 2 (fileOf sf) [Pt 0 0] = Some [Some (v :: vs)] /\ ~ dim k v.
Proof.
  exists [SLeaf thin], (Px 160 160 160 255). split; [split; [|split]|split; [|split]].
  - split.
    + cbn [flat_map sflatten app]. repeat apply Forall_cons; try apply Forall_nil; (apply slayer_check; [vm_compute; reflexivity|exact I|]); exact I.
    + split; [reflexivity|]. split; [exact I|]. split; [reflexivity|]. split; [constructor|].
      split; [split; [apply no8b_ok; reflexivity|right; left; reflexivity]|]. vm_compute; reflexivity.
  - constructor; [|constructor]. apply (sleaf_valid _ 0); [reflexivity|lia|lia|lia].
  - split; [|apply all_glass_groups; intros t Ht; destruct Ht as [<-|[]]; reflexivity]. constructor; [|constructor].
    apply (lay_glass thin [160; 0] [160; 0] [160; 0] Normal); [|cbv; intuition discriminate|reflexivity|left; now left|reflexivity|reflexivity|reflexivity|reflexivity].
    intros _. split; [reflexivity|]. split; [eexists; split; [reflexivity|now apply bytes_check]|]. split; [now left|]. right. exists (Pt 0 0), 18.
    split; [cbn; lia|]. split; [cbn; lia|]. split; [reflexivity|]. split; [eexists; split; reflexivity|discriminate].
  - unfold pixel_ok. cbn. lia.
  - intros t l v [<-|[]] Hl. inversion Hl; subst. split; [left; now left|]. eapply (dim_leaf _ thin 160 160 160 21); try reflexivity. cbv. repeat split; discriminate.
  - eexists; eexists. split; [vm_compute; reflexivity|]. intros [H _]. revert H. vm_compute. intros H. now apply H.
Qed.
Print Assumptions C97_grey_mask_refuted.
