(** Theorems: grey layers show a grey picture, C93. *)
From Coq Require Import String QArith.
From Verif Require Import Base SUtil SConfig MRect MPicker MConfig MReader MLayer MApi SCompress SRecord SLayer XRecord
  MSched MBlend MPorter SBlend MWait MRender SRender MRenderAll SRenderAll MRenderPx PRenderPx
  MDraw MTile STile MLoad SLoad MPipe SPipe SSharp PPipe5 XPipe PSharp3 PSharp4 TPipe TSharp PPipe4 SGlass PGlass2 PGlass4 TGlass TTidy TDissolve SFrame PFrame SGrey PGrey.
Close Scope string_scope.
Open Scope Z_scope.

(** ** C93 *)

(** An RGB file of 8 bits as in C70 with layers of any blending modes, opacities, masks, folders and clipping groups. If at a point every picture of the file
    has a pixel with three equal colours, so has the picture shown: the modes Hue, Saturation, Color, Luminosity, Darker Color and
    Lighter Color, that compute the three colours together, make no tint of their own, nor do the roundings. *)
Theorem C93_grey :
  forall inflate kind procs h rsv cmd res neg pl sf pad gmask bs tail rest cpus ts,
  (1 <= procs)%nat -> (1 <= cpus)%nat -> 0 < ts ->
  header_valid h -> h_mode h = 3 -> h_depth h = 8 -> zlen rsv = 6 -> zlen cmd < 4294967296 ->
  Forall rblock_valid res -> zlen (enc_rblocks res) < 4294967296 ->
  let large := h_version h =? 2 in
  section_valid inflate large neg 8 3 pl (flat_map sflatten sf) pad gmask bs tail ->
  Forall stree_valid sf -> glass_forest sf ->
  let enc := enc_config h rsv cmd res ++ enc_section large neg pl (flat_map sflatten sf) pad gmask bs tail in
  exists f evs, Decode inflate kind procs newOptions (enc ++ rest) = (Ok (f, zlen enc, rest), evs) /\
    (exists st, MWait.steps (lstep cpus ts) (lstart (map (fun e => playerOf (ev_layer e)) evs)) st /\ lended st) /\
    forall st, MWait.steps (lstep cpus ts) (lstart (map (fun e => playerOf (ev_layer e)) evs)) st -> lended st ->
    forall cpus' r' w0 w1, (1 <= cpus')%nat -> new w0 ->
    renderedPx ts (ldImages st) cpus' ts r' false (rootOf (ldCopied st) (f_layer f)) w0 w1 ->
    forall q p, tileOf ts r' q -> in_tile ts q p -> 0 <= MRect.px p -> 0 <= py p -> grey_at p sf ->
    exists s t v, w1 q = Some (s, t) /\ tile_at ts q t p = Some v /\ grey v.
Proof. exact grey_shown. Qed.
Print Assumptions C93_grey.

(** *** An example with a translucent layer, a layer of the mode Luminosity clipped to it and one of the mode Saturation in a folder with a mask: they are grey on the left and not on the right *)
Definition mist : slayer := lay (ascii "norm") 200 0 SNone [] ((-1, PRaw [128; 255]) :: rgb [200; 10] [200; 20] [200; 30]).
Definition glow : slayer := lay (ascii "lum ") 128 1 SNone [] (rgb [51; 51] [51; 255] [51; 102]).
Definition fade : slayer := lay (ascii "sat ") 180 0 SNone [] ((-1, PRaw [255; 64]) :: rgb [90; 255] [90; 0] [90; 0]).
Definition greys : list stree := [SLeaf mist; SLeaf glow; SFolder divider (veil (ascii "norm") [100; 0]) [SLeaf fade]].
Lemma lum_lum : leaf_mode glow Luminosity. Proof. left. cbv. repeat (first [now left|right]). Qed.
Lemma sat_sat : leaf_mode fade Saturation. Proof. left. cbv. repeat (first [now left|right]). Qed.
Lemma greys_valid : section_valid noinflate false false 8 3 InPlace (flat_map sflatten greys) [] [] [] [] /\ Forall stree_valid greys /\ glass_forest greys.
Proof.
  split; [|split].
  - split.
    + cbn [greys flat_map sflatten app]. repeat apply Forall_cons; try apply Forall_nil; (apply slayer_check; [vm_compute; reflexivity|exact I|]); try exact I; try (exists 3, None, 0; exact div3); exists 1, (Some (ascii "norm")), 0; now apply div1.
    + split; [reflexivity|]. split; [exact I|]. split; [reflexivity|]. split; [constructor|].
      split; [split; [apply no8b_ok; reflexivity|right; left; reflexivity]|]. vm_compute; reflexivity.
  - repeat apply Forall_cons; try apply Forall_nil; try (apply (sleaf_valid _ 0); [reflexivity|lia|lia|lia]).
    apply (sfolder_valid _ _ _ 1); [exists None, 0; exact div3|exists (Some (ascii "norm")), 0; now apply div1|now left|].
    repeat apply Forall_cons; try apply Forall_nil; (apply (sleaf_valid _ 0); [reflexivity|lia|lia|lia]).
  - assert (G1 : glass_tree (SLeaf mist)) by (apply (lay_glass mist [200; 10] [200; 20] [200; 30] Normal); [now apply no_mask|cbv; intuition discriminate|reflexivity|left; now left|reflexivity|reflexivity|reflexivity|reflexivity]).
    assert (G2 : glass_tree (SLeaf glow)) by (apply (lay_glass glow [51; 51] [51; 255] [51; 102] Luminosity); [now apply no_mask|cbv; intuition discriminate|reflexivity|exact lum_lum|reflexivity|reflexivity|reflexivity|reflexivity]).
    assert (G3 : glass_tree (SLeaf fade)) by (apply (lay_glass fade [90; 255] [90; 0] [90; 0] Saturation); [now apply no_mask|cbv; intuition discriminate|reflexivity|exact sat_sat|reflexivity|reflexivity|reflexivity|reflexivity]).
    split; [|apply all_glass_groups; intros t Ht; repeat (destruct Ht as [<-|Ht]; [reflexivity|]); destruct Ht].
    constructor; [exact G1|]. constructor; [exact G2|]. constructor; [|constructor].
    apply (glass_sfolder _ _ _ (Some Normal)); [cbv; intuition discriminate|exact (veil_norm _)|now apply veil_mask; left|constructor; [exact G3|constructor]|now apply one_groups].
Qed.
Lemma grey_leaf l r g b a d0 d1 d2 : chan_data l 8 0 = Some d0 -> chan_data l 8 1 = Some d1 -> chan_data l 8 2 = Some d2 -> pt_in (Pt 0 0) (sl_rect l) = true ->
  let i := Z.to_nat ((0 - ry0 (sl_rect l)) * rdx (sl_rect l) + (0 - rx0 (sl_rect l))) in
  nth_error d0 i = Some r -> nth_error d1 i = Some g -> nth_error d2 i = Some b ->
  match chan_data l 8 (-1) with Some da => nth_error da i = Some a | None => a = 255 end -> r = g -> g = b -> forall v, leaf_value l (Pt 0 0) v -> grey v.
Proof.
  intros E0 E1 E2 Hp i H0 H1 H2 H3 R G v H. rewrite (leaf_only _ _ _ _ H (pixel l (Pt 0 0) r g b a d0 d1 d2 E0 E1 E2 Hp H0 H1 H2 H3)). destruct (a =? 0); [split; reflexivity|split; assumption].
Qed.
Example C93_used : grey_at (Pt 0 0) greys /\ ~ grey_at (Pt 1 0) greys /\
  (section_valid noinflate false false 8 3 InPlace (flat_map sflatten greys) [] [] [] [] /\ Forall stree_valid greys /\ glass_forest greys) /\
  exists v w, showWith 2 (fileOf greys) [Pt 0 0] = Some [Some [v; w; nothing; nothing]] /\ grey v /\ v <> nothing /\ ~ grey w.
Proof.
  split; [|split; [|split; [exact greys_valid|eexists; eexists; split; [vm_compute; reflexivity|split; [split; reflexivity|split; [discriminate|intros [H _]; discriminate]]]]]].
  - intros t l v Ht Hl. assert (l = mist \/ l = glow \/ l = fade) as H.
    { repeat (destruct Ht as [<-|Ht]); [| | |destruct Ht]; inversion Hl as [|? ? ? ? Hi Hj]; subst; auto. destruct Hi as [<-|[]]. inversion Hj; auto. }
    destruct H as [-> |[-> | ->]];
      [eapply (grey_leaf mist 200 200 200 128)|eapply (grey_leaf glow 51 51 51 255)|eapply (grey_leaf fade 90 90 90 255)]; reflexivity.
  - intros H. specialize (H (SLeaf mist) mist (Px 10 20 30 255) (or_introl eq_refl) (pic_leaf mist)). destruct H as [H _]; [|discriminate].
    exact (pixel mist (Pt 1 0) 10 20 30 255 _ _ _ eq_refl eq_refl eq_refl eq_refl eq_refl eq_refl eq_refl eq_refl).
Qed.
