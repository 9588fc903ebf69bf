(** Theorems: every colour is treated by itself and all in the same way, C94. *)
From Coq Require Import String QArith.
From Verif Require Import Base SUtil SConfig MRect MPicker MConfig MReader MLayer MApi SCompress SRecord SLayer XRecord
  MSched MBlend MPorter SBlend MWait MRender SRender MRenderAll SRenderAll MRenderPx PRenderPx
  MDraw MTile STile MLoad SLoad MPipe SPipe SSharp PPipe5 XPipe PSharp3 PSharp4 TPipe TSharp PPipe4 SGlass PGlass2 PGlass4 TGlass TTidy PFrame SLook PLook TLook SChannel PChannel.
Close Scope string_scope.
Open Scope Z_scope.

(** ** C94 *)

(** Two RGB files of 8 bits as in C70 with the same tree of layers, used in the same way (the same eyes, opacities, blending modes, clipping and mask values), and
    no mode is one of the six that compute the three colours together. One colour of the pictures in the first file, say the red, has the same levels as
    one colour in the second, say the blue, and the alphas are the same. Then the picture shown has the same levels of that colour and the same alpha:
    a colour does not depend on the other two, and red, green and blue are treated in the same way. *)
Theorem C94_colours :
  forall inflate kind procs h rsv cmd res neg pl sf pad gmask bs tail rest inflate' kind' procs' h' rsv' cmd' res' neg' pl' sf' pad' gmask' bs' tail' rest' cpus cpus1 ts c c',
  (1 <= procs)%nat -> (1 <= procs')%nat -> (1 <= cpus)%nat -> (1 <= cpus1)%nat -> 0 < ts ->
  header_valid h -> h_mode h = 3 -> h_depth h = 8 -> zlen rsv = 6 -> zlen cmd < 4294967296 ->
  Forall rblock_valid res -> zlen (enc_rblocks res) < 4294967296 ->
  header_valid h' -> h_mode h' = 3 -> h_depth h' = 8 -> zlen rsv' = 6 -> zlen cmd' < 4294967296 ->
  Forall rblock_valid res' -> zlen (enc_rblocks res') < 4294967296 ->
  let large := h_version h =? 2 in let large' := h_version h' =? 2 in
  section_valid inflate large neg 8 3 pl (flat_map sflatten sf) pad gmask bs tail -> Forall stree_valid sf -> glass_forest sf ->
  section_valid inflate' large' neg' 8 3 pl' (flat_map sflatten sf') pad' gmask' bs' tail' -> Forall stree_valid sf' -> glass_forest sf' ->
  Forall2 (alike c c') sf sf' ->
  let enc := enc_config h rsv cmd res ++ enc_section large neg pl (flat_map sflatten sf) pad gmask bs tail in
  let enc' := enc_config h' rsv' cmd' res' ++ enc_section large' neg' pl' (flat_map sflatten sf') pad' gmask' bs' tail' in
  exists f evs f' evs', Decode inflate kind procs newOptions (enc ++ rest) = (Ok (f, zlen enc, rest), evs) /\ Decode inflate' kind' procs' newOptions (enc' ++ rest') = (Ok (f', zlen enc', rest'), evs') /\
    forall st st', MWait.steps (lstep cpus ts) (lstart (map (fun e => playerOf (ev_layer e)) evs)) st -> lended st ->
    MWait.steps (lstep cpus1 ts) (lstart (map (fun e => playerOf (ev_layer e)) evs')) st' -> lended st' ->
    forall n n' r r' w0 w1 w0' w1', (1 <= n)%nat -> (1 <= n')%nat -> new w0 -> new w0' ->
    renderedPx ts (ldImages st) n ts r false (rootOf (ldCopied st) (f_layer f)) w0 w1 ->
    renderedPx ts (ldImages st') n' ts r' false (rootOf (ldCopied st') (f_layer f')) w0' w1' ->
    forall q p, tileOf ts r q -> tileOf ts r' q -> in_tile ts q p -> 0 <= MRect.px p -> 0 <= py p ->
    exists u t u' t' v v', w1 q = Some (u, t) /\ w1' q = Some (u', t') /\ tile_at ts q t p = Some v /\ tile_at ts q t' p = Some v' /\ level c v = level c' v' /\ pa v = pa v'.
Proof. exact alike_shown. Qed.
Print Assumptions C94_colours.

(** *** An example: the reds of the first file are the blues of the second; there is a translucent layer, a clipped one of the mode Multiply, a folder with a mask *)
Definition half_c : slayer := lay (ascii "norm") 200 0 SNone [] ((-1, PRaw [128; 255]) :: rgb [3; 99] [255; 0] [200; 10]).
Definition shade_c : slayer := lay (ascii "mul ") 128 1 SNone [] (rgb [1; 2] [3; 4] [51; 51]).
Definition pink_c : slayer := lay (ascii "norm") 180 0 SNone [] ((-1, PRaw [255; 64]) :: rgb [9; 8] [7; 6] [255; 255]).
Definition reds : list stree := [SLeaf half; SLeaf shade; SFolder divider (veil (ascii "norm") [100; 0]) [SLeaf pink]].
Definition blues : list stree := [SLeaf half_c; SLeaf shade_c; SFolder divider (veil (ascii "norm") [100; 0]) [SLeaf pink_c]].
Lemma two_levels c c' l l' v0 v0' v1 v1' : sl_rect l = Rct 0 0 2 1 -> sl_rect l' = Rct 0 0 2 1 -> leaf_value l (Pt 0 0) v0 -> leaf_value l' (Pt 0 0) v0' -> leaf_value l (Pt 1 0) v1 -> leaf_value l' (Pt 1 0) v1' ->
  same_level c c' v0 v0' -> same_level c c' v1 v1' -> forall q, in_sight q -> exists v v', leaf_value l q v /\ leaf_value l' q v' /\ same_level c c' v v'.
Proof.
  intros R R' H0 H0' H1 H1' S0 S1 [x y] [Sx Sy]. cbn [MRect.px py] in *. destruct (pt_in (Pt x y) (Rct 0 0 2 1)) eqn:E.
  - unfold pt_in in E. cbn in E. assert (y = 0) as -> by lia. assert (x = 0 \/ x = 1) as [-> | ->] by lia; [exists v0, v0'|exists v1, v1']; auto.
  - exists nothing, nothing. repeat split; try (apply value_out; congruence). now destruct c, c'.
Qed.
Lemma reds_blues : Forall2 (alike Red Blue) reds blues.
Proof.
  assert (K : forall l l', sl_blend l = sl_blend l' -> forall m, leaf_mode l m <-> leaf_mode l' m) by (intros l l' H m; unfold leaf_mode; now rewrite H).
  assert (P : alike Red Blue (SLeaf pink) (SLeaf pink_c)).
  { apply alike_leaf; [repeat split; auto|left; split; [reflexivity|discriminate]|now apply K|intros m H; now rewrite (leaf_mode_fun _ _ Normal H (or_introl (or_introl eq_refl)))|].
    apply (two_levels _ _ _ _ (Px 255 0 0 255) (Px 9 7 255 255) (Px 255 0 0 64) (Px 8 6 255 64)); try reflexivity; try (split; reflexivity);
      [eapply (pixel _ (Pt 0 0) 255 0 0 255)|eapply (pixel _ (Pt 0 0) 9 7 255 255)|eapply (pixel _ (Pt 1 0) 255 0 0 64)|eapply (pixel _ (Pt 1 0) 8 6 255 64)]; reflexivity. }
  constructor; [|constructor; [|constructor; [|constructor]]].
  - apply alike_leaf; [repeat split; auto|left; split; [reflexivity|discriminate]|now apply K|intros m H; now rewrite (leaf_mode_fun _ _ Normal H (or_introl (or_introl eq_refl)))|].
    apply (two_levels _ _ _ _ (Px 200 100 50 128) (Px 3 255 200 128) (Px 10 20 30 255) (Px 99 0 10 255)); try reflexivity; try (split; reflexivity);
      [eapply (pixel _ (Pt 0 0) 200 100 50 128)|eapply (pixel _ (Pt 0 0) 3 255 200 128)|eapply (pixel _ (Pt 1 0) 10 20 30 255)|eapply (pixel _ (Pt 1 0) 99 0 10 255)]; reflexivity.
  - apply alike_leaf; [repeat split; auto|left; split; [reflexivity|discriminate]|now apply K| |].
    + intros m H. assert (leaf_mode shade Multiply) as M by (left; right; right; now left). now rewrite (leaf_mode_fun _ _ _ H M).
    + apply (two_levels _ _ _ _ (Px 51 255 102 255) (Px 1 3 51 255) (Px 51 255 102 255) (Px 2 4 51 255)); try reflexivity; try (split; reflexivity);
        [eapply (pixel _ (Pt 0 0) 51 255 102 255)|eapply (pixel _ (Pt 0 0) 1 3 51 255)|eapply (pixel _ (Pt 1 0) 51 255 102 255)|eapply (pixel _ (Pt 1 0) 2 4 51 255)]; reflexivity.
  - apply alike_folder; [repeat split; auto|left; split; [reflexivity|intros _; split; intuition]|intuition| |constructor; [exact P|constructor]].
    intros m H. pose proof (folder_mode_fun _ _ _ H (veil_norm _)) as [= ->]. exact I.
Qed.
Lemma reds_valid sf : sf = reds \/ sf = blues ->
  section_valid noinflate false false 8 3 InPlace (flat_map sflatten sf) [] [] [] [] /\ Forall stree_valid sf /\ glass_forest sf.
Proof.
  destruct glass_parts as (G1 & G2 & _ & _ & _ & _ & G7). intros H. split; [|split].
  - split.
    + destruct H as [-> | ->]; cbn [reds blues flat_map sflatten app];
        repeat apply Forall_cons; try apply Forall_nil; (apply slayer_check; [vm_compute; reflexivity|exact I|]); try exact I; try (exists 3, None, 0; exact div3); exists 1, (Some (ascii "norm")), 0; now apply div1.
    + split; [destruct H as [-> | ->]; reflexivity|]. split; [exact I|]. split; [reflexivity|]. split; [constructor|].
      split; [split; [apply no8b_ok; reflexivity|right; left; reflexivity]|]. destruct H as [-> | ->]; vm_compute; reflexivity.
  - destruct H as [-> | ->]; repeat apply Forall_cons; try apply Forall_nil; try (apply (sleaf_valid _ 0); [reflexivity|lia|lia|lia]);
      (apply (sfolder_valid _ _ _ 1); [exists None, 0; exact div3|exists (Some (ascii "norm")), 0; now apply div1|now left|]);
      repeat apply Forall_cons; try apply Forall_nil; (apply (sleaf_valid _ 0); [reflexivity|lia|lia|lia]).
  - split; [|apply all_glass_groups; destruct H as [-> | ->]; intros t Ht; repeat (destruct Ht as [<-|Ht]; [reflexivity|]); destruct Ht].
    destruct H as [-> | ->]; unfold reds, blues; repeat apply Forall_cons; try apply Forall_nil; try assumption.
    + apply (glass_sfolder _ _ _ (Some Normal)); [cbv; intuition discriminate|exact (veil_norm _)|now apply veil_mask; left|now constructor|now apply one_groups].
    + apply (lay_glass half_c [3; 99] [255; 0] [200; 10] Normal); [now apply no_mask|cbv; intuition discriminate|reflexivity|left; now left|reflexivity|reflexivity|reflexivity|reflexivity].
    + apply (lay_glass shade_c [1; 2] [3; 4] [51; 51] Multiply); [now apply no_mask|cbv; intuition discriminate|reflexivity|left; right; right; now left|reflexivity|reflexivity|reflexivity|reflexivity].
    + apply (glass_sfolder _ _ _ (Some Normal)); [cbv; intuition discriminate|exact (veil_norm _)|now apply veil_mask; left| |now apply one_groups]. constructor; [|constructor].
      apply (lay_glass pink_c [9; 8] [7; 6] [255; 255] Normal); [now apply no_mask|cbv; intuition discriminate|reflexivity|left; now left|reflexivity|reflexivity|reflexivity|reflexivity].
Qed.
(** The hypotheses hold. The pixels shown differ, but for the reds of the first and the blues of the second file. *)
Example C94_used : Forall2 (alike Red Blue) reds blues /\
  (forall sf, sf = reds \/ sf = blues -> section_valid noinflate false false 8 3 InPlace (flat_map sflatten sf) [] [] [] [] /\ Forall stree_valid sf /\ glass_forest sf) /\
  exists v w v' w', showWith 2 (fileOf reds) [Pt 0 0] = Some [Some [v; w; nothing; nothing]] /\ showWith 2 (fileOf blues) [Pt 0 0] = Some [Some [v'; w'; nothing; nothing]] /\
    level Red v = level Blue v' /\ level Red w = level Blue w' /\ level Red v <> level Red w /\ level Green v <> level Green v' /\ level Red v <> level Red v' /\ pa v = pa v'.
Proof.
  split; [exact reds_blues|]. split; [exact reds_valid|]. do 4 eexists. split; [vm_compute; reflexivity|]. split; [vm_compute; reflexivity|]. repeat split; discriminate.
Qed.
(** The mode Color mixes the colours: another green of the layer gives another red. *)
Example C94_mixing : let file g := fileOf [SLeaf red; SLeaf (lay (ascii "colr") 255 0 SNone [] (rgb [10; 10] [g; g] [10; 10]))] in
  exists v v', showWith 1 (file 20) [Pt 0 0] = Some [Some [v]] /\ showWith 1 (file 200) [Pt 0 0] = Some [Some [v']] /\ level Red v <> level Red v'.
Proof. do 2 eexists. split; [vm_compute; reflexivity|]. split; [vm_compute; reflexivity|discriminate]. Qed.
