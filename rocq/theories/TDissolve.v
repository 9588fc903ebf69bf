(** Theorems: pass-through folders without effect, C90. *)
From Coq Require Import String QArith.
From Verif Require Import Base SUtil SConfig MRect MPicker MConfig MReader MLayer MApi SCompress SRecord SLayer XRecord
  MSched MBlend MPorter SBlend MWait MRender SRender MRenderAll SRenderAll MRenderPx PRenderPx
  MDraw MTile STile MLoad SLoad MPipe SPipe SSharp PPipe5 XPipe PSharp3 PSharp4 TPipe TSharp PPipe4 SGlass PGlass4 TGlass SFrame STidy PTidy SDissolve PDissolve TCover TTidy.
Close Scope string_scope.
Open Scope Z_scope.

(** ** C90 *)

(** Two RGB files of 8 bits as in C70. The first has a visible pass-through folder without a mask at the top level; in the second the
    content of the folder is in its place, the opacity of the folder multiplied into the opacities of the layers (except of those that
    are clipped to others). Everything else in the files may differ. Where the layers below the folder give an opaque picture,
    both files show the same pixel if they are rendered with tiles of the same size. *)
Theorem C90_dissolved :
  forall inflate kind procs h rsv cmd res neg pl pre dv fo c post pad gmask bs tail rest inflate' kind' procs' h' rsv' cmd' res' neg' pl' pad' gmask' bs' tail' rest' cpus cpus1 ts,
  (1 <= procs)%nat -> (1 <= procs')%nat -> (1 <= cpus)%nat -> (1 <= cpus1)%nat -> 0 < ts ->
  header_valid h -> h_mode h = 3 -> h_depth h = 8 -> zlen rsv = 6 -> zlen cmd < 4294967296 ->
  Forall rblock_valid res -> zlen (enc_rblocks res) < 4294967296 ->
  header_valid h' -> h_mode h' = 3 -> h_depth h' = 8 -> zlen rsv' = 6 -> zlen cmd' < 4294967296 ->
  Forall rblock_valid res' -> zlen (enc_rblocks res') < 4294967296 ->
  let large := h_version h =? 2 in let large' := h_version h' =? 2 in
  let sf := pre ++ SFolder dv fo c :: post in let sf' := pre ++ map (faded (sl_opacity fo)) c ++ post in
  section_valid inflate large neg 8 3 pl (flat_map sflatten sf) pad gmask bs tail -> Forall stree_valid sf -> glass_forest sf ->
  section_valid inflate' large' neg' 8 3 pl' (flat_map sflatten sf') pad' gmask' bs' tail' -> Forall stree_valid sf' -> glass_forest sf' ->
  dissolvable fo c post ->
  let enc := enc_config h rsv cmd res ++ enc_section large neg pl (flat_map sflatten sf) pad gmask bs tail in
  let enc' := enc_config h' rsv' cmd' res' ++ enc_section large' neg' pl' (flat_map sflatten sf') pad' gmask' bs' tail' in
  exists f evs f' evs', Decode inflate kind procs newOptions (enc ++ rest) = (Ok (f, zlen enc, rest), evs) /\ Decode inflate' kind' procs' newOptions (enc' ++ rest') = (Ok (f', zlen enc', rest'), evs') /\
    forall st st', MWait.steps (lstep cpus ts) (lstart (map (fun e => playerOf (ev_layer e)) evs)) st -> lended st ->
    MWait.steps (lstep cpus1 ts) (lstart (map (fun e => playerOf (ev_layer e)) evs')) st' -> lended st' ->
    forall n n' r r' w0 w1 w0' w1', (1 <= n)%nat -> (1 <= n')%nat -> new w0 -> new w0' ->
    renderedPx ts (ldImages st) n ts r false (rootOf (ldCopied st) (f_layer f)) w0 w1 ->
    renderedPx ts (ldImages st') n' ts r' false (rootOf (ldCopied st') (f_layer f')) w0' w1' ->
    forall q p d, tileOf ts r q -> tileOf ts r' q -> in_tile ts q p -> 0 <= MRect.px p -> 0 <= py p ->
    laid (square ts q) p None pre nothing d -> pa d = 255 ->
    exists u t u' t' v, w1 q = Some (u, t) /\ w1' q = Some (u', t') /\ tile_at ts q t p = Some v /\ tile_at ts q t' p = Some v.
Proof. exact dissolve_shown. Qed.
Print Assumptions C90_dissolved.

(** The same for a folder at any depth, in isolated folders and in pass-through folders of the full opacity, with anything below and
    above these folders and clipped to them. The layers below the dissolved folder that are in the same list give an opaque picture at the point
    (over the picture below the list, if it is the content of a pass-through folder). *)
Theorem C90_nested :
  forall inflate kind procs h rsv cmd res neg pl sf pad gmask bs tail rest inflate' kind' procs' h' rsv' cmd' res' neg' pl' sf' pad' gmask' bs' tail' rest' cpus cpus1 ts,
  (1 <= procs)%nat -> (1 <= procs')%nat -> (1 <= cpus)%nat -> (1 <= cpus1)%nat -> 0 < ts ->
  header_valid h -> h_mode h = 3 -> h_depth h = 8 -> zlen rsv = 6 -> zlen cmd < 4294967296 ->
  Forall rblock_valid res -> zlen (enc_rblocks res) < 4294967296 ->
  header_valid h' -> h_mode h' = 3 -> h_depth h' = 8 -> zlen rsv' = 6 -> zlen cmd' < 4294967296 ->
  Forall rblock_valid res' -> zlen (enc_rblocks res') < 4294967296 ->
  let large := h_version h =? 2 in let large' := h_version h' =? 2 in
  section_valid inflate large neg 8 3 pl (flat_map sflatten sf) pad gmask bs tail -> Forall stree_valid sf -> glass_forest sf ->
  section_valid inflate' large' neg' 8 3 pl' (flat_map sflatten sf') pad' gmask' bs' tail' -> Forall stree_valid sf' -> glass_forest sf' ->
  let enc := enc_config h rsv cmd res ++ enc_section large neg pl (flat_map sflatten sf) pad gmask bs tail in
  let enc' := enc_config h' rsv' cmd' res' ++ enc_section large' neg' pl' (flat_map sflatten sf') pad' gmask' bs' tail' in
  exists f evs f' evs', Decode inflate kind procs newOptions (enc ++ rest) = (Ok (f, zlen enc, rest), evs) /\ Decode inflate' kind' procs' newOptions (enc' ++ rest') = (Ok (f', zlen enc', rest'), evs') /\
    forall st st', MWait.steps (lstep cpus ts) (lstart (map (fun e => playerOf (ev_layer e)) evs)) st -> lended st ->
    MWait.steps (lstep cpus1 ts) (lstart (map (fun e => playerOf (ev_layer e)) evs')) st' -> lended st' ->
    forall n n' r r' w0 w1 w0' w1', (1 <= n)%nat -> (1 <= n')%nat -> new w0 -> new w0' ->
    renderedPx ts (ldImages st) n ts r false (rootOf (ldCopied st) (f_layer f)) w0 w1 ->
    renderedPx ts (ldImages st') n' ts r' false (rootOf (ldCopied st') (f_layer f')) w0' w1' ->
    forall q p, tileOf ts r q -> tileOf ts r' q -> in_tile ts q p -> 0 <= MRect.px p -> 0 <= py p ->
    opened (square ts q) p nothing sf sf' ->
    exists u t u' t' v, w1 q = Some (u, t) /\ w1' q = Some (u', t') /\ tile_at ts q t p = Some v /\ tile_at ts q t' p = Some v.
Proof. exact open_shown. Qed.
Print Assumptions C90_nested.

(** The pictures of SGlass, on which this and other properties rest, are determined. *)
Theorem C90_determined : forall A p op ts d v v', laid A p op ts d v -> laid A p op ts d v' -> v = v'.
Proof. intros A p op ts d v v' H H'. destruct (all_fun A p) as (_ & _ & _ & _ & K & _). exact (K _ _ _ _ H _ H'). Qed.
Print Assumptions C90_determined.

(** *** An example: an opaque layer, a folder with a clipping group and another layer, and a layer above it *)
Definition in_folder : list stree := [SLeaf pink; SLeaf shade; SLeaf half].
Definition foldered : list stree := [SLeaf red] ++ SFolder divider window in_folder :: [SLeaf right_pixel].
Definition unfoldered : list stree := [SLeaf red] ++ map (faded (sl_opacity window)) in_folder ++ [SLeaf right_pixel].
Lemma red_glass : glass_tree (SLeaf red).
Proof. apply (lay_glass red [255; 255] [0; 0] [0; 0] Normal); [now apply no_mask|cbv; intuition discriminate|reflexivity|left; now left|reflexivity|reflexivity|reflexivity|reflexivity]. Qed.
Lemma foldered_valid sf : sf = foldered \/ sf = unfoldered ->
  section_valid noinflate false false 8 3 InPlace (flat_map sflatten sf) [] [] [] [] /\ Forall stree_valid sf /\ glass_forest sf.
Proof.
  destruct glass_parts as (G1 & G2 & _ & _ & G5 & _ & G7). pose proof red_glass as G0. intros H. split; [|split].
  - split.
    + destruct H as [-> | ->]; cbn [foldered unfoldered in_folder map flat_map sflatten app];
        repeat apply Forall_cons; try apply Forall_nil; (apply slayer_check; [vm_compute; reflexivity|exact I|]); try exact I; try (exists 3, None, 0; exact div3); exists 1, (Some (ascii "pass")), 0; now apply div1.
    + split; [destruct H as [-> | ->]; reflexivity|]. split; [exact I|]. split; [reflexivity|]. split; [constructor|].
      split; [split; [apply no8b_ok; reflexivity|right; left; reflexivity]|]. destruct H as [-> | ->]; vm_compute; reflexivity.
  - destruct H as [-> | ->]; repeat apply Forall_cons; try apply Forall_nil; try (apply (sleaf_valid _ 0); [reflexivity|lia|lia|lia]).
    apply (sfolder_valid _ _ _ 1); [exists None, 0; exact div3|exists (Some (ascii "pass")), 0; now apply div1|now left|].
    repeat apply Forall_cons; try apply Forall_nil; (apply (sleaf_valid _ 0); [reflexivity|lia|lia|lia]).
  - split; [|apply all_glass_groups; destruct H as [-> | ->]; intros t Ht; repeat (destruct Ht as [<-|Ht]; [reflexivity|]); destruct Ht].
    destruct H as [-> | ->].
    + unfold foldered. cbn [app]. repeat apply Forall_cons; try apply Forall_nil; try assumption.
      apply (glass_sfolder _ _ _ None); [cbv; intuition discriminate|exact window_pass|now apply no_mask| |apply all_glass_groups; intros t Ht; repeat (destruct Ht as [<-|Ht]; [reflexivity|]); destruct Ht].
      unfold in_folder. repeat apply Forall_cons; try apply Forall_nil; assumption.
    + unfold unfoldered, in_folder. cbn [map app]. repeat apply Forall_cons; try apply Forall_nil; try assumption.
      * apply (lay_glass (with_opacity (180 * sl_opacity window / 255) pink) [255; 255] [0; 0] [0; 0] Normal); [now apply no_mask|cbv; intuition discriminate|reflexivity|left; now left|reflexivity|reflexivity|reflexivity|reflexivity].
      * apply (lay_glass (with_opacity (200 * sl_opacity window / 255) half) [200; 10] [100; 20] [50; 30] Normal); [now apply no_mask|cbv; intuition discriminate|reflexivity|left; now left|reflexivity|reflexivity|reflexivity|reflexivity].
Qed.
Example C90_used : dissolvable window in_folder [SLeaf right_pixel] /\
  (forall sf, sf = foldered \/ sf = unfoldered -> section_valid noinflate false false 8 3 InPlace (flat_map sflatten sf) [] [] [] [] /\ Forall stree_valid sf /\ glass_forest sf) /\
  laid (square 2 (Pt 0 0)) (Pt 0 0) None [SLeaf red] nothing (Px 255 0 0 255) /\
  showWith 2 (fileOf foldered) [Pt 0 0] = Some [Some [Px 209 22 11 255; Px 104 6 68 255; nothing; nothing]] /\
  showWith 2 (fileOf unfoldered) [Pt 0 0] = Some [Some [Px 209 22 11 255; Px 104 6 68 255; nothing; nothing]].
Proof.
  split; [repeat split; exact window_pass|]. split; [exact foldered_valid|]. split; [|split; vm_compute; reflexivity].
  eapply laid_groups; [now apply one_is|]. eapply heaped_cons; [|apply heaped_nil].
  change (Px 255 0 0 255) with (blended Normal 255 (stored (Px 255 0 0 255)) nothing). eapply put_over; [reflexivity|discriminate|left; now left| |apply topped_alone; now left].
  apply plain_image; [|reflexivity]. eapply (pixel red (Pt 0 0) 255 0 0 255); reflexivity.
Qed.

(** *** The picture below must be opaque. *)
(** A faint picture below the folder loses a little of its colour because it is copied, even where the folder has no pixel. *)
Definition faint_folder : list stree := [SLeaf faint] ++ SFolder divider window [SLeaf right_pixel] :: [].
Definition faint_open : list stree := [SLeaf faint] ++ map (faded (sl_opacity window)) [SLeaf right_pixel] ++ [].
Theorem C90_faint_refuted : exists pre dv fo c f n rest evs f' n' rest' evs' p v v',
  let sf := pre ++ SFolder dv fo c :: [] in let sf' := pre ++ map (faded (sl_opacity fo)) c ++ [] in
  section_valid noinflate false false 8 3 InPlace (flat_map sflatten sf) [] [] [] [] /\ Forall stree_valid sf /\ glass_forest sf /\
  dissolvable fo c [] /\
  Decode noinflate Plain 1 newOptions (fileOf sf) = (Ok (f, n, rest), evs) /\ Decode noinflate Plain 1 newOptions (fileOf sf') = (Ok (f', n', rest'), evs') /\
  shownBy f evs p v /\ shownBy f' evs' p v' /\ v = Px 0 0 0 25 /\ v' = Px 2 2 2 25.
Proof.
  destruct (shows_with 2 (fileOf faint_folder) [Pt 0 0] [[Px 0 0 0 25; Px 0 0 155 55; nothing; nothing]] ltac:(lia)) as (f & n & rest & evs & ED & Sh); [vm_compute; reflexivity|].
  destruct (shows_with 2 (fileOf faint_open) [Pt 0 0] [[Px 2 2 2 25; Px 0 0 156 55; nothing; nothing]] ltac:(lia)) as (f' & n' & rest' & evs' & ED' & Sh'); [vm_compute; reflexivity|].
  exists [SLeaf faint], divider, window, [SLeaf right_pixel], f, n, rest, evs, f', n', rest', evs', (Pt 0 0), (Px 0 0 0 25), (Px 2 2 2 25). cbv zeta. split.
  { split.
    - change (flat_map sflatten ([SLeaf faint] ++ SFolder divider window [SLeaf right_pixel] :: [])) with [faint; divider; right_pixel; window].
      repeat apply Forall_cons; try apply Forall_nil; (apply slayer_check; [vm_compute; reflexivity|exact I|]); try exact I; try (exists 3, None, 0; exact div3); exists 1, (Some (ascii "pass")), 0; now apply div1.
    - split; [reflexivity|]. split; [exact I|]. split; [reflexivity|]. split; [constructor|].
      split; [split; [apply no8b_ok; reflexivity|right; left; reflexivity]|]. vm_compute. reflexivity. }
  split. { repeat apply Forall_cons; try apply Forall_nil; [apply (sleaf_valid _ 0); [reflexivity|lia|lia|lia]|].
    apply (sfolder_valid _ _ _ 1); [exists None, 0; exact div3|exists (Some (ascii "pass")), 0; now apply div1|now left|].
    repeat apply Forall_cons; try apply Forall_nil; (apply (sleaf_valid _ 0); [reflexivity|lia|lia|lia]). }
  split. { destruct glass_parts as (_ & _ & _ & _ & G5 & _ & _). split.
    - cbn [app]. repeat apply Forall_cons; try apply Forall_nil.
      + apply (lay_glass faint [5; 5] [5; 5] [5; 5] Normal); [now apply no_mask|cbv; intuition discriminate|reflexivity|left; now left|reflexivity|reflexivity|reflexivity|reflexivity].
      + apply (glass_sfolder _ _ _ None); [cbv; intuition discriminate|exact window_pass|now apply no_mask| |now apply one_groups]. constructor; [exact G5|constructor].
    - apply all_glass_groups. intros t Ht. repeat (destruct Ht as [<-|Ht]; [reflexivity|]). destruct Ht. }
  split; [repeat split; exact window_pass|].
  split; [exact ED|]. split; [exact ED'|]. split; [|split; [|split; reflexivity]].
  - apply (Sh (Pt 0 0) [Px 0 0 0 25; Px 0 0 155 55; nothing; nothing]); [now left| | |reflexivity]; [exists 0, 0; repeat split; cbn; lia|unfold in_tile; cbn; lia].
  - apply (Sh' (Pt 0 0) [Px 2 2 2 25; Px 0 0 156 55; nothing; nothing]); [now left| | |reflexivity]; [exists 0, 0; repeat split; cbn; lia|unfold in_tile; cbn; lia].
Qed.
Print Assumptions C90_faint_refuted.

(** *** An example in a folder: the file of C90_used in an isolated folder with a mask, over a picture *)
Definition nested : list stree := [SLeaf half; SFolder divider (veil (ascii "norm") [100; 0]) foldered].
Definition unnested : list stree := [SLeaf half; SFolder divider (veil (ascii "norm") [100; 0]) unfoldered].
Lemma nested_valid sf c : sf = nested /\ c = foldered \/ sf = unnested /\ c = unfoldered ->
  section_valid noinflate false false 8 3 InPlace (flat_map sflatten sf) [] [] [] [] /\ Forall stree_valid sf /\ glass_forest sf.
Proof.
  intros H. assert (E : sf = [SLeaf half; SFolder divider (veil (ascii "norm") [100; 0]) c]) by (destruct H as [[-> ->]|[-> ->]]; reflexivity).
  assert (Hc : c = foldered \/ c = unfoldered) by tauto. destruct (foldered_valid c Hc) as ((Sc & _) & Vc & Gc). rewrite E. split; [|split].
  - split.
    + change (flat_map sflatten [SLeaf half; SFolder divider (veil (ascii "norm") [100; 0]) c]) with (half :: divider :: (flat_map sflatten c ++ [veil (ascii "norm") [100; 0]]) ++ []).
      apply Forall_cons; [apply slayer_check; [vm_compute; reflexivity|exact I|exact I]|].
      apply Forall_cons; [apply slayer_check; [vm_compute; reflexivity|exact I|exists 3, None, 0; exact div3]|].
      apply Forall_app. split; [|constructor]. apply Forall_app. split; [exact Sc|]. constructor; [|constructor].
      apply slayer_check; [vm_compute; reflexivity|exact I|exists 1, (Some (ascii "norm")), 0; now apply div1].
    + split; [destruct Hc as [-> | ->]; reflexivity|]. split; [exact I|]. split; [reflexivity|]. split; [constructor|].
      split; [split; [apply no8b_ok; reflexivity|right; left; reflexivity]|]. destruct Hc as [-> | ->]; vm_compute; reflexivity.
  - constructor; [apply (sleaf_valid _ 0); [reflexivity|lia|lia|lia]|]. constructor; [|constructor].
    apply (sfolder_valid _ _ _ 1); [exists None, 0; exact div3|exists (Some (ascii "norm")), 0; now apply div1|now left|exact Vc].
  - destruct glass_parts as (G1 & _). destruct Gc as [Gc1 Gc2]. split; [|apply all_glass_groups; intros t Ht; repeat (destruct Ht as [<-|Ht]; [reflexivity|]); destruct Ht].
    constructor; [exact G1|]. constructor; [|constructor].
    apply (glass_sfolder _ _ _ (Some Normal)); [cbv; intuition discriminate|exact (veil_norm _)|now apply veil_mask; left|exact Gc1|exact Gc2].
Qed.
Example C90_nested_used : opened (square 2 (Pt 0 0)) (Pt 0 0) nothing nested unnested /\
  (forall sf c, sf = nested /\ c = foldered \/ sf = unnested /\ c = unfoldered -> section_valid noinflate false false 8 3 InPlace (flat_map sflatten sf) [] [] [] [] /\ Forall stree_valid sf /\ glass_forest sf) /\
  showWith 2 (fileOf nested) [Pt 0 0] = showWith 2 (fileOf unnested) [Pt 0 0] /\ exists v w, showWith 2 (fileOf nested) [Pt 0 0] = Some [Some [v; w; nothing; nothing]] /\ v <> w.
Proof.
  split; [|split; [exact nested_valid|split; [vm_compute; reflexivity|eexists; eexists; split; [vm_compute; reflexivity|discriminate]]]].
  apply (opened_isolated _ _ [SLeaf half] divider _ foldered unfoldered [] Normal nothing); [reflexivity|exact (veil_norm _)|].
  apply (opened_here _ _ [SLeaf red] divider window in_folder [SLeaf right_pixel] nothing (Px 255 0 0 255)); [repeat split; exact window_pass|apply C90_used|reflexivity].
Qed.

(** *** Pass-through folders in pass-through folders *)
(** If the folder around it is not of the full opacity, dissolving a folder changes the picture by a level: the opacities are multiplied
    in another order, and the products are rounded. *)
Definition twice_in : list stree := [SLeaf red; SFolder divider window [SFolder divider window [SLeaf half]]].
Definition once_in : list stree := [SLeaf red; SFolder divider window (map (faded (sl_opacity window)) [SLeaf half])].
Theorem C90_rounding_refuted : exists b dv fo c f n rest evs f' n' rest' evs' p v v',
  let sf := [b; SFolder dv fo [SFolder dv fo c]] in let sf' := [b; SFolder dv fo (map (faded (sl_opacity fo)) c)] in
  section_valid noinflate false false 8 3 InPlace (flat_map sflatten sf) [] [] [] [] /\ Forall stree_valid sf /\ glass_forest sf /\
  dissolvable fo c [] /\
  Decode noinflate Plain 1 newOptions (fileOf sf) = (Ok (f, n, rest), evs) /\ Decode noinflate Plain 1 newOptions (fileOf sf') = (Ok (f', n', rest'), evs') /\
  shownBy f evs p v /\ shownBy f' evs' p v' /\ v = Px 188 5 8 255 /\ v' = Px 189 5 8 255.
Proof.
  destruct (shows_with 2 (fileOf twice_in) [Pt 0 0] [[Px 247 13 6 255; Px 188 5 8 255; nothing; nothing]] ltac:(lia)) as (f & n & rest & evs & ED & Sh); [vm_compute; reflexivity|].
  destruct (shows_with 2 (fileOf once_in) [Pt 0 0] [[Px 247 13 6 255; Px 189 5 8 255; nothing; nothing]] ltac:(lia)) as (f' & n' & rest' & evs' & ED' & Sh'); [vm_compute; reflexivity|].
  exists (SLeaf red), divider, window, [SLeaf half], f, n, rest, evs, f', n', rest', evs', (Pt 1 0), (Px 188 5 8 255), (Px 189 5 8 255). cbv zeta. split.
  { split.
    - change (flat_map sflatten [SLeaf red; SFolder divider window [SFolder divider window [SLeaf half]]]) with [red; divider; divider; half; window; window].
      repeat apply Forall_cons; try apply Forall_nil; (apply slayer_check; [vm_compute; reflexivity|exact I|]); try exact I; try (exists 3, None, 0; exact div3); exists 1, (Some (ascii "pass")), 0; now apply div1.
    - split; [reflexivity|]. split; [exact I|]. split; [reflexivity|]. split; [constructor|].
      split; [split; [apply no8b_ok; reflexivity|right; left; reflexivity]|]. vm_compute. reflexivity. }
  assert (V : forall c, Forall stree_valid c -> stree_valid (SFolder divider window c)).
  { intros c H. apply (sfolder_valid _ _ _ 1); [exists None, 0; exact div3|exists (Some (ascii "pass")), 0; now apply div1|now left|exact H]. }
  split. { constructor; [apply (sleaf_valid _ 0); [reflexivity|lia|lia|lia]|]. constructor; [|constructor]. apply V. constructor; [|constructor]. apply V. constructor; [|constructor]. apply (sleaf_valid _ 0); [reflexivity|lia|lia|lia]. }
  assert (G : forall t, glass_tree t -> blends_group (rec_of t) = true -> glass_tree (SFolder divider window [t])).
  { intros t H B. apply (glass_sfolder _ _ _ None); [cbv; intuition discriminate|exact window_pass|now apply no_mask|now constructor|]. apply all_glass_groups. intros u [<-|[]]. exact B. }
  split. { destruct glass_parts as (G1 & _). split; [constructor; [exact red_glass|constructor; [apply G; [apply G; [exact G1|reflexivity]|reflexivity]|constructor]]|].
    apply all_glass_groups. intros t Ht. repeat (destruct Ht as [<-|Ht]; [reflexivity|]). destruct Ht. }
  split; [repeat split; exact window_pass|].
  split; [exact ED|]. split; [exact ED'|]. split; [|split; [|split; reflexivity]].
  - apply (Sh (Pt 0 0) [Px 247 13 6 255; Px 188 5 8 255; nothing; nothing]); [now left| | |reflexivity]; [exists 0, 0; repeat split; cbn; lia|unfold in_tile; cbn; lia].
  - apply (Sh' (Pt 0 0) [Px 247 13 6 255; Px 189 5 8 255; nothing; nothing]); [now left| | |reflexivity]; [exists 0, 0; repeat split; cbn; lia|unfold in_tile; cbn; lia].
Qed.
Print Assumptions C90_rounding_refuted.
