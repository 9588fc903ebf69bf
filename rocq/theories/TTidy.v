(** Theorems: layers that are not seen and the order of layers that do not overlap, C89. *)
From Coq Require Import String QArith.
From Verif Require Import Base SUtil SConfig MRect MPicker MConfig MReader MLayer MApi SCompress SRecord SLayer XRecord
  MSched MBlend MPorter SBlend MWait MRender SRender MRenderAll SRenderAll MRenderPx PRenderPx
  MDraw MTile STile MLoad SLoad MPipe SPipe SSharp PPipe5 XPipe PSharp3 PSharp4 TPipe TSharp PPipe4 SGlass PGlass4 TGlass SFrame STidy PTidy.
Close Scope string_scope.
Open Scope Z_scope.

(** ** C89 *)

(** Two RGB files of 8 bits as in C70. The layers of the second are those of the first, except that at any depth some invisible layers
    and folders are missing together with what is clipped to them, and that some neighbours whose pictures do not overlap
    have changed places with what is clipped to them. Everything else in the files may differ (the header, the resources, whether a
    file is PSD or PSB, ...). Loaded and rendered with tiles of the same size, both show the same pixel at every point. *)
Theorem C89_tidied :
  forall inflate kind procs h rsv cmd res neg pl sf pad gmask bs tail rest inflate' kind' procs' h' rsv' cmd' res' neg' pl' sf' pad' gmask' bs' tail' rest' cpus cpus1 ts,
  (1 <= procs)%nat -> (1 <= procs')%nat -> (1 <= cpus)%nat -> (1 <= cpus1)%nat -> 0 < ts ->
  header_valid h -> h_mode h = 3 -> h_depth h = 8 -> zlen rsv = 6 -> zlen cmd < 4294967296 ->
  Forall rblock_valid res -> zlen (enc_rblocks res) < 4294967296 ->
  header_valid h' -> h_mode h' = 3 -> h_depth h' = 8 -> zlen rsv' = 6 -> zlen cmd' < 4294967296 ->
  Forall rblock_valid res' -> zlen (enc_rblocks res') < 4294967296 ->
  let large := h_version h =? 2 in let large' := h_version h' =? 2 in
  section_valid inflate large neg 8 3 pl (flat_map sflatten sf) pad gmask bs tail -> Forall stree_valid sf -> glass_forest sf ->
  section_valid inflate' large' neg' 8 3 pl' (flat_map sflatten sf') pad' gmask' bs' tail' -> Forall stree_valid sf' -> glass_forest sf' ->
  tidied sf sf' ->
  let enc := enc_config h rsv cmd res ++ enc_section large neg pl (flat_map sflatten sf) pad gmask bs tail in
  let enc' := enc_config h' rsv' cmd' res' ++ enc_section large' neg' pl' (flat_map sflatten sf') pad' gmask' bs' tail' in
  exists f evs f' evs', Decode inflate kind procs newOptions (enc ++ rest) = (Ok (f, zlen enc, rest), evs) /\ Decode inflate' kind' procs' newOptions (enc' ++ rest') = (Ok (f', zlen enc', rest'), evs') /\
    forall st st', MWait.steps (lstep cpus ts) (lstart (map (fun e => playerOf (ev_layer e)) evs)) st -> lended st ->
    MWait.steps (lstep cpus1 ts) (lstart (map (fun e => playerOf (ev_layer e)) evs')) st' -> lended st' ->
    forall n n' r r' w0 w1 w0' w1', (1 <= n)%nat -> (1 <= n')%nat -> new w0 -> new w0' ->
    renderedPx ts (ldImages st) n ts r false (rootOf (ldCopied st) (f_layer f)) w0 w1 ->
    renderedPx ts (ldImages st') n' ts r' false (rootOf (ldCopied st') (f_layer f')) w0' w1' ->
    forall q p, tileOf ts r q -> tileOf ts r' q -> in_tile ts q p -> 0 <= MRect.px p -> 0 <= py p ->
    exists u t u' t' v, w1 q = Some (u, t) /\ w1' q = Some (u', t') /\ tile_at ts q t p = Some v /\ tile_at ts q t' p = Some v.
Proof. exact tidy_shown. Qed.
Print Assumptions C89_tidied.

(** *** An example: a clipping group; a hidden layer with a layer clipped to it; a folder with a layer of opacity 0, which is left out,
    and another; two layers that do not overlap. *)
Definition unseen_layer : slayer := SLayer (Rct 0 0 2 1) (rgb [1; 2] [3; 4] [5; 6]) (ascii "mul ") 255 0 2 0 SNone [] [65] [0; 0] [] [].
Definition left_pixel : slayer := SLayer (Rct 0 0 1 1) (rgb [0] [200] [0]) (ascii "mul ") 90 0 0 0 SNone [] [65] [0; 0] [] [].
Definition right_pixel : slayer := SLayer (Rct 1 0 2 1) (rgb [0] [0] [250]) (ascii "norm") 60 0 0 0 SNone [] [65] [0; 0] [] [].
Definition cluttered : list stree :=
  [SLeaf half; SLeaf shade; SLeaf unseen_layer; SLeaf shade; SFolder divider (veil (ascii "norm") [100; 0]) [SLeaf ghost; SLeaf pink]; SLeaf left_pixel; SLeaf right_pixel].
Definition tidy : list stree :=
  [SLeaf half; SLeaf shade; SFolder divider (veil (ascii "norm") [100; 0]) [SLeaf pink]; SLeaf right_pixel; SLeaf left_pixel].

Lemma glass_parts : glass_tree (SLeaf half) /\ glass_tree (SLeaf shade) /\ glass_tree (SLeaf unseen_layer) /\ glass_tree (SLeaf left_pixel) /\ glass_tree (SLeaf right_pixel) /\ glass_tree (SLeaf ghost) /\ glass_tree (SLeaf pink).
Proof.
  repeat split.
  - apply (lay_glass half [200; 10] [100; 20] [50; 30] Normal); [now apply no_mask|cbv; intuition discriminate|reflexivity|left; now left|reflexivity|reflexivity|reflexivity|reflexivity].
  - apply (lay_glass shade [51; 51] [255; 255] [102; 102] Multiply); [now apply no_mask|cbv; intuition discriminate|reflexivity|left; right; right; now left|reflexivity|reflexivity|reflexivity|reflexivity].
  - apply (lay_glass unseen_layer [1; 2] [3; 4] [5; 6] Multiply); [now apply no_mask|cbv; intuition discriminate|reflexivity|left; right; right; now left|reflexivity|reflexivity|reflexivity|reflexivity].
  - apply (lay_glass left_pixel [0] [200] [0] Multiply); [now apply no_mask|cbv; intuition discriminate|reflexivity|left; right; right; now left|reflexivity|reflexivity|reflexivity|reflexivity].
  - apply (lay_glass right_pixel [0] [0] [250] Normal); [now apply no_mask|cbv; intuition discriminate|reflexivity|left; now left|reflexivity|reflexivity|reflexivity|reflexivity].
  - apply (lay_glass ghost [7; 7] [7; 7] [7; 7] Normal); [now apply no_mask|cbv; intuition discriminate|reflexivity|left; now left|reflexivity|reflexivity|reflexivity|reflexivity].
  - apply (lay_glass pink [255; 255] [0; 0] [0; 0] Normal); [now apply no_mask|cbv; intuition discriminate|reflexivity|left; now left|reflexivity|reflexivity|reflexivity|reflexivity].
Qed.
Lemma all_glass_groups ts : (forall t, In t ts -> blends_group (rec_of t) = true) -> glass_groups ts.
Proof.
  intros H gs t cs G Hin. right. left. apply H. revert Hin. clear H. induction G as [|u ts gs E _ IH|u cs0 ts gs E F N _ IH]; intros Hin; [destruct Hin|right; auto|].
  destruct Hin as [[= -> ->]|Hin]; [now left|]. right. apply in_or_app. right. auto.
Qed.
Lemma clutter_valid sf : sf = cluttered \/ sf = tidy ->
  section_valid noinflate false false 8 3 InPlace (flat_map sflatten sf) [] [] [] [] /\ Forall stree_valid sf /\ glass_forest sf.
Proof.
  destruct glass_parts as (G1 & G2 & G3 & G4 & G5 & G6 & G7). intros H. split; [|split].
  - split.
    + destruct H as [-> | ->]; cbn [cluttered tidy flat_map sflatten app];
        repeat apply Forall_cons; try apply Forall_nil; (apply slayer_check; [vm_compute; reflexivity|exact I|]); try exact I; try (exists 3, None, 0; exact div3); exists 1, (Some (ascii "norm")), 0; now apply div1.
    + split; [destruct H as [-> | ->]; reflexivity|]. split; [exact I|]. split; [reflexivity|]. split; [constructor|].
      split; [split; [apply no8b_ok; reflexivity|right; left; reflexivity]|]. destruct H as [-> | ->]; vm_compute; reflexivity.
  - destruct H as [-> | ->]; repeat apply Forall_cons; try apply Forall_nil; try (apply (sleaf_valid _ 0); [reflexivity|lia|lia|lia]);
      (apply (sfolder_valid _ _ _ 1); [exists None, 0; exact div3|exists (Some (ascii "norm")), 0; now apply div1|now left|]);
      repeat apply Forall_cons; try apply Forall_nil; (apply (sleaf_valid _ 0); [reflexivity|lia|lia|lia]).
  - split; [|apply all_glass_groups; destruct H as [-> | ->]; intros t Ht; repeat (destruct Ht as [<-|Ht]; [reflexivity|]); destruct Ht].
    assert (F : forall c, Forall glass_tree c -> (forall t, In t c -> blends_group (rec_of t) = true) -> glass_tree (SFolder divider (veil (ascii "norm") [100; 0]) c)).
    { intros c H1 H2. apply (glass_sfolder _ _ _ (Some Normal)); [cbv; intuition discriminate|exact (veil_norm _)|now apply veil_mask; left|exact H1|now apply all_glass_groups]. }
    destruct H as [-> | ->]; unfold cluttered, tidy; repeat apply Forall_cons; try apply Forall_nil; try assumption; apply F.
    + repeat apply Forall_cons; try apply Forall_nil; assumption.
    + intros t Ht. repeat (destruct Ht as [<-|Ht]; [reflexivity|]). destruct Ht.
    + repeat apply Forall_cons; try apply Forall_nil; assumption.
    + intros t Ht. repeat (destruct Ht as [<-|Ht]; [reflexivity|]). destruct Ht.
Qed.
Lemma tidied_refl_list ts : tidied ts ts.
Proof. induction ts; constructor; auto using tidied_refl. Qed.
Lemma clutter_tidied : tidied cluttered tidy.
Proof.
  apply tidied_keep; [constructor|]. apply tidied_keep; [constructor|].
  apply (tidied_drop (SLeaf unseen_layer) [SLeaf shade]); [reflexivity|now constructor|reflexivity|left; reflexivity|].
  apply tidied_keep.
  - constructor. apply (tidied_drop (SLeaf ghost) []); [reflexivity|constructor|reflexivity|right; left; reflexivity|]. apply tidied_refl_list.
  - apply (tidied_swap (SLeaf left_pixel) [] (SLeaf right_pixel) [] [] []); try reflexivity; try constructor.
    + exact (fun H => H).
    + exact (fun H => H).
    + intros l l' q P P'. inversion P; inversion P'; subst. unfold pt_in. cbn. lia.
Qed.
(** The hypotheses hold; both files show the same two pixels. *)
Example C89_used : tidied cluttered tidy /\
  (forall sf, sf = cluttered \/ sf = tidy -> section_valid noinflate false false 8 3 InPlace (flat_map sflatten sf) [] [] [] [] /\ Forall stree_valid sf /\ glass_forest sf) /\
  showWith 2 (fileOf cluttered) [Pt 0 0] = Some [Some [Px 76 99 10 168; Px 3 14 84 211; nothing; nothing]] /\
  showWith 2 (fileOf tidy) [Pt 0 0] = Some [Some [Px 76 99 10 168; Px 3 14 84 211; nothing; nothing]].
Proof. split; [exact clutter_tidied|]. split; [exact clutter_valid|]. split; vm_compute; reflexivity. Qed.

(** *** Hidden layers that are clipped to another one *)
(** They cannot be left out: the picture of a layer to which something is clipped, hidden or not, is copied once more, and faint pixels
    lose some of their colour. *)
Definition faint : slayer := lay (ascii "norm") 255 0 SNone [] ((-1, PRaw [25; 25]) :: rgb [5; 5] [5; 5] [5; 5]).
Definition unseen_clip : slayer := SLayer (Rct 0 0 2 1) (rgb [1; 2] [3; 4] [5; 6]) (ascii "mul ") 255 1 2 0 SNone [] [65] [0; 0] [] [].
Theorem C89_hidden_clip_refuted : exists sf l f n rest evs f' n' rest' evs' p v v',
  hidden l = true /\
  section_valid noinflate false false 8 3 InPlace (flat_map sflatten (sf ++ [SLeaf l])) [] [] [] [] /\ Forall stree_valid (sf ++ [SLeaf l]) /\ glass_forest (sf ++ [SLeaf l]) /\
  Decode noinflate Plain 1 newOptions (fileOf (sf ++ [SLeaf l])) = (Ok (f, n, rest), evs) /\ Decode noinflate Plain 1 newOptions (fileOf sf) = (Ok (f', n', rest'), evs') /\
  shownBy f evs p v /\ shownBy f' evs' p v' /\ v = Px 0 0 0 25 /\ v' = Px 2 2 2 25.
Proof.
  destruct (shows_with 2 (fileOf ([SLeaf faint] ++ [SLeaf unseen_clip])) [Pt 0 0] [[Px 0 0 0 25; Px 0 0 0 25; nothing; nothing]] ltac:(lia)) as (f & n & rest & evs & ED & Sh); [vm_compute; reflexivity|].
  destruct (shows_with 2 (fileOf [SLeaf faint]) [Pt 0 0] [[Px 2 2 2 25; Px 2 2 2 25; nothing; nothing]] ltac:(lia)) as (f' & n' & rest' & evs' & ED' & Sh'); [vm_compute; reflexivity|].
  exists [SLeaf faint], unseen_clip, f, n, rest, evs, f', n', rest', evs', (Pt 0 0), (Px 0 0 0 25), (Px 2 2 2 25). split; [reflexivity|]. split.
  { split.
    - change (flat_map sflatten ([SLeaf faint] ++ [SLeaf unseen_clip])) with [faint; unseen_clip]. repeat apply Forall_cons; try apply Forall_nil; (apply slayer_check; [vm_compute; reflexivity|exact I|]); exact I.
    - split; [reflexivity|]. split; [exact I|]. split; [reflexivity|]. split; [constructor|].
      split; [split; [apply no8b_ok; reflexivity|right; left; reflexivity]|]. vm_compute. reflexivity. }
  split. { repeat apply Forall_cons; try apply Forall_nil; apply (sleaf_valid _ 0); [reflexivity|lia|lia|lia| |lia|lia|lia]; reflexivity. }
  split. { split.
    - repeat apply Forall_cons; try apply Forall_nil.
      + apply (lay_glass faint [5; 5] [5; 5] [5; 5] Normal); [now apply no_mask|cbv; intuition discriminate|reflexivity|left; now left|reflexivity|reflexivity|reflexivity|reflexivity].
      + apply (lay_glass unseen_clip [1; 2] [3; 4] [5; 6] Multiply); [now apply no_mask|cbv; intuition discriminate|reflexivity|left; right; right; now left|reflexivity|reflexivity|reflexivity|reflexivity].
    - apply all_glass_groups. intros t Ht. repeat (destruct Ht as [<-|Ht]; [reflexivity|]); destruct Ht. }
  split; [exact ED|]. split; [exact ED'|]. split; [|split; [|split; reflexivity]].
  - apply (Sh (Pt 0 0) [Px 0 0 0 25; Px 0 0 0 25; nothing; nothing]); [now left| | |reflexivity]; [exists 0, 0; repeat split; cbn; lia|unfold in_tile; cbn; lia].
  - apply (Sh' (Pt 0 0) [Px 2 2 2 25; Px 2 2 2 25; nothing; nothing]); [now left| | |reflexivity]; [exists 0, 0; repeat split; cbn; lia|unfold in_tile; cbn; lia].
Qed.
Print Assumptions C89_hidden_clip_refuted.
