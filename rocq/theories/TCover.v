(** Theorems: how opaque the picture of a file is, C88. *)
From Coq Require Import String QArith.
From Verif Require Import Base SUtil SConfig MRect MPicker MConfig MReader MLayer MApi SCompress SRecord SLayer XRecord
  MSched MBlend MPorter SBlend MWait MRender SRender MRenderAll SRenderAll MRenderPx PRenderPx
  MDraw MTile STile MLoad SLoad MPipe SPipe SSharp PPipe5 XPipe PSharp3 PSharp4 TPipe TSharp PPipe4 SGlass PGlass4 TGlass SStack SCover PCover.
Close Scope string_scope.
Open Scope Z_scope.

(** ** C88 *)

(** An RGB file of 8 bits as in C70: any blend modes, opacities, masks, clipping groups, and folders one in the other. At every
    point every Render after New shows a pixel whose alpha is the exact coverage, up to [lo] levels less and [hi] levels more. *)
Theorem C88_coverage :
  forall inflate kind procs h rsv cmd res neg pl sf pad gmask bs tail rest cpus ts, (1 <= procs)%nat -> (1 <= cpus)%nat -> 0 < ts ->
  header_valid h -> h_mode h = 3 -> h_depth h = 8 -> zlen rsv = 6 -> zlen cmd < 4294967296 ->
  Forall rblock_valid res -> zlen (enc_rblocks res) < 4294967296 ->
  let large := h_version h =? 2 in
  section_valid inflate large neg 8 3 pl (flat_map sflatten sf) pad gmask bs tail ->
  Forall stree_valid sf -> glass_forest sf ->
  let enc := enc_config h rsv cmd res ++ enc_section large neg pl (flat_map sflatten sf) pad gmask bs tail in
  exists f evs, Decode inflate kind procs newOptions (enc ++ rest) = (Ok (f, zlen enc, rest), evs) /\
    forall st, MWait.steps (lstep cpus ts) (lstart (map (fun e => playerOf (ev_layer e)) evs)) st -> lended st ->
    forall cpus' r' w0 w1, (1 <= cpus')%nat -> new w0 ->
    renderedPx ts (ldImages st) cpus' ts r' false (rootOf (ldCopied st) (f_layer f)) w0 w1 ->
    forall q p e lo hi, tileOf ts r' q -> in_tile ts q p -> 0 <= MRect.px p -> 0 <= py p ->
    cover p 1 0 sf 0 e lo hi ->
    exists u t v, w1 q = Some (u, t) /\ tile_at ts q t p = Some v /\ around lo hi (pa v) e.
Proof. exact cover_shown. Qed.
Print Assumptions C88_coverage.

(** The layers of a file in which no pass-through folder has a mask have one exact coverage at every point. *)
Theorem C88_determined : forall inflate large p sf,
  Forall (slayer_valid inflate large 8 3) (flat_map sflatten sf) -> Forall glass_tree sf -> Forall no_masked_through sf ->
  exists e lo hi, cover p 1 0 sf 0 e lo hi /\ forall e' lo' hi', cover p 1 0 sf 0 e' lo' hi' -> e' = e /\ lo' = lo /\ hi' = hi.
Proof. exact cover_one. Qed.
Print Assumptions C88_determined.

(** It is between nothing and all, and covers more the more layers there are; the picture has at most one level more for every mask. *)
Theorem C88_bounds : forall p sf sf' e lo hi e' lo' hi', Forall glass_tree (sf ++ sf') ->
  cover p 1 0 sf 0 e lo hi -> cover p 1 0 (sf ++ sf') 0 e' lo' hi' ->
  (0 <= e <= e')%Q /\ (e' <= 1)%Q /\ 0 <= lo <= lo' /\ 0 <= hi <= hi' /\ hi' <= zlen (filter has_mask (flat_map sflatten (sf ++ sf'))).
Proof. exact cover_bounds. Qed.
Print Assumptions C88_bounds.

(** A file of two pixels: the picture and the clipped layer of C70; over them a pass-through folder with the opacity 150, in which there
    are a picture and a folder with a mask. *)
Definition window : slayer :=
  SLayer ZR [] (ascii "norm") 150 0 0 0 SNone [] [67] [0; 0] [IBlock [] false (ascii "lsct") (be 4 1 ++ ascii "8BIM" ++ ascii "pass")] [].
Definition inner : stree := SFolder divider (veil (ascii "norm") [100; 0]) [SLeaf half].
Definition glazing : list stree := [SLeaf half; SLeaf shade; SFolder divider window [SLeaf pink; inner]].

Lemma window_pass : folder_mode window None.
Proof.
  exists (ascii "pass"). split; [|reflexivity]. exists (be 4 1 ++ ascii "8BIM" ++ ascii "pass"), 1, (Some (ascii "pass")), 0. split; [reflexivity|]. split; [now apply div1|reflexivity].
Qed.
Lemma glazing_ok : section_valid noinflate false false 8 3 InPlace (flat_map sflatten glazing) [] [] [] [] /\ Forall stree_valid glazing /\ glass_forest glazing /\ Forall no_masked_through glazing.
Proof.
  split; [|split; [|split]].
  - split.
    + change (flat_map sflatten glazing) with [half; shade; divider; pink; divider; half; veil (ascii "norm") [100; 0]; window].
      repeat apply Forall_cons; try apply Forall_nil; (apply slayer_check; [vm_compute; reflexivity|exact I|]); try exact I.
      * exists 3, None, 0. exact div3.
      * exists 3, None, 0. exact div3.
      * exists 1, (Some (ascii "norm")), 0. now apply div1.
      * exists 1, (Some (ascii "pass")), 0. now apply div1.
    + split; [reflexivity|]. split; [exact I|]. split; [reflexivity|]. split; [constructor|].
      split; [split; [apply no8b_ok; reflexivity|right; left; reflexivity]|]. vm_compute. reflexivity.
  - assert (stree_valid (SLeaf half)) as Vh by (apply (sleaf_valid _ 0); [reflexivity|lia|lia|lia]).
    repeat apply Forall_cons; try apply Forall_nil; try exact Vh; try (apply (sleaf_valid _ 0); [reflexivity|lia|lia|lia]).
    apply (sfolder_valid _ _ _ 1); [exists None, 0; exact div3|exists (Some (ascii "pass")), 0; now apply div1|now left|].
    repeat apply Forall_cons; try apply Forall_nil; [apply (sleaf_valid _ 0); [reflexivity|lia|lia|lia]|].
    apply (sfolder_valid _ _ _ 1); [exists None, 0; exact div3|exists (Some (ascii "norm")), 0; now apply div1|now left|]. now constructor.
  - assert (Gh : glass_tree (SLeaf half)).
    { apply (lay_glass half [200; 10] [100; 20] [50; 30] Normal); [now apply no_mask|cbv; intuition discriminate|reflexivity|left; now left|reflexivity|reflexivity|reflexivity|reflexivity]. }
    assert (G0 : layers_grouped glazing [(SLeaf half, [SLeaf shade]); (SFolder divider window [SLeaf pink; inner], [])]).
    { apply (lg_base _ [SLeaf shade]); [reflexivity|now constructor|reflexivity|]. apply (lg_base _ [] []); [reflexivity|constructor|exact I|constructor]. }
    assert (G1 : layers_grouped [SLeaf pink; inner] [(SLeaf pink, []); (inner, [])]).
    { apply (lg_base _ []); [reflexivity|constructor|reflexivity|]. apply (lg_base _ [] []); [reflexivity|constructor|exact I|constructor]. }
    split.
    + repeat apply Forall_cons; try apply Forall_nil; [exact Gh| |].
      * apply (lay_glass shade [51; 51] [255; 255] [102; 102] Multiply); [now apply no_mask|cbv; intuition discriminate|reflexivity|left; right; right; now left|reflexivity|reflexivity|reflexivity|reflexivity].
      * apply (glass_sfolder _ _ _ None); [cbv; intuition discriminate|exact window_pass|now apply no_mask| |].
        -- repeat apply Forall_cons; try apply Forall_nil.
           ++ apply (lay_glass pink [255; 255] [0; 0] [0; 0] Normal); [now apply no_mask|cbv; intuition discriminate|reflexivity|left; now left|reflexivity|reflexivity|reflexivity|reflexivity].
           ++ apply (glass_sfolder _ _ _ (Some Normal)); [cbv; intuition discriminate|exact (veil_norm _)|now apply veil_mask; left| |now apply one_groups]. now constructor.
        -- intros gs t cs G Hi. rewrite <- (lg_fun _ _ G1 _ G) in Hi. destruct Hi as [[= <- <-]|[[= <- <-]|[]]]; now left.
    + intros gs t cs G Hi. rewrite <- (lg_fun _ _ G0 _ G) in Hi. destruct Hi as [[= <- <-]|[[= <- <-]|[]]]; [right; now left|now left].
  - repeat apply Forall_cons; try apply Forall_nil; try constructor; [intros _; reflexivity|]. repeat constructor. intros H. discriminate (folder_mode_fun _ _ _ H (veil_norm _)).
Qed.

(** At the first pixel the exact alpha is 169.4; 165 is shown. *)
Example C88_used :
  section_valid noinflate false false 8 3 InPlace (flat_map sflatten glazing) [] [] [] [] /\ Forall stree_valid glazing /\ glass_forest glazing /\ Forall no_masked_through glazing /\
  (exists e lo hi, cover (Pt 0 0) 1 0 glazing 0 e lo hi /\ lo = 15 /\ hi = 1 /\ (1693 # 10 < (255 # 1) * e < 1695 # 10)%Q) /\
  showWith 2 (fileOf glazing) [Pt 0 0] = Some [Some [Px 205 39 14 165; Px 35 17 17 204; nothing; nothing]].
Proof.
  destruct glazing_ok as (V & T & G & N). split; [exact V|]. split; [exact T|]. split; [exact G|]. split; [exact N|]. split; [|vm_compute; reflexivity].
  assert (Sh : shape (Pt 0 0) (SLeaf half) (SBlend.unit 128 * SBlend.unit 255) 0 0).
  { apply (shape_leaf _ half (Px 200 100 50 128) 255); [eapply (pixel half (Pt 0 0) 200 100 50 128); reflexivity|reflexivity]. }
  eexists _, _, _. split; [|split; [|split]].
  - eapply cover_next; [reflexivity|apply (adds_layer _ _ _ _ Normal); [reflexivity|left; now left|exact Sh]|].
    apply cover_clipped; [reflexivity|]. eapply cover_next; [reflexivity| |apply cover_nil]. apply adds_through; [reflexivity|exact window_pass|reflexivity|].
    eapply cover_next; [reflexivity| |eapply cover_next; [reflexivity| |apply cover_nil]].
    + apply (adds_layer _ _ _ _ Normal); [reflexivity|left; now left|]. apply (shape_leaf _ pink (Px 255 0 0 255) 255); [eapply (pixel pink (Pt 0 0) 255 0 0 255); reflexivity|reflexivity].
    + apply (adds_layer _ _ _ inner Normal); [reflexivity|exact (veil_norm _)|].
      eapply (shape_folder _ divider (veil (ascii "norm") [100; 0]) [SLeaf half] Normal _ 100); [exact (veil_norm _)| |exists [100; 0]; split; reflexivity].
      eapply cover_next; [reflexivity|apply (adds_layer _ _ _ _ Normal); [reflexivity|left; now left|exact Sh]|apply cover_nil].
  - reflexivity.
  - reflexivity.
  - vm_compute. split; reflexivity.
Qed.
