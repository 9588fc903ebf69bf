(** Theorems about the picture of a tree that is moved by Tree.Transform (property C81). *)
From Coq Require Import String QArith.
From Verif Require Import Base BaseFacts SUtil SConfig MRect MThumb SThumb MPicker MConfig MReader MLayer MApi SCompress SRecord SLayer XRecord
  MSched MBlend MPorter SBlend MWait MRender SRender MRenderAll SRenderAll MRenderPx PRenderPx
  MDraw MTile STile MLoad SLoad STileRender MPipe SPipe SSharp PPipe5 XPipe PSharp3 PSharp4 TPipe TSharp PPipe4 SGlass PGlass4 TGlass MTileRender MScale SScale PScale MMove SMove PMove4.
Close Scope string_scope.
Open Scope Z_scope.

(** ** C81 *)

(** A file as in C70 without pass-through folders and white masks, whose pictures consist of opaque
    and of transparent pixels. It is loaded and its tree is moved with Transform by whole pixels,
    without gamma, by a library that copies whole pixels and makes bytes of bytes. The transformation has a result. For
    every result, whatever the schedules, every Render of the new tree shows at the moved place of each point the
    pixel that putting the layers of the file one over the other gives at the point, if the coordinates of both are not
    negative; and nothing where no picture covers the point. *)
Theorem C81_moved :
  forall inflate kind procs h rsv cmd res neg pl sf pad gmask bs tail rest cpus ts, (1 <= procs)%nat -> (1 <= cpus)%nat -> 0 < ts <= 2 ^ 50 ->
  header_valid h -> h_mode h = 3 -> h_depth h = 8 -> zlen rsv = 6 -> zlen cmd < 4294967296 ->
  Forall rblock_valid res -> zlen (enc_rblocks res) < 4294967296 ->
  let large := h_version h =? 2 in
  section_valid inflate large neg 8 3 pl (flat_map sflatten sf) pad gmask bs tail ->
  Forall stree_valid sf -> glass_forest sf -> Forall steady_tree sf -> Forall solid_tree sf -> Forall mask_bytes (flat_map sflatten sf) ->
  let enc := enc_config h rsv cmd res ++ enc_section large neg pl (flat_map sflatten sf) pad gmask bs tail in
  exists f evs, Decode inflate kind procs newOptions (enc ++ rest) = (Ok (f, zlen enc, rest), evs) /\
    (exists st, MWait.steps (lstep cpus ts) (lstart (map (fun e => playerOf (ev_layer e)) evs)) st /\ lended st) /\
    forall st, MWait.steps (lstep cpus ts) (lstart (map (fun e => playerOf (ev_layer e)) evs)) st -> lended st ->
    forall rnd lib cpusT dx dy, SThumb.rounding rnd -> good_library lib -> typed lib -> (1 <= cpusT)%nat -> - 2 ^ 51 <= dx <= 2 ^ 51 -> - 2 ^ 51 <= dy <= 2 ^ 51 ->
    (exists imgs out, listing (ldImages st) imgs /\ transformTreeBy rnd lib cpusT ts (translation dx dy) None imgs out) /\
    forall imgs out, listing (ldImages st) imgs -> transformTreeBy rnd lib cpusT ts (translation dx dy) None imgs out ->
    forall cpus' r' w0 w1, (1 <= cpus')%nat -> new w0 ->
    renderedPx ts out cpus' ts r' false (rootOf (ldCopied st) (f_layer f)) w0 w1 ->
    forall q p, tileOf ts r' q -> in_tile ts q (shifted p dx dy) ->
    exists s t, w1 q = Some (s, t) /\
      (0 <= MRect.px p -> 0 <= py p -> 0 <= MRect.px p + dx -> 0 <= py p + dy ->
        exists c, (forall c', laid (fun _ => True) p None sf nothing c' <-> c' = c) /\ tile_at ts q t (shifted p dx dy) = Some (stored (stored c))) /\
      (Forall (clear_of p) sf -> tile_at ts q t (shifted p dx dy) = Some nothing).
Proof. exact moved_shown. Qed.
Print Assumptions C81_moved.

(** The hypotheses are met: the file of C70 with solid pictures: a picture whose second pixel is
    transparent, a layer multiplied and clipped to it, and a folder with a grey mask. *)
Definition half1 : slayer := lay (ascii "norm") 200 0 SNone [] ((-1, PRaw [255; 0]) :: rgb [200; 10] [100; 20] [50; 30]).
Definition pink1 : slayer := lay (ascii "norm") 180 0 SNone [] ((-1, PRaw [255; 255]) :: rgb [255; 255] [0; 0] [0; 0]).
Definition solidly : list stree := [SLeaf half1; SLeaf shade; SFolder divider (veil (ascii "norm") [100; 0]) [SLeaf pink1]].
Lemma solidly_is : layers_grouped solidly [(SLeaf half1, [SLeaf shade]); (SFolder divider (veil (ascii "norm") [100; 0]) [SLeaf pink1], [])].
Proof. apply (lg_base _ [SLeaf shade]); [reflexivity|now constructor|reflexivity|]. apply (lg_base _ [] []); [reflexivity|constructor|exact I|constructor]. Qed.
Lemma solidly_glass : glass_forest solidly.
Proof.
  split.
  - repeat apply Forall_cons; try apply Forall_nil.
    + apply (lay_glass half1 [200; 10] [100; 20] [50; 30] Normal); [now apply no_mask|cbv; intuition discriminate|reflexivity|left; now left|reflexivity|reflexivity|reflexivity|reflexivity].
    + apply (lay_glass shade [51; 51] [255; 255] [102; 102] Multiply); [now apply no_mask|cbv; intuition discriminate|reflexivity|left; right; right; now left|reflexivity|reflexivity|reflexivity|reflexivity].
    + apply (glass_sfolder _ _ _ (Some Normal)); [cbv; intuition discriminate|exact (veil_norm _)|now apply veil_mask; left| |now apply one_groups]. constructor; [|constructor].
      apply (lay_glass pink1 [255; 255] [0; 0] [0; 0] Normal); [now apply no_mask|cbv; intuition discriminate|reflexivity|left; now left|reflexivity|reflexivity|reflexivity|reflexivity].
  - intros gs t cs G Hi. rewrite <- (lg_fun _ _ solidly_is _ G) in Hi. destruct Hi as [[= <- <-]|[[= <- <-]|[]]]; [right; now left|now left].
Qed.
Lemma solidly_valid : section_valid noinflate false false 8 3 InPlace (flat_map sflatten solidly) [] [] [] [] /\ Forall stree_valid solidly.
Proof.
  split.
  - split.
    + change (flat_map sflatten solidly) with [half1; shade; divider; pink1; veil (ascii "norm") [100; 0]].
      repeat apply Forall_cons; try apply Forall_nil; (apply slayer_check; [vm_compute; reflexivity|exact I|]); try exact I.
      * exists 3, None, 0. exact div3.
      * exists 1, (Some (ascii "norm")), 0. now apply div1.
    + split; [reflexivity|]. split; [exact I|]. split; [reflexivity|]. split; [constructor|].
      split; [split; [apply no8b_ok; reflexivity|right; left; reflexivity]|]. vm_compute; reflexivity.
  - repeat apply Forall_cons; try apply Forall_nil; try (apply (sleaf_valid _ 0); [reflexivity|lia|lia|lia]).
    apply (sfolder_valid _ _ _ 1); [exists None, 0; exact div3|exists (Some (ascii "norm")), 0; now apply div1|now left|].
    repeat apply Forall_cons; try apply Forall_nil. apply (sleaf_valid _ 0); [reflexivity|lia|lia|lia].
Qed.
Lemma solidly_solid : Forall steady_tree solidly /\ Forall solid_tree solidly /\ Forall mask_bytes (flat_map sflatten solidly).
Proof.
  split; [|split].
  - repeat apply Forall_cons; try apply Forall_nil; try (apply steady_sleaf; discriminate).
    apply steady_sfolder; [intros _; reflexivity| |repeat constructor; discriminate]. intros H. discriminate (folder_mode_fun _ _ _ H (veil_norm _)).
  - repeat (constructor; unfold solid; cbn; auto).
  - repeat apply Forall_cons; try apply Forall_nil; try exact I. all: unfold is_byte; lia.
Qed.
Lemma solidly_laid A : exists c, laid A (Pt 0 0) None solidly nothing c /\ stored (stored c) = Px 145 80 27 207.
Proof.
  assert (P1 : exists d, put A (Pt 0 0) (SLeaf half1) [SLeaf shade] 200 nothing d /\ d = Px 119 100 34 200).
  { eexists. split.
    - eapply put_over; [reflexivity|discriminate|left; now left| |].
      + apply plain_image; [|reflexivity]. eapply (pixel half1 (Pt 0 0) 200 100 50 255); reflexivity.
      + apply topped_group; [discriminate|reflexivity|]. eapply clips_next; [|apply clips_done]. eapply put_over; [reflexivity|discriminate|left; right; right; now left| |apply topped_alone; now left].
        apply plain_image; [|reflexivity]. eapply (pixel shade (Pt 0 0) 51 255 102 255); reflexivity.
    - vm_compute. reflexivity. }
  destruct P1 as (d1 & P1 & E1). eexists. split.
  - eapply laid_groups; [exact solidly_is|]. eapply heaped_cons; [exact P1|]. eapply heaped_cons; [|apply heaped_nil].
    eapply put_over; [reflexivity|discriminate|exact (veil_norm _)| |apply topped_alone; now left].
    eapply image_folder; [exact (veil_norm _)| |].
    + eapply laid_groups; [now apply one_is|]. eapply heaped_cons; [|apply heaped_nil]. eapply put_over; [reflexivity|discriminate|left; now left| |apply topped_alone; now left].
      apply plain_image; [|reflexivity]. eapply (pixel pink1 (Pt 0 0) 255 0 0 255); reflexivity.
    + exists 100. eexists. split; [eexists; split; reflexivity|]. split; [left; split; reflexivity|reflexivity].
  - rewrite E1. vm_compute. reflexivity.
Qed.
(** The file moved by (3, 1): the first pixel is shown at (3, 1); nothing is shown at (2, 1). *)
Example C81_used : exists f evs, Decode noinflate Plain 1 newOptions (fileOf solidly) = (Ok (f, zlen (fileOf solidly), []), evs) /\
  (exists st, MWait.steps (lstep 2 2) (lstart (map (fun e => playerOf (ev_layer e)) evs)) st /\ lended st) /\
  forall st, MWait.steps (lstep 2 2) (lstart (map (fun e => playerOf (ev_layer e)) evs)) st -> lended st ->
  (exists imgs out, listing (ldImages st) imgs /\ transformTreeBy (fun x => x) exactLib 1 2 (translation 3 1) None imgs out) /\
  forall imgs out, listing (ldImages st) imgs -> transformTreeBy (fun x => x) exactLib 1 2 (translation 3 1) None imgs out ->
  forall w0 w1, new w0 -> renderedPx 2 out 1 2 (Rct 0 0 4 2) false (rootOf (ldCopied st) (f_layer f)) w0 w1 ->
  exists s t, w1 (Pt 2 0) = Some (s, t) /\ tile_at 2 (Pt 2 0) t (Pt 3 1) = Some (Px 145 80 27 207) /\ tile_at 2 (Pt 2 0) t (Pt 2 1) = Some nothing.
Proof.
  destruct solidly_valid as [V T]. destruct solidly_solid as (S1 & S2 & S3).
  destruct (C81_moved noinflate Plain 1 head8 (repeat 0 6%nat) [] [] false InPlace solidly [] [] [] [] [] 2 2) as (f & evs & ED & Ex & R); try assumption; try lia; try reflexivity.
  - unfold header_valid, dim_limit; cbn; lia.
  - constructor.
  - exact solidly_glass.
  - exists f, evs. rewrite app_nil_r in ED. split; [exact ED|]. split; [exact Ex|]. intros st H1 H2.
    assert (Rq : SThumb.rounding (fun x => x)) by (split; [intros x y H; exact H|intros z _; reflexivity]).
    destruct (R st H1 H2 (fun x => x) exactLib 1%nat 3 1 Rq exactLib_good exactLib_typed ltac:(lia) ltac:(lia) ltac:(lia)) as [Ex' R']. split; [exact Ex'|].
    intros imgs out L O w0 w1 N HR.
    assert (Tq : tileOf 2 (Rct 0 0 4 2) (Pt 2 0)) by (exists 1, 0; cbn; lia).
    assert (I1 : forall x, 2 <= x < 4 -> in_tile 2 (Pt 2 0) (Pt x 1)) by (intros x Hx; unfold in_tile; cbn; lia).
    destruct (R' imgs out L O 1%nat _ w0 w1 (le_n _) N HR (Pt 2 0) (Pt 0 0) Tq (I1 3 ltac:(lia))) as (s & t & E & M & _).
    destruct (R' imgs out L O 1%nat _ w0 w1 (le_n _) N HR (Pt 2 0) (Pt (-1) 0) Tq (I1 2 ltac:(lia))) as (s' & t' & E' & _ & C). rewrite E in E'. injection E' as <- <-.
    exists s, t. split; [exact E|]. split.
    + destruct (M ltac:(cbn; lia) ltac:(cbn; lia) ltac:(cbn; lia) ltac:(cbn; lia)) as (c & U & Ec). destruct (solidly_laid (fun _ => True)) as (c1 & L1 & E1). apply U in L1. subst c1. rewrite <- E1. exact Ec.
    + apply C. repeat (constructor; try reflexivity).
Qed.
