(** The picture that New with offsets and a gamma and Render show (property C98). *)
From Coq Require Import String QArith.
From Verif Require Import Base BaseFacts SUtil SConfig MRect MThumb SThumb MPicker MConfig MReader MLayer MApi SCompress SRecord SLayer XRecord
  MSched MBlend MPorter SBlend MWait MRender SRender MRenderAll SRenderAll MRenderPx PRenderPx
  MDraw MTile STile MLoad SLoad STileRender MPipe SPipe SSharp PPipe5 XPipe PSharp3 PSharp4 TPipe TSharp PPipe4 SGlass PGlass4 TGlass MTileRender MScale SScale PScale TScale MMove SMove PMove4 TMove
  MLoadBy PMoveLoad XLoadBy TMoveLoad SShift TShift STint PTint5 TTint.
Close Scope string_scope.
Open Scope Z_scope.

(** ** C98 *)

(** New of a file with offsets of whole pixels and a gamma has a result, and with every result Render shows at every point of the image
    the composition of the layers of the second file, that is, of the layers moved by the offsets and with the colours sent through the tables. *)
Theorem C98_picture :
  forall inflate kind procs h rsv cmd res neg pl sf pad gmask bs tail rest cpus ts dx dy pow gamma g, (1 <= procs)%nat -> (1 <= cpus)%nat -> 0 < ts ->
  header_valid h -> h_mode h = 3 -> h_depth h = 8 -> zlen rsv = 6 -> zlen cmd < 4294967296 ->
  Forall rblock_valid res -> zlen (enc_rblocks res) < 4294967296 ->
  let large := h_version h =? 2 in let sf' := map (each_layer g) sf in
  let gt := option_map (makeGammaTable pow) gamma in let ft c := match gt with Some t => if (dx =? 0) && (dy =? 0) then c else T16 t (T8 t c) | None => c end in
  section_valid inflate large neg 8 3 pl (flat_map sflatten sf) pad gmask bs tail -> section_valid inflate large neg 8 3 pl (flat_map sflatten sf') pad gmask bs tail ->
  Forall stree_valid sf -> Forall (fun sl => graded ft dx dy sl (g sl)) (flat_map sflatten sf) -> Forall solid_picture (flat_map sflatten sf) -> Forall steady (flat_map sflatten sf) -> glass_forest sf' ->
  - 2 ^ 51 <= dx <= 2 ^ 51 -> - 2 ^ 51 <= dy <= 2 ^ 51 ->
  let enc := enc_config h rsv cmd res ++ enc_section large neg pl (flat_map sflatten sf) pad gmask bs tail in
  exists f evs, Decode inflate kind procs newOptions (enc ++ rest) = (Ok (f, zlen enc, rest), evs) /\
    forall rnd lib mm, SThumb.rounding rnd -> good_library lib -> moves_by mm dx dy ->
    (exists st, MWait.steps (lstepBy rnd lib cpus ts (newMatrix mm) gt) (lstart (map (fun e => playerOf (ev_layer e)) evs)) st /\ lended st) /\
    forall st, MWait.steps (lstepBy rnd lib cpus ts (newMatrix mm) gt) (lstart (map (fun e => playerOf (ev_layer e)) evs)) st -> lended st ->
    forall cpus' r' w0 w1, (1 <= cpus')%nat -> new w0 ->
    renderedPx ts (ldImages st) cpus' ts r' false (rootOf (ldCopied st) (f_layer f)) w0 w1 ->
    forall q p, tileOf ts r' q -> in_tile ts q p -> 0 <= MRect.px p -> 0 <= py p ->
    exists s t c, w1 q = Some (s, t) /\ (forall c', laid (square ts q) p None sf' nothing c' <-> c' = c) /\ tile_at ts q t p = Some (stored (stored c)).
Proof.
  intros inflate kind procs h rsv cmd res neg pl sf pad gmask bs tail rest cpus ts dx dy pow gamma g Hp Hc Ht Hh Hm Hd Hr Hcm Hb Hbl large sf' gt ft HS HS' HV HG Hsol Hst Hgl Hx Hy enc.
  destruct (C98_graded_file inflate kind procs h rsv cmd res neg pl sf pad gmask bs tail rest cpus ts dx dy pow gamma g Hp Hc Ht Hh Hm Hd Hr Hcm Hb Hbl HS HS' HV HG Hsol Hst Hx Hy)
    as (f & evs & f' & evs' & ED & ED' & R).
  destruct (C70_composited inflate kind procs h rsv cmd res neg pl sf' pad gmask bs tail rest cpus ts Hp Hc Ht Hh Hm Hd Hr Hcm Hb Hbl HS' (valid_each _ _ _ _ _ HG HV) Hgl)
    as (f2 & evs2 & ED2 & _ & C).
  assert (Q : f2 = f' /\ evs2 = evs') by (unfold sf', large in *; rewrite ED' in ED2; injection ED2 as <- <-; auto). destruct Q as [-> ->].
  exists f, evs. split; [exact ED|]. intros rnd lib mm H1 H2 H3. destruct (R rnd lib mm H1 H2 H3) as [Ex B]. split; [exact Ex|].
  intros st S1 S2 cpus' r' w0 w1 Hc' Hn Hrd. destruct (proj1 (B cpus' r' false w0 w1)) as (st' & S1' & S2' & Hrd'); [now exists st|].
  exact (C st' S1' S2' cpus' r' w0 w1 Hc' Hn Hrd').
Qed.
Print Assumptions C98_picture.

(** *** The file of C81 with the offsets (3, 1) and gamma 2: the first pixel is shown at (3, 1), with other colours than in C81; nothing is shown at (2, 1). *)
Notation deep := (redo lowered 3 1).
Notation deepveil := (deep (veil (ascii "norm") [100; 0])).
Definition deeply : list stree := [SLeaf (deep half1); SLeaf (deep shade); SFolder (deep divider) deepveil [SLeaf (deep pink1)]].
Lemma deeply_valid : section_valid noinflate false false 8 3 InPlace (flat_map sflatten deeply) [] [] [] [].
Proof.
  split.
  - change (flat_map sflatten deeply) with (map deep [half1; shade; divider; pink1; veil (ascii "norm") [100; 0]]). cbn [map].
    repeat apply Forall_cons; try apply Forall_nil; (apply slayer_check; [vm_compute; reflexivity|exact I|]); try exact I.
    + exists 3, None, 0. exact div3.
    + exists 1, (Some (ascii "norm")), 0. now apply div1.
  - split; [reflexivity|]. split; [exact I|]. split; [reflexivity|]. split; [constructor|].
    split; [split; [apply no8b_ok; reflexivity|right; left; reflexivity]|]. vm_compute; reflexivity.
Qed.
Lemma deeply_is : layers_grouped deeply [(SLeaf (deep half1), [SLeaf (deep shade)]); (SFolder (deep divider) deepveil [SLeaf (deep pink1)], [])].
Proof. apply (lg_base _ [SLeaf (deep shade)]); [reflexivity|now constructor|reflexivity|]. apply (lg_base _ [] []); [reflexivity|constructor|exact I|constructor]. Qed.
Lemma deepveil_norm : folder_mode deepveil (Some Normal). Proof. exact (veil_norm [100; 0]). Qed.
Lemma deeply_glass : glass_forest deeply.
Proof.
  split.
  - repeat apply Forall_cons; try apply Forall_nil.
    + apply (lay_glass (deep half1) [199; 9] [99; 19] [49; 29] Normal); [now apply no_mask|cbv; intuition discriminate|reflexivity|left; now left|reflexivity|reflexivity|reflexivity|reflexivity].
    + apply (lay_glass (deep shade) [50; 50] [255; 255] [101; 101] Multiply); [now apply no_mask|cbv; intuition discriminate|reflexivity|left; right; right; now left|reflexivity|reflexivity|reflexivity|reflexivity].
    + apply (glass_sfolder _ _ _ (Some Normal)); [cbv; intuition discriminate|exact deepveil_norm| | |now apply one_groups].
      * intros _. split; [reflexivity|]. split; [exists [100; 0]; split; [reflexivity|now apply bytes_check]|]. split; [now left|]. right.
        exists (Pt 3 1), 100. split; [cbn; lia|]. split; [cbn; lia|]. split; [reflexivity|]. split; [exists [100; 0]; split; reflexivity|discriminate].
      * constructor; [|constructor]. apply (lay_glass (deep pink1) [255; 255] [0; 0] [0; 0] Normal); [now apply no_mask|cbv; intuition discriminate|reflexivity|left; now left|reflexivity|reflexivity|reflexivity|reflexivity].
  - intros gs t cs G Hi. rewrite <- (lg_fun _ _ deeply_is _ G) in Hi. destruct Hi as [[= <- <-]|[[= <- <-]|[]]]; [right; now left|now left].
Qed.
Lemma deeply_laid A : exists c, laid A (Pt 3 1) None deeply nothing c /\ stored (stored c) = Px 144 79 26 207.
Proof.
  assert (P1 : exists d, put A (Pt 3 1) (SLeaf (deep half1)) [SLeaf (deep shade)] 200 nothing d /\ d = Px 118 99 33 200).
  { eexists. split.
    - eapply put_over; [reflexivity|discriminate|left; now left| |].
      + apply plain_image; [|reflexivity]. eapply (pixel (deep half1) (Pt 3 1) 199 99 49 255); reflexivity.
      + apply topped_group; [discriminate|reflexivity|]. eapply clips_next; [|apply clips_done]. eapply put_over; [reflexivity|discriminate|left; right; right; now left| |apply topped_alone; now left].
        apply plain_image; [|reflexivity]. eapply (pixel (deep shade) (Pt 3 1) 50 255 101 255); reflexivity.
    - vm_compute. reflexivity. }
  destruct P1 as (d1 & P1 & E1). eexists. split.
  - eapply laid_groups; [exact deeply_is|]. eapply heaped_cons; [exact P1|]. eapply heaped_cons; [|apply heaped_nil].
    eapply put_over; [reflexivity|discriminate|exact deepveil_norm| |apply topped_alone; now left].
    eapply image_folder; [exact deepveil_norm| |].
    + eapply laid_groups; [now apply one_is|]. eapply heaped_cons; [|apply heaped_nil]. eapply put_over; [reflexivity|discriminate|left; now left| |apply topped_alone; now left].
      apply plain_image; [|reflexivity]. eapply (pixel (deep pink1) (Pt 3 1) 255 0 0 255); reflexivity.
    + exists 100. eexists. split; [eexists; split; reflexivity|]. split; [left; split; reflexivity|reflexivity].
  - rewrite E1. vm_compute. reflexivity.
Qed.
Lemma deeply_void A : laid A (Pt 2 1) None deeply nothing nothing.
Proof.
  assert (L : forall l, pt_in (Pt 2 1) (sl_rect l) = false -> sl_mask l = SNone -> forall op d, image A (Pt 2 1) (SLeaf l) op d nothing).
  { intros l Hr Hn op d. change nothing with (stored nothing). apply plain_image; [|exact Hn]. unfold leaf_value. now rewrite Hr. }
  assert (P1 : exists d, put A (Pt 2 1) (SLeaf (deep half1)) [SLeaf (deep shade)] 200 nothing d /\ d = nothing).
  { eexists. split.
    - eapply put_over; [reflexivity|discriminate|left; now left|now apply L|].
      apply topped_group; [discriminate|reflexivity|]. eapply clips_next; [|apply clips_done]. eapply put_over; [reflexivity|discriminate|left; right; right; now left|now apply L|apply topped_alone; now left].
    - vm_compute. reflexivity. }
  destruct P1 as (d1 & P1 & ->).
  assert (P2 : exists d, put A (Pt 2 1) (SFolder (deep divider) deepveil [SLeaf (deep pink1)]) [] 150 nothing d /\ d = nothing).
  { eexists. split.
    - eapply put_over; [reflexivity|discriminate|exact deepveil_norm| |apply topped_alone; now left].
      eapply image_folder; [exact deepveil_norm| |].
      + eapply laid_groups; [now apply one_is|]. eapply heaped_cons; [|apply heaped_nil]. eapply put_over; [reflexivity|discriminate|left; now left|now apply L|apply topped_alone; now left].
      + exists 0. eexists. split; [reflexivity|]. split; [left; split; reflexivity|reflexivity].
    - vm_compute. reflexivity. }
  destruct P2 as (d2 & P2 & ->).
  eapply laid_groups; [exact deeply_is|]. eapply heaped_cons; [exact P1|]. eapply heaped_cons; [exact P2|apply heaped_nil].
Qed.
Example C98_picture_used : exists f evs, Decode noinflate Plain 1 newOptions (fileOf solidly) = (Ok (f, zlen (fileOf solidly), []), evs) /\
  let gt := Some (makeGammaTable somePow (fofZ 2)) in
  (exists st, MWait.steps (lstepBy (fun x => x) exactLib 2 2 (newMatrix (offsets 3 1)) gt) (lstart (map (fun e => playerOf (ev_layer e)) evs)) st /\ lended st) /\
  forall st, MWait.steps (lstepBy (fun x => x) exactLib 2 2 (newMatrix (offsets 3 1)) gt) (lstart (map (fun e => playerOf (ev_layer e)) evs)) st -> lended st ->
  forall w0 w1, new w0 -> renderedPx 2 (ldImages st) 1 2 (Rct 0 0 4 2) false (rootOf (ldCopied st) (f_layer f)) w0 w1 ->
  exists s t, w1 (Pt 2 0) = Some (s, t) /\ tile_at 2 (Pt 2 0) t (Pt 3 1) = Some (Px 144 79 26 207) /\ tile_at 2 (Pt 2 0) t (Pt 2 1) = Some nothing.
Proof.
  destruct solidly_valid as [V T]. destruct solidly_ok as [S1 S2].
  destruct (C98_picture noinflate Plain 1 head8 (repeat 0 6%nat) [] [] false InPlace solidly [] [] [] [] [] 2 2 3 1 somePow (Some (fofZ 2)) deep) as (f & evs & ED & R); try assumption; try lia; try reflexivity.
  - unfold header_valid, dim_limit; cbn; lia.
  - constructor.
  - exact deeply_valid.
  - eapply Forall_impl; [|exact solidly_bytes]. intros l Hb. apply (C98_lowered somePow (fofZ 2) 3 1); [exact somePow_ok|now left|lia|exact Hb|apply redo_graded].
  - exact deeply_glass.
  - exists f, evs. rewrite app_nil_r in ED. split; [exact ED|].
    destruct (R (fun x => x) exactLib (offsets 3 1) id_rounding exactLib_good) as [Ex R']; [repeat split; now left|]. split; [exact Ex|]. intros st H1 H2 w0 w1 N HR.
    assert (Tq : tileOf 2 (Rct 0 0 4 2) (Pt 2 0)) by (exists 1, 0; cbn; lia).
    assert (I1 : forall x, 2 <= x < 4 -> in_tile 2 (Pt 2 0) (Pt x 1)) by (intros x Hx; unfold in_tile; cbn; lia).
    destruct (R' st H1 H2 1%nat _ w0 w1 (le_n _) N HR (Pt 2 0) (Pt 3 1) Tq (I1 3 ltac:(lia)) ltac:(cbn; lia) ltac:(cbn; lia)) as (s & t & c & E & U & Ec).
    destruct (R' st H1 H2 1%nat _ w0 w1 (le_n _) N HR (Pt 2 0) (Pt 2 1) Tq (I1 2 ltac:(lia)) ltac:(cbn; lia) ltac:(cbn; lia)) as (s' & t' & c' & E' & U' & Ec'). rewrite E in E'. injection E' as <- <-.
    exists s, t. split; [exact E|]. split.
    + destruct (deeply_laid (square 2 (Pt 2 0))) as (c1 & L1 & E1). apply U in L1. subst c1. rewrite <- E1. exact Ec.
    + pose proof (deeply_void (square 2 (Pt 2 0))) as L1. apply U' in L1. subst c'. exact Ec'.
Qed.
