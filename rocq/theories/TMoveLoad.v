(** Theorems about the picture of a tree that New loads with a translation (property C82). *)
From Coq Require Import String QArith.
From Verif Require Import Base BaseFacts SUtil SConfig MRect MThumb SThumb MPicker MConfig MReader MLayer MApi SCompress SRecord SLayer XRecord
  MSched MBlend MPorter SBlend MWait MRender SRender MRenderAll SRenderAll MRenderPx PRenderPx
  MDraw MTile STile MLoad SLoad STileRender MPipe SPipe SSharp PPipe5 XPipe PSharp3 PSharp4 TPipe TSharp PPipe4 SGlass PGlass4 TGlass MTileRender MScale SScale PScale MMove SMove PMove4 TMove
  MLoadBy PMoveLoad XLoadBy.
Close Scope string_scope.
Open Scope Z_scope.

(** ** C82 *)

(** A file as in C81. It is loaded by New with a matrix that moves by whole pixels (zeros in the diagonal stand for ones)
    and no gamma, by a library that copies whole pixels and makes bytes of bytes. Each mask that is on lets something
    through at a point that has no negative coordinate before and after the move. New has a
    result. For every result, whatever the schedules, every Render of the tree shows at the moved place of each point the
    pixel that putting the layers of the file one over the other gives at the point, if the coordinates of both are not
    negative; and nothing where no picture covers the point. *)
Theorem C82_moved_partial :
  forall inflate kind procs h rsv cmd res neg pl sf pad gmask bs tail rest cpus ts, (1 <= procs)%nat -> (1 <= cpus)%nat -> 0 < ts <= 2 ^ 50 ->
  header_valid h -> h_mode h = 3 -> h_depth h = 8 -> zlen rsv = 6 -> zlen cmd < 4294967296 ->
  Forall rblock_valid res -> zlen (enc_rblocks res) < 4294967296 ->
  let large := h_version h =? 2 in
  section_valid inflate large neg 8 3 pl (flat_map sflatten sf) pad gmask bs tail ->
  Forall stree_valid sf -> glass_forest sf -> Forall steady_tree sf -> Forall solid_tree sf -> Forall mask_bytes (flat_map sflatten sf) ->
  let enc := enc_config h rsv cmd res ++ enc_section large neg pl (flat_map sflatten sf) pad gmask bs tail in
  exists f evs, Decode inflate kind procs newOptions (enc ++ rest) = (Ok (f, zlen enc, rest), evs) /\
    forall rnd lib mm dx dy, SThumb.rounding rnd -> good_library lib -> typed lib -> - 2 ^ 51 <= dx <= 2 ^ 51 -> - 2 ^ 51 <= dy <= 2 ^ 51 -> moves_by mm dx dy ->
    Forall (mask_stays dx dy) (flat_map sflatten sf) ->
    (exists st, MWait.steps (lstepBy rnd lib cpus ts (newMatrix mm) None) (lstart (map (fun e => playerOf (ev_layer e)) evs)) st /\ lended st) /\
    forall st, MWait.steps (lstepBy rnd lib cpus ts (newMatrix mm) None) (lstart (map (fun e => playerOf (ev_layer e)) evs)) st -> lended st ->
    forall cpus' r' w0 w1, (1 <= cpus')%nat -> new w0 ->
    renderedPx ts (ldImages st) cpus' ts r' false (rootOf (ldCopied st) (f_layer f)) w0 w1 ->
    forall q p, tileOf ts r' q -> in_tile ts q (shifted p dx dy) ->
    exists s t, w1 q = Some (s, t) /\
      (0 <= MRect.px p -> 0 <= py p -> 0 <= MRect.px p + dx -> 0 <= py p + dy ->
        exists c, (forall c', laid (fun _ => True) p None sf nothing c' <-> c' = c) /\ tile_at ts q t (shifted p dx dy) = Some (stored (stored c))) /\
      (Forall (clear_of p) sf -> tile_at ts q t (shifted p dx dy) = Some nothing).
Proof. exact loaded_shown. Qed.
Print Assumptions C82_moved_partial.

Lemma id_rounding : SThumb.rounding (fun x => x).
Proof. split; [intros x y H; exact H|intros z _; reflexivity]. Qed.
(** The matrix of the options: only the offsets are set. *)
Definition offsets (dx dy : Z) : aff := Aff (inject_Z 0) (inject_Z 0) (inject_Z dx) (inject_Z 0) (inject_Z 0) (inject_Z dy).
(** The hypotheses are met: the file of C81 loaded with the offsets (3, 1). The first pixel is shown at (3, 1); nothing
    is shown at (2, 1). *)
Example C82_used : exists f evs, Decode noinflate Plain 1 newOptions (fileOf solidly) = (Ok (f, zlen (fileOf solidly), []), evs) /\
  (exists st, MWait.steps (lstepBy (fun x => x) exactLib 2 2 (newMatrix (offsets 3 1)) None) (lstart (map (fun e => playerOf (ev_layer e)) evs)) st /\ lended st) /\
  forall st, MWait.steps (lstepBy (fun x => x) exactLib 2 2 (newMatrix (offsets 3 1)) None) (lstart (map (fun e => playerOf (ev_layer e)) evs)) st -> lended st ->
  forall w0 w1, new w0 -> renderedPx 2 (ldImages st) 1 2 (Rct 0 0 4 2) false (rootOf (ldCopied st) (f_layer f)) w0 w1 ->
  exists s t, w1 (Pt 2 0) = Some (s, t) /\ tile_at 2 (Pt 2 0) t (Pt 3 1) = Some (Px 145 80 27 207) /\ tile_at 2 (Pt 2 0) t (Pt 2 1) = Some nothing.
Proof.
  destruct solidly_valid as [V T]. destruct solidly_solid as (S1 & S2 & S3).
  destruct (C82_moved_partial noinflate Plain 1 head8 (repeat 0 6%nat) [] [] false InPlace solidly [] [] [] [] [] 2 2) as (f & evs & ED & R); try assumption; try lia; try reflexivity.
  - unfold header_valid, dim_limit; cbn; lia.
  - constructor.
  - exact solidly_glass.
  - exists f, evs. rewrite app_nil_r in ED. split; [exact ED|].
    destruct (R (fun x => x) exactLib (offsets 3 1) 3 1 id_rounding exactLib_good exactLib_typed ltac:(lia) ltac:(lia)) as [Ex R']; [repeat split; now left| |].
    { change (flat_map sflatten solidly) with [half1; shade; divider; pink1; veil (ascii "norm") [100; 0]]. repeat apply Forall_cons; try apply Forall_nil; try (intros H; discriminate H).
      intros _. exists (Pt 0 0), 100. do 4 (split; [cbn; lia|]). split; [reflexivity|]. split; [exists [100; 0]; split; reflexivity|discriminate]. }
    split; [exact Ex|]. intros st H1 H2 w0 w1 N HR.
    assert (Tq : tileOf 2 (Rct 0 0 4 2) (Pt 2 0)) by (exists 1, 0; cbn; lia).
    assert (I1 : forall x, 2 <= x < 4 -> in_tile 2 (Pt 2 0) (Pt x 1)) by (intros x Hx; unfold in_tile; cbn; lia).
    destruct (R' st H1 H2 1%nat _ w0 w1 (le_n _) N HR (Pt 2 0) (Pt 0 0) Tq (I1 3 ltac:(lia))) as (s & t & E & M & _).
    destruct (R' st H1 H2 1%nat _ w0 w1 (le_n _) N HR (Pt 2 0) (Pt (-1) 0) Tq (I1 2 ltac:(lia))) as (s' & t' & E' & _ & C). rewrite E in E'. injection E' as <- <-.
    exists s, t. split; [exact E|]. split.
    + destruct (M ltac:(cbn; lia) ltac:(cbn; lia) ltac:(cbn; lia) ltac:(cbn; lia)) as (c & U & Ec). destruct (solidly_laid (fun _ => True)) as (c1 & L1 & E1). apply U in L1. subst c1. rewrite <- E1. exact Ec.
    + apply C. repeat (constructor; try reflexivity).
Qed.

(** *** The condition on masks is needed. *)
(** A picture of eight pixels with a mask that lets only the first pixel through *)
Definition slit : slayer :=
  SLayer (Rct 0 0 8 1) ((-2, PRaw [255]) :: rgb [10; 20; 30; 40; 50; 60; 70; 80] [1; 2; 3; 4; 5; 6; 7; 8] [0; 0; 0; 0; 0; 0; 0; 0])
    (ascii "norm") 255 0 0 0 (SShort (Rct 0 0 1 1) 0 0 None [0; 0]) [] [65] [0; 0] [] [].
Definition slits : list stree := [SLeaf slit].
Definition showMoved (ts dx dy : Z) (file : bytes) (q : point) : option (option tile) :=
  match Decode noinflate Plain 1 newOptions file with
  | (Ok (f, _, _), evs) =>
      match loadSeqBy (fun x => x) exactLib ts (newMatrix (offsets dx dy)) None (map (fun e => playerOf (ev_layer e)) evs) with
      | Some st =>
          let n := Z.to_nat (ts * ts) in
          let w1 := seqRender (zeroPx n) MRenderPx.copyPx blendPx destInMPx destOutMPx destInPx destOverPx (clearPx n) removeAlphaPx
            (canvasTile (ldImages st)) (maskTile (ldImages st)) 1 ts (Rct 0 0 2 1) false (rootOf (ldCopied st) (f_layer f)) w0 in
          Some (option_map snd (w1 q))
      | None => None
      end
  | _ => None
  end.
Lemma shows_moved ts dx dy file q t : showMoved ts dx dy file q = Some (Some t) -> exists f n rest evs st s w1, Decode noinflate Plain 1 newOptions file = (Ok (f, n, rest), evs) /\
  MWait.steps (lstepBy (fun x => x) exactLib 1 ts (newMatrix (offsets dx dy)) None) (lstart (map (fun e => playerOf (ev_layer e)) evs)) st /\ lended st /\
  renderedPx ts (ldImages st) 1 ts (Rct 0 0 2 1) false (rootOf (ldCopied st) (f_layer f)) w0 w1 /\ w1 q = Some (s, t).
Proof.
  unfold showMoved. destruct (Decode noinflate Plain 1 newOptions file) as [[[[f n] rest]| | |] evs]; try discriminate.
  destruct (loadSeqBy _ _ _ _ _ _) as [st|] eqn:Es; [|discriminate]. destruct (loadSeqBy_runs _ _ _ _ _ _ _ Es) as [S L]. cbv zeta. set (w1 := seqRender _ _ _ _ _ _ _ _ _ _ _ _ _ _ _ _ _). intros E.
  destruct (w1 q) as [[s t']|] eqn:W; [|discriminate]. injection E as ->. exists f, n, rest, evs, st, s, w1. split; [reflexivity|]. split; [exact S|]. split; [exact L|]. split; [apply seqRender_rendered|exact W].
Qed.
Lemma slits_valid : section_valid noinflate false false 8 3 InPlace (flat_map sflatten slits) [] [] [] [] /\ Forall stree_valid slits.
Proof.
  split.
  - split; [change (flat_map sflatten slits) with [slit]; repeat apply Forall_cons; try apply Forall_nil; apply slayer_check; try exact I; vm_compute; reflexivity|].
    split; [reflexivity|]. split; [exact I|]. split; [reflexivity|]. split; [constructor|].
    split; [split; [apply no8b_ok; reflexivity|right; left; reflexivity]|]. vm_compute; reflexivity.
  - repeat apply Forall_cons; try apply Forall_nil. apply (sleaf_valid _ 0); [reflexivity|lia|lia|lia].
Qed.
Lemma slits_glass : glass_forest slits.
Proof.
  split; [|now apply one_groups]. constructor; [|constructor].
  apply (lay_glass slit [10; 20; 30; 40; 50; 60; 70; 80] [1; 2; 3; 4; 5; 6; 7; 8] [0; 0; 0; 0; 0; 0; 0; 0] Normal); [|cbv; intuition discriminate|reflexivity|left; now left|reflexivity|reflexivity|reflexivity|reflexivity].
  intros _. split; [reflexivity|]. split; [eexists; split; [reflexivity|now apply bytes_check]|]. split; [now left|]. right. exists (Pt 0 0), 255.
  split; [cbn; lia|]. split; [cbn; lia|]. split; [reflexivity|]. split; [eexists; split; reflexivity|discriminate].
Qed.
(** Loaded with the offset -6, tiles of four pixels: the mask lies at -6, where the grid of tiles that New makes for it
    is empty. The layer counts as one without a mask, and the pixel at (0, 0), which the mask hides, is shown. *)
Theorem C82_mask_lost_refuted : exists sf ts dx p c f n rest evs st w0 w1 q s t v,
  section_valid noinflate false false 8 3 InPlace (flat_map sflatten sf) [] [] [] [] /\ Forall stree_valid sf /\ glass_forest sf /\ Forall steady_tree sf /\ Forall solid_tree sf /\
  Forall mask_bytes (flat_map sflatten sf) /\ Decode noinflate Plain 1 newOptions (fileOf sf) = (Ok (f, n, rest), evs) /\
  SThumb.rounding (fun x => x) /\ good_library exactLib /\ typed exactLib /\
  MWait.steps (lstepBy (fun x => x) exactLib 1 ts (newMatrix (offsets dx 0)) None) (lstart (map (fun e => playerOf (ev_layer e)) evs)) st /\ lended st /\
  new w0 /\ renderedPx ts (ldImages st) 1 ts (Rct 0 0 2 1) false (rootOf (ldCopied st) (f_layer f)) w0 w1 /\
  tileOf ts (Rct 0 0 2 1) q /\ in_tile ts q (shifted p dx 0) /\ 0 <= MRect.px p /\ 0 <= py p /\ 0 <= MRect.px p + dx /\
  laid (fun _ => True) p None sf nothing c /\ w1 q = Some (s, t) /\ tile_at ts q t (shifted p dx 0) = Some v /\ stored (stored c) = nothing /\ v = Px 70 7 0 255.
Proof.
  assert (E : exists v, showMoved 4 (-6) 0 (fileOf slits) (Pt 0 0) = Some (Some v) /\ tile_at 4 (Pt 0 0) v (Pt 0 0) = Some (Px 70 7 0 255)) by (eexists; split; vm_compute; reflexivity).
  destruct E as (t & E & Et). destruct (shows_moved _ _ _ _ _ _ E) as (f & n & rest & evs & st & s & w1 & ED & S & L & R & W). clear E.
  assert (D : exists c, laid (fun _ => True) (Pt 6 0) None slits nothing c /\ stored (stored c) = nothing).
  { eexists. split.
    - eapply laid_groups; [now apply one_is|]. eapply heaped_cons; [|apply heaped_nil]. eapply put_over; [reflexivity|discriminate|left; now left| |apply topped_alone; now left].
      eapply image_leaf; [exists [10; 20; 30; 40; 50; 60; 70; 80], [1; 2; 3; 4; 5; 6; 7; 8], [0; 0; 0; 0; 0; 0; 0; 0], 70, 7, 0, 255; repeat split|].
      exists 0. eexists. split; [reflexivity|]. split; [left; split; reflexivity|reflexivity].
    - vm_compute. reflexivity. }
  destruct D as (c & Lc & Ec). destruct slits_valid as [V1 V2].
  exists slits, 4, (-6), (Pt 6 0), c, f, n, rest, evs, st, w0, w1, (Pt 0 0), s, t, (Px 70 7 0 255). split; [exact V1|]. split; [exact V2|]. split; [exact slits_glass|].
  split; [constructor; [apply steady_sleaf; intros _; reflexivity|constructor]|]. split; [repeat (constructor; unfold TMove.solidly; cbn; auto)|].
  split; [change (flat_map sflatten slits) with [slit]; constructor; [now apply bytes_check|constructor]|]. split; [exact ED|]. split; [exact id_rounding|]. split; [exact exactLib_good|]. split; [exact exactLib_typed|].
  split; [exact S|]. split; [exact L|]. split; [intros q; eexists; reflexivity|]. split; [exact R|]. split; [exists 0, 0; cbn; lia|].
  split; [unfold in_tile; cbn; lia|]. do 3 (split; [cbn; lia|]). split; [exact Lc|]. split; [exact W|]. split; [exact Et|]. split; [exact Ec|reflexivity].
Qed.
Print Assumptions C82_mask_lost_refuted.
