(** Theorems about New with offsets and files whose layers lie elsewhere (property C83). *)
From Coq Require Import String QArith.
From Verif Require Import Base BaseFacts SUtil SConfig MRect MThumb SThumb MPicker MConfig MReader MLayer MApi SCompress SRecord SLayer XRecord
  MSched MBlend MPorter SBlend MWait MRender SRender MRenderAll SRenderAll MRenderPx PRenderPx
  MDraw MTile STile MLoad SLoad STileRender MPipe SPipe SSharp PPipe5 XPipe PSharp3 PSharp4 TPipe TSharp PPipe4 SGlass PGlass4 TGlass MTileRender MScale SScale PScale MMove SMove PMove4 TMove
  MLoadBy PMoveLoad XLoadBy TMoveLoad SShift PShift5.
Close Scope string_scope.
Open Scope Z_scope.

(** ** C83 *)

(** A file, and the file that differs from it only in that the rectangles of the pictures and masks of all layers are moved
    by whole pixels. The pixels of the pictures are opaque or transparent, the masks that are on hide what they do not
    cover. New of the first file with a matrix that moves by as much (and no gamma) has a result, and the results of Render
    of its trees are exactly the results of Render of the trees that New without options makes of the second file:
    for all regions, states of the renderer, schedules, signs of the coordinates, blend modes, clipping groups and folders. *)
Theorem C83_moved_file :
  forall inflate kind procs h rsv cmd res neg pl sf pad gmask bs tail rest cpus ts dx dy, (1 <= procs)%nat -> (1 <= cpus)%nat -> 0 < ts ->
  header_valid h -> h_mode h = 3 -> h_depth h = 8 -> zlen rsv = 6 -> zlen cmd < 4294967296 ->
  Forall rblock_valid res -> zlen (enc_rblocks res) < 4294967296 ->
  let large := h_version h =? 2 in let sf' := map (move_tree dx dy) sf in
  section_valid inflate large neg 8 3 pl (flat_map sflatten sf) pad gmask bs tail -> section_valid inflate large neg 8 3 pl (flat_map sflatten sf') pad gmask bs tail ->
  Forall stree_valid sf -> Forall solid_picture (flat_map sflatten sf) -> Forall steady (flat_map sflatten sf) ->
  - 2 ^ 51 <= dx <= 2 ^ 51 -> - 2 ^ 51 <= dy <= 2 ^ 51 ->
  let enc := enc_config h rsv cmd res ++ enc_section large neg pl (flat_map sflatten sf) pad gmask bs tail in
  let enc' := enc_config h rsv cmd res ++ enc_section large neg pl (flat_map sflatten sf') pad gmask bs tail in
  exists f evs f' evs', Decode inflate kind procs newOptions (enc ++ rest) = (Ok (f, zlen enc, rest), evs) /\ Decode inflate kind procs newOptions (enc' ++ rest) = (Ok (f', zlen enc', rest), evs') /\
    forall rnd lib mm, SThumb.rounding rnd -> good_library lib -> moves_by mm dx dy ->
    (exists st, MWait.steps (lstepBy rnd lib cpus ts (newMatrix mm) None) (lstart (map (fun e => playerOf (ev_layer e)) evs)) st /\ lended st) /\
    forall cpus' r' d w0 w1,
    (exists st, MWait.steps (lstepBy rnd lib cpus ts (newMatrix mm) None) (lstart (map (fun e => playerOf (ev_layer e)) evs)) st /\ lended st /\
      renderedPx ts (ldImages st) cpus' ts r' d (rootOf (ldCopied st) (f_layer f)) w0 w1) <->
    (exists st, MWait.steps (lstep cpus ts) (lstart (map (fun e => playerOf (ev_layer e)) evs')) st /\ lended st /\
      renderedPx ts (ldImages st) cpus' ts r' d (rootOf (ldCopied st) (f_layer f')) w0 w1).
Proof. exact shifted_file. Qed.
Print Assumptions C83_moved_file.

Lemma solidly_ok : Forall solid_picture (flat_map sflatten solidly) /\ Forall steady (flat_map sflatten solidly).
Proof.
  change (flat_map sflatten solidly) with [half1; shade; divider; pink1; veil (ascii "norm") [100; 0]]. split.
  - repeat apply Forall_cons; try apply Forall_nil.
    all: try (right; split; [unfold solid; cbn; repeat (constructor; auto)|do 3 eexists; repeat split; reflexivity]).
    + left. exists 3. split; [exists None, 0; exact div3|lia].
    + left. exists 1. split; [exists (Some (ascii "norm")), 0; now apply div1|lia].
  - repeat apply Forall_cons; try apply Forall_nil; intros H; reflexivity || discriminate H.
Qed.
Lemma moved_valid : section_valid noinflate false false 8 3 InPlace (flat_map sflatten (map (move_tree 3 (-1)) solidly)) [] [] [] [].
Proof.
  split.
  - change (flat_map sflatten (map (move_tree 3 (-1)) solidly)) with (map (move_layer 3 (-1)) [half1; shade; divider; pink1; veil (ascii "norm") [100; 0]]). cbn [map].
    repeat apply Forall_cons; try apply Forall_nil; (apply slayer_check; [vm_compute; reflexivity|exact I|]); try exact I.
    + exists 3, None, 0. exact div3.
    + exists 1, (Some (ascii "norm")), 0. now apply div1.
  - split; [reflexivity|]. split; [exact I|]. split; [reflexivity|]. split; [constructor|].
    split; [split; [apply no8b_ok; reflexivity|right; left; reflexivity]|]. vm_compute; reflexivity.
Qed.
(** The hypotheses are met: the file of C81 loaded with the offsets (3, -1) (a folder with a mask, a clipping group), and the file
    with the layers there. *)
Example C83_used : exists f evs f' evs',
  Decode noinflate Plain 1 newOptions (fileOf solidly) = (Ok (f, zlen (fileOf solidly), []), evs) /\
  Decode noinflate Plain 1 newOptions (fileOf (map (move_tree 3 (-1)) solidly)) = (Ok (f', zlen (fileOf (map (move_tree 3 (-1)) solidly)), []), evs') /\
  (exists st, MWait.steps (lstepBy (fun x => x) exactLib 2 2 (newMatrix (offsets 3 (-1))) None) (lstart (map (fun e => playerOf (ev_layer e)) evs)) st /\ lended st) /\
  forall w0 w1,
    (exists st, MWait.steps (lstepBy (fun x => x) exactLib 2 2 (newMatrix (offsets 3 (-1))) None) (lstart (map (fun e => playerOf (ev_layer e)) evs)) st /\ lended st /\
      renderedPx 2 (ldImages st) 1 2 (Rct 0 (-2) 6 2) false (rootOf (ldCopied st) (f_layer f)) w0 w1) <->
    (exists st, MWait.steps (lstep 2 2) (lstart (map (fun e => playerOf (ev_layer e)) evs')) st /\ lended st /\
      renderedPx 2 (ldImages st) 1 2 (Rct 0 (-2) 6 2) false (rootOf (ldCopied st) (f_layer f')) w0 w1).
Proof.
  destruct solidly_valid as [V T]. destruct solidly_ok as [S1 S2].
  destruct (C83_moved_file noinflate Plain 1 head8 (repeat 0 6%nat) [] [] false InPlace solidly [] [] [] [] [] 2 2 3 (-1)) as (f & evs & f' & evs' & ED & ED' & R); try assumption; try lia; try reflexivity.
  - unfold header_valid, dim_limit; cbn; lia.
  - constructor.
  - exact moved_valid.
  - exists f, evs, f', evs'. rewrite app_nil_r in ED, ED'. split; [exact ED|]. split; [exact ED'|].
    destruct (R (fun x => x) exactLib (offsets 3 (-1)) id_rounding exactLib_good) as [Ex R']; [repeat split; now left|]. split; [exact Ex|]. intros w0 w1. apply R'.
Qed.

(** *** The condition on masks is needed. *)
(** A picture of four pixels with a mask that hides nothing: it covers the first pixel and lets it through, and lets through
    what it does not cover. *)
Definition pane : slayer :=
  SLayer (Rct 0 0 4 1) ((-2, PRaw [255]) :: rgb [10; 20; 30; 40] [1; 2; 3; 4] [0; 0; 0; 0])
    (ascii "norm") 255 0 0 0 (SShort (Rct 0 0 1 1) 255 0 None [0; 0]) [] [65] [0; 0] [] [].
Definition panes : list stree := [SLeaf pane].
Lemma shows_plain ts file q t : showWith ts file [q] = Some [Some t] -> exists f n rest evs st s w1, Decode noinflate Plain 1 newOptions file = (Ok (f, n, rest), evs) /\
  MWait.steps (lstep 1 ts) (lstart (map (fun e => playerOf (ev_layer e)) evs)) st /\ lended st /\
  renderedPx ts (ldImages st) 1 ts (Rct 0 0 2 1) false (rootOf (ldCopied st) (f_layer f)) w0 w1 /\ w1 q = Some (s, t).
Proof.
  unfold showWith. destruct (Decode noinflate Plain 1 newOptions file) as [[[[f n] rest]| | |] evs]; try discriminate.
  destruct (loadSeq _ _) as [st|] eqn:Es; [|discriminate]. destruct (loadSeq_runs _ _ _ Es) as [S L]. cbv zeta. set (w1 := seqRender _ _ _ _ _ _ _ _ _ _ _ _ _ _ _ _ _). cbn [map]. intros E.
  destruct (w1 q) as [[s t']|] eqn:W; [|discriminate]. injection E as ->. exists f, n, rest, evs, st, s, w1. split; [reflexivity|]. split; [exact S|]. split; [exact L|]. split; [apply seqRender_rendered|exact W].
Qed.
Lemma panes_valid dx : dx = 0 \/ dx = -1 -> section_valid noinflate false false 8 3 InPlace (flat_map sflatten (map (move_tree dx 0) panes)) [] [] [] [].
Proof.
  intros D. split; [change (flat_map sflatten (map (move_tree dx 0) panes)) with [move_layer dx 0 pane]; constructor; [|constructor]; apply slayer_check; try exact I; destruct D as [-> | ->]; vm_compute; reflexivity|].
  split; [reflexivity|]. split; [exact I|]. split; [reflexivity|]. split; [constructor|].
  split; [split; [apply no8b_ok; reflexivity|right; left; reflexivity]|]. destruct D as [-> | ->]; vm_compute; reflexivity.
Qed.
(** Loaded with the offset -1, the rectangle that New makes for the mask is one pixel wider (and higher) than the mask, and
    the mask hides the second pixel of the picture. New of the file with the layer one pixel further to the left shows it. *)
Theorem C83_white_mask_refuted : exists sf ts dx q f n rest evs st w1 s t f' n' rest' evs' st' w1' s' t' w0,
  let sf' := map (move_tree dx 0) sf in
  section_valid noinflate false false 8 3 InPlace (flat_map sflatten sf) [] [] [] [] /\ section_valid noinflate false false 8 3 InPlace (flat_map sflatten sf') [] [] [] [] /\
  Forall stree_valid sf /\ Forall solid_picture (flat_map sflatten sf) /\
  Decode noinflate Plain 1 newOptions (fileOf sf) = (Ok (f, n, rest), evs) /\ Decode noinflate Plain 1 newOptions (fileOf sf') = (Ok (f', n', rest'), evs') /\
  SThumb.rounding (fun x => x) /\ good_library exactLib /\ new w0 /\
  MWait.steps (lstepBy (fun x => x) exactLib 1 ts (newMatrix (offsets dx 0)) None) (lstart (map (fun e => playerOf (ev_layer e)) evs)) st /\ lended st /\
  renderedPx ts (ldImages st) 1 ts (Rct 0 0 2 1) false (rootOf (ldCopied st) (f_layer f)) w0 w1 /\ w1 q = Some (s, t) /\ tile_at ts q t (Pt 0 0) = Some nothing /\
  MWait.steps (lstep 1 ts) (lstart (map (fun e => playerOf (ev_layer e)) evs')) st' /\ lended st' /\
  renderedPx ts (ldImages st') 1 ts (Rct 0 0 2 1) false (rootOf (ldCopied st') (f_layer f')) w0 w1' /\ w1' q = Some (s', t') /\ tile_at ts q t' (Pt 0 0) = Some (Px 20 2 0 255).
Proof.
  assert (E : exists t, showMoved 4 (-1) 0 (fileOf panes) (Pt 0 0) = Some (Some t) /\ tile_at 4 (Pt 0 0) t (Pt 0 0) = Some nothing) by (eexists; split; vm_compute; reflexivity).
  assert (E' : exists t, showWith 4 (fileOf (map (move_tree (-1) 0) panes)) [Pt 0 0] = Some [Some t] /\ tile_at 4 (Pt 0 0) t (Pt 0 0) = Some (Px 20 2 0 255)) by (eexists; split; vm_compute; reflexivity).
  destruct E as (t & E & Et). destruct (shows_moved _ _ _ _ _ _ E) as (f & n & rest & evs & st & s & w1 & ED & S & L & R & W). clear E.
  destruct E' as (t' & E' & Et'). destruct (shows_plain _ _ _ _ E') as (f' & n' & rest' & evs' & st' & s' & w1' & ED' & S' & L' & R' & W'). clear E'.
  exists panes, 4, (-1), (Pt 0 0), f, n, rest, evs, st, w1, s, t, f', n', rest', evs', st', w1', s', t', w0. cbv zeta.
  split; [exact (panes_valid 0 (or_introl eq_refl))|]. split; [exact (panes_valid (-1) (or_intror eq_refl))|].
  split; [constructor; [|constructor]; apply (sleaf_valid _ 0); [reflexivity|lia|lia|lia]|].
  split; [change (flat_map sflatten panes) with [pane]; constructor; [|constructor]; right; split; [exact I|do 3 eexists; repeat split; reflexivity]|].
  split; [exact ED|]. split; [exact ED'|]. split; [exact id_rounding|]. split; [exact exactLib_good|]. split; [intros q; eexists; reflexivity|].
  split; [exact S|]. split; [exact L|]. split; [exact R|]. split; [exact W|]. split; [exact Et|]. split; [exact S'|]. split; [exact L'|]. split; [exact R'|]. split; [exact W'|exact Et'].
Qed.
Print Assumptions C83_white_mask_refuted.
