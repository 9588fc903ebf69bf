(** Theorems about New with offsets and a gamma, and files whose layers lie elsewhere and have other colours (property C98). *)
From Coq Require Import String QArith.
From Verif Require Import Base BaseFacts SUtil SConfig MRect MThumb SThumb MPicker MConfig MReader MLayer MApi SCompress SRecord SLayer XRecord
  MSched MBlend MPorter SBlend MWait MRender SRender MRenderAll SRenderAll MRenderPx PRenderPx
  MDraw MTile STile MLoad SLoad STileRender MPipe SPipe SSharp PPipe5 XPipe PSharp3 PSharp4 TPipe TSharp PPipe4 SGlass PGlass4 TGlass MTileRender MScale SScale PScale TScale MMove SMove PMove4 TMove
  MLoadBy PMoveLoad XLoadBy TMoveLoad SShift TShift STint PTint5.
Close Scope string_scope.
Open Scope Z_scope.

(** ** C98 *)

(** A file, and the file that differs from it only in that the rectangles of the pictures and masks of all layers are moved by whole pixels and that the colours
    of all pictures are sent through both gamma tables (unless the offsets are zero or there is no gamma; then they are the same). The pixels of the pictures
    are opaque or transparent, the masks that are on hide what they do not cover. New of the first file with a matrix that moves by as much and the gamma
    has a result, and the results of Render of its trees are exactly the results of Render of the trees that New without options makes of the second file:
    for all regions, states of the renderer, schedules, signs of the coordinates, blend modes, clipping groups and folders. *)
Theorem C98_graded_file :
  forall inflate kind procs h rsv cmd res neg pl sf pad gmask bs tail rest cpus ts dx dy pow gamma g, (1 <= procs)%nat -> (1 <= cpus)%nat -> 0 < ts ->
  header_valid h -> h_mode h = 3 -> h_depth h = 8 -> zlen rsv = 6 -> zlen cmd < 4294967296 ->
  Forall rblock_valid res -> zlen (enc_rblocks res) < 4294967296 ->
  let large := h_version h =? 2 in let sf' := map (each_layer g) sf in
  let gt := option_map (makeGammaTable pow) gamma in let ft c := match gt with Some t => if (dx =? 0) && (dy =? 0) then c else T16 t (T8 t c) | None => c end in
  section_valid inflate large neg 8 3 pl (flat_map sflatten sf) pad gmask bs tail -> section_valid inflate large neg 8 3 pl (flat_map sflatten sf') pad gmask bs tail ->
  Forall stree_valid sf -> Forall (fun sl => graded ft dx dy sl (g sl)) (flat_map sflatten sf) -> Forall solid_picture (flat_map sflatten sf) -> Forall steady (flat_map sflatten sf) ->
  - 2 ^ 51 <= dx <= 2 ^ 51 -> - 2 ^ 51 <= dy <= 2 ^ 51 ->
  let enc := enc_config h rsv cmd res ++ enc_section large neg pl (flat_map sflatten sf) pad gmask bs tail in
  let enc' := enc_config h rsv cmd res ++ enc_section large neg pl (flat_map sflatten sf') pad gmask bs tail in
  exists f evs f' evs', Decode inflate kind procs newOptions (enc ++ rest) = (Ok (f, zlen enc, rest), evs) /\ Decode inflate kind procs newOptions (enc' ++ rest) = (Ok (f', zlen enc', rest), evs') /\
    forall rnd lib mm, SThumb.rounding rnd -> good_library lib -> moves_by mm dx dy ->
    (exists st, MWait.steps (lstepBy rnd lib cpus ts (newMatrix mm) gt) (lstart (map (fun e => playerOf (ev_layer e)) evs)) st /\ lended st) /\
    forall cpus' r' d w0 w1,
    (exists st, MWait.steps (lstepBy rnd lib cpus ts (newMatrix mm) gt) (lstart (map (fun e => playerOf (ev_layer e)) evs)) st /\ lended st /\
      renderedPx ts (ldImages st) cpus' ts r' d (rootOf (ldCopied st) (f_layer f)) w0 w1) <->
    (exists st, MWait.steps (lstep cpus ts) (lstart (map (fun e => playerOf (ev_layer e)) evs')) st /\ lended st /\
      renderedPx ts (ldImages st) cpus' ts r' d (rootOf (ldCopied st) (f_layer f')) w0 w1).
Proof. exact graded_file. Qed.
Print Assumptions C98_graded_file.

(** With gamma 2 and with gamma 1/2 the second file is the one in which every value from 1 to 254 is smaller by one. *)
Definition lowered (c : Z) : Z := if (c =? 0) || (c =? 255) then c else c - 1.
Theorem C98_lowered : forall pow gamma dx dy l l', go_pow pow -> gamma = fofZ 2 \/ gamma = fdiv64 (fofZ 1) (fofZ 2) -> dx <> 0 \/ dy <> 0 ->
  (forall k d, 0 <= k <= 2 -> chan_data l 8 k = Some d -> bytes_ok d) -> graded lowered dx dy l l' ->
  let gt := option_map (makeGammaTable pow) (Some gamma) in
  graded (fun c => match gt with Some t => if (dx =? 0) && (dy =? 0) then c else T16 t (T8 t c) | None => c end) dx dy l l'.
Proof.
  intros pow gamma dx dy l l' Hp Hg Hd Hb [A B] gt. split; [exact A|]. intros k. rewrite B. destruct ((0 <=? k) && (k <=? 2)) eqn:K; [|reflexivity].
  destruct (chan_data l 8 k) as [d|] eqn:E; [|reflexivity]. cbn [option_map]. f_equal. apply map_ext_in. intros c I. specialize (Hb k d ltac:(lia) E). unfold bytes_ok in Hb. rewrite Forall_forall in Hb. specialize (Hb c I).
  unfold is_byte in Hb. unfold gt. cbn [option_map]. replace ((dx =? 0) && (dy =? 0)) with false by lia. destruct (C75_tables pow Hp c ltac:(lia)) as (_ & T2 & T3). cbv zeta in T2, T3. unfold lowered.
  destruct Hg as [-> | ->]; now symmetry.
Qed.
Print Assumptions C98_lowered.

(** Such files exist: each channel is stored anew. *)
Definition redo (f : Z -> Z) (dx dy : Z) (l : slayer) : slayer :=
  SLayer (move_rect dx dy (sl_rect l)) (map (fun c => if (0 <=? fst c) && (fst c <=? 2) then (fst c, PRaw (map f (payload_data 8 (snd c)))) else c) (sl_channels l))
    (sl_blend l) (sl_opacity l) (sl_clip l) (sl_flags l) (sl_filler l) (move_mask dx dy (sl_mask l)) (sl_ranges l) (sl_name l) (sl_npad l) (sl_info l) (sl_tail l).
Lemma redo_graded f dx dy l : graded f dx dy l (redo f dx dy l).
Proof.
  split; [now eexists|]. intros k. unfold chan_data, redo. cbn [sl_channels]. induction (sl_channels l) as [|[i d] cs IH]; cbn [map find].
  - now destruct ((0 <=? k) && (k <=? 2)).
  - cbn [fst snd] in *. destruct (Z.eqb_spec i k) as [->|N].
    + destruct ((0 <=? k) && (k <=? 2)) eqn:K; cbn [fst snd]; rewrite Z.eqb_refl; reflexivity.
    + destruct ((0 <=? i) && (i <=? 2)); cbn [fst]; (destruct (Z.eqb_spec i k); [contradiction|]); exact IH.
Qed.
Definition darkly : list stree := map (each_layer (redo lowered 3 (-1))) solidly.
Lemma darkly_valid : section_valid noinflate false false 8 3 InPlace (flat_map sflatten darkly) [] [] [] [].
Proof.
  split.
  - change (flat_map sflatten darkly) with (map (redo lowered 3 (-1)) [half1; shade; divider; pink1; veil (ascii "norm") [100; 0]]). cbn [map].
    repeat apply Forall_cons; try apply Forall_nil; (apply slayer_check; [vm_compute; reflexivity|exact I|]); try exact I.
    + exists 3, None, 0. exact div3.
    + exists 1, (Some (ascii "norm")), 0. now apply div1.
  - split; [reflexivity|]. split; [exact I|]. split; [reflexivity|]. split; [constructor|].
    split; [split; [apply no8b_ok; reflexivity|right; left; reflexivity]|]. vm_compute; reflexivity.
Qed.
Lemma solidly_bytes : Forall (fun l => forall k d, 0 <= k <= 2 -> chan_data l 8 k = Some d -> bytes_ok d) (flat_map sflatten solidly).
Proof.
  change (flat_map sflatten solidly) with [half1; shade; divider; pink1; veil (ascii "norm") [100; 0]].
  repeat apply Forall_cons; try apply Forall_nil; intros k d K E; (assert (k = 0 \/ k = 1 \/ k = 2) as [-> | [-> | ->]] by lia); vm_compute in E; try discriminate; injection E as <-; now apply bytes_check.
Qed.
(** The hypotheses are met: the file of C81 (a folder with a mask, a clipping group) loaded with the offsets (3, -1) and gamma 2, and the file with the layers there, one level darker. *)
Example C98_used : exists f evs f' evs',
  Decode noinflate Plain 1 newOptions (fileOf solidly) = (Ok (f, zlen (fileOf solidly), []), evs) /\
  Decode noinflate Plain 1 newOptions (fileOf darkly) = (Ok (f', zlen (fileOf darkly), []), evs') /\
  let gt := Some (makeGammaTable somePow (fofZ 2)) in
  (exists st, MWait.steps (lstepBy (fun x => x) exactLib 2 2 (newMatrix (offsets 3 (-1))) gt) (lstart (map (fun e => playerOf (ev_layer e)) evs)) st /\ lended st) /\
  forall w0 w1,
    (exists st, MWait.steps (lstepBy (fun x => x) exactLib 2 2 (newMatrix (offsets 3 (-1))) gt) (lstart (map (fun e => playerOf (ev_layer e)) evs)) st /\ lended st /\
      renderedPx 2 (ldImages st) 1 2 (Rct 0 (-2) 6 2) false (rootOf (ldCopied st) (f_layer f)) w0 w1) <->
    (exists st, MWait.steps (lstep 2 2) (lstart (map (fun e => playerOf (ev_layer e)) evs')) st /\ lended st /\
      renderedPx 2 (ldImages st) 1 2 (Rct 0 (-2) 6 2) false (rootOf (ldCopied st) (f_layer f')) w0 w1).
Proof.
  destruct solidly_valid as [V T]. destruct solidly_ok as [S1 S2].
  destruct (C98_graded_file noinflate Plain 1 head8 (repeat 0 6%nat) [] [] false InPlace solidly [] [] [] [] [] 2 2 3 (-1) somePow (Some (fofZ 2)) (redo lowered 3 (-1))) as (f & evs & f' & evs' & ED & ED' & R); try assumption; try lia; try reflexivity.
  - unfold header_valid, dim_limit; cbn; lia.
  - constructor.
  - exact darkly_valid.
  - eapply Forall_impl; [|exact solidly_bytes]. intros l Hb. apply (C98_lowered somePow (fofZ 2) 3 (-1)); [exact somePow_ok|now left|lia|exact Hb|apply redo_graded].
  - exists f, evs, f', evs'. rewrite app_nil_r in ED, ED'. split; [exact ED|]. split; [exact ED'|].
    destruct (R (fun x => x) exactLib (offsets 3 (-1)) id_rounding exactLib_good) as [Ex R']; [repeat split; now left|]. split; [exact Ex|]. intros w0 w1. apply R'.
Qed.
