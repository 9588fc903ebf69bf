(** Theorems: from the bytes of a file to the pixels of the renderer, C64. *)
From Coq Require Import String.
From Verif Require Import Base SUtil SConfig MRect MPicker MConfig MReader MLayer MApi SCompress SRecord SLayer XRecord
  MSched MBlend MPorter SBlend MWait MRender SRender MRenderAll SRenderAll MRenderPx PRenderPx
  MDraw MTile STile MLoad SLoad MPipe SPipe PPipe4 PPipe5 XPipe.
Close Scope string_scope.
Open Scope Z_scope.

(** ** C64 *)

(** An RGB file of 8 bits with any tree of folders and layers without masks and clipping, of
    opacity 255, in any of the blend modes, whose pixels are opaque or invisible, in any
    compression, PSD or PSB: Decode reads it, the loader has an execution that ends, and after
    every execution of the loader that ends, every Render with any number of
    workers shows at every point of the image what painting the layers one over the other
    gives; the painting is the only one. *)
Theorem C64_painted :
  forall inflate kind procs h rsv cmd res neg pl sf pad gmask bs tail rest cpus ts, (1 <= procs)%nat -> (1 <= cpus)%nat -> 0 < ts ->
  header_valid h -> h_mode h = 3 -> h_depth h = 8 -> zlen rsv = 6 -> zlen cmd < 4294967296 ->
  Forall rblock_valid res -> zlen (enc_rblocks res) < 4294967296 ->
  let large := h_version h =? 2 in
  section_valid inflate large neg 8 3 pl (flat_map sflatten sf) pad gmask bs tail ->
  Forall stree_valid sf -> Forall plain_tree sf ->
  let enc := enc_config h rsv cmd res ++ enc_section large neg pl (flat_map sflatten sf) pad gmask bs tail in
  exists f evs, Decode inflate kind procs newOptions (enc ++ rest) = (Ok (f, zlen enc, rest), evs) /\
    (exists st, MWait.steps (lstep cpus ts) (lstart (map (fun e => playerOf (ev_layer e)) evs)) st /\ lended st) /\
    forall st, MWait.steps (lstep cpus ts) (lstart (map (fun e => playerOf (ev_layer e)) evs)) st -> lended st ->
    forall cpus' r' w0 w1, (1 <= cpus')%nat -> new w0 ->
    renderedPx ts (ldImages st) cpus' ts r' false (rootOf (ldCopied st) (f_layer f)) w0 w1 ->
    forall q p, tileOf ts r' q -> in_tile ts q p -> 0 <= MRect.px p -> 0 <= py p ->
    exists s t c, w1 q = Some (s, t) /\ (forall c', paint_trees p sf None c' <-> c' = c) /\ tile_at ts q t p = Some (shown_as c).
Proof. exact file_shown. Qed.
Print Assumptions C64_painted.

(** If all modes are normal or pass through, painting shows the topmost visible pixel. *)
Theorem C64_topmost : forall p sf c, Forall plain_tree sf -> Forall all_normal sf ->
  (forall c', paint_trees p sf None c' <-> c' = c) -> forall c', topmost p sf c' <-> c' = c.
Proof. exact topmost_only. Qed.
Print Assumptions C64_topmost.

(** *** A file of two pixels: a picture; above it a folder "pass through" with a picture that is
    multiplied (its second pixel is invisible) and a hidden one. *)
Definition pic (flags : Z) (mode : bytes) (chs : list (Z * payload)) : slayer :=
  SLayer (Rct 0 0 2 1) chs mode 255 0 flags 0 SNone [] [65] [0; 0] [] [].
Definition low : slayer := pic 0 (ascii "norm") [(0, PRaw [200; 10]); (1, PRaw [100; 20]); (2, PRaw [50; 30])].
Definition mid : slayer := pic 0 (ascii "mul ") [(-1, PRaw [255; 0]); (0, PRaw [51; 1]); (1, PRle [[Rep 2 255]]); (2, PRaw [102; 3])].
Definition off : slayer := pic 2 (ascii "norm") [(0, PRaw [7; 7]); (1, PRaw [7; 7]); (2, PRaw [7; 7])].
Definition divider : slayer := SLayer ZR [] (ascii "norm") 255 0 0 0 SNone [] [] [0; 0; 0] [IBlock [] false (ascii "lsct") (be 4 3)] [].
Definition folder : slayer :=
  SLayer ZR [] (ascii "norm") 255 0 0 0 SNone [] [66] [0; 0] [IBlock [] false (ascii "lsct") (be 4 1 ++ ascii "8BIM" ++ ascii "pass")] [].
Definition forest : list stree := [SLeaf low; SFolder divider folder [SLeaf mid; SLeaf off]].
Definition head8 : header := Header 1 3 1 2 8 3.
Definition file8 : bytes := enc_config head8 (repeat 0 6%nat) [] [] ++ enc_section false false InPlace (flat_map sflatten forest) [0] [] [] [].
Definition noinflate (b : bytes) (n : Z) : option (bytes * Z) := None.

(** Load the file and render it; the tiles are single pixels. *)
Definition w0 : world tile := fun _ => Some (Tst [] [], [Px 9 9 9 9]).
Definition showFile (file : bytes) (ps : list point) : option (list (option tile)) :=
  match Decode noinflate Plain 1 newOptions file with
  | (Ok (f, _, _), evs) =>
      match loadSeq 1 (map (fun e => playerOf (ev_layer e)) evs) with
      | Some st =>
          let w1 := seqRender (zeroPx 1) MRenderPx.copyPx blendPx destInMPx destOutMPx destInPx destOverPx (clearPx 1) removeAlphaPx
            (canvasTile (ldImages st)) (maskTile (ldImages st)) 1 1 (Rct 0 0 2 1) false (rootOf (ldCopied st) (f_layer f)) w0 in
          Some (map (fun q => option_map snd (w1 q)) ps)
      | None => None
      end
  | _ => None
  end.

Lemma forest_valid : Forall (slayer_valid noinflate false 8 3) (flat_map sflatten forest) /\ Forall stree_valid forest.
Proof.
  assert (D3 : divider_is (be 4 3) 3 None 0).
  { split; [lia|]. left. split; [reflexivity|]. split; [reflexivity|]. exists []. split; reflexivity. }
  assert (D1 : divider_is (be 4 1 ++ ascii "8BIM" ++ ascii "pass") 1 (Some (ascii "pass")) 0).
  { split; [lia|]. right. left. exists (ascii "pass"), []. repeat split; reflexivity. }
  split.
  - change (flat_map sflatten forest) with [low; divider; mid; off; folder].
    repeat apply Forall_cons; try apply Forall_nil; (apply slayer_check; [vm_compute; reflexivity|exact I|]); try exact I.
    + exists 3, None, 0. exact D3.
    + exists 1, (Some (ascii "pass")), 0. exact D1.
  - repeat apply Forall_cons; try apply Forall_nil.
    + apply (sleaf_valid _ 0); [reflexivity|lia|lia|lia].
    + apply (sfolder_valid _ _ _ 1); [exists None, 0; exact D3|exists (Some (ascii "pass")), 0; exact D1|now left|].
      repeat apply Forall_cons; try apply Forall_nil; (apply (sleaf_valid _ 0); [reflexivity|lia|lia|lia]).
Qed.
Lemma forest_plain : Forall plain_tree forest.
Proof.
  assert (Bs : forall d, forallb (fun b => (0 <=? b) && (b <? 256)) d = true -> bytes_ok d).
  { intros d H. apply Forall_forall. intros b Hb. rewrite forallb_forall in H. specialize (H b Hb). unfold is_byte. lia. }
  assert (L : forall l d0 d1 d2 m, plain l -> has_type l 0 -> leaf_mode l m -> chan_data l 8 0 = Some d0 -> chan_data l 8 1 = Some d1 -> chan_data l 8 2 = Some d2 ->
    forallb (fun b => (0 <=? b) && (b <? 256)) (d0 ++ d1 ++ d2) = true ->
    match chan_data l 8 (-1) with Some da => Forall (fun a => a = 0 \/ a = 255) da | None => True end -> plain_tree (SLeaf l)).
  { intros l d0 d1 d2 m P T M E0 E1 E2 B A. rewrite !forallb_app, !andb_true_iff in B. destruct B as (B0 & B1 & B2).
    apply plain_sleaf. split; [exact P|]. split; [exact T|]. split; [now exists m|]. repeat split; [exists d0|exists d1|exists d2|]; auto. }
  repeat apply Forall_cons; try apply Forall_nil.
  - apply (L low [200; 10] [100; 20] [50; 30] Normal); [repeat split|reflexivity|left; now left|reflexivity|reflexivity|reflexivity|reflexivity|exact I].
  - apply (plain_sfolder _ _ _ None); [repeat split| |].
    + exists (ascii "pass"). split; [|reflexivity]. exists (be 4 1 ++ ascii "8BIM" ++ ascii "pass"), 1, (Some (ascii "pass")), 0. split; [reflexivity|]. split; [|reflexivity].
      split; [lia|]. right. left. exists (ascii "pass"), []. repeat split; reflexivity.
    + repeat apply Forall_cons; try apply Forall_nil.
      * apply (L mid [51; 1] [255; 255] [102; 3] Multiply); [repeat split|reflexivity|left; right; right; now left|reflexivity|reflexivity|reflexivity|reflexivity|].
        repeat apply Forall_cons; try apply Forall_nil; lia.
      * apply (L off [7; 7] [7; 7] [7; 7] Normal); [repeat split|reflexivity|left; now left|reflexivity|reflexivity|reflexivity|reflexivity|exact I].
Qed.
(** The hypotheses hold, and the two pixels are the product and the lower picture. *)
Example C64_used :
  header_valid head8 /\ section_valid noinflate false false 8 3 InPlace (flat_map sflatten forest) [0] [] [] [] /\
  Forall stree_valid forest /\ Forall plain_tree forest /\ new w0 /\
  showFile file8 [Pt 0 0; Pt 1 0] = Some [Some [Px 40 100 20 255]; Some [Px 10 20 30 255]] /\
  paint_trees (Pt 0 0) forest None (Some (Px 40 100 20 255)) /\ paint_trees (Pt 1 0) forest None (Some (Px 10 20 30 255)).
Proof.
  destruct forest_valid as [V T]. split; [unfold header_valid, dim_limit; cbn; lia|]. split.
  { split; [exact V|]. split; [reflexivity|]. split; [exact I|]. split; [reflexivity|]. split; [constructor|].
    split; [split; [apply no8b_ok; reflexivity|right; left; reflexivity]|]. vm_compute. reflexivity. }
  split; [exact T|]. split; [exact forest_plain|]. split; [intros q; eexists; reflexivity|]. split; [vm_compute; reflexivity|].
  assert (F : folder_mode folder None).
  { exists (ascii "pass"). split; [|reflexivity]. exists (be 4 1 ++ ascii "8BIM" ++ ascii "pass"), 1, (Some (ascii "pass")), 0. split; [reflexivity|]. split; [|reflexivity].
    split; [lia|]. right. left. exists (ascii "pass"), []. repeat split; reflexivity. }
  assert (P : forall p s1 s2, leaf_px low p s1 -> leaf_px mid p s2 -> paint_trees p forest None (over Multiply s2 s1)).
  { intros p s1 s2 H1 H2. eapply paint_cons; [apply (paint_leaf p low Normal s1 None); [reflexivity|left; now left|exact H1]|].
    eapply paint_cons; [|apply paint_nil]. replace (over Normal s1 None) with s1 by now destruct s1. apply paint_through; [reflexivity|exact F|].
    eapply paint_cons; [apply (paint_leaf p mid Multiply s2 s1); [reflexivity|left; right; right; now left|exact H2]|].
    eapply paint_cons; [apply paint_hidden_leaf; reflexivity|apply paint_nil]. }
  split.
  - apply (P (Pt 0 0) (Some (Px 200 100 50 255)) (Some (Px 51 255 102 255))); cbn.
    + exists [200; 10], [100; 20], [50; 30], 200, 100, 50, 255. repeat split.
    + exists [51; 1], [255; 255], [102; 3], 51, 255, 102, 255. repeat split.
  - apply (P (Pt 1 0) (Some (Px 10 20 30 255)) None); cbn.
    + exists [200; 10], [100; 20], [50; 30], 10, 20, 30, 255. repeat split.
    + exists [51; 1], [255; 255], [102; 3], 1, 255, 3, 0. repeat split.
Qed.

(** ** C65: 16 bits *)

(** The property is false for 16 bits: New accepts the file, but the planes are taken for
    planes of bytes. A picture of two pixels of the greys 0x12ab and 0x56cd (a picture that shows 0x12 and
    0x56 when its high bytes are stored in a file of 8 bits) is shown with the greys 0x12 and 0xab. *)
Definition deep : slayer :=
  let d := [18; 171; 86; 205] in SLayer (Rct 0 0 2 1) [(0, PRaw d); (1, PRaw d); (2, PRaw d)] (ascii "norm") 255 0 0 0 SNone [] [65] [0; 0] [] [].
Definition head16 : header := Header 1 3 1 2 16 3.
Definition file16 : bytes := enc_config head16 (repeat 0 6%nat) [] [] ++ enc_section false false InPlace [deep] [] [] [] [].
Definition shownPx (file : bytes) (p : point) (v : px) : Prop :=
  exists f n rest evs st w1 s, Decode noinflate Plain 1 newOptions file = (Ok (f, n, rest), evs) /\
    MWait.steps (lstep 1 1) (lstart (map (fun e => playerOf (ev_layer e)) evs)) st /\ lended st /\
    renderedPx 1 (ldImages st) 1%nat 1 (Rct 0 0 2 1) false (rootOf (ldCopied st) (f_layer f)) w0 w1 /\ w1 p = Some (s, [v]).
Lemma shows_px file ps vs : showFile file ps = Some (map (fun v => Some [v]) vs) -> forall p v, In (p, v) (combine ps vs) -> shownPx file p v.
Proof.
  unfold showFile, shownPx. destruct (Decode _ _ _ _ file) as [[[[f n] rest]| | |] evs]; try discriminate. destruct (loadSeq 1 _) as [st|] eqn:E; [|discriminate].
  destruct (loadSeq_runs _ _ _ E) as [S L]. cbv zeta. set (w1 := seqRender _ _ _ _ _ _ _ _ _ _ _ _ _ _ _ _ _).
  intros [= H] p v Hi. assert (G : option_map snd (w1 p) = Some [v]).
  { clear -H Hi. revert vs H Hi. induction ps as [|q ps IH]; intros [|u vs] H Hi; cbn [combine In map] in *; try easy. injection H as H1 H2. destruct Hi as [[= <- <-]|Hi]; [exact H1|eauto]. }
  destruct (w1 p) as [[s t]|] eqn:W; [|discriminate]. injection G as ->. exists f, n, rest, evs, st, w1, s. repeat (split; [first [reflexivity|assumption]|]).
  split; [apply seqRender_rendered|exact W].
Qed.
Theorem C65_deep_refuted : exists h sl d, header_valid h /\ h_mode h = 3 /\ h_depth h = 16 /\
  section_valid noinflate false false 16 3 InPlace [sl] [] [] [] [] /\ stree_valid (SLeaf sl) /\
  chan_data sl 16 0 = Some d /\ chan_data sl 16 1 = Some d /\ chan_data sl 16 2 = Some d /\ sl_rect sl = Rct 0 0 2 1 /\
  exists hi0 lo0 hi1 lo1 v, d = [hi0; lo0; hi1; lo1] /\
    shownPx (enc_config h (repeat 0 6%nat) [] [] ++ enc_section false false InPlace [sl] [] [] [] []) (Pt 1 0) v /\ v = Px lo0 lo0 lo0 255 /\ lo0 <> hi1.
Proof.
  exists head16, deep, [18; 171; 86; 205]. split; [unfold header_valid, dim_limit; cbn; lia|]. split; [reflexivity|]. split; [reflexivity|]. split.
  { split; [repeat apply Forall_cons; try apply Forall_nil; apply slayer_check; [vm_compute; reflexivity|exact I|exact I]|].
    split; [reflexivity|]. split; [exact I|]. split; [reflexivity|]. split; [constructor|]. split; [split; [apply no8b_ok; reflexivity|right; left; reflexivity]|]. vm_compute. reflexivity. }
  split; [apply (sleaf_valid _ 0); [reflexivity|lia|lia|lia]|]. repeat (split; [reflexivity|]). exists 18, 171, 86, 205, (Px 171 171 171 255). split; [reflexivity|]. split; [|split; [reflexivity|lia]].
  apply (shows_px file16 [Pt 0 0; Pt 1 0] [Px 18 18 18 255; Px 171 171 171 255]); [vm_compute; reflexivity|]. right. now left.
Qed.
Print Assumptions C65_deep_refuted.
