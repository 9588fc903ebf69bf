(** Theorem: a loaded tree whose layers are changed shows the picture of the file with these
    changes, C73. *)
From Coq Require Import String.
From Verif Require Import Base SUtil SConfig MRect MPicker MConfig MReader MLayer MApi SCompress SRecord SLayer XRecord
  MSched MBlend MPorter SBlend MWait MRender SRender SRenderLate PRender PRender4 MRenderAll SRenderAll MRenderLate PRender3 PRenderAll PLate5 MRenderPx PRenderPx
  MDraw MTile STile MLoad SLoad MPipe SPipe SSharp PPipe5 XPipe PSharp3 SLive PLive2 TPipe TSharp.
Close Scope string_scope.
Open Scope Z_scope.

(** ** C73 *)

(** A file of C68 is loaded. Then the layers get other values of Visible, Opacity and BlendMode, any
    number of times and at any time, also while a render draws the tiles, and are announced at any later time, with any
    number of renders, diff renders and aborted renders in between. When everything is announced,
    Render shows at every point what the file shows in which the layers are stored with these
    values. The trees in between must be such that they could be stored as files of C68, too,
    and [okSwitch] excludes to switch a pass-through folder with pass-through folders in it to
    another mode (see C48). The tree has right Parent links, as Clone makes them (C46). *)
Theorem C73_live_picture :
  forall inflate kind procs h rsv cmd res neg pl sf pad gmask bs tail rest cpus ts, (1 <= procs)%nat -> (1 <= cpus)%nat -> 0 < ts ->
  header_valid h -> h_mode h = 3 -> h_depth h = 8 -> zlen rsv = 6 -> zlen cmd < 4294967296 ->
  Forall rblock_valid res -> zlen (enc_rblocks res) < 4294967296 ->
  let large := h_version h =? 2 in
  section_valid inflate large neg 8 3 pl (flat_map sflatten sf) pad gmask bs tail -> Forall stree_valid sf -> sharp_forest sf ->
  let enc := enc_config h rsv cmd res ++ enc_section large neg pl (flat_map sflatten sf) pad gmask bs tail in
  exists f evs, Decode inflate kind procs newOptions (enc ++ rest) = (Ok (f, zlen enc, rest), evs) /\
    forall st, MWait.steps (lstep cpus ts) (lstart (map (fun e => playerOf (ev_layer e)) evs)) st -> lended st ->
    let root := rootOf (ldCopied st) (f_layer f) in
    let allowed t := exists e sf', trees_edited e 0 sf sf' /\ storable inflate large neg pl pad gmask bs tail sf' /\ t = retouched e root in
    forall e sf' w, trees_edited e 0 sf sf' -> storable inflate large neg pl pad gmask bs tail sf' ->
    sessionOf ts (ldImages st) okSwitch allowed (fun _ => True) (retouched e root) [] w ->
    forall cpus' r' w1, (1 <= cpus')%nat -> renderedPx ts (ldImages st) cpus' ts r' false (retouched e root) w w1 ->
    forall q p, tileOf ts r' q -> in_tile ts q p -> 0 <= MRect.px p -> 0 <= py p ->
    exists s t c, w1 q = Some (s, t) /\ (forall c', painted p sf' None c' <-> c' = c) /\ tile_at ts q t p = Some (shown_as c).
Proof. exact live_shown. Qed.
Print Assumptions C73_live_picture.

(** The file of C68_used: after a render, the layer that is clipped to the base and the picture in
    the folder are hidden. The first is announced and the image rendered, then the second. *)
Definition loaded : option (loader * MRender.layer) :=
  match Decode noinflate Plain 1 newOptions (fileOf groups) with
  | (Ok (f, _, _), evs) =>
      match loadSeq 1 (map (fun e => playerOf (ev_layer e)) evs) with Some st => Some (st, rootOf (ldCopied st) (f_layer f)) | None => None end
  | _ => None
  end.
Definition loadedBy : loader := match loaded with Some (st, _) => st | None => lstart [] end.
Definition rootG : MRender.layer := match loaded with Some (_, r) => r | None => layer0 end.
Definition opaG (i : Z) : Z := if i =? 6 then 0 else 255.
Definition bmG (i : Z) : bytes := if i =? 2 then ascii "mul " else ascii "norm".
Definition asStored : edit := Edit (fun _ => true) opaG bmG.
Definition twoHidden : edit := Edit (fun i => negb ((i =? 2) || (i =? 4))) opaG bmG.
Definition tint' : slayer := SLayer (Rct 0 0 2 1) (rgb [51; 51] [255; 255] [102; 102]) (ascii "mul ") 255 1 2 0 SNone [] [65] [0; 0] [] [].
Definition red' : slayer := SLayer (Rct 0 0 2 1) (rgb [255; 255] [0; 0] [0; 0]) (ascii "norm") 255 0 2 0 SNone [] [65] [0; 0] [] [].
Definition groups' : list stree := [SLeaf lost; SLeaf base; SLeaf tint'; SFolder divider masked [SLeaf red']; SLeaf ghost].
Notation imsG := (ldImages loadedBy).
Notation renderG root w := (seqRender (zeroPx (Z.to_nat (1 * 1))) MRenderPx.copyPx blendPx destInMPx destOutMPx destInPx destOverPx (clearPx (Z.to_nat (1 * 1))) removeAlphaPx
  (canvasTile imsG) (maskTile imsG) 1 1 (Rct 0 0 2 1) false root w).
Definition posTint : list MRender.step := [(1%nat, Some 0%nat)].
Definition posRed : list MRender.step := [(2%nat, None); (0%nat, None)].
Notation shownG := (retouched asStored rootG).
Notation hiddenG := (retouched twoHidden rootG).
Definition wG1 : world tile := renderG shownG w0.
Definition wG2 : world tile := renderG hiddenG (dirtied (canvasTile imsG) (hasCanvasOf imsG) false hiddenG posTint wG1).
Definition wG3 : world tile := dirtied (canvasTile imsG) (hasCanvasOf imsG) false hiddenG posRed wG2.
Definition at2 (w : world tile) : list (option tile) := map (fun q => option_map snd (w q)) [Pt 0 0; Pt 1 0].

Lemma alike_same l : alike l l.
Proof. repeat split; auto. Qed.
Ltac leaf_is_edited := apply leaf_edited; [split; [first [apply alike_same|repeat split; auto]|split; reflexivity]|right; split; [discriminate|reflexivity]].
Lemma masked_key : folder_key masked (ascii "norm").
Proof. exists (be 4 1 ++ ascii "8BIM" ++ ascii "norm"), 1, (Some (ascii "norm")), 0. split; [reflexivity|]. split; [now apply div1|reflexivity]. Qed.
Lemma stored_edit : trees_edited asStored 0 groups groups.
Proof.
  repeat (apply edited_cons || apply edited_nil); try leaf_is_edited. apply folder_edited; [|split; [apply alike_same|split; reflexivity]|exact masked_key].
  repeat (apply edited_cons || apply edited_nil). leaf_is_edited.
Qed.
Lemma hidden_edit : trees_edited twoHidden 0 groups groups'.
Proof.
  repeat (apply edited_cons || apply edited_nil); try leaf_is_edited. apply folder_edited; [|split; [apply alike_same|split; reflexivity]|exact masked_key].
  repeat (apply edited_cons || apply edited_nil). leaf_is_edited.
Qed.
Lemma stored_ok : storable noinflate false false InPlace [] [] [] [] groups.
Proof. destruct C68_used as (_ & S & T & P & _). repeat split; auto; apply S || apply P. Qed.
Lemma groups'_are : layers_grouped groups' [(SLeaf base, [SLeaf tint']); (SFolder divider masked [SLeaf red'], []); (SLeaf ghost, [])].
Proof.
  apply lg_alone; [reflexivity|]. apply (lg_base _ [SLeaf tint']); [reflexivity|now constructor|reflexivity|].
  apply (lg_base _ []); [reflexivity|constructor|reflexivity|]. apply (lg_base _ [] []); [reflexivity|constructor|exact I|constructor].
Qed.
Lemma hidden_ok : storable noinflate false false InPlace [] [] [] [] groups'.
Proof.
  split; [|split].
  - split.
    + change (flat_map sflatten groups') with [lost; base; tint'; divider; red'; masked; ghost].
      repeat apply Forall_cons; try apply Forall_nil; (apply slayer_check; [vm_compute; reflexivity|exact I|]); try exact I.
      * exists 3, None, 0. exact div3.
      * exists 1, (Some (ascii "norm")), 0. now apply div1.
    + split; [reflexivity|]. split; [exact I|]. split; [reflexivity|]. split; [constructor|].
      split; [split; [apply no8b_ok; reflexivity|right; left; reflexivity]|]. vm_compute. reflexivity.
  - repeat apply Forall_cons; try apply Forall_nil; try (apply (sleaf_valid _ 0); [reflexivity|lia|lia|lia]).
    apply (sfolder_valid _ _ _ 1); [exists None, 0; exact div3|exists (Some (ascii "norm")), 0; now apply div1|now left|].
    repeat apply Forall_cons; try apply Forall_nil. apply (sleaf_valid _ 0); [reflexivity|lia|lia|lia].
  - pose proof groups_sharp as [P _]. inversion P as [|? ? P0 Q0]; subst. inversion Q0 as [|? ? P1 Q1]; subst. inversion Q1 as [|? ? _ Q2]; subst. inversion Q2 as [|? ? P3 Q3]; subst. inversion Q3 as [|? ? P4 _]; subst.
    inversion P3 as [|? ? ? m Sm Fm _ _]; subst. split.
    + constructor; [exact P0|]. constructor; [exact P1|]. constructor.
      { apply (lay_sharp tint' [51; 51] [255; 255] [102; 102] Multiply); [reflexivity|now right|reflexivity|left; right; right; now left|reflexivity|reflexivity|reflexivity|reflexivity|exact I]. }
      constructor; [|constructor; [exact P4|constructor]]. apply (sharp_sfolder _ _ _ m); [exact Sm|exact Fm| |].
      * constructor; [|constructor]. apply (lay_sharp red' [255; 255] [0; 0] [0; 0] Normal); [reflexivity|now right|reflexivity|left; now left|reflexivity|reflexivity|reflexivity|reflexivity|exact I].
      * assert (Rd : layers_grouped [SLeaf red'] [(SLeaf red', [])]) by (apply (lg_base _ [] []); [reflexivity|constructor|exact I|constructor]).
        intros gs t cs H Hi. rewrite <- (lg_fun _ _ Rd _ H) in Hi. destruct Hi as [[= <- <-]|[]]. now left.
    + intros gs t cs H Hi. rewrite <- (lg_fun _ _ groups'_are _ H) in Hi. destruct Hi as [[= <- <-]|[[= <- <-]|[[= <- <-]|[]]]]; [right; split; [reflexivity|intros []]|now left|now left].
Qed.
Definition allowedG (t : MRender.layer) : Prop :=
  exists e sf', trees_edited e 0 groups sf' /\ storable noinflate false false InPlace [] [] [] [] sf' /\ t = retouched e rootG.
(** The hypotheses hold. The second render shows the first change, the last one both. *)
Example C73_used :
  trees_edited twoHidden 0 groups groups' /\ storable noinflate false false InPlace [] [] [] [] groups' /\
  sessionOf 1 imsG okSwitch allowedG (fun _ => True) hiddenG [] wG3 /\
  at2 wG1 = [Some [Px 40 100 20 255]; Some [Px 255 0 0 255]] /\ at2 wG2 = [Some [Px 200 100 50 255]; Some [Px 255 0 0 255]] /\
  at2 (renderG hiddenG wG3) = [Some [Px 200 100 50 255]; Some [Px 0 0 0 0]].
Proof.
  split; [exact hidden_edit|]. split; [exact hidden_ok|]. split; [|vm_compute; repeat split].
  assert (A0 : allowedG shownG) by (exists asStored, groups; split; [exact stored_edit|]; split; [exact stored_ok|reflexivity]).
  assert (A1 : allowedG hiddenG) by (exists twoHidden, groups'; split; [exact hidden_edit|]; split; [exact hidden_ok|reflexivity]).
  assert (C : changed [posTint; posRed] shownG hiddenG).
  { replace hiddenG with (chg posRed (Lattr 4 false 255 (ascii "norm") false true false false) (chg posTint (Lattr 2 false 255 (ascii "mul ") true true false false) shownG)) by (vm_compute; reflexivity).
    apply (changed_trans [posTint] [posRed] _ (chg posTint (Lattr 2 false 255 (ascii "mul ") true true false false) shownG)).
    - apply (changed_chg posTint _ shownG (Lay (Lattr 2 true 255 (ascii "mul ") true true false false) [] [])); [vm_compute; reflexivity|split; reflexivity].
    - apply (changed_chg posRed _ _ (Lay (Lattr 4 true 255 (ascii "norm") false true false false) [] [])); [vm_compute; reflexivity|split; reflexivity]. }
  assert (O : okSwitch shownG hiddenG).
  { intros p t t' E _ Pt. apply layerAt_subs in E. exfalso. revert Pt. apply Bool.not_true_iff_false. revert t E. vm_compute subs. apply Forall_forall. repeat (constructor; [reflexivity|]). constructor. }
  change (@nil (list MRender.step)) with (without posRed (without posTint ([posTint; posRed] ++ []))). unfold wG3, wG2. apply S_announce.
  eapply S_render with (cpus := 1%nat); [|lia|exact I|apply seqRender_rendered]. apply S_announce.
  eapply S_change; [|exact C|exact O|exact A1].
  eapply S_render with (cpus := 1%nat); [|lia|exact I|apply seqRender_rendered]. apply S_new; [intros q; eexists; reflexivity|exact A0].
Qed.
