(** Theorems: how exact the picture of a stack of layers is, C87. *)
From Coq Require Import String QArith.
From Verif Require Import Base SUtil SConfig MRect MPicker MConfig MReader MLayer MApi SCompress SRecord SLayer XRecord
  MSched MBlend MPorter SBlend MWait MRender SRender MRenderAll SRenderAll MRenderPx PRenderPx
  MDraw MTile STile MLoad SLoad MPipe SPipe SSharp PPipe5 XPipe PSharp3 PSharp4 TPipe TSharp PPipe4 SGlass PGlass4 TGlass SOver PTop SStack PStack1 PStack2.
Close Scope string_scope.
Open Scope Z_scope.

(** ** C87 *)

(** An RGB file of 8 bits: any layers as in C70 whose picture is opaque at a point, and over them any number of layers
    of any transparency, opacity and mask, with modes that are [gentle]. At the point every Render
    after New shows an opaque pixel whose colour is that of the compositing formula without any rounding, up to [k] levels,
    2.5 or 3.5 for each visible layer and 3 more if it has a mask. *)
Theorem C87_stack :
  forall inflate kind procs h rsv cmd res neg pl sf ls pad gmask bs tail rest cpus ts, (1 <= procs)%nat -> (1 <= cpus)%nat -> 0 < ts ->
  header_valid h -> h_mode h = 3 -> h_depth h = 8 -> zlen rsv = 6 -> zlen cmd < 4294967296 ->
  Forall rblock_valid res -> zlen (enc_rblocks res) < 4294967296 ->
  let large := h_version h =? 2 in
  section_valid inflate large neg 8 3 pl (flat_map sflatten (sf ++ map SLeaf ls)) pad gmask bs tail ->
  Forall stree_valid (sf ++ map SLeaf ls) -> glass_forest (sf ++ map SLeaf ls) -> Forall gentle_layer ls ->
  let enc := enc_config h rsv cmd res ++ enc_section large neg pl (flat_map sflatten (sf ++ map SLeaf ls)) pad gmask bs tail in
  exists f evs, Decode inflate kind procs newOptions (enc ++ rest) = (Ok (f, zlen enc, rest), evs) /\
    forall st, MWait.steps (lstep cpus ts) (lstart (map (fun e => playerOf (ev_layer e)) evs)) st -> lended st ->
    forall cpus' r' w0 w1, (1 <= cpus')%nat -> new w0 ->
    renderedPx ts (ldImages st) cpus' ts r' false (rootOf (ldCopied st) (f_layer f)) w0 w1 ->
    forall q p d c k, tileOf ts r' q -> in_tile ts q p -> 0 <= MRect.px p -> 0 <= py p ->
    laid (square ts q) p None sf nothing d -> pa d = 255 -> stacked p ls (levels d) c k ->
    exists u t v, w1 q = Some (u, t) /\ tile_at ts q t p = Some v /\ pa v = 255 /\ close_to k v c.
Proof. exact stack_shown. Qed.
Print Assumptions C87_stack.

(** Never more than 3.5 levels for each layer and 3 for each mask *)
Theorem C87_cost : forall p ls c c' k, stacked p ls c c' k -> (0 <= k <= (7 # 2) * inject_Z (zlen ls) + (3 # 1) * inject_Z (zlen (filter has_mask ls)))%Q.
Proof. exact stacked_cost. Qed.
Print Assumptions C87_cost.

(** The layers of a file have one exact colour and one bound at every point. *)
Theorem C87_determined : forall inflate large p ls c,
  Forall (slayer_valid inflate large 8 3) ls -> Forall (fun l => glass_tree (SLeaf l)) ls ->
  exists c' k, stacked p ls c c' k /\ forall c'' k', stacked p ls c c'' k' -> c'' = c' /\ k' = k.
Proof. exact stacked_one. Qed.
Print Assumptions C87_determined.

(** A file: black; over it grey (254) with the opacity 127 and the mask (or the alpha) 128; over it a layer that is multiplied, with the
    opacity 200. *)
Definition black : slayer := lay (ascii "norm") 255 0 SNone [] (rgb [0; 0] [0; 0] [0; 0]).
Definition mist (b : bool) : slayer :=
  lay (ascii "norm") 127 0 (if b then SShort (Rct 0 0 2 1) 255 0 None [0; 0] else SNone) [] ((if b then -2 else -1, PRaw [128; 128]) :: rgb [254; 254] [254; 254] [254; 254]).
Definition top (mode : bytes) (op : Z) : slayer := lay mode op 0 SNone [] (rgb [192; 192] [192; 192] [192; 192]).
Definition pile (b : bool) (mode : bytes) (op : Z) : list stree := [SLeaf black] ++ map SLeaf [mist b; top mode op].

Lemma mist_mask : glass_mask (mist true) false.
Proof.
  intros _. split; [reflexivity|]. split; [eexists; split; [reflexivity|now apply bytes_check]|]. split; [now right|]. right. exists (Pt 0 0), 128.
  split; [cbn; lia|]. split; [cbn; lia|]. split; [reflexivity|]. split; [eexists; split; reflexivity|discriminate].
Qed.
Lemma pile_ok b mode op m : leaf_mode (top mode op) m -> is_byte op ->
  Forall stree_valid (pile b mode op) /\ glass_forest (pile b mode op) /\ laid (square 1 (Pt 0 0)) (Pt 0 0) None [SLeaf black] nothing (Px 0 0 0 255).
Proof.
  intros Lm Ho. split. { repeat apply Forall_cons; try apply Forall_nil; (apply (sleaf_valid _ 0); [reflexivity|lia|lia|lia]). }
  assert (G : layers_grouped (pile b mode op) [(SLeaf black, []); (SLeaf (mist b), []); (SLeaf (top mode op), [])]).
  { apply (lg_base _ [] [SLeaf (mist b); SLeaf (top mode op)]); [reflexivity|constructor|reflexivity|]. apply (lg_base _ [] [SLeaf (top mode op)]); [reflexivity|constructor|reflexivity|].
    apply (lg_base _ [] []); [reflexivity|constructor|exact I|constructor]. }
  split. { split.
    - repeat apply Forall_cons; try apply Forall_nil.
      + apply (lay_glass black [0; 0] [0; 0] [0; 0] Normal); [now apply no_mask|cbv; intuition discriminate|reflexivity|left; now left|reflexivity|reflexivity|reflexivity|reflexivity].
      + apply (lay_glass (mist b) [254; 254] [254; 254] [254; 254] Normal); [destruct b; [apply mist_mask|now apply no_mask]|cbv; intuition discriminate|destruct b; reflexivity|left; now left|destruct b; reflexivity|destruct b; reflexivity|destruct b; reflexivity|destruct b; reflexivity].
      + apply (lay_glass (top mode op) [192; 192] [192; 192] [192; 192] m); [now apply no_mask|exact Ho|reflexivity|exact Lm|reflexivity|reflexivity|reflexivity|reflexivity].
    - intros gs t cs G' Hi. rewrite <- (lg_fun _ _ G _ G') in Hi. destruct Hi as [[= <- <-]|[[= <- <-]|[[= <- <-]|[]]]]; now left. }
  econstructor; [now apply one_is|]. change (Px 0 0 0 255) with (blended Normal 255 (stored (Px 0 0 0 255)) nothing). econstructor; [|constructor].
  eapply put_over; [reflexivity|discriminate|left; now left| |apply topped_alone; now left]. apply plain_image; [|reflexivity]. eapply (pixel black (Pt 0 0) 0 0 0 255); reflexivity.
Qed.
Lemma pile_section b mode op : mode = ascii "mul " /\ op = 200 \/ mode = ascii "hMix" /\ op = 255 ->
  section_valid noinflate false false 8 3 InPlace (flat_map sflatten (pile b mode op)) [] [] [] [].
Proof.
  intros [[-> ->]|[-> ->]]; destruct b; (split; [repeat apply Forall_cons; try apply Forall_nil; (apply slayer_check; [vm_compute; reflexivity|exact I|exact I])|]);
    (split; [reflexivity|]); (split; [exact I|]); (split; [reflexivity|]); (split; [constructor|]); (split; [split; [apply no8b_ok; reflexivity|right; left; reflexivity]|]); vm_compute; reflexivity.
Qed.
Lemma pile_stacked b mode op m : leaf_mode (top mode op) m ->
  stacked (Pt 0 0) [mist b; top mode op] (levels (Px 0 0 0 255))
    (exact_layer (top mode op) m (Px 192 192 192 255) 255 (exact_layer (mist b) Normal (Px 254 254 254 (if b then 255 else 128)) (if b then 128 else 255) (levels (Px 0 0 0 255))))
    (cost Normal + mask_cost (mist b) + (cost m + mask_cost (top mode op) + 0)).
Proof.
  intros Lm. apply (stacked_over _ (mist b) _ Normal (Px 254 254 254 (if b then 255 else 128)) (if b then 128 else 255)); [destruct b; reflexivity|left; now left| | |].
  { destruct b; [eapply (pixel (mist true) (Pt 0 0) 254 254 254 255)|eapply (pixel (mist false) (Pt 0 0) 254 254 254 128)]; reflexivity. }
  { destruct b; [exists [128; 128]; split; reflexivity|reflexivity]. }
  apply (stacked_over _ (top mode op) _ m (Px 192 192 192 255) 255); [reflexivity|exact Lm|eapply (pixel (top mode op) (Pt 0 0) 192 192 192 255); reflexivity|reflexivity|]. constructor.
Qed.

(** The exact colour is 51.2; the pixel shown has 49. *)
Example C87_used :
  section_valid noinflate false false 8 3 InPlace (flat_map sflatten (pile true (ascii "mul ") 200)) [] [] [] [] /\
  Forall stree_valid (pile true (ascii "mul ") 200) /\ glass_forest (pile true (ascii "mul ") 200) /\ Forall gentle_layer [mist true; top (ascii "mul ") 200] /\
  laid (square 1 (Pt 0 0)) (Pt 0 0) None [SLeaf black] nothing (Px 0 0 0 255) /\
  (exists x c k, stacked (Pt 0 0) [mist true; top (ascii "mul ") 200] (levels (Px 0 0 0 255)) c k /\ c = (x, x, x) /\ (k == 9 # 1)%Q /\ (511 # 10 < x < 512 # 10)%Q) /\
  showWith 1 (fileOf (pile true (ascii "mul ") 200)) [Pt 0 0] = Some [Some [Px 49 49 49 255]].
Proof.
  assert (Lm : leaf_mode (top (ascii "mul ") 200) Multiply) by (left; right; right; now left).
  destruct (pile_ok true (ascii "mul ") 200 Multiply Lm) as (V & G & L); [cbv; intuition discriminate|].
  split; [apply pile_section; now left|]. split; [exact V|]. split; [exact G|]. split.
  { repeat constructor; intros m [H|[H _]]; try discriminate H; unfold key_is in H; cbn in H; repeat (destruct H as [H|H]; [try discriminate H; injection H as <-; reflexivity|]); destruct H. }
  split; [exact L|]. split; [|vm_compute; reflexivity]. eexists _, _, _. split; [exact (pile_stacked true _ _ Multiply Lm)|]. split; [reflexivity|]. split; [vm_compute; reflexivity|]. vm_compute. split; reflexivity.
Qed.

(** The modes that are not gentle have no such bound: a layer in mode hard mix instead of the multiplied one should be
    white, as 192 and 63.5 are more than 255; but 63.5 was rounded to 62, and it is black. *)
Theorem C87_hard_mix_refuted : exists ls f n rest evs d e k v,
  section_valid noinflate false false 8 3 InPlace (flat_map sflatten ([SLeaf black] ++ map SLeaf ls)) [] [] [] [] /\
  Forall stree_valid ([SLeaf black] ++ map SLeaf ls) /\ glass_forest ([SLeaf black] ++ map SLeaf ls) /\ Forall (fun l => sl_clip l = 0 /\ has_mask l = false) ls /\
  Decode noinflate Plain 1 newOptions (fileOf ([SLeaf black] ++ map SLeaf ls)) = (Ok (f, n, rest), evs) /\
  laid (square 1 (Pt 0 0)) (Pt 0 0) None [SLeaf black] nothing d /\ pa d = 255 /\ stacked (Pt 0 0) ls (levels d) (e, e, e) k /\
  shownBy f evs (Pt 0 0) v /\ (e == 255)%Q /\ v = Px 0 0 0 255.
Proof.
  assert (Lm : leaf_mode (top (ascii "hMix") 255) HardMix) by (left; do 17 right; now left).
  destruct (pile_ok false (ascii "hMix") 255 HardMix Lm) as (V & G & L); [cbv; intuition discriminate|].
  destruct (shows_with 1 (fileOf (pile false (ascii "hMix") 255)) [Pt 0 0] [[Px 0 0 0 255]] ltac:(lia)) as (f & n & rest & evs & ED & Sh); [vm_compute; reflexivity|].
  exists [mist false; top (ascii "hMix") 255], f, n, rest, evs, (Px 0 0 0 255). eexists _, _. exists (Px 0 0 0 255).
  change ([SLeaf black] ++ map SLeaf [mist false; top (ascii "hMix") 255]) with (pile false (ascii "hMix") 255).
  split; [apply pile_section; right; split; reflexivity|]. split; [exact V|]. split; [exact G|]. split; [repeat constructor|]. split; [exact ED|]. split; [exact L|]. split; [reflexivity|].
  split; [exact (pile_stacked false _ _ HardMix Lm)|].
  split; [|split; [vm_compute; reflexivity|reflexivity]].
  apply (Sh (Pt 0 0) [Px 0 0 0 255]); [now left| | |reflexivity]; [exists 0, 0; repeat split; cbn; lia|unfold in_tile; cbn; lia].
Qed.
Print Assumptions C87_hard_mix_refuted.
