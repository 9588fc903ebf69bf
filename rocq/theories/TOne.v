(** Theorems: layers of one colour show this colour, C99. *)
From Coq Require Import String QArith.
From Verif Require Import Base SUtil SConfig MRect MPicker MConfig MReader MLayer MApi SCompress SRecord SLayer XRecord
  MSched MBlend MPorter SBlend MWait MRender SRender MRenderAll SRenderAll MRenderPx PRenderPx
  MDraw MTile STile MLoad SLoad MPipe SPipe SSharp PPipe5 XPipe PSharp3 PSharp4 TPipe TSharp PPipe4 SGlass PGlass2 PGlass4 TGlass TTidy TDissolve SFrame PFrame SBright PBright TBright SOne POne.
Close Scope string_scope.
Open Scope Z_scope.

(** ** C99 *)

(** An RGB file of 8 bits as in C70 with layers of the modes Normal, Darken, Darker Color, Lighten, Lighter Color, Pin Light, Hue, Saturation, Color and Luminosity with any opacities, in isolated folders of these modes
    and any opacities. If at a point all pictures are transparent or opaque and of one colour, then what is shown there has exactly this colour if it is opaque. Otherwise each of its colours is too dark by at most
    two levels. *)
Theorem C99_one_colour :
  forall inflate kind procs h rsv cmd res neg pl sf pad gmask bs tail rest cpus ts k, (1 <= procs)%nat -> (1 <= cpus)%nat -> 0 < ts ->
  header_valid h -> h_mode h = 3 -> h_depth h = 8 -> zlen rsv = 6 -> zlen cmd < 4294967296 ->
  Forall rblock_valid res -> zlen (enc_rblocks res) < 4294967296 ->
  let large := h_version h =? 2 in
  section_valid inflate large neg 8 3 pl (flat_map sflatten sf) pad gmask bs tail ->
  Forall stree_valid sf -> glass_forest sf -> pixel_ok k -> pa k = 255 ->
  let enc := enc_config h rsv cmd res ++ enc_section large neg pl (flat_map sflatten sf) pad gmask bs tail in
  exists f evs, Decode inflate kind procs newOptions (enc ++ rest) = (Ok (f, zlen enc, rest), evs) /\
    (exists st, MWait.steps (lstep cpus ts) (lstart (map (fun e => playerOf (ev_layer e)) evs)) st /\ lended st) /\
    forall st, MWait.steps (lstep cpus ts) (lstart (map (fun e => playerOf (ev_layer e)) evs)) st -> lended st ->
    forall cpus' r' w0 w1, (1 <= cpus')%nat -> new w0 ->
    renderedPx ts (ldImages st) cpus' ts r' false (rootOf (ldCopied st) (f_layer f)) w0 w1 ->
    forall q p, tileOf ts r' q -> in_tile ts q p -> 0 <= MRect.px p -> 0 <= py p -> Forall (plainly p k) sf ->
    exists s t v, w1 q = Some (s, t) /\ tile_at ts q t p = Some v /\
      (pa v = 255 -> v = k) /\ (pa v <> 0 -> pr k - 2 <= pr v <= pr k /\ pg k - 2 <= pg v <= pg k /\ pb k - 2 <= pb v <= pb k).
Proof. exact one_shown. Qed.
Print Assumptions C99_one_colour.

(** *** An example: an opaque layer, one of the mode Darken, a folder with a layer of the mode Lighten; in the other pixel the bottom layer is transparent. *)
Notation kc := (Px 200 100 50 255).
Definition coat (mode : bytes) (op : Z) (al : bytes) : slayer := lay mode op 0 SNone [] ((-1, PRaw al) :: rgb [200; 200] [100; 100] [50; 50]).
Definition shelf : slayer :=
  SLayer ZR [] (ascii "norm") 150 0 0 0 SNone [] [66] [0; 0] [IBlock [] false (ascii "lsct") (be 4 1 ++ ascii "8BIM" ++ ascii "norm")] [].
Notation coat1 := (coat (ascii "norm") 255 [255; 0]).
Notation coat2 := (coat (ascii "dark") 60 [255; 255]).
Notation coat3 := (coat (ascii "lite") 128 [255; 255]).
Definition coats : list stree := [SLeaf coat1; SLeaf coat2; SFolder divider shelf [SLeaf coat3]].
Lemma coat1_mode : leaf_mode coat1 Normal. Proof. left. now left. Qed.
Lemma coat2_mode : leaf_mode coat2 Darken. Proof. left. cbv. repeat (first [now left|right]). Qed.
Lemma coat3_mode : leaf_mode coat3 Lighten. Proof. left. cbv. repeat (first [now left|right]). Qed.
Lemma shelf_norm : folder_mode shelf (Some Normal).
Proof. exact (veil_norm []). Qed.
Lemma coats_valid : section_valid noinflate false false 8 3 InPlace (flat_map sflatten coats) [] [] [] [] /\ Forall stree_valid coats /\ glass_forest coats.
Proof.
  split; [|split].
  - split.
    + cbn [coats flat_map sflatten app]. repeat apply Forall_cons; try apply Forall_nil; (apply slayer_check; [vm_compute; reflexivity|exact I|]); try exact I; try (exists 3, None, 0; exact div3); exists 1, (Some (ascii "norm")), 0; now apply div1.
    + split; [reflexivity|]. split; [exact I|]. split; [reflexivity|]. split; [constructor|].
      split; [split; [apply no8b_ok; reflexivity|right; left; reflexivity]|]. vm_compute; reflexivity.
  - repeat apply Forall_cons; try apply Forall_nil; try (apply (sleaf_valid _ 0); [reflexivity|lia|lia|lia]).
    apply (sfolder_valid _ _ _ 1); [exists None, 0; exact div3|exists (Some (ascii "norm")), 0; now apply div1|now left|].
    repeat apply Forall_cons; try apply Forall_nil; (apply (sleaf_valid _ 0); [reflexivity|lia|lia|lia]).
  - assert (G1 : glass_tree (SLeaf coat1)) by (apply (lay_glass coat1 [200; 200] [100; 100] [50; 50] Normal); [now apply no_mask|cbv; intuition discriminate|reflexivity|exact coat1_mode|reflexivity|reflexivity|reflexivity|reflexivity]).
    assert (G2 : glass_tree (SLeaf coat2)) by (apply (lay_glass coat2 [200; 200] [100; 100] [50; 50] Darken); [now apply no_mask|cbv; intuition discriminate|reflexivity|exact coat2_mode|reflexivity|reflexivity|reflexivity|reflexivity]).
    assert (G3 : glass_tree (SLeaf coat3)) by (apply (lay_glass coat3 [200; 200] [100; 100] [50; 50] Lighten); [now apply no_mask|cbv; intuition discriminate|reflexivity|exact coat3_mode|reflexivity|reflexivity|reflexivity|reflexivity]).
    split; [|apply all_glass_groups; intros t Ht; repeat (destruct Ht as [<-|Ht]; [reflexivity|]); destruct Ht].
    constructor; [exact G1|]. constructor; [exact G2|]. constructor; [|constructor].
    apply (glass_sfolder _ _ _ (Some Normal)); [cbv; intuition discriminate|exact shelf_norm|now apply no_mask|constructor; [exact G3|constructor]|now apply one_groups].
Qed.
Lemma coat_leaf mode op a al p : (p = Pt 0 0 /\ nth_error al 0 = Some a \/ p = Pt 1 0 /\ nth_error al 1 = Some a) -> a = 0 \/ a = 255 -> forall v, leaf_value (coat mode op al) p v -> v = nothing \/ v = kc.
Proof.
  intros H Ha v L. assert (K : leaf_value (coat mode op al) p (if a =? 0 then nothing else Px 200 100 50 a)).
  { destruct H as [[-> N]|[-> N]]; (eapply pixel; try reflexivity; exact N). }
  rewrite (leaf_only _ _ _ _ L K). destruct Ha as [-> | ->]; [now left|now right].
Qed.
Lemma coats_plain p : p = Pt 0 0 \/ p = Pt 1 0 -> Forall (plainly p kc) coats.
Proof.
  intros H. constructor; [|constructor; [|constructor; [|constructor]]].
  - apply (plainly_leaf _ _ _ Normal coat1_mode Logic.I); [intros M; discriminate M|reflexivity|].
    destruct H as [-> | ->]; [apply (coat_leaf _ _ 255); [left|right]|apply (coat_leaf _ _ 0); [right|left]]; auto.
  - apply (plainly_leaf _ _ _ Darken coat2_mode Logic.I); [intros M; discriminate M|reflexivity|]. apply (coat_leaf _ _ 255); [destruct H as [-> | ->]; [left|right]; split; reflexivity|now right].
  - apply (plainly_folder _ _ _ _ _ Normal shelf_norm Logic.I); [reflexivity|reflexivity|]. constructor; [|constructor].
    apply (plainly_leaf _ _ _ Lighten coat3_mode Logic.I); [intros M; discriminate M|reflexivity|]. apply (coat_leaf _ _ 255); [destruct H as [-> | ->]; [left|right]; split; reflexivity|now right].
Qed.
Example C99_used : Forall (plainly (Pt 0 0) kc) coats /\ Forall (plainly (Pt 1 0) kc) coats /\
  (section_valid noinflate false false 8 3 InPlace (flat_map sflatten coats) [] [] [] [] /\ Forall stree_valid coats /\ glass_forest coats) /\
  showWith 2 (fileOf coats) [Pt 0 0] = Some [Some [kc; Px 200 100 50 116; nothing; nothing]].
Proof. split; [apply coats_plain; now left|]. split; [apply coats_plain; now right|]. split; [exact coats_valid|]. vm_compute. reflexivity. Qed.

(** The two levels are lost: a file with one opaque layer of a grey whose opacity is 3. *)
Definition faint : slayer := lay (ascii "norm") 3 0 SNone [] ((-1, PRaw [255; 255]) :: rgb [20; 20] [20; 20] [20; 20]).
Theorem C99_faint_refuted : exists sf k, (section_valid noinflate false false 8 3 InPlace (flat_map sflatten sf) [] [] [] [] /\ Forall stree_valid sf /\ glass_forest sf) /\ pixel_ok k /\ pa k = 255 /\
  (forall t, In t sf -> exists l, t = SLeaf l /\ leaf_mode l Normal /\ leaf_value l (Pt 0 0) k) /\
  exists v vs, showWith 2 (fileOf sf) [Pt 0 0] = Some [Some (v :: vs)] /\ pa v <> 0 /\ pr v = pr k - 2.
Proof.
  exists [SLeaf faint], (Px 20 20 20 255). split; [split; [|split]|split; [|split; [|split]]].
  - split.
    + cbn [flat_map sflatten app]. repeat apply Forall_cons; try apply Forall_nil; (apply slayer_check; [vm_compute; reflexivity|exact I|]); exact I.
    + split; [reflexivity|]. split; [exact I|]. split; [reflexivity|]. split; [constructor|].
      split; [split; [apply no8b_ok; reflexivity|right; left; reflexivity]|]. vm_compute; reflexivity.
  - constructor; [|constructor]. apply (sleaf_valid _ 0); [reflexivity|lia|lia|lia].
  - split; [|apply all_glass_groups; intros t Ht; destruct Ht as [<-|[]]; reflexivity]. constructor; [|constructor].
    apply (lay_glass faint [20; 20] [20; 20] [20; 20] Normal); [now apply no_mask|cbv; intuition discriminate|reflexivity|left; now left|reflexivity|reflexivity|reflexivity|reflexivity].
  - unfold pixel_ok. cbn. lia.
  - reflexivity.
  - intros t [<-|[]]. exists faint. split; [reflexivity|]. split; [left; now left|]. exact (pixel faint (Pt 0 0) 20 20 20 255 [20; 20] [20; 20] [20; 20] eq_refl eq_refl eq_refl eq_refl eq_refl eq_refl eq_refl eq_refl).
  - eexists; eexists. split; [vm_compute; reflexivity|]. split; [discriminate|reflexivity].
Qed.
