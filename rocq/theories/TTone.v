(** Theorems: layers that only darken or only lighten, C95. *)
From Coq Require Import String QArith.
From Verif Require Import Base SUtil SConfig MRect MPicker MConfig MReader MLayer MApi SCompress SRecord SLayer XRecord
  MSched MBlend MPorter SBlend MWait MRender SRender MRenderAll SRenderAll MRenderPx PRenderPx
  MDraw MTile STile MLoad SLoad MPipe SPipe SSharp PPipe5 XPipe PSharp3 PSharp4 TPipe TSharp PPipe4 SGlass PGlass2 PGlass4 TGlass TTidy PFrame STidy TDissolve STone PTone.
Close Scope string_scope.
Open Scope Z_scope.

(** ** C95 *)

(** Two RGB files of 8 bits as in C70; the second has the layers of the first and more on top of them. These, pictures or isolated folders of any opacity and with any masks,
    have modes that darken (Darken, Multiply, Color Burn, Linear Burn, Subtract), or all have modes that lighten (Lighten, Screen,
    Color Dodge, Linear Dodge, Divide); layers of any modes may be clipped to them. Then, wherever the first file shows an opaque pixel, the second shows
    an opaque pixel with no colour brighter, or no colour darker, than in the first: not by one level, at any opacity. *)
Theorem C95_tones :
  forall inflate kind procs h rsv cmd res neg pl sf pad gmask bs tail rest inflate' kind' procs' h' rsv' cmd' res' neg' pl' add pad' gmask' bs' tail' rest' cpus cpus1 ts e,
  (1 <= procs)%nat -> (1 <= procs')%nat -> (1 <= cpus)%nat -> (1 <= cpus1)%nat -> 0 < ts ->
  header_valid h -> h_mode h = 3 -> h_depth h = 8 -> zlen rsv = 6 -> zlen cmd < 4294967296 ->
  Forall rblock_valid res -> zlen (enc_rblocks res) < 4294967296 ->
  header_valid h' -> h_mode h' = 3 -> h_depth h' = 8 -> zlen rsv' = 6 -> zlen cmd' < 4294967296 ->
  Forall rblock_valid res' -> zlen (enc_rblocks res') < 4294967296 ->
  let large := h_version h =? 2 in let large' := h_version h' =? 2 in
  section_valid inflate large neg 8 3 pl (flat_map sflatten sf) pad gmask bs tail -> Forall stree_valid sf -> glass_forest sf ->
  section_valid inflate' large' neg' 8 3 pl' (flat_map sflatten (sf ++ add)) pad' gmask' bs' tail' -> Forall stree_valid (sf ++ add) -> glass_forest (sf ++ add) ->
  toning e add ->
  let enc := enc_config h rsv cmd res ++ enc_section large neg pl (flat_map sflatten sf) pad gmask bs tail in
  let enc' := enc_config h' rsv' cmd' res' ++ enc_section large' neg' pl' (flat_map sflatten (sf ++ add)) pad' gmask' bs' tail' in
  exists f evs f' evs', Decode inflate kind procs newOptions (enc ++ rest) = (Ok (f, zlen enc, rest), evs) /\ Decode inflate' kind' procs' newOptions (enc' ++ rest') = (Ok (f', zlen enc', rest'), evs') /\
    forall st st', MWait.steps (lstep cpus ts) (lstart (map (fun e => playerOf (ev_layer e)) evs)) st -> lended st ->
    MWait.steps (lstep cpus1 ts) (lstart (map (fun e => playerOf (ev_layer e)) evs')) st' -> lended st' ->
    forall n n' r r' w0 w1 w0' w1', (1 <= n)%nat -> (1 <= n')%nat -> new w0 -> new w0' ->
    renderedPx ts (ldImages st) n ts r false (rootOf (ldCopied st) (f_layer f)) w0 w1 ->
    renderedPx ts (ldImages st') n' ts r' false (rootOf (ldCopied st') (f_layer f')) w0' w1' ->
    forall q p, tileOf ts r q -> tileOf ts r' q -> in_tile ts q p -> 0 <= MRect.px p -> 0 <= py p ->
    exists u t u' t' v v', w1 q = Some (u, t) /\ w1' q = Some (u', t') /\ tile_at ts q t p = Some v /\ tile_at ts q t' p = Some v' /\ (pa v = 255 -> toned e v v').
Proof. exact toned_shown. Qed.
Print Assumptions C95_tones.

(** *** An example: over an opaque picture and a translucent one, a layer of the mode Color Burn with another one clipped to it, and a folder of the mode Multiply with a mask *)
Definition burn : slayer := lay (ascii "idiv") 200 0 SNone [] ((-1, PRaw [128; 255]) :: rgb [200; 100] [100; 220] [250; 130]).
Definition below : list stree := [SLeaf red; SLeaf half].
Definition above : list stree := [SLeaf burn; SLeaf shade; SFolder divider (veil (ascii "mul ") [100; 200]) [SLeaf pink]].
Lemma burn_burns : leaf_mode burn ColorBurn. Proof. left. cbv. repeat (first [now left|right]). Qed.
Lemma veil_mul m : folder_mode (veil (ascii "mul ") m) (Some Multiply).
Proof.
  exists (ascii "mul "). split; [|right; right; now left]. exists (be 4 1 ++ ascii "8BIM" ++ ascii "mul "), 1, (Some (ascii "mul ")), 0. split; [reflexivity|]. split; [now apply div1|reflexivity].
Qed.
Lemma above_darkens : toning Darker above.
Proof.
  split; [reflexivity|]. intros t [<-|[<-|[<-|[]]]] C; [exists ColorBurn; split; [exact burn_burns|exact I]|discriminate|exists Multiply; split; [exact (veil_mul _)|exact I]].
Qed.
Lemma tone_valid sf : sf = below \/ sf = below ++ above ->
  section_valid noinflate false false 8 3 InPlace (flat_map sflatten sf) [] [] [] [] /\ Forall stree_valid sf /\ glass_forest sf.
Proof.
  destruct glass_parts as (G1 & G2 & _ & _ & _ & _ & G7). pose proof red_glass as G0. intros H. split; [|split].
  - split.
    + destruct H as [-> | ->]; cbn [below above flat_map sflatten app];
        repeat apply Forall_cons; try apply Forall_nil; (apply slayer_check; [vm_compute; reflexivity|exact I|]); try exact I; try (exists 3, None, 0; exact div3); exists 1, (Some (ascii "mul ")), 0; now apply div1.
    + split; [destruct H as [-> | ->]; reflexivity|]. split; [exact I|]. split; [reflexivity|]. split; [constructor|].
      split; [split; [apply no8b_ok; reflexivity|right; left; reflexivity]|]. destruct H as [-> | ->]; vm_compute; reflexivity.
  - destruct H as [-> | ->]; cbn [below above app]; repeat apply Forall_cons; try apply Forall_nil; try (apply (sleaf_valid _ 0); [reflexivity|lia|lia|lia]);
      (apply (sfolder_valid _ _ _ 1); [exists None, 0; exact div3|exists (Some (ascii "mul ")), 0; now apply div1|now left|]);
      repeat apply Forall_cons; try apply Forall_nil; (apply (sleaf_valid _ 0); [reflexivity|lia|lia|lia]).
  - split; [|apply all_glass_groups; destruct H as [-> | ->]; intros t Ht; repeat (destruct Ht as [<-|Ht]; [reflexivity|]); destruct Ht].
    destruct H as [-> | ->]; cbn [below above app]; repeat apply Forall_cons; try apply Forall_nil; try assumption.
    + apply (lay_glass burn [200; 100] [100; 220] [250; 130] ColorBurn); [now apply no_mask|cbv; intuition discriminate|reflexivity|exact burn_burns|reflexivity|reflexivity|reflexivity|reflexivity].
    + apply (glass_sfolder _ _ _ (Some Multiply)); [cbv; intuition discriminate|exact (veil_mul _)|now apply veil_mask; right|now constructor|now apply one_groups].
Qed.
Example C95_used : toning Darker above /\
  (forall sf, sf = below \/ sf = below ++ above -> section_valid noinflate false false 8 3 InPlace (flat_map sflatten sf) [] [] [] [] /\ Forall stree_valid sf /\ glass_forest sf) /\
  exists v w v' w', showWith 2 (fileOf below) [Pt 0 0] = Some [Some [v; w; nothing; nothing]] /\ showWith 2 (fileOf (below ++ above)) [Pt 0 0] = Some [Some [v'; w'; nothing; nothing]] /\
    pa v = 255 /\ pa w = 255 /\ toned Darker v v' /\ toned Darker w w' /\ pg v' < pg v /\ pg w' < pg w.
Proof.
  split; [exact above_darkens|]. split; [exact tone_valid|]. do 4 eexists. split; [vm_compute; reflexivity|]. split; [vm_compute; reflexivity|]. cbv. intuition discriminate.
Qed.
(** Where the picture below is not opaque, and for the mode Darker Color, which compares the brightness of the whole colours, this does not hold. *)
Example C95_limits :
  (exists v v', showWith 1 (fileOf [SLeaf (lay (ascii "norm") 100 0 SNone [] (rgb [20; 20] [20; 20] [20; 20]))]) [Pt 0 0] = Some [Some [v]] /\
    showWith 1 (fileOf [SLeaf (lay (ascii "norm") 100 0 SNone [] (rgb [20; 20] [20; 20] [20; 20])); SLeaf (lay (ascii "mul ") 255 0 SNone [] (rgb [200; 200] [200; 200] [200; 200]))]) [Pt 0 0] = Some [Some [v']] /\ pr v < pr v') /\
  (exists v v', showWith 1 (fileOf [SLeaf red]) [Pt 0 0] = Some [Some [v]] /\
    showWith 1 (fileOf [SLeaf red; SLeaf (lay (ascii "dkCl") 255 0 SNone [] (rgb [0; 0] [0; 0] [200; 200]))]) [Pt 0 0] = Some [Some [v']] /\ pb v < pb v').
Proof. split; do 2 eexists; (split; [vm_compute; reflexivity|]); (split; [vm_compute; reflexivity|]); reflexivity. Qed.
