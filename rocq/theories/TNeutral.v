(** Theorems: layers of the neutral colour of their mode change nothing, C96. *)
From Coq Require Import String QArith.
From Verif Require Import Base SUtil SConfig MRect MPicker MConfig MReader MLayer MApi SCompress SRecord SLayer XRecord
  MSched MBlend MPorter SBlend MWait MRender SRender MRenderAll SRenderAll MRenderPx PRenderPx
  MDraw MTile STile MLoad SLoad MPipe SPipe SSharp PPipe5 XPipe PSharp3 PSharp4 TPipe TSharp PPipe4 SGlass PGlass2 PGlass4 TGlass TTidy PFrame PDissolve STidy TDissolve SNeutral PNeutral.
Close Scope string_scope.
Open Scope Z_scope.

(** ** C96 *)

(** Two RGB files of 8 bits as in C70; the second is the first without one layer. That layer has, at a point, the neutral colour of its mode (white for Darken, Multiply, Color
    Burn, Linear Burn and Divide, black for Lighten, Screen, Color Dodge, Linear Dodge, Difference, Exclusion and Subtract) or is transparent there, with any opacity, alpha and
    mask, and lies over a picture that is opaque at the point, in the same list of layers; all this may be in isolated folders. Then both files show the same pixel. *)
Theorem C96_neutral :
  forall inflate kind procs h rsv cmd res neg pl sf pad gmask bs tail rest inflate' kind' procs' h' rsv' cmd' res' neg' pl' sf' pad' gmask' bs' tail' rest' cpus cpus1 ts,
  (1 <= procs)%nat -> (1 <= procs')%nat -> (1 <= cpus)%nat -> (1 <= cpus1)%nat -> 0 < ts ->
  header_valid h -> h_mode h = 3 -> h_depth h = 8 -> zlen rsv = 6 -> zlen cmd < 4294967296 ->
  Forall rblock_valid res -> zlen (enc_rblocks res) < 4294967296 ->
  header_valid h' -> h_mode h' = 3 -> h_depth h' = 8 -> zlen rsv' = 6 -> zlen cmd' < 4294967296 ->
  Forall rblock_valid res' -> zlen (enc_rblocks res') < 4294967296 ->
  let large := h_version h =? 2 in let large' := h_version h' =? 2 in
  section_valid inflate large neg 8 3 pl (flat_map sflatten sf) pad gmask bs tail -> Forall stree_valid sf -> glass_forest sf ->
  section_valid inflate' large' neg' 8 3 pl' (flat_map sflatten sf') pad' gmask' bs' tail' -> Forall stree_valid sf' -> glass_forest sf' ->
  let enc := enc_config h rsv cmd res ++ enc_section large neg pl (flat_map sflatten sf) pad gmask bs tail in
  let enc' := enc_config h' rsv' cmd' res' ++ enc_section large' neg' pl' (flat_map sflatten sf') pad' gmask' bs' tail' in
  exists f evs f' evs', Decode inflate kind procs newOptions (enc ++ rest) = (Ok (f, zlen enc, rest), evs) /\ Decode inflate' kind' procs' newOptions (enc' ++ rest') = (Ok (f', zlen enc', rest'), evs') /\
    forall st st', MWait.steps (lstep cpus ts) (lstart (map (fun e => playerOf (ev_layer e)) evs)) st -> lended st ->
    MWait.steps (lstep cpus1 ts) (lstart (map (fun e => playerOf (ev_layer e)) evs')) st' -> lended st' ->
    forall n n' r r' w0 w1 w0' w1', (1 <= n)%nat -> (1 <= n')%nat -> new w0 -> new w0' ->
    renderedPx ts (ldImages st) n ts r false (rootOf (ldCopied st) (f_layer f)) w0 w1 ->
    renderedPx ts (ldImages st') n' ts r' false (rootOf (ldCopied st') (f_layer f')) w0' w1' ->
    forall q p, tileOf ts r q -> tileOf ts r' q -> in_tile ts q p -> 0 <= MRect.px p -> 0 <= py p ->
    without (square ts q) p sf sf' ->
    exists u t u' t' v, w1 q = Some (u, t) /\ w1' q = Some (u', t') /\ tile_at ts q t p = Some v /\ tile_at ts q t' p = Some v.
Proof. exact neutral_shown. Qed.
Print Assumptions C96_neutral.

(** The grey levels (or levels of one colour) that leave every opaque pixel as it is are exactly these, for every mode that works on the colours one by one. In
    the modes Hard Light and Vivid Light, for which 50% grey should be neutral, no level is. *)
Theorem C96_levels : forall m n, is_separable m = true -> 0 <= n <= 255 ->
  (forall d, pixel_ok d -> pa d = 255 -> blend8 machine m 255 (Px n n n 255) d = Some d) <-> leaves_all m n.
Proof. exact neutral_exact. Qed.
Print Assumptions C96_levels.
Theorem C96_grey_refuted : forall m n, m = HardLight \/ m = VividLight -> 0 <= n <= 255 -> exists d, pixel_ok d /\ pa d = 255 /\ blend8 machine m 255 (Px n n n 255) d <> Some d.
Proof. exact no_neutral. Qed.
Print Assumptions C96_grey_refuted.

(** *** An example in a folder with a mask: a translucent white layer of the mode Multiply with a mask, over a red one and below another *)
Definition white : slayer :=
  SLayer (Rct 0 0 2 1) ([(-1, PRaw [128; 0]); (-2, PRaw [100; 200])] ++ rgb [255; 9] [255; 8] [255; 7]) (ascii "mul ") 77 0 0 0 (SShort (Rct 0 0 2 1) 0 0 None [0; 0]) [] [65] [0; 0] [] [].
Definition with_white : list stree := [SLeaf half; SFolder divider (veil (ascii "norm") [100; 200]) [SLeaf red; SLeaf white; SLeaf pink]].
Definition no_white : list stree := [SLeaf half; SFolder divider (veil (ascii "norm") [100; 200]) [SLeaf red; SLeaf pink]].
Lemma white_mode : leaf_mode white Multiply. Proof. left. right. right. now left. Qed.
Lemma white_mask : glass_mask white false.
Proof.
  intros _. split; [reflexivity|]. split; [exists [100; 200]; split; [reflexivity|now apply bytes_check]|]. split; [now left|]. right.
  exists (Pt 0 0), 100. repeat split; [cbn; lia|cbn; lia|exists [100; 200]; split; reflexivity|discriminate].
Qed.
Lemma white_neutral p : p = Pt 0 0 \/ p = Pt 1 0 -> neutral_here p white.
Proof.
  intros Hp. exists Multiply, 255. split; [exact white_mode|]. split; [reflexivity|]. intros v V. destruct Hp as [-> | ->].
  - rewrite (leaf_only _ _ _ _ V (pixel white (Pt 0 0) 255 255 255 128 _ _ _ eq_refl eq_refl eq_refl eq_refl eq_refl eq_refl eq_refl eq_refl)). right. auto.
  - rewrite (leaf_only _ _ _ _ V (pixel white (Pt 1 0) 9 8 7 0 _ _ _ eq_refl eq_refl eq_refl eq_refl eq_refl eq_refl eq_refl eq_refl)). left. reflexivity.
Qed.
Lemma red_laid A p : p = Pt 0 0 \/ p = Pt 1 0 -> laid A p None [SLeaf red] nothing (Px 255 0 0 255).
Proof.
  intros Hp. eapply laid_groups; [now apply one_is|]. eapply heaped_cons; [|apply heaped_nil]. change (Px 255 0 0 255) with (blended Normal 255 (stored (Px 255 0 0 255)) nothing).
  eapply put_over; [reflexivity|discriminate|left; now left| |apply topped_alone; now left]. apply plain_image; [|reflexivity].
  destruct Hp as [-> | ->]; eapply (pixel red _ 255 0 0 255); reflexivity.
Qed.
Lemma white_away A p : p = Pt 0 0 \/ p = Pt 1 0 -> without A p with_white no_white.
Proof.
  intros Hp. apply (without_inside A p [SLeaf half] divider _ _ _ Normal []); [reflexivity|exact (veil_norm _)|].
  apply (without_here A p [SLeaf red] white [SLeaf pink] (Px 255 0 0 255)); [reflexivity|reflexivity|now apply white_neutral|now apply red_laid|reflexivity].
Qed.
Lemma white_valid sf : sf = with_white \/ sf = no_white ->
  section_valid noinflate false false 8 3 InPlace (flat_map sflatten sf) [] [] [] [] /\ Forall stree_valid sf /\ glass_forest sf.
Proof.
  destruct glass_parts as (G1 & G2 & _ & _ & _ & _ & G7). pose proof red_glass as G0. intros H. split; [|split].
  - split.
    + destruct H as [-> | ->]; cbn [with_white no_white flat_map sflatten app];
        repeat apply Forall_cons; try apply Forall_nil; (apply slayer_check; [vm_compute; reflexivity|exact I|]); try exact I; try (exists 3, None, 0; exact div3); exists 1, (Some (ascii "norm")), 0; now apply div1.
    + split; [destruct H as [-> | ->]; reflexivity|]. split; [exact I|]. split; [reflexivity|]. split; [constructor|].
      split; [split; [apply no8b_ok; reflexivity|right; left; reflexivity]|]. destruct H as [-> | ->]; vm_compute; reflexivity.
  - destruct H as [-> | ->]; repeat apply Forall_cons; try apply Forall_nil; try (apply (sleaf_valid _ 0); [reflexivity|lia|lia|lia]);
      (apply (sfolder_valid _ _ _ 1); [exists None, 0; exact div3|exists (Some (ascii "norm")), 0; now apply div1|now left|]);
      repeat apply Forall_cons; try apply Forall_nil; (apply (sleaf_valid _ 0); [reflexivity|lia|lia|lia]).
  - split; [|apply all_glass_groups; destruct H as [-> | ->]; intros t Ht; repeat (destruct Ht as [<-|Ht]; [reflexivity|]); destruct Ht].
    assert (Gw : glass_tree (SLeaf white)) by (apply (lay_glass white [255; 9] [255; 8] [255; 7] Multiply); [exact white_mask|cbv; intuition discriminate|reflexivity|exact white_mode|reflexivity|reflexivity|reflexivity|reflexivity]).
    destruct H as [-> | ->]; unfold with_white, no_white; (constructor; [exact G1|]); (constructor; [|constructor]);
      (apply (glass_sfolder _ _ _ (Some Normal)); [cbv; intuition discriminate|exact (veil_norm _)|now apply veil_mask; right| |apply all_glass_groups; intros t Ht; repeat (destruct Ht as [<-|Ht]; [reflexivity|]); destruct Ht]);
      repeat apply Forall_cons; try apply Forall_nil; assumption.
Qed.
Example C96_used : (forall p, p = Pt 0 0 \/ p = Pt 1 0 -> without (square 2 (Pt 0 0)) p with_white no_white) /\
  (forall sf, sf = with_white \/ sf = no_white -> section_valid noinflate false false 8 3 InPlace (flat_map sflatten sf) [] [] [] [] /\ Forall stree_valid sf /\ glass_forest sf) /\
  showWith 2 (fileOf with_white) [Pt 0 0] = showWith 2 (fileOf no_white) [Pt 0 0] /\ exists v w, showWith 2 (fileOf with_white) [Pt 0 0] = Some [Some [v; w; nothing; nothing]] /\ v <> w.
Proof. split; [intros p Hp; now apply white_away|]. split; [exact white_valid|]. split; [vm_compute; reflexivity|]. eexists. eexists. split; [vm_compute; reflexivity|discriminate]. Qed.
(** The greys of the other modes: 128 is neutral for Pin Light, and is not for Hard Light, that makes 101 of 100. *)
Example C96_levels_used : leaves_all PinLight 128 /\ leaves_all Multiply 255 /\ ~ leaves_all HardLight 128 /\
  blend8 machine PinLight 255 (Px 128 128 128 255) (Px 100 7 250 255) = Some (Px 100 7 250 255) /\ blend8 machine HardLight 255 (Px 128 128 128 255) (Px 100 7 250 255) = Some (Px 101 8 251 255).
Proof. split; [reflexivity|]. split; [reflexivity|]. split; [discriminate|]. split; vm_compute; reflexivity. Qed.
