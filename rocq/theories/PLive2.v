(** Sessions with a loaded tree. *)
From Coq Require Import String Permutation.
From Verif Require Import Base BaseFacts SUtil SConfig MRect MPicker MConfig MReader MLayer MApi SCompress SRecord SLayer PConfig2 PRecord4
  MSched PSched MBlend MPorter SBlend MWait PWait MRender SRender SRenderLate PRender PRender2 MRenderAll SRenderAll PRenderAll MRenderLate PLate5 MRenderPx PRenderPx
  MDraw MTile STile PTile MLoad SLoad PLoad STileRender PTileRender MPipe SPipe SClip PClip PPipe PPipe2 PPipe3 PPipe5 SSharp PSharp PSharp2 PSharp3 SLive PLive.
Close Scope string_scope.
Open Scope Z_scope.

Section mono.
  Context {img msk : Type}.
  Variable zero : img.
  Variable copyT : img -> img.
  Variable blendOf : bytes -> option (Z -> img -> img -> img).
  Variable destInM destOutM : msk -> img -> img.
  Variable destInT destOverT : img -> img -> img.
  Variable clearT removeAlpha : img -> img.
  Variable canvas : point -> Z -> option img.
  Variable hasCanvas : Z -> bool.
  Variable mask : point -> Z -> option msk.
  Notation session := (session zero copyT blendOf destInM destOutM destInT destOverT clearT removeAlpha canvas hasCanvas mask).
  Lemma session_mono ts okC (okT okT' okD okD' : MRender.layer -> Prop) root pend w : (forall t, okT t -> okT' t) -> (forall t, okT t -> okD t -> okD' t) ->
    session ts okC okT okD root pend w -> session ts okC okT' okD' root pend w /\ okT root.
  Proof.
    intros H1 H2. induction 1 as [root w N O|root pend w w' _ [IH O] D N|root pend w root' ps _ [IH O] CH OC O'|root pend w p _ [IH O]|root pend w cpus r dO w' _ [IH O] Hc S R
      |root pend w cpus r dO w' _ [IH O] Hc S R|root pend w _ [IH O]|root pend w q0 dO _ [IH O] S|root pend w _ [IH O]]; (split; [|assumption]).
    - apply S_new; auto.
    - eapply S_dest; eauto.
    - eapply S_change; eauto.
    - now apply S_announce.
    - eapply S_render; eauto.
    - eapply S_abort; eauto.
    - now apply S_start.
    - apply S_tile; auto.
    - now apply S_undo.
  Qed.
End mono.

Lemma sharp_kids n canvas mask l : sharpL n canvas mask l -> Forall (sharpL n canvas mask) (lkids l).
Proof. intros H. inversion H. assumption. Qed.

Notation sessionOf ts ims := (session (zeroPx (Z.to_nat (ts * ts))) MRenderPx.copyPx blendPx destInMPx destOutMPx destInPx destOverPx (clearPx (Z.to_nat (ts * ts))) removeAlphaPx
  (canvasTile ims) (hasCanvasOf ims) (maskTile ims) ts).

Lemma live_shown inflate kind procs h rsv cmd res neg pl sf pad gmask bs tail rest cpus ts : (1 <= procs)%nat -> (1 <= cpus)%nat -> 0 < ts ->
  header_valid h -> h_mode h = 3 -> h_depth h = 8 -> zlen rsv = 6 -> zlen cmd < 4294967296 ->
  Forall rblock_valid res -> zlen (enc_rblocks res) < 4294967296 ->
  let large := h_version h =? 2 in
  section_valid inflate large neg 8 3 pl (flat_map sflatten sf) pad gmask bs tail -> Forall stree_valid sf -> sharp_forest sf ->
  let enc := enc_config h rsv cmd res ++ enc_section large neg pl (flat_map sflatten sf) pad gmask bs tail in
  exists f evs, Decode inflate kind procs newOptions (enc ++ rest) = (Ok (f, zlen enc, rest), evs) /\
    forall st, MWait.steps (lstep cpus ts) (lstart (map (fun e => playerOf (ev_layer e)) evs)) st -> lended st ->
    let root := rootOf (ldCopied st) (f_layer f) in
    let allowed t := exists e sf', trees_edited e 0 sf sf' /\ storable inflate large neg pl pad gmask bs tail sf' /\ t = retouched e root in
    forall e sf' w, trees_edited e 0 sf sf' -> storable inflate large neg pl pad gmask bs tail sf' ->
    sessionOf ts (ldImages st) okSwitch allowed (fun _ => True) (retouched e root) [] w ->
    forall cpus' r' w1, (1 <= cpus')%nat -> renderedPx ts (ldImages st) cpus' ts r' false (retouched e root) w w1 ->
    forall q p, tileOf ts r' q -> in_tile ts q p -> 0 <= MRect.px p -> 0 <= py p ->
    exists s t c, w1 q = Some (s, t) /\ (forall c', painted p sf' None c' <-> c' = c) /\ tile_at ts q t p = Some (shown_as c).
Proof.
  intros Hpr Hc Ht Hh Hm Hd Hr Hcm Hres Hrl large Hs HV HS enc.
  assert (Dec : forall sf0 rest0, storable inflate large neg pl pad gmask bs tail sf0 ->
    let enc := enc_config h rsv cmd res ++ enc_section large neg pl (flat_map sflatten sf0) pad gmask bs tail in
    exists f evs full, Decode inflate kind procs newOptions (enc ++ rest0) = (Ok (f, zlen enc, rest0), evs) /\
      map (fun e => playerOf (ev_layer e)) evs = map playerOf full /\ layers_are false 3 8 3 0 (flat_map sflatten sf0) full /\ trees_are false 3 8 3 0 sf0 (f_layer f)).
  { intros sf0 rest0 (Hs0 & HV0 & _) enc0.
    destruct (decode_layers inflate kind procs newOptions h rsv cmd res 3 neg pl sf0 pad gmask bs tail rest0 Hpr Hh Hr Hcm Hres Hrl) as (f & evs & ED & _ & ET & _ & _ & _ & _ & full & Ee & Lf).
    - left. rewrite Hm, Hd. auto.
    - rewrite Hm. reflexivity.
    - reflexivity.
    - cbn [newOptions o_config_loaded config_of cfg_mode]. rewrite Hm. reflexivity.
    - rewrite Hd. exact Hs0.
    - exact HV0.
    - exists f, evs, full. split; [exact ED|]. rewrite Hm, Hd in *. split; [|split; [exact Lf|exact ET]].
      rewrite Ee. unfold section_events. cbn [newOptions o_skip_layer]. rewrite <- (map_map ev_layer playerOf). now rewrite events_layers. }
  destruct (Dec sf rest (conj Hs (conj HV HS))) as (f & evs & full & ED & Eev & Lf & Tf). exists f, evs. split; [exact ED|]. rewrite Eev. clear ED Eev evs.
  intros st Hst Hend root allowed e sf' w HE HO HW cpus' r' w1 Hc' HR q p Hq Hp Hx Hy.
  set (n := Z.to_nat (ts * ts)) in *.
  assert (Tree : forall e0 sf0, trees_edited e0 0 sf sf0 -> storable inflate large neg pl pad gmask bs tail sf0 ->
    okTree blendPx (hasCanvasOf (ldImages st)) (retouched e0 root) /\ (forall q, sharpL n (canvasTile (ldImages st) q) (maskTile (ldImages st) q) (retouched e0 root)) /\
    (forall q s t, canvasTile (ldImages st) q s = Some t -> exists f, holds n t f) /\
    (forall q p, at_tile ts q p -> forall d c, painted p sf0 d c <-> c = kidsC (canvasTile (ldImages st) q) (maskTile (ldImages st) q) (pos ts q p) (lkids (retouched e0 root)) d)).
  { intros e0 sf0 HE0 HO0. destruct (Dec sf0 [] HO0) as (f0 & evs0 & full0 & _ & _ & Lf0 & Tf0). destruct HO0 as (Hs0 & HV0 & HS0).
    exact (edited_tree inflate large cpus ts Hc Ht sf full st (f_layer f) Lf Tf (proj1 Hs) Hst Hend e0 sf0 full0 (f_layer f0) HE0 Lf0 Tf0 (proj1 Hs0) HV0 HS0). }
  assert (Firm : forall t, allowed t -> okTree blendPx (hasCanvasOf (ldImages st)) t /\
    okFirm (zeroPx n) MRenderPx.copyPx blendPx destInMPx destOutMPx destInPx destOverPx (clearPx n) removeAlphaPx (canvasTile (ldImages st)) (maskTile (ldImages st)) t).
  { intros t (e0 & sf0 & HE0 & HO0 & ->). destruct (Tree e0 sf0 HE0 HO0) as (OT & SP & CG & _). split; [exact OT|]. split.
    - intros q0. exact (proj1 (shown_sharp n (canvasTile (ldImages st) q0) (maskTile (ldImages st) q0) (CG q0) (latt root) _ (lgroup root) [] (sharp_kids _ _ _ _ (SP q0)))).
    - intros q0 p0 t0 E _. apply sharp_firm; [exact (CG q0)|]. eapply sharp_sub; [apply SP|exact E]. }
  destruct (session_mono _ _ _ _ _ _ _ _ _ _ _ _ ts okSwitch allowed (okTree blendPx (hasCanvasOf (ldImages st))) (fun _ => True) _ _ _ _
    (fun t H => proj1 (Firm t H)) (fun t H _ => proj2 (Firm t H)) HW) as [HW' HA].
  destruct (Tree e sf' HE HO) as (OT & SP & CG & Cq). destruct (Firm _ HA) as [_ [OD _]].
  assert (CN : forall q0 s, hasCanvasOf (ldImages st) s = false -> canvasTile (ldImages st) q0 s = None).
  { intros q0 s0. unfold hasCanvasOf, canvasTile. destruct (m_get Z.eqb (ldImages st) s0) as [[[m|] k]|]; [discriminate|reflexivity|reflexivity]. }
  set (w0 := (fun _ : point => Some (Tst [] [], [])) : world tile). assert (N0 : new w0) by (intros x; eexists; reflexivity).
  destruct (session_fresh (zeroPx n) MRenderPx.copyPx blendPx destInMPx destOutMPx destInPx destOverPx (clearPx n) removeAlphaPx (canvasTile (ldImages st)) (hasCanvasOf (ldImages st)) (maskTile (ldImages st))
    CN ts (retouched e root) w w0 r' cpus' cpus' w1 _ q Ht HW' OD N0 Hc' Hc' (fun d d' => eq_refl) (proj1 (tileOf_grid _ _ _ Ht) Hq) HR
    (seqRender_rendered _ _ _ _ _ _ _ _ _ _ _ cpus' ts r' false (retouched e root) w0)) as (s & s' & t & E1 & _ & Es).
  set (ks := lkids (retouched e root)) in *.
  exists s, t, (kidsC (canvasTile (ldImages st) q) (maskTile (ldImages st) q) (pos ts q p) ks None). split; [exact E1|]. split.
  - intros c'. apply Cq. destruct Hq as (i & j & Ei & Ej & _). split; [exists i; exact Ei|]. split; [exists j; exact Ej|]. auto.
  - destruct (shown_sharp n (canvasTile (ldImages st) q) (maskTile (ldImages st) q) (CG q) (latt root) ks (lgroup root) [] (sharp_kids _ _ _ _ (SP q))) as [_ [_ Hk2]].
    pose proof (tile_pos ts q p Ht Hp) as B. destruct (Hk2 (pos ts q p)) as [Hi _]; [unfold pos, n; lia|]. unfold tile_at, idx. replace (_ <? 0) with false by lia. rewrite (Es []). exact Hi.
Qed.
