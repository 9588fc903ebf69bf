(** The picture of a loaded file after its images were moved. *)
From Coq Require Import String Permutation QArith.
From Verif Require Import Base BaseFacts SUtil SConfig MRect MThumb SThumb MPicker MConfig MReader MLayer MApi SCompress SRecord SLayer PConfig2 PRecord4
  MSched PSched MBlend MPorter SBlend PLum MWait PWait MRender SRender PRender PRender2 MRenderAll SRenderAll PRenderAll MRenderPx PRenderPx
  PFrame MDraw MTile STile PTile MLoad SLoad PLoad STileRender PTileRender MPipe SPipe SClip PClip PPipe PPipe2 PPipe3 PPipe4 PPipe5 SSharp PSharp2 PSharp3 PSharp4
  SGlass PGlass PGlass1 PGlass2 PGlass3 PGlass4 MTileRender MScale SScale PScale MMove SMove PMove1 PMove2 PMove3.
Close Scope string_scope.
Open Scope Z_scope.

Lemma m_get_head {V} (k : Z) (v : V) m k' : m_get Z.eqb ((k, v) :: m) k' = if Z.eqb k' k then Some v else m_get Z.eqb m k'.
Proof. reflexivity. Qed.
Lemma listing_ex {V} (m : list (Z * V)) : exists l, listing m l.
Proof.
  induction m as [|[k v] m (l & ND & H)].
  - exists []. split; [constructor|]. intros k v. cbn. split; [tauto|discriminate].
  - exists ((k, v) :: filter (fun e => negb (fst e =? k)) l). split.
    + cbn [map fst]. constructor.
      * intros X. apply in_map_iff in X. destruct X as ([k1 v1] & E & X). cbn [fst] in E. subst k1. apply filter_In in X. cbn [fst] in X. rewrite Z.eqb_refl in X. destruct X. discriminate.
      * clear H. induction l as [|[k1 v1] l IH]; [constructor|]. cbn [map fst] in ND. inversion ND as [|? ? N1 N2]; subst. cbn [filter fst]. destruct (negb (k1 =? k)); [|auto]. cbn [map fst]. constructor; [|auto].
        intros X. apply N1. apply in_map_iff in X. destruct X as (x & E & X). apply filter_In in X. apply in_map_iff. exists x. tauto.
    + intros k' v'. rewrite m_get_head. cbn [In]. rewrite filter_In, H. cbn [fst]. destruct (Z.eqb_spec k' k) as [-> |N].
      * cbn [negb]. split; [intros [X|[_ X]]; [congruence|discriminate]|intros X; left; congruence].
      * split; [intros [X|[X _]]; [congruence|exact X]|]. intros X. right. split; [exact X|]. apply negb_true_iff. reflexivity.
Qed.

Lemma moved_render inflate large cpus ts sf full st ls dx dy out : (1 <= cpus)%nat -> 0 < ts <= 2 ^ 50 ->
  layers_are false 3 8 3 0 (flat_map sflatten sf) full -> Forall (slayer_valid inflate large 8 3) (flat_map sflatten sf) ->
  MWait.steps (lstep cpus ts) (lstart (map playerOf full)) st -> lended st ->
  Forall stree_valid sf -> glass_forest sf -> Forall steady_tree sf -> Forall solid_tree sf -> trees_are false 3 8 3 0 sf ls ->
  moved_all ts (flat_map sflatten sf) st dx dy out ->
  forall cpus' r' w0 w1, (1 <= cpus')%nat -> new w0 -> renderedPx ts out cpus' ts r' false (rootOf (ldCopied st) ls) w0 w1 ->
  forall q p, tileOf ts r' q -> in_tile ts q (shifted p dx dy) ->
  exists s t, w1 q = Some (s, t) /\
    (0 <= MRect.px p -> 0 <= py p -> 0 <= MRect.px p + dx -> 0 <= py p + dy ->
      exists c, (forall c', laid (fun _ => True) p None sf nothing c' <-> c' = c) /\ tile_at ts q t (shifted p dx dy) = Some (stored (stored c))) /\
    (Forall (clear_of p) sf -> tile_at ts q t (shifted p dx dy) = Some nothing).
Proof.
  intros Hc Ht Lf Hvl Hst Hend HV [HP HG] HS HD ET MA cpus' r' w0 w1 Hc' Hn HR q p Hq Hp. pose proof (glass_class _ sf (le_n _) HV HP) as Hcl.
    pose proof (tree_good inflate large cpus ts Hc (proj1 Ht) _ full st Lf Hvl Hst Hend Hcl _ sf 0%nat ls (le_n _) HV HP (fun j sl E => E) ET) as G.
    destruct (list_shown cpus ts Hc st _ _ _ _ G HG) as (Pq & Wf & Cg & Bq & Nq & Cq & _).
    assert (Fn : Forall (nodes fine) sf).
    { clear - HV HP HS HD. rewrite Forall_forall in *. intros t H. apply fine_nodes; auto. }
    assert (All : forall (N : slayer -> Prop) (P : lattr -> Prop), (forall i sl r, nth_error (flat_map sflatten sf) i = Some sl -> N sl -> layer_is false 3 8 3 (Z.of_nat i) sl r -> exists c, nth_error (ldCopied st) i = Some c /\ P (buildAttr r c)) ->
      Forall (nodes N) sf -> Forall (allL P) (withGroups (map (treeOf (ldCopied st)) ls))).
    { intros N P H F. apply groups_all. exact (forest_all (flat_map sflatten sf) (ldCopied st) N P H _ sf 0%nat ls (le_n _) F (fun j sl E => E) ET). }
    assert (Er : rootOf (ldCopied st) ls = Lay (Lattr (-1) true 255 (str "norm"%string) false false false false) (withGroups (map (treeOf (ldCopied st)) ls)) []) by reflexivity.
    rewrite Er in HR. set (ks := withGroups (map (treeOf (ldCopied st)) ls)) in *.
    set (root := Lay _ ks []) in *. set (n := Z.to_nat (ts * ts)) in *.
    pose proof (rendered_at _ _ _ _ _ _ _ _ _ _ _ cpus' ts r' false root w0 w1 q Hc' (proj1 Ht) HR) as Eq. rewrite (proj2 (existsb_pt q _) (proj1 (tileOf_grid ts r' q (proj1 Ht)) Hq)) in Eq.
    destruct (Hn q) as [d0 Ed]. unfold start in Eq. rewrite Ed in Eq. cbn [option_map tent tileAct] in Eq.
    assert (HC : forall s, hasCanvasOf (ldImages st) s = hasCanvasOf out s) by (intros s; exact (hasCanvas_moved cpus ts Hc _ full st Lf Hst Hend 1%nat dx dy (le_n 1%nat) out MA s)).
    assert (Wf' : Forall (lwf blendPx (hasCanvasOf out)) ks) by (eapply Forall_impl; [|exact Wf]; intros k Wk; exact (wf_other _ _ _ Wk HC)).
    destruct (render_new (zeroPx n) MRenderPx.copyPx blendPx destInMPx destOutMPx destInPx destOverPx (clearPx n) removeAlphaPx (canvasTile out q) (hasCanvasOf out) (maskTile out q)
      root (Tst [] []) d0 false Wf') as (s' & Es).
    { cbn [latt lseq lkids root]. constructor; [|exact Nq]. intros X. apply Bq in X. lia. }
    { reflexivity. }
    { intros s _. reflexivity. }
    fold n in Eq. rewrite Es in Eq.
    assert (D' : (ts | MRect.px q) /\ (ts | py q) /\ in_tile ts q (shifted p dx dy)).
    { destruct Hq as (i & j & Ei & Ej & _). split; [exists i; exact Ei|]. split; [exists j; exact Ej|exact Hp]. }
    assert (MF : Forall (allL (fun a => isPT a = false /\ maskFits n (maskTile out q) a)) ks).
    { apply (All fine); [|exact Fn]. intros i sl r E F L. eapply (fits_moved cpus ts Hc Ht _ full st Lf Hst Hend Hcl 1%nat dx dy (le_n 1%nat) out MA); eauto. }
    assert (GL : forall cv, Forall (glassL n cv (maskTile out q)) ks).
    { intros cv. specialize (Pq q). clear - Pq MF. rewrite Forall_forall in *. intros k Hk. eapply glass_other; [exact (Pq k Hk)|exact (MF k Hk)]. }
    assert (Ch : forall s t, canvasTile out q s = Some t -> exists g, has n t g).
    { intros s t. apply (canvas_moved cpus ts Hc Ht _ full st Lf Hst Hend 1%nat dx dy (le_n 1%nat) out MA). }
    pose proof (shown_glass n (canvasTile out q) (maskTile out q) Ch (latt root) ks [] d0 (GL _)) as [_ Hk].
    eexists s', _. split; [exact Eq|]. pose proof (tile_pos ts q _ (proj1 Ht) Hp) as B. rewrite (tile_at_nth ts (proj1 Ht) _ _ _ Hp). 
    pose proof (Hk (pos ts q (shifted p dx dy)) ltac:(unfold pos, n; lia)) as Ek. change (Lay (latt root) ks []) with root in Ek.
    apply proj1 in Ek. cut (forall x, nth_error (shown (zeroPx n) MRenderPx.copyPx blendPx destInMPx destOutMPx destInPx destOverPx (clearPx n) removeAlphaPx (canvasTile out q) (maskTile out q) root d0) (pos ts q (shifted p dx dy)) = Some x ->
      (0 <= MRect.px p -> 0 <= py p -> 0 <= MRect.px p + dx -> 0 <= py p + dy -> exists c, (forall c', laid (fun _ => True) p None sf nothing c' <-> c' = c) /\ Some x = Some (stored (stored c))) /\ (Forall (clear_of p) sf -> Some x = Some nothing)).
    { intros X. specialize (X _ Ek). rewrite <- Ek in X. exact X. }
    intros x Ex. assert (Exx := eq_trans (eq_sym Ex) Ek). injection Exx as ->. split.
    + intros X Y X' Y'. set (q0 := Pt (MRect.px p / ts * ts) (py p / ts * ts)).
      assert (At : at_tile ts q0 p).
      { unfold at_tile, in_tile, q0. cbn [MRect.px py]. pose proof (Z.div_mod (MRect.px p) ts). pose proof (Z.mod_pos_bound (MRect.px p) ts). pose proof (Z.div_mod (py p) ts). pose proof (Z.mod_pos_bound (py p) ts).
        split; [now exists (MRect.px p / ts)|]. split; [now exists (py p / ts)|]. split; [|auto]. lia. }
      exists (kidsG (canvasTile (ldImages st) q0) (maskTile (ldImages st) q0) (pos ts q0 p) None ks nothing). split.
      * intros c'. rewrite (steady_laid _ (at_tile ts q0) p _ _ _ _ HS). now apply Cq.
      * rewrite (list_same (canvasTile (ldImages st) q0) (canvasTile out q) (maskTile (ldImages st) q0) (maskTile out q) (pos ts q0 p) (pos ts q (shifted p dx dy)) ks); [reflexivity|].
        apply (All fine); [|exact Fn]. intros i sl r E F L. eapply (still_moved inflate large cpus ts Hc Ht _ full st Lf Hvl Hst Hend Hcl dx dy out MA); eauto.
    + intros Cl.
      rewrite <- (list_same (fun _ => None) (canvasTile out q) (maskTile out q) (maskTile out q) (pos ts q (shifted p dx dy)) (pos ts q (shifted p dx dy)) ks).
      * rewrite (empty_kids n); [reflexivity|apply GL].
      * apply (All (fun l => fine l /\ drawn l (pt_in p (sl_rect l) = false))).
        -- intros i sl r E [F Dr] L. eapply (clear_moved inflate large cpus ts Hc Ht _ full st Lf Hvl Hst Hend Hcl dx dy out MA); eauto.
        -- clear - Fn Cl HV. rewrite Forall_forall in *. intros t H. apply nodes_both; [auto|]. apply clear_nodes; auto.
Qed.

Lemma moved_shown inflate kind procs h rsv cmd res neg pl sf pad gmask bs tail rest cpus ts : (1 <= procs)%nat -> (1 <= cpus)%nat -> 0 < ts <= 2 ^ 50 ->
  header_valid h -> h_mode h = 3 -> h_depth h = 8 -> zlen rsv = 6 -> zlen cmd < 4294967296 ->
  Forall rblock_valid res -> zlen (enc_rblocks res) < 4294967296 ->
  let large := h_version h =? 2 in
  section_valid inflate large neg 8 3 pl (flat_map sflatten sf) pad gmask bs tail ->
  Forall stree_valid sf -> glass_forest sf -> Forall steady_tree sf -> Forall solid_tree sf -> Forall mask_bytes (flat_map sflatten sf) ->
  let enc := enc_config h rsv cmd res ++ enc_section large neg pl (flat_map sflatten sf) pad gmask bs tail in
  exists f evs, Decode inflate kind procs newOptions (enc ++ rest) = (Ok (f, zlen enc, rest), evs) /\
    (exists st, MWait.steps (lstep cpus ts) (lstart (map (fun e => playerOf (ev_layer e)) evs)) st /\ lended st) /\
    forall st, MWait.steps (lstep cpus ts) (lstart (map (fun e => playerOf (ev_layer e)) evs)) st -> lended st ->
    forall rnd lib cpusT dx dy, SThumb.rounding rnd -> good_library lib -> typed lib -> (1 <= cpusT)%nat -> - 2 ^ 51 <= dx <= 2 ^ 51 -> - 2 ^ 51 <= dy <= 2 ^ 51 ->
    (exists imgs out, listing (ldImages st) imgs /\ transformTreeBy rnd lib cpusT ts (translation dx dy) None imgs out) /\
    forall imgs out, listing (ldImages st) imgs -> transformTreeBy rnd lib cpusT ts (translation dx dy) None imgs out ->
    forall cpus' r' w0 w1, (1 <= cpus')%nat -> new w0 ->
    renderedPx ts out cpus' ts r' false (rootOf (ldCopied st) (f_layer f)) w0 w1 ->
    forall q p, tileOf ts r' q -> in_tile ts q (shifted p dx dy) ->
    exists s t, w1 q = Some (s, t) /\
      (0 <= MRect.px p -> 0 <= py p -> 0 <= MRect.px p + dx -> 0 <= py p + dy ->
        exists c, (forall c', laid (fun _ => True) p None sf nothing c' <-> c' = c) /\ tile_at ts q t (shifted p dx dy) = Some (stored (stored c))) /\
      (Forall (clear_of p) sf -> tile_at ts q t (shifted p dx dy) = Some nothing).
Proof.
  intros Hpr Hc Ht Hh Hm Hd Hr Hcm Hres Hrl large Hs HV [HP HG] HS HD HB enc.
  destruct (decode_layers inflate kind procs newOptions h rsv cmd res 3 neg pl sf pad gmask bs tail rest Hpr Hh Hr Hcm Hres Hrl) as (f & evs & ED & _ & ET & _ & _ & _ & _ & full & Ee & Lf).
  - left. rewrite Hm, Hd. auto.
  - rewrite Hm. reflexivity.
  - reflexivity.
  - cbn [newOptions o_config_loaded config_of cfg_mode]. rewrite Hm. reflexivity.
  - rewrite Hd. exact Hs.
  - exact HV.
  - exists f, evs. split; [exact ED|]. rewrite Hm, Hd in *.
    assert (Eev : map (fun e => playerOf (ev_layer e)) evs = map playerOf full).
    { rewrite Ee. unfold section_events. cbn [newOptions o_skip_layer]. rewrite <- (map_map ev_layer playerOf). now rewrite events_layers. }
    rewrite Eev. pose proof (glass_class _ sf (le_n _) HV HP) as Hcl. pose proof (proj1 Hs) as Hvl. split.
    { apply loader_ends; [exact Hc|]. eapply class_all; eauto; try exact (proj1 Ht). intros sl Hin.
      destruct (Hcl sl Hin) as [(Ty & _ & (dr & Er & _) & (dg & Eg & _) & (db & Eb & _) & _)|X]; [left|now right]. repeat split; eauto. }
    intros st Hst Hend rnd lib cpusT dx dy Hrd Hlb Hty HcT Hdx Hdy. split.
    { destruct (listing_ex (ldImages st)) as [imgs L]. exists imgs.
      destruct (moved_ex inflate large cpus ts Hc Ht _ full st Lf Hvl Hst Hend Hcl HB rnd lib cpusT dx dy Hrd Hlb Hty HcT Hdx Hdy imgs L) as [out O]. now exists out. }
    intros imgs out HL HT. apply (moved_render inflate large cpus ts sf full st (f_layer f) dx dy out Hc Ht Lf Hvl Hst Hend HV (conj HP HG) HS HD ET).
    exact (transform_moved inflate large cpus ts Hc Ht _ full st Lf Hvl Hst Hend Hcl HB rnd lib cpusT dx dy Hrd Hlb Hty HcT Hdx Hdy imgs out HL HT).
Qed.

(** * A library *)
Lemma warp_all {V} (P : V -> Prop) zero keep m src img dst : P zero -> (forall v, P v -> P (keep v)) -> Forall P img -> Forall P (copyWarp zero keep m src img dst).
Proof.
  intros Z K F. unfold copyWarp. apply Forall_forall. intros v H. apply in_map_iff in H. destruct H as (i & <- & _). cbv zeta.
  match goal with |- P (if ?b then _ else _) => destruct b; [|exact Z] end. destruct (idx img _) eqn:E; [|exact Z].
  apply K. rewrite Forall_forall in F. apply F. unfold idx in E. destruct (_ <? 0); [discriminate|]. eapply nth_error_In; eauto.
Qed.
Lemma exactLib_typed : typed exactLib.
Proof.
  intros m src dst. split; intros img F; apply warp_all; auto.
  - unfold pixel_ok. cbn. lia.
  - intros v Hv. destruct (pa v =? 0); [unfold pixel_ok; cbn; lia|exact Hv].
  - unfold byteZ. lia.
Qed.
