(** New returns: for every list of layers with complete planes the loader has an execution
    that ends. *)
From Coq Require Import String.
From Verif Require Import Base BaseFacts SUtil SConfig MRect MPicker MConfig MReader MLayer MApi SCompress SRecord SLayer PConfig2 PRecord4
  MSched PSched MBlend MPorter SBlend MWait PWait MRender SRender PRender PRender2 MRenderAll SRenderAll PRenderAll MRenderPx PRenderPx
  MDraw MTile STile PTile MLoad SLoad PLoad STileRender PTileRender MPipe SPipe PPipe PPipe2 PPipe3 PPipe4.
Close Scope string_scope.
Open Scope Z_scope.

Lemma built_exists {V} (ws : option (list (list (point * list V)))) : ws <> None -> exists m, built ws m.
Proof. destruct ws as [l|]; [intros _|congruence]. exists (exec putTile (concat l) []), l, (concat l). split; [reflexivity|]. split; [apply interleave_concat|reflexivity]. Qed.
Lemma tilesRect_exists {V} ts (m : tilemap V) : exists r, tilesRect ts m r.
Proof. eexists. exists (map fst m). split; [apply Permutation.Permutation_refl|reflexivity]. Qed.

Section runs.
  Variables (cpus : nat) (ts : Z).
  Hypothesis Hc : (1 <= cpus)%nat.
  Definition loadable (l : player) : Prop := exists l1 c l2 m, canvasOf cpus ts l l1 c /\ maskOf cpus ts l1 l2 m.
  Variable ls : list player.
  Hypothesis HL : Forall loadable ls.

  Lemma loads_some : forall k, (k <= length ls)%nat -> exists ls' ims, MWait.steps (lstep cpus ts) (lstart ls) (LD ls' k [] ims []) /\
    length ls' = length ls /\ forall j, (k <= j)%nat -> nth_error ls' j = nth_error ls j.
  Proof.
    induction k as [|k IH]; intros Hk; [exists ls, []; split; [apply steps_refl|auto]|].
    destruct (IH ltac:(lia)) as (ls' & ims & S & L & N). destruct (nth_error ls k) as [l|] eqn:E; [|apply nth_error_None in E; lia].
    rewrite Forall_forall in HL. destruct (HL l (nth_error_In _ _ E)) as (l1 & c & l2 & m & C & M). pose proof (N k (le_n _)) as E'. rewrite E in E'.
    exists (setNth k l2 (setNth k l1 ls')), (m_set Z.eqb ims (pseq l2) (LI c m)). rewrite !length_setNth. split; [|split; [exact L|]].
    - eapply steps_next; [eapply steps_next; [eapply steps_next; [eapply steps_next; [exact S|]|]|]|].
      + apply L_send; cbn [length]; lia.
      + apply (L_canvas cpus ts ls' (Datatypes.S k) [] k [] ims [] l l1 c); assumption.
      + apply (L_mask cpus ts (setNth k l1 ls') (Datatypes.S k) [] k c [] ims [] l1 l2 m); [|exact M]. rewrite nth_setNth. rewrite Nat.eqb_refl. now rewrite E'.
      + apply (L_store cpus ts _ (Datatypes.S k) [] k (LI c m) [] ims [] l2). rewrite !nth_setNth, Nat.eqb_refl. now rewrite E'.
    - intros j Hj. rewrite !nth_setNth. replace (Nat.eqb j k) with false by (symmetry; apply Nat.eqb_neq; lia). replace (Nat.eqb k j) with false by (symmetry; apply Nat.eqb_neq; lia). apply N. lia.
  Qed.
  Lemma copies_some ls' ims : MWait.steps (lstep cpus ts) (lstart ls) (LD ls' (length ls') [] ims []) -> forall k, (k <= length ls')%nat ->
    exists cs, length cs = k /\ MWait.steps (lstep cpus ts) (lstart ls) (LD ls' (length ls') [] ims cs).
  Proof.
    intros S. induction k as [|k IH]; intros Hk; [now exists []|]. destruct (IH ltac:(lia)) as (cs & L & S').
    destruct (nth_error ls' k) as [l|] eqn:E; [|apply nth_error_None in E; lia]. exists (cs ++ [l]). split; [rewrite app_length; cbn; lia|].
    eapply steps_next; [exact S'|]. apply L_copy. now rewrite L.
  Qed.
  Lemma loader_ends : exists st, MWait.steps (lstep cpus ts) (lstart ls) st /\ lended st.
  Proof.
    destruct (loads_some (length ls) (le_n _)) as (ls' & ims & S & L & _). rewrite <- L in S. destruct (copies_some ls' ims S (length ls') (le_n _)) as (cs & Lc & S').
    exists (LD ls' (length ls') [] ims cs). split; [exact S'|]. repeat split. exact Lc.
  Qed.
End runs.

Section file.
  Variables (inflate : bytes -> Z -> option (bytes * Z)) (large : bool) (cpus : nat) (ts : Z).
  Hypotheses (Hc : (1 <= cpus)%nat) (Ht : 0 < ts).
  Lemma mask_len sl d : slayer_valid inflate large 8 3 sl -> chan_data sl 8 (-2) = Some d ->
    zlen d = rdx (mk_rect (mask_of (sl_mask sl))) * rdy (mk_rect (mask_of (sl_mask sl))).
  Proof.
    intros (_ & _ & _ & H & _) E. apply chan_find in E. destruct E as (pay & I & ->). rewrite Forall_forall in H. specialize (H _ I).
    cbn [fst snd] in H. destruct H as (_ & H & _). unfold chan_rect in H. cbn [Z.eqb Pos.eqb] in H. eapply payload_len. exact H.
  Qed.
  (** A picture with all its colour planes, or no picture at all *)
  Definition class_ok (sl : slayer) : Prop :=
    has_type sl 0 /\ (exists dr, chan_data sl 8 0 = Some dr) /\ (exists dg, chan_data sl 8 1 = Some dg) /\ (exists db, chan_data sl 8 2 = Some db) \/
    exists t, has_type sl t /\ t <> 0.
  Lemma class_loadable i sl l : slayer_valid inflate large 8 3 sl -> layer_is false 3 8 3 i sl l -> class_ok sl -> loadable cpus ts (playerOf l).
  Proof.
    intros V L Hcl. pose proof (layer_image _ _ _ L) as Im. pose proof (proj1 L) as A.
    assert (C : exists l1 c, canvasOf cpus ts (playerOf l) l1 c).
    { unfold canvasOf, hasImage. cbn [playerOf prect ptype pr_ pg_ pb_ pa_]. destruct Hcl as [Pl|(t & T & N)].
      - destruct (rempty (l_rect l)); [rewrite andb_false_r; eauto|]. destruct Pl as (Ty & (dr & Er) & (dg & Eg) & (db & Eb)).
        rewrite (has_type_is _ _ _ _ A Ty). cbn [Z.eqb andb negb]. destruct A as (_ & Rc & _). rewrite Rc. unfold plane0. rewrite !Im, Er, Eg, Eb.
        destruct (newTiledImage_spec cpus ts (sl_rect sl) dr dg db (chan_data sl 8 (-1)) 1 Hc Ht ltac:(lia)) as (ws & W & _).
        1-3: unfold plane_ok. 1: pose proof (chan_len _ _ _ _ _ _ V Er ltac:(lia) ltac:(lia)); lia.
        1: pose proof (chan_len _ _ _ _ _ _ V Eg ltac:(lia) ltac:(lia)); lia. 1: pose proof (chan_len _ _ _ _ _ _ V Eb ltac:(lia) ltac:(lia)); lia.
        1: destruct (chan_data sl 8 (-1)) eqn:Ea; [|exact I]; unfold plane_ok; pose proof (chan_len _ _ _ _ _ _ V Ea ltac:(lia) ltac:(lia)); lia.
        destruct (built_exists (newTiledImage cpus ts (sl_rect sl) dr dg db (chan_data sl 8 (-1)) 1)) as [m B]; [congruence|].
        destruct (tilesRect_exists ts m) as [r R]. eexists _, _, m, r. auto.
      - rewrite (has_type_is _ _ _ _ A T). replace (t =? 0) with false by lia. cbn [andb]. eauto. }
    destruct C as (l1 & c & C). exists l1, c. pose proof (canvasOf_same _ _ _ _ _ C) as E1.
    assert (M : exists l2 m, maskOf cpus ts l1 l2 m); [|destruct M as (l2 & m & M); eauto]. unfold maskOf. rewrite E1. cbn [setRect playerOf pmrect pmchan pmdc].
    destruct (rempty (mk_rect (l_mask l))) eqn:Ee; cbn [negb]; [eauto|]. rewrite Im. destruct (chan_data sl 8 (-2)) as [d|] eqn:Ed; [|eauto].
    destruct A as (_ & _ & _ & _ & _ & _ & Em & _). rewrite Em. pose proof (mask_len sl d V Ed) as Ln.
    destruct (newTiledMask_spec cpus ts (mk_rect (mask_of (sl_mask sl))) d (mk_color (mask_of (sl_mask sl))) Hc Ht) as (ws & W & _); [unfold plane_ok; lia|].
    destruct (built_exists (newTiledMask cpus ts (mk_rect (mask_of (sl_mask sl))) d (mk_color (mask_of (sl_mask sl))))) as [m B]; [congruence|].
    destruct (tilesRect_exists ts m) as [r R]. eexists _, _, m, r. auto.
  Qed.
  Lemma class_all : forall sls i ls, layers_are false 3 8 3 i sls ls -> Forall (slayer_valid inflate large 8 3) sls ->
    (forall sl, In sl sls -> class_ok sl) -> Forall (loadable cpus ts) (map playerOf ls).
  Proof.
    induction sls as [|sl sls IH]; intros i [|l ls] L V C; cbn [layers_are] in L; try easy; [constructor|]. destruct L as [L1 L2]. inversion V; subst. cbn [map]. constructor.
    - eapply class_loadable; eauto. apply C. now left.
    - eapply IH; eauto. intros s H. apply C. now right.
  Qed.
  Lemma all_loadable sls i ls : layers_are false 3 8 3 i sls ls -> Forall (slayer_valid inflate large 8 3) sls ->
    (forall sl, In sl sls -> picture_ok sl \/ exists t, has_type sl t /\ t <> 0) -> Forall (loadable cpus ts) (map playerOf ls).
  Proof.
    intros L V C. eapply class_all; eauto. intros sl H. destruct (C sl H) as [(Ty & _ & (dr & Er & _) & (dg & Eg & _) & (db & Eb & _) & _)|X]; [left|now right]. repeat split; eauto.
  Qed.
End file.

Notation renderedPx ts ims := (MRenderAll.rendered (zeroPx (Z.to_nat (ts * ts))) MRenderPx.copyPx blendPx destInMPx destOutMPx destInPx destOverPx
  (clearPx (Z.to_nat (ts * ts))) removeAlphaPx (canvasTile ims) (maskTile ims)).

Lemma file_shown inflate kind procs h rsv cmd res neg pl sf pad gmask bs tail rest cpus ts : (1 <= procs)%nat -> (1 <= cpus)%nat -> 0 < ts ->
  header_valid h -> h_mode h = 3 -> h_depth h = 8 -> zlen rsv = 6 -> zlen cmd < 4294967296 ->
  Forall rblock_valid res -> zlen (enc_rblocks res) < 4294967296 ->
  let large := h_version h =? 2 in
  section_valid inflate large neg 8 3 pl (flat_map sflatten sf) pad gmask bs tail ->
  Forall stree_valid sf -> Forall plain_tree sf ->
  let enc := enc_config h rsv cmd res ++ enc_section large neg pl (flat_map sflatten sf) pad gmask bs tail in
  exists f evs, Decode inflate kind procs newOptions (enc ++ rest) = (Ok (f, zlen enc, rest), evs) /\
    (exists st, MWait.steps (lstep cpus ts) (lstart (map (fun e => playerOf (ev_layer e)) evs)) st /\ lended st) /\
    forall st, MWait.steps (lstep cpus ts) (lstart (map (fun e => playerOf (ev_layer e)) evs)) st -> lended st ->
    forall cpus' r' w0 w1, (1 <= cpus')%nat -> new w0 ->
    renderedPx ts (ldImages st) cpus' ts r' false (rootOf (ldCopied st) (f_layer f)) w0 w1 ->
    forall q p, tileOf ts r' q -> in_tile ts q p -> 0 <= MRect.px p -> 0 <= py p ->
    exists s t c, w1 q = Some (s, t) /\ (forall c', paint_trees p sf None c' <-> c' = c) /\ tile_at ts q t p = Some (shown_as c).
Proof.
  intros Hpr Hc Ht Hh Hm Hd Hr Hcm Hres Hrl large Hs HV HP enc.
  destruct (decode_layers inflate kind procs newOptions h rsv cmd res 3 neg pl sf pad gmask bs tail rest Hpr Hh Hr Hcm Hres Hrl) as (f & evs & ED & _ & ET & _ & _ & _ & _ & full & Ee & Lf).
  - left. rewrite Hm, Hd. auto.
  - rewrite Hm. reflexivity.
  - reflexivity.
  - cbn [newOptions o_config_loaded config_of cfg_mode]. rewrite Hm. reflexivity.
  - rewrite Hd. exact Hs.
  - exact HV.
  - exists f, evs. split; [exact ED|]. rewrite Hm, Hd in *.
    assert (Eev : map (fun e => playerOf (ev_layer e)) evs = map playerOf full).
    { rewrite Ee. unfold section_events. cbn [newOptions o_skip_layer]. rewrite <- (map_map ev_layer playerOf). now rewrite events_layers. }
    rewrite Eev. pose proof (flat_class _ sf (le_n _) HV HP) as Hcl. pose proof (proj1 Hs) as Hvl. split.
    { apply loader_ends; [exact Hc|]. eapply all_loadable; eauto. }
    intros st Hst Hend cpus' r' w0 w1 Hc' Hn HR q p Hq Hp Hx Hy.
    pose proof (tree_good inflate large cpus ts Hc Ht _ full st Lf Hvl Hst Hend Hcl _ sf 0%nat (f_layer f) (le_n _) HV HP (fun j sl E => E) ET) as G.
    pose proof (plain_ungrouped _ _ _ _ _ _ G) as UG. destruct G as (Pq & Wf & Bq & Nq & Cq).
    assert (Er : rootOf (ldCopied st) (f_layer f) = Lay (Lattr (-1) true 255 (str "norm"%string) false false false false) (map (treeOf (ldCopied st)) (f_layer f)) []).
    { unfold rootOf. now rewrite UG. }
    rewrite Er in HR. set (ks := map (treeOf (ldCopied st)) (f_layer f)) in *.
    set (root := Lay _ ks []) in *. set (n := Z.to_nat (ts * ts)) in *.
    pose proof (fun q0 => shown_plain n (canvasTile (ldImages st) q0) (maskTile (ldImages st) q0) (canvas_good inflate cpus ts Hc Ht _ full st Lf Hst Hend Hcl q0)) as SP.
    assert (OT : okTree blendPx (hasCanvasOf (ldImages st)) root).
    { split.
      - constructor; [unfold modeOK; change (isPT _) with false; unfold blendPx|intros _|intros k Hk; specialize (Pq q); rewrite Forall_forall in Pq; specialize (Pq k Hk); inversion Pq; reflexivity|intros ? []|exact Wf|constructor].
        + replace (m_get list_eqb blendModes _) with (Some Normal) by reflexivity. discriminate.
        + cbn [lseq]. unfold hasCanvasOf. destruct (m_get Z.eqb (ldImages st) (-1)) as [li|] eqn:E; [|reflexivity]. exfalso.
          destruct (inv_end cpus ts _ (seqs_nodup _ _ Lf) st Hst Hend) as (_ & B & _). destruct (B _ _ E) as (i & l0 & Ei & Es).
          apply nth_error_In in Ei. apply in_map_iff in Ei. destruct Ei as (l1 & <- & Hl). pose proof (proj2 (layers_are_seqs _ _ _ _ _ _ _ Lf) l1 Hl) as X. cbn [playerOf pseq] in Es. lia.
      - cbn [latt lseq lkids root]. constructor; [|exact Nq]. intros X. apply Bq in X. lia. }
    assert (OD : okDraw (zeroPx n) MRenderPx.copyPx blendPx destInMPx destOutMPx destInPx destOverPx (clearPx n) removeAlphaPx (canvasTile (ldImages st)) (maskTile (ldImages st)) root).
    { intros q0. exact (proj1 (SP q0 (latt root) ks [] [] (Pq q0))). }
    assert (CN : forall q0 s, hasCanvasOf (ldImages st) s = false -> canvasTile (ldImages st) q0 s = None).
    { intros q0 s0. unfold hasCanvasOf, canvasTile. destruct (m_get Z.eqb (ldImages st) s0) as [[[m|] k]|]; [discriminate|reflexivity|reflexivity]. }
    destruct (history_fresh (zeroPx n) MRenderPx.copyPx blendPx destInMPx destOutMPx destInPx destOverPx (clearPx n) removeAlphaPx (canvasTile (ldImages st)) (hasCanvasOf (ldImages st)) (maskTile (ldImages st))
      CN ts r' true (fun _ => True) root w0 w0 r' cpus' cpus' w1 w1 q Ht) as (s & s' & t & E1 & _ & Es);
      [now apply H_new|exact OD|exact Hn|exact Hc'|exact Hc'|reflexivity|now apply tileOf_grid|exact HR|exact HR|].
    exists s, t, (comps (canvasTile (ldImages st) q) (pos ts q p) ks None). split; [exact E1|]. split.
    + intros c'. apply Cq. destruct Hq as (i & j & Ei & Ej & _). split; [exists i; exact Ei|]. split; [exists j; exact Ej|]. auto.
    + destruct (SP q (latt root) ks [] [] (Pq q)) as [_ [_ Hk]]. pose proof (tile_pos ts q p Ht Hp) as B.
      destruct (Hk (pos ts q p)) as [Hi _]; [unfold pos, n; lia|]. unfold tile_at, idx. replace (_ <? 0) with false by lia. rewrite (Es []). exact Hi.
Qed.
