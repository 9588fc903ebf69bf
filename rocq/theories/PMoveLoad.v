(** Loading a file with a translation: the images and the tree. *)
From Coq Require Import String Permutation QArith.
From Verif Require Import Base BaseFacts SUtil SConfig MRect MThumb SThumb MPicker MConfig MReader MLayer MApi SCompress SRecord SLayer PConfig2 PRecord4
  MSched PSched MBlend MPorter SBlend PLum MWait PWait MRender SRender PRender PRender2 MRenderAll SRenderAll PRenderAll MRenderPx PRenderPx
  PFrame MDraw MTile STile PTile MLoad SLoad PLoad STileRender PTileRender MPipe SPipe SClip PClip PPipe PPipe2 PPipe3 PPipe4 PPipe5 SSharp PSharp2 PSharp3 PSharp4
  SGlass PGlass PGlass1 PGlass2 PGlass3 PGlass4 MTileRender MScale SScale PScale MMove SMove PMove1 PMove2 PMove3 PMove4 MLoadBy PLoadBy.
Close Scope string_scope.
Open Scope Z_scope.

(** * Runs *)
Section runs.
  Variables (rnd : Q -> Q) (lib : library) (cpus : nat) (ts : Z) (mm : aff) (gt : option gammaTable).
  Hypothesis Hc : (1 <= cpus)%nat.
  Notation step := (lstepBy rnd lib cpus ts mm gt).
  Definition loadableBy (l : player) : Prop := exists l1 c l2 m, canvasOfBy rnd lib cpus ts mm gt l l1 c /\ maskOfBy rnd lib cpus ts mm l1 l2 m.
  Variable ls : list player.
  Hypothesis HL : Forall loadableBy ls.
  Lemma loads_someBy : forall k, (k <= length ls)%nat -> exists ls' ims, MWait.steps step (lstart ls) (LD ls' k [] ims []) /\
    length ls' = length ls /\ forall j, (k <= j)%nat -> nth_error ls' j = nth_error ls j.
  Proof.
    induction k as [|k IH]; intros Hk; [exists ls, []; split; [apply steps_refl|auto]|].
    destruct (IH ltac:(lia)) as (ls' & ims & S & L & N). destruct (nth_error ls k) as [l|] eqn:E; [|apply nth_error_None in E; lia].
    rewrite Forall_forall in HL. destruct (HL l (nth_error_In _ _ E)) as (l1 & c & l2 & m & C & M). pose proof (N k (le_n _)) as E'. rewrite E in E'.
    exists (setNth k l2 (setNth k l1 ls')), (m_set Z.eqb ims (pseq l2) (LI c m)). rewrite !length_setNth. split; [|split; [exact L|]].
    - eapply steps_next; [eapply steps_next; [eapply steps_next; [eapply steps_next; [exact S|]|]|]|].
      + apply LB_send; cbn [length]; lia.
      + apply (LB_canvas rnd lib cpus ts mm gt ls' (Datatypes.S k) [] k [] ims [] l l1 c); assumption.
      + apply (LB_mask rnd lib cpus ts mm gt (setNth k l1 ls') (Datatypes.S k) [] k c [] ims [] l1 l2 m); [|exact M]. rewrite nth_setNth. rewrite Nat.eqb_refl. now rewrite E'.
      + apply (LB_store rnd lib cpus ts mm gt _ (Datatypes.S k) [] k (LI c m) [] ims [] l2). rewrite !nth_setNth, Nat.eqb_refl. now rewrite E'.
    - intros j Hj. rewrite !nth_setNth. replace (Nat.eqb j k) with false by (symmetry; apply Nat.eqb_neq; lia). replace (Nat.eqb k j) with false by (symmetry; apply Nat.eqb_neq; lia). apply N. lia.
  Qed.
  Lemma copies_someBy ls' ims : MWait.steps step (lstart ls) (LD ls' (length ls') [] ims []) -> forall k, (k <= length ls')%nat ->
    exists cs, length cs = k /\ MWait.steps step (lstart ls) (LD ls' (length ls') [] ims cs).
  Proof.
    intros S. induction k as [|k IH]; intros Hk; [now exists []|]. destruct (IH ltac:(lia)) as (cs & L & S').
    destruct (nth_error ls' k) as [l|] eqn:E; [|apply nth_error_None in E; lia]. exists (cs ++ [l]). split; [rewrite app_length; cbn; lia|].
    eapply steps_next; [exact S'|]. apply LB_copy. now rewrite L.
  Qed.
  Lemma loader_endsBy : exists st, MWait.steps step (lstart ls) st /\ lended st.
  Proof.
    destruct (loads_someBy (length ls) (le_n _)) as (ls' & ims & S & L & _). rewrite <- L in S. destruct (copies_someBy ls' ims S (length ls') (le_n _)) as (cs & Lc & S').
    exists (LD ls' (length ls') [] ims cs). split; [exact S'|]. repeat split. exact Lc.
  Qed.
End runs.

(** * Whether the mask of a layer is enabled *)
Lemma enabled_is sl l' : pflags l' = mk_flags (mask_of (sl_mask sl)) ->
  pmrect l' = mask_rect sl \/ (rempty (mask_rect sl) = false /\ (has_mask sl = true -> rempty (pmrect l') = false)) -> maskEnabled l' = has_mask sl.
Proof.
  intros Ef Er. unfold maskEnabled. rewrite Ef. destruct (mask_on sl) eqn:On.
  - rewrite (mask_on_flags _ On). cbn [Z.eqb andb]. unfold has_mask in *. rewrite On in *. cbn [andb] in *. destruct Er as [->|[N R]]; [reflexivity|]. rewrite N in *. now rewrite (R eq_refl).
  - unfold has_mask. rewrite On. cbn [andb]. unfold mask_on in On. rewrite bit1. destruct (sl_mask sl) as [|r cc f pp pad|r cc f pp rf rc rr] eqn:Es; cbn [mask_of mk_flags mask0].
    + unfold mask_rect in Er. rewrite Es in Er. destruct Er as [->|[X _]]; [reflexivity|discriminate].
    + apply negb_false_iff in On. now rewrite On.
    + apply negb_false_iff in On. now rewrite On.
Qed.
Lemma shows_tile_there {V} (zero : V) ts t p v : shows ts zero t p v -> v <> zero -> exists k c, m_get pt_eqb t k = Some c.
Proof. intros [(k & c & K & _)|[E _]] N; [eauto|contradiction]. Qed.

(** * Trees with equal attributes *)
Lemma trees_same flat cs cs' (N : slayer -> Prop) :
  (forall i sl r, nth_error flat i = Some sl -> N sl -> layer_is false 3 8 3 (Z.of_nat i) sl r ->
    exists c c', nth_error cs i = Some c /\ nth_error cs' i = Some c' /\ buildAttr r c = buildAttr r c') ->
  forall k sf i ls, (list_sum (map ssize sf) <= k)%nat -> Forall (nodes N) sf -> window flat i (flat_map sflatten sf) ->
  trees_are false 3 8 3 (Z.of_nat i) sf ls -> map (treeOf cs) ls = map (treeOf cs') ls.
Proof.
  intros HN. induction k as [|k IH]; intros sf i ls Hsz HP HW HT.
  { destruct sf as [|[l|d f c] sf]; cbn in Hsz; try lia. inversion HT; subst. reflexivity. }
  destruct sf as [|t sf]; [inversion HT; subst; reflexivity|].
  inversion HT as [|? ? ? l ls' T1 T2]; subst. clear HT. pose proof (Forall_inv HP) as P1. pose proof (Forall_inv_tail HP) as P2.
  cbn [flat_map] in *. apply window_split in HW. destruct HW as [W1 W2]. cbn [map].
  assert (Hs1 : (ssize t + list_sum (map ssize sf) <= S k)%nat) by exact Hsz.
  assert (Hs2 : (list_sum (map ssize sf) <= k)%nat) by (destruct t; cbn [ssize] in Hs1; lia).
  f_equal; [|apply (IH sf (i + length (sflatten t))%nat); auto; replace (Z.of_nat (i + length (sflatten t))) with (Z.of_nat i + zlen (sflatten t)) by (unfold zlen; lia); exact T2].
  destruct t as [sl|dv fo ct].
  - inversion T1 as [? ? r L|]; subst. inversion P1 as [? Nl|]; subst. cbn [sflatten length] in *.
    pose proof (W1 0%nat sl eq_refl) as Ef. rewrite Nat.add_0_r in Ef. destruct (HN i sl r Ef Nl L) as (c & c' & Ec & Ec' & Pc).
    cbn [treeOf map]. now rewrite (seq_at _ _ _ L), Ec, Ec', Pc.
  - inversion T1 as [|? ? ? ? r lc T3 L]; subst. inversion P1 as [|? ? ? Nf Nc]; subst. cbn [sflatten] in *.
    cbn [ssize] in Hs1. set (M := length (flat_map sflatten ct)) in *.
    assert (Wc : window flat (S i) (flat_map sflatten ct) /\ nth_error flat (S i + M) = Some fo).
    { change (dv :: flat_map sflatten ct ++ [fo]) with ([dv] ++ (flat_map sflatten ct ++ [fo])) in W1. apply window_split in W1. destruct W1 as [_ W1].
      cbn [length] in W1. apply window_split in W1. destruct W1 as [W1 W3]. split; [now replace (S i) with (i + 1)%nat by lia|].
      specialize (W3 0%nat fo eq_refl). replace (S i + M)%nat with (i + 1 + length (flat_map sflatten ct) + 0)%nat by (unfold M; lia). exact W3. }
    destruct Wc as [Wc Ef].
    replace (Z.of_nat i + 1 + zlen (flat_map sflatten ct)) with (Z.of_nat (S i + M)) in L by (unfold M, zlen; lia).
    destruct (HN _ fo r Ef Nf L) as (c & c' & Ec & Ec' & Pc). cbn [treeOf]. rewrite (seq_at _ _ _ L), Ec, Ec', Pc. do 2 f_equal.
    apply (IH ct (S i)); auto; [lia|]. replace (Z.of_nat (S i)) with (Z.of_nat i + 1) by lia. exact T3.
Qed.

(** * The file *)
Section file.
  Variables (inflate : bytes -> Z -> option (bytes * Z)) (large : bool) (cpus cpusB : nat) (ts : Z).
  Hypotheses (Hc : (1 <= cpus)%nat) (HcB : (1 <= cpusB)%nat) (Ht : 0 < ts <= 2 ^ 50).
  Variables (flat : list slayer) (full : list lrec).
  Hypothesis Lf : layers_are false 3 8 3 0 flat full.
  Hypothesis Hv : Forall (slayer_valid inflate large 8 3) flat.
  Hypothesis Hcl : forall sl, In sl flat -> glass_picture sl \/ exists t, has_type sl t /\ t <> 0.
  Hypothesis Hb : Forall mask_bytes flat.
  Variables (rnd : Q -> Q) (lib : library) (dx dy : Z).
  Hypothesis Hr : SThumb.rounding rnd.
  Hypothesis Hl : good_library lib.
  Hypothesis Hy : typed lib.
  Hypothesis Hdx : - 2 ^ 51 <= dx <= 2 ^ 51.
  Hypothesis Hdy : - 2 ^ 51 <= dy <= 2 ^ 51.
  Notation T := (translation dx dy).
  Notation stepB := (lstepBy rnd lib cpusB ts T None).
  Notation canvasB := (canvasOfBy rnd lib cpusB ts T None).
  Notation maskB := (maskOfBy rnd lib cpusB ts T).

  Lemma moderate_rect r : rect_valid r -> rempty r = false -> moderate r dx dy.
  Proof. unfold rect_valid, int32, rempty, moderate. intros. lia. Qed.

  (** ** One layer *)
  Lemma canvas_image i sl l l1 c : slayer_valid inflate large 8 3 sl -> glass_picture sl -> layer_is false 3 8 3 i sl l -> canvasB (playerOf l) l1 c ->
    if rempty (sl_rect sl) then c = None else exists t dr dg db, c = Some t /\ chan_data sl 8 0 = Some dr /\ chan_data sl 8 1 = Some dg /\ chan_data sl 8 2 = Some db /\
      built (newScaledTiledImage rnd lib cpusB ts (sl_rect sl) dr dg db (chan_data sl 8 (-1)) 1 T None) t.
  Proof.
    intros V (Ty & _ & (dr & Er & Br) & (dg & Eg & Bg) & (db & Eb & Bb) & Ha) L C. pose proof (layer_image _ _ _ L) as Im.
    pose proof (has_type_is _ _ _ _ (proj1 L) Ty) as Et. destruct (proj1 L) as (_ & Rc & _).
    unfold canvasOfBy, hasImage in C. cbn [playerOf prect ptype pr_ pg_ pb_ pa_] in C. rewrite Et, Rc in C. cbn [Z.eqb andb] in C.
    destruct (rempty (sl_rect sl)); cbn [negb] in C; [exact (proj1 C)|]. destruct C as (t & r0 & B & _ & -> & _). unfold plane0 in B. rewrite !Im, Er, Eg, Eb in B.
    exists t, dr, dg, db. auto.
  Qed.
  Lemma planes sl dr dg db : slayer_valid inflate large 8 3 sl -> chan_data sl 8 0 = Some dr -> chan_data sl 8 1 = Some dg -> chan_data sl 8 2 = Some db ->
    plane_ok (sl_rect sl) 1 dr /\ plane_ok (sl_rect sl) 1 dg /\ plane_ok (sl_rect sl) 1 db /\ match chan_data sl 8 (-1) with Some a => plane_ok (sl_rect sl) 1 a | None => True end.
  Proof.
    intros V Er Eg Eb. pose proof (chan_len _ _ _ _ _ _ V Er ltac:(lia) ltac:(lia)) as Lr. pose proof (chan_len _ _ _ _ _ _ V Eg ltac:(lia) ltac:(lia)) as Lg.
    pose proof (chan_len _ _ _ _ _ _ V Eb ltac:(lia) ltac:(lia)) as Lb. unfold plane_ok. repeat (split; [lia|]).
    destruct (chan_data sl 8 (-1)) eqn:E0; [|exact I]. pose proof (chan_len _ _ _ _ _ _ V E0 ltac:(lia) ltac:(lia)). lia.
  Qed.
  Lemma image_good sl t dr dg db : glass_picture sl -> chan_data sl 8 0 = Some dr -> chan_data sl 8 1 = Some dg -> chan_data sl 8 2 = Some db ->
    built (newScaledTiledImage rnd lib cpusB ts (sl_rect sl) dr dg db (chan_data sl 8 (-1)) 1 T None) t -> goodImage ts t.
  Proof.
    intros (_ & _ & (dr' & Er' & Br) & (dg' & Eg' & Bg) & (db' & Eb' & Bb) & Ha) Er Eg Eb B. rewrite Er in Er'. injection Er' as <-. rewrite Eg in Eg'. injection Eg' as <-. rewrite Eb in Eb'. injection Eb' as <-.
    unfold newScaledTiledImage in B. cbv zeta in B. destruct (isIdentity T); [exact (built_goodImage _ _ _ _ _ _ _ _ _ HcB (proj1 Ht) Br Bg Bb Ha B)|]. unfold createImage in B. change (1 =? 4) with false in B. cbv iota in B.
    destruct (pixelsOf _ _ 1) as [tmp|] eqn:Ep; [|destruct B as (ws & s & X & _); discriminate]. eapply built_px; [exact HcB|exact (proj1 Ht)| |exact B].
    apply Hy. eapply pixelsOf_all; [| |exact Ep]; [unfold pixel_ok; cbn; lia|]. intros j v E.
    assert (K : forall d k x, bytes_ok d -> idx d k = Some x -> 0 <= x <= 255). { intros d k x Bd Ex. pose proof (Forall_idx _ _ _ _ Bd Ex) as X. unfold is_byte in X. lia. }
    unfold getImage in E. unfold pixel_ok.
    destruct (chan_data sl 8 (-1)) as [da|]; [destruct (idx da j) as [a|] eqn:Ea; [|discriminate]; pose proof (K _ _ _ Ha Ea)|];
      repeat match type of E with context[if ?b then _ else _] => destruct b end; try discriminate;
      repeat match type of E with context[idx ?d ?k] => let x := fresh "x" in let H := fresh "H" in destruct (idx d k) as [x|] eqn:H; [|discriminate] end;
      injection E as <-; cbn [pr pg pb pa]; repeat match goal with H : idx _ _ = Some _ |- _ => apply K in H; [|assumption] end; lia.
  Qed.
  Lemma mask_image sl l l1 l2 c m i : layer_is false 3 8 3 i sl l -> canvasB (playerOf l) l1 c -> maskB l1 l2 m ->
    if rempty (mask_rect sl) then m = None /\ pmrect l2 = mask_rect sl else
    match chan_data sl 8 (-2) with
    | Some d => exists t, m = Some t /\ built (newScaledTiledMask rnd lib cpusB ts (mask_rect sl) d (mask_colour sl) T) t /\ bounds ts t (pmrect l2)
    | None => m = None /\ pmrect l2 = mask_rect sl end.
  Proof.
    intros L C M. pose proof (layer_image _ _ _ L) as Im. destruct L as [(_ & _ & _ & _ & _ & _ & Em & _) _].
    pose proof (canvasOf_sameBy _ _ _ _ _ _ _ _ _ C) as E1. unfold maskOfBy in M. rewrite E1 in M. cbn [setRect playerOf pmrect pmchan pmdc] in M. rewrite Em, mask_rect_is, mask_colour_is, Im in M.
    destruct (rempty (mask_rect sl)); cbn [negb] in M; [destruct M as [-> ->]; split; [reflexivity|]; cbn [setRect playerOf pmrect]; now rewrite Em, mask_rect_is|].
    destruct (chan_data sl 8 (-2)) as [d|]; [|destruct M as [-> ->]; split; [reflexivity|]; cbn [setRect playerOf pmrect]; now rewrite Em, mask_rect_is].
    destruct M as (t & r & B & Tr & -> & ->). exists t. split; [reflexivity|]. split; [exact B|]. cbn [setMaskRect pmrect]. exact (tilesRect_bounds ts t r Tr).
  Qed.
  Lemma mask_good sl t d : mask_bytes sl -> chan_data sl 8 (-2) = Some d -> built (newScaledTiledMask rnd lib cpusB ts (mask_rect sl) d (mask_colour sl) T) t -> goodMask ts t.
  Proof.
    intros Bm Ed B. unfold mask_bytes in Bm. rewrite Ed in Bm.
    unfold newScaledTiledMask in B. destruct (isIdentity _); [eapply built_goodMask; [exact HcB|exact (proj1 Ht)| |exact B]; exact Bm|].
    destruct (_ <? _) in B; [destruct B as (? & ? & X & _); discriminate|]. cbv zeta in B. eapply built_goodMask; [exact HcB|exact (proj1 Ht)| |exact B].
    eapply Forall_impl; [|apply Hy; eapply Forall_impl; [|exact Bm]].
    - intros x Hx. unfold byteZ in Hx. unfold is_byte. lia.
    - intros x Hx. unfold is_byte in Hx. unfold byteZ. lia.
  Qed.
  Lemma mask_valid sl : slayer_valid inflate large 8 3 sl -> rempty (mask_rect sl) = false -> rect_valid (mask_rect sl).
  Proof. intros (_ & _ & _ & _ & _ & Vm & _) Ee. unfold mask_rect in *. unfold smask_valid in Vm. destruct (sl_mask sl); [discriminate|apply Vm|apply Vm]. Qed.
  Lemma mask_plane sl d : slayer_valid inflate large 8 3 sl -> chan_data sl 8 (-2) = Some d -> plane_ok (mask_rect sl) 1 d.
  Proof. intros V Ed. pose proof (mask_len inflate large sl d V Ed) as Ln. rewrite mask_rect_is in Ln. unfold plane_ok. lia. Qed.

  Lemma loadable_by i sl l : slayer_valid inflate large 8 3 sl -> layer_is false 3 8 3 i sl l -> glass_picture sl \/ (exists t, has_type sl t /\ t <> 0) -> loadableBy rnd lib cpusB ts T None (playerOf l).
  Proof.
    intros V L Cl. pose proof (layer_image _ _ _ L) as Im. pose proof (proj1 L) as A.
    assert (C : exists l1 c, canvasB (playerOf l) l1 c).
    { unfold canvasOfBy, hasImage. cbn [playerOf prect ptype pr_ pg_ pb_ pa_]. destruct Cl as [Pl|(t & Ty & N)].
      - destruct A as (_ & Rc & _). rewrite Rc. destruct (rempty (sl_rect sl)) eqn:Ee; [rewrite andb_false_r; eauto|]. destruct Pl as (Ty & _ & (dr & Er & _) & (dg & Eg & _) & (db & Eb & _) & _).
        rewrite (has_type_is _ _ _ _ (proj1 L) Ty). cbn [Z.eqb andb negb]. unfold plane0. rewrite !Im, Er, Eg, Eb. destruct (planes sl dr dg db V Er Eg Eb) as (P0 & P1 & P2 & P3).
        destruct (proj1 (shift_plain rnd lib cpusB ts Hr Hl HcB (proj1 Ht) (sl_rect sl) dx dy (moderate_rect _ (proj1 V) Ee) dr dg db (chan_data sl 8 (-1)) 1 ltac:(lia) P0 P1 P2 P3 ltac:(lia))) as [m B].
        destruct (tilesRect_exists ts m) as [r R]. eexists _, _, m, r. auto.
      - rewrite (has_type_is _ _ _ _ A Ty). replace (t =? 0) with false by lia. cbn [andb]. eauto. }
    destruct C as (l1 & c & C). exists l1, c. pose proof (canvasOf_sameBy _ _ _ _ _ _ _ _ _ C) as E1.
    assert (M : exists l2 m, maskB l1 l2 m); [|destruct M as (l2 & m & M); eauto]. unfold maskOfBy. rewrite E1. cbn [setRect playerOf pmrect pmchan pmdc].
    destruct A as (_ & _ & _ & _ & _ & _ & Em & _). rewrite Em, mask_rect_is, mask_colour_is.
    destruct (rempty (mask_rect sl)) eqn:Ee; cbn [negb]; [eauto|]. rewrite Im. destruct (chan_data sl 8 (-2)) as [d|] eqn:Ed; [|eauto].
    destruct (shift_mask rnd lib cpusB ts Hr Hl HcB (proj1 Ht) (mask_rect sl) dx dy d (mask_colour sl) (moderate_rect _ (mask_valid sl V Ee) Ee) (mask_plane sl d V Ed)) as (ws & W & _).
    rewrite W. destruct (PScale.built_ex ws) as [m B]. destruct (tilesRect_exists ts m) as [r R]. eexists _, _, m, r. auto.
  Qed.
  Lemma ends_by : exists st, MWait.steps stepB (lstart (map playerOf full)) st /\ lended st.
  Proof.
    apply loader_endsBy; [exact HcB|]. apply Forall_forall. intros x Hx. apply in_map_iff in Hx. destruct Hx as (l & <- & Hi). apply In_nth_error in Hi. destruct Hi as [i Ei].
    assert (Hi : (i < length flat)%nat) by (rewrite <- (layers_are_length _ _ _ _ _ _ _ Lf); apply nth_error_Some; congruence).
    destruct (nth_error flat i) as [sl|] eqn:Ef; [|apply nth_error_None in Ef; lia]. destruct (layers_are_nth _ _ _ _ _ _ _ _ _ Lf Ef) as (l3 & E3 & L3). rewrite Ei in E3. injection E3 as <-.
    pose proof Hv as Hv'. rewrite Forall_forall in Hv'. pose proof (nth_error_In _ _ Ef) as Hin. exact (loadable_by _ sl l (Hv' sl Hin) L3 (Hcl sl Hin)).
  Qed.

  (** ** The two loaded files *)
  Variables (st st' : loader).
  Hypothesis Hs : MWait.steps (lstep cpus ts) (lstart (map playerOf full)) st.
  Hypothesis He : lended st.
  Hypothesis Hs' : MWait.steps stepB (lstart (map playerOf full)) st'.
  Hypothesis He' : lended st'.

  Lemma rec_by i sl : nth_error flat i = Some sl -> exists l c m l1 l2 l',
    layer_is false 3 8 3 (Z.of_nat i) sl l /\ m_get Z.eqb (ldImages st') (Z.of_nat i) = Some (LI c m) /\ canvasB (playerOf l) l1 c /\ maskB l1 l2 m /\
    nth_error (ldCopied st') i = Some l' /\ sameButRects (playerOf l) l' /\
    (pmrect l' = mask_rect sl \/ rempty (mask_rect sl) = false /\ exists d t, chan_data sl 8 (-2) = Some d /\ built (newScaledTiledMask rnd lib cpusB ts (mask_rect sl) d (mask_colour sl) T) t /\ bounds ts t (pmrect l')).
  Proof.
    intros E. destruct (layers_are_nth _ _ _ _ _ _ _ _ _ Lf E) as (l & El & L). rewrite Z.add_0_l in L.
    assert (Ep : nth_error (map playerOf full) i = Some (playerOf l)) by (now apply map_nth_error).
    assert (Eq : pseq (playerOf l) = Z.of_nat i) by (exact (proj1 (proj1 L))).
    destruct (inv_endBy rnd lib cpusB ts T None _ (seqs_nodup _ _ Lf) st' Hs' He') as (A & _ & B & _). destruct (A i _ Ep) as (l2 & c & m & G & (l1 & C & M)). destruct (B i _ Ep) as (l' & E' & S').
    rewrite Eq in G. exists l, c, m, l1, l2, l'. repeat (split; [assumption|]). split; [exact (stage_sameBy _ _ _ _ _ _ _ _ S')|].
    assert (Em : pmrect (playerOf l) = mask_rect sl). { destruct L as [(_ & _ & _ & _ & _ & _ & Em & _) _]. cbn [playerOf pmrect]. now rewrite Em, mask_rect_is. }
    destruct S' as [->|[[c1 C1]|(c1 & m1 & k1 & C1 & M1)]]; [now left|left; rewrite (canvasOf_sameBy _ _ _ _ _ _ _ _ _ C1); exact Em|].
    pose proof (mask_image sl l k1 l' c1 m1 _ L C1 M1) as X. destruct (rempty (mask_rect sl)); [left; exact (proj2 X)|]. destruct (chan_data sl 8 (-2)) as [d|] eqn:Ed; [|left; exact (proj2 X)].
    destruct X as (t & _ & Bt & Bd). right. split; [reflexivity|]. eauto.
  Qed.
  Lemma mask0_value v : mask_value 0 v = v. Proof. reflexivity. Qed.
  Lemma nth_idx (d : bytes) k v : 0 <= k -> nth_error d (Z.to_nat k) = Some v -> idx d k = Some v.
  Proof. intros H E. unfold idx. replace (k <? 0) with false by lia. exact E. Qed.
  Lemma mask_nonzero sl q v d : pt_in q (mask_rect sl) = true -> mask_at sl q v -> chan_data sl 8 (-2) = Some d -> idx d (sample_pos (mask_rect sl) 1 q) = Some v.
  Proof.
    unfold mask_at. cbv zeta. intros Hq. rewrite Hq. intros (d' & E' & N) E. rewrite E in E'. injection E' as <-. unfold pt_in in Hq. unfold sample_pos, rdx in *.
    replace (((py q - ry0 (mask_rect sl)) * (rx1 (mask_rect sl) - rx0 (mask_rect sl)) + (MRect.px q - rx0 (mask_rect sl))) * 1) with ((py q - ry0 (mask_rect sl)) * (rx1 (mask_rect sl) - rx0 (mask_rect sl)) + (MRect.px q - rx0 (mask_rect sl))) by lia.
    apply nth_idx; [nia|exact N].
  Qed.
  Lemma enabled_by i sl l' : nth_error flat i = Some sl -> steady sl -> mask_stays dx dy sl -> nth_error (ldCopied st') i = Some l' -> maskEnabled l' = has_mask sl.
  Proof.
    intros E Sd Ms E'. destruct (rec_by i sl E) as (l & c & m & l1 & l2 & l3 & L & G & C & M & E3 & S3 & R3). rewrite E' in E3. injection E3 as <-.
    pose proof Hv as Hv'. rewrite Forall_forall in Hv'. pose proof (Hv' sl (nth_error_In _ _ E)) as V.
    apply enabled_is; [rewrite S3; cbn [setMaskRect setRect playerOf pflags]; destruct L as [(_ & _ & _ & _ & _ & _ & Em & _) _]; now rewrite Em|].
    destruct R3 as [R3|(Ne & d & t & Ed & B & Bd)]; [now left|]. right. split; [exact Ne|]. intros Hm. destruct (Ms Hm) as (q & v & X & Y & X' & Y' & In & At & Nz).
    destruct (shift_mask rnd lib cpusB ts Hr Hl HcB (proj1 Ht) (mask_rect sl) dx dy d (mask_colour sl) (moderate_rect _ (mask_valid sl V Ne) Ne) (mask_plane sl d V Ed)) as (ws & W & Sm).
    rewrite W in B. destruct (Sm t B) as (_ & S1 & _). destruct (S1 q In X' Y') as (v' & Sh & I). rewrite (Sd Hm), mask0_value, (mask_nonzero sl q v d In At Ed) in I. injection I as <-.
    destruct (shows_tile_there _ _ _ _ _ Sh Nz) as (k & cc & K). exact (bounds_nonempty ts t _ k cc (proj1 Ht) Bd K).
  Qed.
  Lemma enabled_plain i sl l' : nth_error flat i = Some sl -> steady sl -> mask_stays dx dy sl -> nth_error (ldCopied st) i = Some l' -> maskEnabled l' = has_mask sl.
  Proof.
    intros E Sd Ms E'. destruct (rec_at cpus ts Hc (proj1 Ht) flat full st Lf Hs He i sl E) as (l & c & m & l1 & l2 & l3 & L & G & C & M & E3 & S3 & R3). rewrite E' in E3. injection E3 as <-.
    pose proof Hv as Hv'. rewrite Forall_forall in Hv'. pose proof (Hv' sl (nth_error_In _ _ E)) as V.
    destruct (mask_facts cpus ts (Z.of_nat i) sl l l1 l2 l' c m L C M S3 R3) as (_ & Ef & Er & Em). apply enabled_is; [exact Ef|].
    destruct Er as [Er|(t & Et & Bd)]; [now left|]. right. destruct (rempty (mask_rect sl)) eqn:Ne; [subst m; discriminate|]. split; [reflexivity|].
    destruct (chan_data sl 8 (-2)) as [d|] eqn:Ed; [|subst m; discriminate]. destruct Em as (t0 & Et0 & B). rewrite Et in Et0. injection Et0 as <-.
    intros Hm. destruct (Ms Hm) as (q & v & X & Y & X' & Y' & In & At & Nz).
    destruct (newTiledMask_spec cpus ts (mask_rect sl) d (mask_colour sl) Hc (proj1 Ht) (mask_plane sl d V Ed)) as (ws & W & S). destruct B as (ws' & s & W' & I' & Em). rewrite W in W'. injection W' as <-.
    destruct (S s I') as (_ & S1 & _). rewrite <- Em in S1. destruct (S1 q In X Y) as (v' & Sh & I). rewrite (Sd Hm), mask0_value, (mask_nonzero sl q v d In At Ed) in I. injection I as <-.
    destruct (shows_tile_there _ _ _ _ _ Sh Nz) as (k & cc & K). exact (bounds_nonempty ts t _ k cc (proj1 Ht) Bd K).
  Qed.
  Lemma attrs_same i sl r : nth_error flat i = Some sl -> steady sl -> mask_stays dx dy sl -> layer_is false 3 8 3 (Z.of_nat i) sl r ->
    exists c c', nth_error (ldCopied st) i = Some c /\ nth_error (ldCopied st') i = Some c' /\ buildAttr r c = buildAttr r c'.
  Proof.
    intros E Sd Ms Lr. destruct (rec_at cpus ts Hc (proj1 Ht) flat full st Lf Hs He i sl E) as (l & _ & _ & _ & _ & l1 & L & _ & _ & _ & E1 & S1 & _).
    destruct (rec_by i sl E) as (k & _ & _ & _ & _ & l2 & K & _ & _ & _ & E2 & S2 & _). exists l1, l2. split; [exact E1|]. split; [exact E2|].
    unfold buildAttr, attrsOf. rewrite (enabled_plain i sl l1 E Sd Ms E1), (enabled_by i sl l2 E Sd Ms E2), S1, S2. cbn [setMaskRect setRect playerOf pseq pmdc].
    destruct L as [(L1 & _ & _ & _ & _ & _ & L2 & _) _]. destruct K as [(K1 & _ & _ & _ & _ & _ & K2 & _) _]. now rewrite L1, K1, L2, K2.
  Qed.

  Lemma loaded_moved : moved_all ts flat st dx dy (ldImages st').
  Proof.
    split.
    - intros i sl E. destruct (rec_at cpus ts Hc (proj1 Ht) flat full st Lf Hs He i sl E) as (l & c & m & l1 & l2 & l3 & L & G & C & M & _ & S3 & R3).
      destruct (rec_by i sl E) as (k & c' & m' & k1 & k2 & k3 & K & G' & C' & M' & _). exists c, m, c', m'. split; [exact G|]. split; [exact G'|].
      pose proof (nth_error_In _ _ E) as Hin. pose proof Hv as Hv'. rewrite Forall_forall in Hv'. pose proof (Hv' sl Hin) as V. split.
      + destruct (layer_good inflate large cpus ts Hc Ht flat full st Lf Hv Hs He Hcl Hb 1%nat dx dy (le_n 1%nat) Hdx Hdy i sl E) as (c0 & m0 & G0 & Gc & _). rewrite G in G0. injection G0 as <- <-.
        destruct (Hcl sl Hin) as [Pl|(ty & Ty & N)].
        * pose proof (canvas_image _ sl k k1 c' V Pl K C') as Ci.
          pose proof (layer_image _ _ _ L) as Im. pose proof (has_type_is _ _ _ _ (proj1 L) (proj1 Pl)) as Et. pose proof (proj1 L) as A. destruct A as (_ & Rc & _).
          unfold canvasOf, hasImage in C. cbn [playerOf prect ptype pr_ pg_ pb_ pa_] in C. rewrite Et, Rc in C. cbn [Z.eqb andb] in C.
          destruct (rempty (sl_rect sl)) eqn:Ee; cbn [negb] in C; [destruct C as [-> _]; subst c'; exact I|].
          destruct C as (t & r0 & B & _ & -> & _). destruct Ci as (t' & dr & dg & db & -> & Er & Eg & Eb & B'). unfold plane0 in B. rewrite !Im, Er, Eg, Eb in B.
          destruct (planes sl dr dg db V Er Eg Eb) as (P0 & P1 & P2 & P3). unfold image_moved. split; [exact (proj1 Gc)|]. split; [exact (image_good sl t' dr dg db Pl Er Eg Eb B')|].
          destruct (newTiledImage_spec cpus ts (sl_rect sl) dr dg db (chan_data sl 8 (-1)) 1 Hc (proj1 Ht) ltac:(lia) P0 P1 P2 P3) as (ws & W & S).
          destruct B as (ws' & s & W' & I' & Em). rewrite W in W'. injection W' as <-. destruct (S s I') as (Wt & S1 & _ & S2). rewrite <- Em in Wt, S1, S2.
          destruct (proj2 (shift_plain rnd lib cpusB ts Hr Hl HcB (proj1 Ht) (sl_rect sl) dx dy (moderate_rect _ (proj1 V) Ee) dr dg db (chan_data sl 8 (-1)) 1 ltac:(lia) P0 P1 P2 P3 ltac:(lia)) t' B') as (_ & Q1 & Q2 & Q3).
          split; [|intros _ p Out; now apply Q3]. intros p v X Y X' Y' Sv Hv1. destruct (pt_in p (sl_rect sl)) eqn:Ip.
          -- destruct (S1 p Ip X Y) as (v' & Src & Sv'). rewrite (shows_fun _ _ t p v v' Wt Sv Sv') in *. destruct Hv1 as [A1| ->]; [now apply (Q1 p)|apply (Q2 p z4); auto].
          -- rewrite (shows_fun _ _ t p v _ Wt Sv (S2 p Ip)). now apply Q3.
        * unfold canvasOfBy, hasImage in C'. unfold canvasOf, hasImage in C. cbn [playerOf ptype] in C, C'. rewrite (has_type_is _ _ _ _ (proj1 L) Ty) in C. rewrite (has_type_is _ _ _ _ (proj1 K) Ty) in C'.
          replace (ty =? 0) with false in C, C' by lia. cbn [andb] in C, C'. destruct C as [-> _]. destruct C' as [-> _]. exact I.
      + pose proof (mask_image sl k k1 k2 c' m' _ K C' M') as Mi. destruct (mask_facts cpus ts (Z.of_nat i) sl l l1 l2 l3 c m L C M S3 R3) as (_ & _ & _ & Em).
        destruct (rempty (mask_rect sl)) eqn:Ne; [destruct Mi as [-> _]; subst m; exact I|]. pose proof Hb as Hb'. rewrite Forall_forall in Hb'. pose proof (Hb' sl Hin) as Bm.
        destruct (chan_data sl 8 (-2)) as [d|] eqn:Ed; [|destruct Mi as [-> _]; subst m; exact I]. destruct Em as (t & -> & B). destruct Mi as (t' & -> & B' & _). unfold mask_moved.
        assert (Bd : bytes_ok d) by (unfold mask_bytes in Bm; now rewrite Ed in Bm).
        split; [eapply built_goodMask; [exact Hc|exact (proj1 Ht)|exact Bd|exact B]|]. split; [exact (mask_good sl t' d Bm Ed B')|]. intros Hm Hz p v X Y X' Y' Sv. rewrite Hz in *.
        destruct (newTiledMask_spec cpus ts (mask_rect sl) d 0 Hc (proj1 Ht) (mask_plane sl d V Ed)) as (ws & W & S).
        destruct B as (ws' & s & W' & I' & Em). rewrite W in W'. injection W' as <-. destruct (S s I') as (Wt & S1 & S2). rewrite <- Em in Wt, S1, S2.
        destruct (shift_mask rnd lib cpusB ts Hr Hl HcB (proj1 Ht) (mask_rect sl) dx dy d 0 (moderate_rect _ (mask_valid sl V Ne) Ne) (mask_plane sl d V Ed)) as (ws2 & W2 & Sm).
        rewrite W2 in B'. destruct (Sm t' B') as (_ & Q1 & Q2). destruct (pt_in p (mask_rect sl)) eqn:Ip.
        * destruct (S1 p Ip X Y) as (v1 & Sv1 & I1). destruct (Q1 p Ip X' Y') as (v2 & Sv2 & I2). rewrite mask0_value in I1, I2. rewrite (shows_fun _ _ t p v v1 Wt Sv Sv1). rewrite I1 in I2. injection I2 as <-. exact Sv2.
        * rewrite (shows_fun _ _ t p v 0 Wt Sv (S2 p Ip)). exact (Q2 p Ip X' Y').
    - intros q N. destruct (m_get Z.eqb (ldImages st') q) as [li|] eqn:G; [|reflexivity]. exfalso.
      destruct (inv_endBy rnd lib cpusB ts T None _ (seqs_nodup _ _ Lf) st' Hs' He') as (_ & B & _). destruct (B _ _ G) as (i & l0 & Ei & Eq).
      destruct (inv_end cpus ts _ (seqs_nodup _ _ Lf) st Hs He) as (A & _). destruct (A i l0 Ei) as (l & c & m & G' & _). rewrite Eq in G'. congruence.
  Qed.
End file.

Lemma newMatrix_moves mm dx dy : moves_by mm dx dy -> newMatrix mm = translation dx dy.
Proof. unfold moves_by, newMatrix. destruct mm as [m0 m1 m2 m3 m4 m5]. cbn [a0 a1 a2 a3 a4 a5]. intros ([-> | ->] & -> & -> & -> & [-> | ->] & ->); reflexivity. Qed.
Lemma loaded_shown inflate kind procs h rsv cmd res neg pl sf pad gmask bs tail rest cpus ts : (1 <= procs)%nat -> (1 <= cpus)%nat -> 0 < ts <= 2 ^ 50 ->
  header_valid h -> h_mode h = 3 -> h_depth h = 8 -> zlen rsv = 6 -> zlen cmd < 4294967296 ->
  Forall rblock_valid res -> zlen (enc_rblocks res) < 4294967296 ->
  let large := h_version h =? 2 in
  section_valid inflate large neg 8 3 pl (flat_map sflatten sf) pad gmask bs tail ->
  Forall stree_valid sf -> glass_forest sf -> Forall steady_tree sf -> Forall solid_tree sf -> Forall mask_bytes (flat_map sflatten sf) ->
  let enc := enc_config h rsv cmd res ++ enc_section large neg pl (flat_map sflatten sf) pad gmask bs tail in
  exists f evs, Decode inflate kind procs newOptions (enc ++ rest) = (Ok (f, zlen enc, rest), evs) /\
    forall rnd lib mm dx dy, SThumb.rounding rnd -> good_library lib -> typed lib -> - 2 ^ 51 <= dx <= 2 ^ 51 -> - 2 ^ 51 <= dy <= 2 ^ 51 -> moves_by mm dx dy ->
    Forall (mask_stays dx dy) (flat_map sflatten sf) ->
    (exists st, MWait.steps (lstepBy rnd lib cpus ts (newMatrix mm) None) (lstart (map (fun e => playerOf (ev_layer e)) evs)) st /\ lended st) /\
    forall st, MWait.steps (lstepBy rnd lib cpus ts (newMatrix mm) None) (lstart (map (fun e => playerOf (ev_layer e)) evs)) st -> lended st ->
    forall cpus' r' w0 w1, (1 <= cpus')%nat -> new w0 ->
    renderedPx ts (ldImages st) cpus' ts r' false (rootOf (ldCopied st) (f_layer f)) w0 w1 ->
    forall q p, tileOf ts r' q -> in_tile ts q (shifted p dx dy) ->
    exists s t, w1 q = Some (s, t) /\
      (0 <= MRect.px p -> 0 <= py p -> 0 <= MRect.px p + dx -> 0 <= py p + dy ->
        exists c, (forall c', laid (fun _ => True) p None sf nothing c' <-> c' = c) /\ tile_at ts q t (shifted p dx dy) = Some (stored (stored c))) /\
      (Forall (clear_of p) sf -> tile_at ts q t (shifted p dx dy) = Some nothing).
Proof.
  intros Hpr Hc Ht Hh Hm Hd Hr Hcm Hres Hrl large Hs HV [HP HG] HS HD HB enc.
  destruct (decode_layers inflate kind procs newOptions h rsv cmd res 3 neg pl sf pad gmask bs tail rest Hpr Hh Hr Hcm Hres Hrl) as (f & evs & ED & _ & ET & _ & _ & _ & _ & full & Ee & Lf).
  - left. rewrite Hm, Hd. auto.
  - rewrite Hm. reflexivity.
  - reflexivity.
  - cbn [newOptions o_config_loaded config_of cfg_mode]. rewrite Hm. reflexivity.
  - rewrite Hd. exact Hs.
  - exact HV.
  - exists f, evs. split; [exact ED|]. rewrite Hm, Hd in *.
    assert (Eev : map (fun e => playerOf (ev_layer e)) evs = map playerOf full).
    { rewrite Ee. unfold section_events. cbn [newOptions o_skip_layer]. rewrite <- (map_map ev_layer playerOf). now rewrite events_layers. }
    rewrite Eev. pose proof (glass_class _ sf (le_n _) HV HP) as Hcl. pose proof (proj1 Hs) as Hvl.
    intros rnd lib mm dx dy Hrd Hlb Hty Hdx Hdy Hmm HM. rewrite (newMatrix_moves _ _ _ Hmm). split.
    { exact (ends_by inflate large cpus cpus ts Hc Hc Ht _ full Lf Hvl Hcl rnd lib dx dy Hrd Hlb Hdx Hdy). }
    intros st' Hst' Hend'.
    assert (exists st, MWait.steps (lstep cpus ts) (lstart (map playerOf full)) st /\ lended st) as (st & Hst & Hend).
    { apply loader_ends; [exact Hc|]. eapply class_all; eauto; try exact (proj1 Ht). intros sl Hin.
      destruct (Hcl sl Hin) as [(Ty & _ & (dr & Er & _) & (dg & Eg & _) & (db & Eb & _) & _)|X]; [left|now right]. repeat split; eauto. }
    assert (Er : rootOf (ldCopied st') (f_layer f) = rootOf (ldCopied st) (f_layer f)).
    { unfold rootOf. do 2 f_equal. symmetry.
      apply (trees_same (flat_map sflatten sf) (ldCopied st) (ldCopied st') steady) with (k := list_sum (map ssize sf)) (sf := sf) (i := 0%nat); [| apply le_n | | intros j sl E; exact E | exact ET].
      - intros i sl r E Sd L. apply (attrs_same inflate large cpus cpus ts Hc Hc Ht _ full Lf Hvl Hcl rnd lib dx dy Hrd Hlb Hdx Hdy st st' Hst Hend Hst' Hend' i sl r E Sd); [|exact L].
        rewrite Forall_forall in HM. apply HM. exact (nth_error_In _ _ E).
      - clear - HV HP HS HD. rewrite Forall_forall in *. intros t H. apply (nodes_impl fine steady); [now intros l (_ & X & _)|]. apply fine_nodes; auto. }
    rewrite Er. apply (moved_render inflate large cpus ts sf full st (f_layer f) dx dy (ldImages st') Hc Ht Lf Hvl Hst Hend HV (conj HP HG) HS HD ET).
    exact (loaded_moved inflate large cpus cpus ts Hc Hc Ht _ full Lf Hvl Hcl HB rnd lib dx dy Hrd Hlb Hty Hdx Hdy st st' Hst Hend Hst' Hend').
Qed.
