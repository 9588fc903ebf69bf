(** Loading a file with a translation and a gamma, and loading the file whose layers lie at the new place and have other colours: the pictures (see PShift5). *)
From Coq Require Import String Permutation QArith.
From Verif Require Import Base BaseFacts SUtil SConfig MRect MThumb SThumb MPicker MConfig MReader MLayer MApi SCompress SRecord SLayer PConfig2 PRecord4
  MSched PSched MBlend MPorter SBlend PLum MWait PWait MRender SRender PRender PRender2 MRenderAll SRenderAll PRenderAll MRenderPx PRenderPx
  PFrame MDraw MTile STile PTile MLoad SLoad PLoad STileRender PTileRender MPipe SPipe SClip PClip PPipe PPipe2 PPipe3 PPipe4 PPipe5 SSharp PSharp2 PSharp3 PSharp4
  SGlass PGlass PGlass1 PGlass2 PGlass3 PGlass4 MTileRender MScale SScale PScale MMove SMove PMove1 PMove2 PMove3 PMove4 MLoadBy PLoadBy PMoveLoad SShift PShift1 PShift2 PShift3 PShift4 PShift5 STint PTint1 PTint4.
Close Scope string_scope.
Open Scope Z_scope.

(** * The new forest *)
Lemma flat_each g sf : flat_map sflatten (map (each_layer g) sf) = map g (flat_map sflatten sf).
Proof.
  assert (T : forall t, sflatten (each_layer g t) = map g (sflatten t)).
  { induction t as [l|dv f c H] using stree_ind2; [reflexivity|]. cbn [each_layer sflatten map]. f_equal. rewrite map_app. f_equal.
    induction H as [|t c Ht _ IH]; [reflexivity|]. cbn [map flat_map]. rewrite map_app. now f_equal. }
  induction sf as [|t sf IH]; [reflexivity|]. cbn [map flat_map]. rewrite map_app. now f_equal.
Qed.
Lemma type_graded f dx dy l l' t : graded f dx dy l l' -> has_type l t -> has_type l' t.
Proof. intros [[ch ->] _] H. exact H. Qed.
Lemma valid_each f dx dy g sf : Forall (fun sl => graded f dx dy sl (g sl)) (flat_map sflatten sf) -> Forall stree_valid sf -> Forall stree_valid (map (each_layer g) sf).
Proof.
  assert (T : forall t, Forall (fun sl => graded f dx dy sl (g sl)) (sflatten t) -> stree_valid t -> stree_valid (each_layer g t)).
  { induction t as [l|dv fo c H] using stree_ind2; intros G V; inversion V as [? t0 Ty N1 N2 N3|? ? ? t0 Td Tf Ht Vc]; subst; cbn [each_layer]; cbn [sflatten] in G.
    - apply (sleaf_valid _ t0); try assumption. eapply type_graded; [exact (Forall_inv G)|exact Ty].
    - pose proof (Forall_inv G) as G1. apply Forall_inv_tail in G. apply Forall_app in G. destruct G as [G2 G3]. apply Forall_inv in G3.
      apply (sfolder_valid _ _ _ t0); try assumption; [exact (type_graded _ _ _ _ _ _ G1 Td)|exact (type_graded _ _ _ _ _ _ G3 Tf)|]. clear - H Vc G2.
      induction H as [|t c Ht _ IH]; [constructor|]. inversion Vc as [|? ? V1 V2]; subst. cbn [flat_map] in G2. apply Forall_app in G2. cbn [map]. constructor; [exact (Ht (proj1 G2) V1)|exact (IH (proj2 G2) V2)]. }
  induction sf as [|t sf IH]; intros G V; [constructor|]. cbn [flat_map] in G. apply Forall_app in G. inversion V as [|? ? V1 V2]; subst. cbn [map]. constructor; [exact (T t (proj1 G) V1)|exact (IH (proj2 G) V2)].
Qed.

(** * One layer *)
Section one.
  Variables (inflate : bytes -> Z -> option (bytes * Z)) (large : bool) (dx dy i : Z) (gt : option gammaTable) (sl sl' : slayer) (l l' : lrec).
  Hypothesis V : slayer_valid inflate large 8 3 sl.
  Hypothesis L : layer_is false 3 8 3 i sl l.
  Hypothesis L' : layer_is false 3 8 3 i sl' l'.
  Hypothesis Gr : graded (grade dx dy gt) dx dy sl sl'.
  Hypothesis Ty : exists t, has_type sl t.

  Lemma built_same c c' : pseq c' = pseq c -> maskEnabled c' = maskEnabled c -> pmdc c' = pmdc c -> buildAttr l c = buildAttr l' c'.
  Proof.
    intros E1 E2 E3. pose proof L' as L2. destruct Gr as [[ch Es] _]. rewrite Es in L2. unfold buildAttr, attrsOf, lVisible, blendModeOf, lFolder. rewrite E1, E2, E3.
    destruct Ty as [t Ht]. rewrite (has_type_is _ _ _ _ (proj1 L) Ht), (has_type_is _ _ _ _ (proj1 L2) Ht).
    assert (Eb : l_sdblend l = l_sdblend l').
    { clear V. destruct L as [(_ & _ & _ & _ & _ & _ & _ & _ & _ & _ & A & _) _]. destruct L2 as [(_ & _ & _ & _ & _ & _ & _ & _ & _ & _ & A' & _) _].
      cbn [sl_info sl_blend] in A'. unfold has_type in Ht. destruct (divider_info (sl_info sl)) as [d|].
      - destruct Ht as (bm & sub & Hd). destruct (A _ _ _ Hd) as (_ & -> & _). destruct (A' _ _ _ Hd) as (_ & -> & _). reflexivity.
      - destruct A as (_ & -> & _). destruct A' as (_ & -> & _). reflexivity. }
    rewrite Eb. destruct L as [(_ & _ & B1 & B2 & B3 & B4 & _ & _ & _ & B5 & _) _]. destruct L2 as [(_ & _ & B1' & B2' & B3' & B4' & _ & _ & _ & B5' & _) _].
    rewrite B1, B2, B3, B4, B5, B1', B2', B3', B4', B5'. reflexivity.
  Qed.
  Lemma player_gplaced : gplaced dx dy gt (playerOf l) (playerOf l').
  Proof.
    pose proof (layer_image _ _ _ L) as Im. pose proof (layer_image _ _ _ L') as Im'. destruct Ty as [t Ht]. pose proof L' as L2. destruct Gr as [[ch Es] Ch].
    assert (Pl : forall k, planeOf l' k = if (0 <=? k) && (k <=? 2) then option_map (map (grade dx dy gt)) (planeOf l k) else planeOf l k) by (intros k; rewrite Im', !Im; apply Ch).
    rewrite Es in L2. pose proof (has_type_is _ _ _ _ (proj1 L) Ht) as E1. pose proof (has_type_is _ _ _ _ (proj1 L2) Ht) as E2.
    destruct L as [(A1 & A2 & _ & _ & _ & _ & A3 & _) _]. destruct L2 as [(A1' & A2' & _ & _ & _ & _ & A3' & _) _].
    split; cbn [playerOf pseq ptype prect pr_ pg_ pb_ pa_ pmrect pmchan pmdc pflags]; unfold plane0; rewrite ?Pl; cbn [Z.leb Z.compare andb]; try congruence.
    - rewrite A2, A2'. reflexivity.
    - now destruct (planeOf l 0).
    - now destruct (planeOf l 1).
    - now destruct (planeOf l 2).
    - rewrite A3, A3'. cbn [sl_mask]. destruct (sl_mask sl); cbn [move_mask mask_of mk_rect mask0]; [right; split; reflexivity|left; reflexivity|left; reflexivity].
    - rewrite A3, A3'. cbn [sl_mask]. destruct (sl_mask sl); reflexivity.
    - rewrite A3, A3'. cbn [sl_mask]. destruct (sl_mask sl); reflexivity.
  Qed.
End one.

(** * Trees *)
Lemma gforests_same (g : slayer -> slayer) flat cs cs' :
  (forall i sl r r', nth_error flat i = Some sl -> layer_is false 3 8 3 (Z.of_nat i) sl r -> layer_is false 3 8 3 (Z.of_nat i) (g sl) r' ->
    exists c c', nth_error cs i = Some c /\ nth_error cs' i = Some c' /\ buildAttr r c = buildAttr r' c') ->
  forall k sf i ls ls', (list_sum (map ssize sf) <= k)%nat -> window flat i (flat_map sflatten sf) ->
  trees_are false 3 8 3 (Z.of_nat i) sf ls -> trees_are false 3 8 3 (Z.of_nat i) (map (each_layer g) sf) ls' -> map (treeOf cs) ls = map (treeOf cs') ls'.
Proof.
  intros HN. induction k as [|k IH]; intros sf i ls ls1 Hsz HW HT HT'.
  { destruct sf as [|[l|d f c] sf]; cbn in Hsz; try lia. inversion HT; subst. inversion HT'; subst. reflexivity. }
  destruct sf as [|t sf]; [inversion HT; subst; inversion HT'; subst; reflexivity|].
  inversion HT as [|? ? ? l ls' T1 T2]; subst. clear HT. cbn [map] in HT'. inversion HT' as [|? ? ? l' ls1' T1' T2']; subst. clear HT'.
  cbn [flat_map] in *. apply window_split in HW. destruct HW as [W1 W2]. cbn [map].
  assert (Hs1 : (ssize t + list_sum (map ssize sf) <= S k)%nat) by exact Hsz.
  assert (Hs2 : (list_sum (map ssize sf) <= k)%nat) by (destruct t; cbn [ssize] in Hs1; lia).
  assert (Ez : zlen (sflatten (each_layer g t)) = zlen (sflatten t)).
  { pose proof (flat_each g [t]) as E. cbn [map flat_map] in E. rewrite !app_nil_r in E. rewrite E. unfold zlen. now rewrite map_length. }
  rewrite Ez in T2'.
  f_equal; [|apply (IH sf (i + length (sflatten t))%nat); auto; replace (Z.of_nat (i + length (sflatten t))) with (Z.of_nat i + zlen (sflatten t)) by (unfold zlen; lia); assumption].
  destruct t as [sl|dv fo ct].
  - inversion T1 as [? ? r L|]; subst. cbn [each_layer] in T1'. inversion T1' as [? ? r' L'|]; subst. cbn [sflatten length] in *.
    pose proof (W1 0%nat sl eq_refl) as Ef. rewrite Nat.add_0_r in Ef. destruct (HN i sl r r' Ef L L') as (c & c' & Ec & Ec' & Pc).
    cbn [treeOf map]. now rewrite (seq_at _ _ _ L), (seq_at _ _ _ L'), Ec, Ec', Pc.
  - inversion T1 as [|? ? ? ? r lc T3 L]; subst. cbn [each_layer] in T1'. inversion T1' as [|? ? ? ? r' lc' T3' L']; subst. cbn [sflatten] in *.
    cbn [ssize] in Hs1. rewrite flat_each in L'. set (M := length (flat_map sflatten ct)) in *.
    assert (Wc : window flat (S i) (flat_map sflatten ct) /\ nth_error flat (S i + M) = Some fo).
    { change (dv :: flat_map sflatten ct ++ [fo]) with ([dv] ++ (flat_map sflatten ct ++ [fo])) in W1. apply window_split in W1. destruct W1 as [_ W1].
      cbn [length] in W1. apply window_split in W1. destruct W1 as [W1 W3]. split; [now replace (S i) with (i + 1)%nat by lia|].
      specialize (W3 0%nat fo eq_refl). replace (S i + M)%nat with (i + 1 + length (flat_map sflatten ct) + 0)%nat by (unfold M; lia). exact W3. }
    destruct Wc as [Wc Ef].
    replace (Z.of_nat i + 1 + zlen (flat_map sflatten ct)) with (Z.of_nat (S i + M)) in L by (unfold M, zlen; lia).
    replace (Z.of_nat i + 1 + zlen (map g (flat_map sflatten ct))) with (Z.of_nat (S i + M)) in L' by (unfold M, zlen; rewrite map_length; lia).
    destruct (HN _ fo r r' Ef L L') as (c & c' & Ec & Ec' & Pc). cbn [treeOf]. rewrite (seq_at _ _ _ L), (seq_at _ _ _ L'), Ec, Ec', Pc. do 2 f_equal.
    apply (IH ct (S i)); auto; [lia| |]; replace (Z.of_nat (S i)) with (Z.of_nat i + 1) by lia; assumption.
Qed.
Section file.
  Variables (inflate : bytes -> Z -> option (bytes * Z)) (large : bool) (cpus : nat) (ts dx dy : Z) (gt : option gammaTable) (g : slayer -> slayer).
  Hypothesis Hg : match gt with Some t => forall i, 0 <= T8 t i < 65536 | None => True end.
  Hypotheses (Hc : (1 <= cpus)%nat) (Ht : 0 < ts).
  Variables (sf : list stree) (full full' : list lrec) (tr tr' : list MLayer.layer).
  Notation flat := (flat_map sflatten sf).
  Hypothesis Lf : layers_are false 3 8 3 0 flat full.
  Hypothesis Lf' : layers_are false 3 8 3 0 (map g flat) full'.
  Hypothesis Tr : trees_are false 3 8 3 0 sf tr.
  Hypothesis Tr' : trees_are false 3 8 3 0 (map (each_layer g) sf) tr'.
  Hypothesis Hv : Forall (slayer_valid inflate large 8 3) flat.
  Hypothesis HV : Forall stree_valid sf.
  Hypothesis Gr : Forall (fun sl => graded (grade dx dy gt) dx dy sl (g sl)) flat.
  Hypothesis So : Forall solid_picture flat.
  Hypothesis Sd : Forall steady flat.
  Variables (rnd : Q -> Q) (lib : library).
  Hypothesis Hr : SThumb.rounding rnd.
  Hypothesis Hl : good_library lib.
  Hypothesis Hdx : - 2 ^ 51 <= dx <= 2 ^ 51.
  Hypothesis Hdy : - 2 ^ 51 <= dy <= 2 ^ 51.
  Notation T := (translation dx dy).
  Notation stepB := (lstepBy rnd lib cpus ts T gt).
  Notation stepA := (lstep cpus ts).
  Notation lsB := (map playerOf full).
  Notation lsA := (map playerOf full').

  Lemma gr_in sl : In sl flat -> graded (grade dx dy gt) dx dy sl (g sl).
  Proof. rewrite Forall_forall in Gr. apply Gr. Qed.
  Lemma at_index i l l' : nth_error full i = Some l -> nth_error full' i = Some l' -> exists sl, nth_error flat i = Some sl /\
    layer_is false 3 8 3 (Z.of_nat i) sl l /\ layer_is false 3 8 3 (Z.of_nat i) (g sl) l'.
  Proof.
    intros E E'. assert (Hi : (i < length flat)%nat) by (rewrite <- (layers_are_length _ _ _ _ _ _ _ Lf); apply nth_error_Some; congruence).
    destruct (nth_error flat i) as [sl|] eqn:Ef; [|apply nth_error_None in Ef; lia]. exists sl. split; [reflexivity|].
    destruct (layers_are_nth _ _ _ _ _ _ _ _ _ Lf Ef) as (l1 & E1 & L1). rewrite E in E1. injection E1 as <-. split; [exact L1|].
    destruct (layers_are_nth _ _ _ _ _ _ _ _ _ Lf' (map_nth_error g _ _ Ef)) as (l2 & E2 & L2). rewrite E' in E2. now injection E2 as <-.
  Qed.
  Lemma same_length : length full = length full'.
  Proof. rewrite (layers_are_length _ _ _ _ _ _ _ Lf), (layers_are_length _ _ _ _ _ _ _ Lf'). now rewrite map_length. Qed.
  Lemma forall2_nth {A B} (R : A -> B -> Prop) : forall a b, length a = length b -> (forall i x y, nth_error a i = Some x -> nth_error b i = Some y -> R x y) -> Forall2 R a b.
  Proof.
    clear. induction a as [|x a IH]; intros [|y b] E H; try discriminate; constructor; [exact (H 0%nat x y eq_refl eq_refl)|]. apply IH; [now injection E|]. intros i u v. exact (H (S i) u v).
  Qed.
  Lemma hp : Forall2 (gplaced dx dy gt) lsB lsA.
  Proof.
    apply forall2_nth; [now rewrite !map_length, same_length|]. intros i x y E E'. rewrite nth_error_map in E, E'. destruct (nth_error full i) as [l|] eqn:El; [|discriminate]. destruct (nth_error full' i) as [l'|] eqn:El'; [|discriminate].
    injection E as <-. injection E' as <-. destruct (at_index i l l' El El') as (sl & Ef & L & L'). apply (player_gplaced dx dy (Z.of_nat i) gt sl (g sl)); auto; [|exact (all_typed sf HV sl (nth_error_In _ _ Ef))]. rewrite Forall_forall in Gr. exact (Gr sl (nth_error_In _ _ Ef)).
  Qed.
  Lemma hs : Forall (sound dx dy) lsB.
  Proof.
    apply Forall_forall. intros x I. apply in_map_iff in I. destruct I as (l & <- & I). apply In_nth_error in I. destruct I as [i El].
    destruct (nth_error full' i) as [l'|] eqn:El'; [|apply nth_error_None in El'; rewrite <- same_length in El'; apply nth_error_None in El'; congruence].
    destruct (at_index i l l' El El') as (sl & Ef & L & _). pose proof (nth_error_In _ _ Ef) as Hin. rewrite Forall_forall in Hv, So, Sd.
    exact (player_sound inflate large dx dy (Z.of_nat i) sl l (Hv sl Hin) L Hdx Hdy (So sl Hin) (Sd sl Hin)).
  Qed.
  Lemma hq i l : nth_error lsB i = Some l -> pseq l = Z.of_nat i.
  Proof.
    intros E. rewrite nth_error_map in E. destruct (nth_error full i) as [k|] eqn:El; [|discriminate]. injection E as <-.
    destruct (nth_error full' i) as [l'|] eqn:El'; [|apply nth_error_None in El'; rewrite <- same_length in El'; apply nth_error_None in El'; congruence].
    destruct (at_index i k l' El El') as (sl & _ & [(E & _) _] & _). exact E.
  Qed.
  Notation caring := (care lsB).
  Lemma care_is i l0 : nth_error lsB i = Some l0 -> on l0 -> caring (pseq l0).
  Proof.
    intros E O l I Eq. apply In_nth_error in I. destruct I as [j Ej]. rewrite (hq _ _ E), (hq _ _ Ej) in Eq. assert (j = i) by lia. subst j. rewrite E in Ej. now injection Ej as <-.
  Qed.
  Lemma enabled_on c : maskEnabled c = true -> on c.
  Proof. clear. unfold maskEnabled, on. lia. Qed.
  Lemma copy_by st i c : MWait.steps stepB (lstart lsB) st -> lended st -> nth_error (ldCopied st) i = Some c -> exists l0, nth_error lsB i = Some l0 /\ pseq c = pseq l0 /\ pflags c = pflags l0.
  Proof.
    intros S E Ec. destruct (inv_endBy rnd lib cpus ts T gt lsB (nodup_of lsB hq) st S E) as (_ & _ & C & Ln).
    destruct (nth_error lsB i) as [l0|] eqn:E0; [|apply nth_error_None in E0; rewrite <- Ln in E0; apply nth_error_None in E0; congruence]. exists l0. split; [reflexivity|].
    destruct (C i l0 E0) as (l & El & St). rewrite Ec in El. injection El as <-. apply stage_sameBy in St. unfold sameButRects in St. rewrite St. cbn. auto.
  Qed.
  Lemma copy_at st i c : MWait.steps stepA (lstart lsA) st -> lended st -> nth_error (ldCopied st) i = Some c -> exists l0, nth_error lsB i = Some l0 /\ pseq c = pseq l0 /\ pflags c = pflags l0.
  Proof.
    intros S E Ec. pose proof (nodup_of lsA (Hq' dx dy gt lsB lsA hp hq)) as Nd.
    destruct (inv_end cpus ts lsA Nd st S E) as (_ & _ & C & Ln).
    destruct (nth_error lsA i) as [l0'|] eqn:E0'; [|apply nth_error_None in E0'; rewrite <- Ln in E0'; apply nth_error_None in E0'; congruence].
    destruct (nth_error lsB i) as [l0|] eqn:E0; [|apply nth_error_None in E0; rewrite (Forall2_len _ _ _ hp) in E0; apply nth_error_None in E0; congruence]. exists l0. split; [reflexivity|].
    destruct (Forall2_nth1 _ _ _ _ _ hp E0) as (l1 & E1 & P1). rewrite E0' in E1. injection E1 as <-. rewrite <- (gl_seq _ _ _ _ _ P1), <- (gl_flags _ _ _ _ _ P1).
    destruct (C i l0' E0') as (l & El & St). rewrite Ec in El. injection El as <-. apply stage_same in St. unfold sameButRects in St. rewrite St. cbn. auto.
  Qed.
  Lemma enabled_same i c c' l0 : lrel caring c c' -> nth_error lsB i = Some l0 -> pseq c = pseq l0 -> pflags c = pflags l0 -> maskEnabled c' = maskEnabled c.
  Proof.
    intros (E1 & E2 & E3 & E4) E0 Es Ef. unfold maskEnabled. rewrite E2. destruct (Z.land (pflags c) 2 =? 0) eqn:On; [|reflexivity]. cbn [andb]. f_equal. apply E4.
    rewrite Es. apply (care_is i); [exact E0|]. unfold on. rewrite <- Ef. lia.
  Qed.
  Lemma root_by_at st st' : MWait.steps stepB (lstart lsB) st -> lended st -> Sim caring st st' -> rootOf (ldCopied st) tr = rootOf (ldCopied st') tr'.
  Proof.
    intros S E Si. unfold rootOf. do 2 f_equal. apply (gforests_same g flat) with (k := list_sum (map ssize sf)) (sf := sf) (i := 0%nat); [|apply le_n|intros j sl Ej; exact Ej|exact Tr|exact Tr'].
    intros i sl r r' Ef L L'. destruct (inv_endBy rnd lib cpus ts T gt lsB (nodup_of lsB hq) st S E) as (_ & _ & _ & Ln).
    assert (Hi : (i < length (ldCopied st))%nat) by (rewrite Ln, map_length, (layers_are_length _ _ _ _ _ _ _ Lf); apply nth_error_Some; congruence).
    destruct (nth_error (ldCopied st) i) as [c|] eqn:Ec; [|apply nth_error_None in Ec; lia]. destruct (Forall2_nth1 _ _ _ _ _ (sim_copied _ _ _ Si) Ec) as (c' & Ec' & R).
    exists c, c'. split; [reflexivity|]. split; [exact Ec'|]. destruct (copy_by st i c S E Ec) as (l0 & E0 & Es & Ec0).
    apply (built_same dx dy (Z.of_nat i) gt sl (g sl) r r' L L' (gr_in sl (nth_error_In _ _ Ef)) (all_typed sf HV sl (nth_error_In _ _ Ef))); [exact (proj1 R)|exact (enabled_same i c c' l0 R E0 Es Ec0)|exact (proj1 (proj2 (proj2 R)))].
  Qed.
  Lemma root_at_by st st' : MWait.steps stepA (lstart lsA) st' -> lended st' -> Sim caring st' st -> rootOf (ldCopied st') tr' = rootOf (ldCopied st) tr.
  Proof.
    intros S E Si. symmetry. unfold rootOf. do 2 f_equal. apply (gforests_same g flat) with (k := list_sum (map ssize sf)) (sf := sf) (i := 0%nat); [|apply le_n|intros j sl Ej; exact Ej|exact Tr|exact Tr'].
    intros i sl r r' Ef L L'. destruct (inv_end cpus ts lsA (nodup_of lsA (Hq' dx dy gt lsB lsA hp hq)) st' S E) as (_ & _ & _ & Ln).
    assert (Hi : (i < length (ldCopied st'))%nat) by (rewrite Ln, map_length, <- same_length, (layers_are_length _ _ _ _ _ _ _ Lf); apply nth_error_Some; congruence).
    destruct (nth_error (ldCopied st') i) as [c'|] eqn:Ec; [|apply nth_error_None in Ec; lia]. destruct (Forall2_nth1 _ _ _ _ _ (sim_copied _ _ _ Si) Ec) as (c & Ec' & R).
    exists c, c'. split; [exact Ec'|]. split; [reflexivity|]. destruct (copy_at st' i c' S E Ec) as (l0 & E0 & Es & Ec0).
    apply (built_same dx dy (Z.of_nat i) gt sl (g sl) r r' L L' (gr_in sl (nth_error_In _ _ Ef)) (all_typed sf HV sl (nth_error_In _ _ Ef))); [symmetry; exact (proj1 R)|symmetry; exact (enabled_same i c' c l0 R E0 Es Ec0)|symmetry; exact (proj1 (proj2 (proj2 R)))].
  Qed.
  Lemma file_same cpus' r' d w0 w1 :
    (exists st, MWait.steps stepB (lstart lsB) st /\ lended st /\ renderedPx ts (ldImages st) cpus' ts r' d (rootOf (ldCopied st) tr) w0 w1) <->
    (exists st, MWait.steps stepA (lstart lsA) st /\ lended st /\ renderedPx ts (ldImages st) cpus' ts r' d (rootOf (ldCopied st) tr') w0 w1).
  Proof.
    split.
    - intros (st & S & E & R). destruct (by_at rnd lib cpus ts dx dy Hr Hl Hc Ht gt Hg lsB lsA hp hs hq st S E) as (st' & S' & E' & Si). exists st'. split; [exact S'|]. split; [exact E'|].
      eapply sim_picture; [exact Si| |exact (root_by_at st st' S E Si)|exact R]. intros c I Hm. apply In_nth_error in I. destruct I as [i Ec].
      destruct (copy_by st i c S E Ec) as (l0 & E0 & -> & Ef). apply (care_is i); [exact E0|]. unfold on. rewrite <- Ef. exact (enabled_on c Hm).
    - intros (st' & S' & E' & R). destruct (at_by rnd lib cpus ts dx dy Hr Hl Hc Ht gt Hg lsB lsA hp hs hq st' S' E') as (st & S & E & Si). exists st. split; [exact S|]. split; [exact E|].
      eapply sim_picture; [exact Si| |exact (root_at_by st st' S' E' Si)|exact R]. intros c I Hm. apply In_nth_error in I. destruct I as [i Ec].
      destruct (copy_at st' i c S' E' Ec) as (l0 & E0 & -> & Ef). apply (care_is i); [exact E0|]. unfold on. rewrite <- Ef. exact (enabled_on c Hm).
  Qed.
  Lemma file_ends : exists st, MWait.steps stepB (lstart lsB) st /\ lended st.
  Proof.
    apply loader_endsBy; [exact Hc|]. eapply Forall_impl; [|exact hs]. intros l S. destruct (canvas_by rnd lib cpus ts dx dy Hr Hl Hc Ht gt Hg l S) as (k & c & C).
    pose proof (canvasOf_sameBy _ _ _ _ _ _ _ _ _ C) as Ek. destruct (mask_by_ rnd lib cpus ts dx dy Hr Hl Hc Ht l S (prect k)) as (k2 & m & M). exists k, c, k2, m. split; [exact C|]. now rewrite Ek.
  Qed.
End file.

Lemma graded_file inflate kind procs h rsv cmd res neg pl sf pad gmask bs tail rest cpus ts dx dy pow gamma g : (1 <= procs)%nat -> (1 <= cpus)%nat -> 0 < ts ->
  header_valid h -> h_mode h = 3 -> h_depth h = 8 -> zlen rsv = 6 -> zlen cmd < 4294967296 ->
  Forall rblock_valid res -> zlen (enc_rblocks res) < 4294967296 ->
  let large := h_version h =? 2 in let sf' := map (each_layer g) sf in
  let gt := option_map (makeGammaTable pow) gamma in let ft c := match gt with Some t => if (dx =? 0) && (dy =? 0) then c else T16 t (T8 t c) | None => c end in
  section_valid inflate large neg 8 3 pl (flat_map sflatten sf) pad gmask bs tail -> section_valid inflate large neg 8 3 pl (flat_map sflatten sf') pad gmask bs tail ->
  Forall stree_valid sf -> Forall (fun sl => graded ft dx dy sl (g sl)) (flat_map sflatten sf) -> Forall solid_picture (flat_map sflatten sf) -> Forall steady (flat_map sflatten sf) ->
  - 2 ^ 51 <= dx <= 2 ^ 51 -> - 2 ^ 51 <= dy <= 2 ^ 51 ->
  let enc := enc_config h rsv cmd res ++ enc_section large neg pl (flat_map sflatten sf) pad gmask bs tail in
  let enc' := enc_config h rsv cmd res ++ enc_section large neg pl (flat_map sflatten sf') pad gmask bs tail in
  exists f evs f' evs', Decode inflate kind procs newOptions (enc ++ rest) = (Ok (f, zlen enc, rest), evs) /\ Decode inflate kind procs newOptions (enc' ++ rest) = (Ok (f', zlen enc', rest), evs') /\
    forall rnd lib mm, SThumb.rounding rnd -> good_library lib -> moves_by mm dx dy ->
    (exists st, MWait.steps (lstepBy rnd lib cpus ts (newMatrix mm) gt) (lstart (map (fun e => playerOf (ev_layer e)) evs)) st /\ lended st) /\
    forall cpus' r' d w0 w1,
    (exists st, MWait.steps (lstepBy rnd lib cpus ts (newMatrix mm) gt) (lstart (map (fun e => playerOf (ev_layer e)) evs)) st /\ lended st /\
      renderedPx ts (ldImages st) cpus' ts r' d (rootOf (ldCopied st) (f_layer f)) w0 w1) <->
    (exists st, MWait.steps (lstep cpus ts) (lstart (map (fun e => playerOf (ev_layer e)) evs')) st /\ lended st /\
      renderedPx ts (ldImages st) cpus' ts r' d (rootOf (ldCopied st) (f_layer f')) w0 w1).
Proof.
  intros Hpr Hc Ht Hh Hm Hd Hr Hcm Hres Hrl large sf' gt ft Hs Hs' HV Gr So Sd Hdx Hdy enc enc'.
  assert (D : forall sf0, section_valid inflate large neg 8 3 pl (flat_map sflatten sf0) pad gmask bs tail -> Forall stree_valid sf0 ->
    let e := enc_config h rsv cmd res ++ enc_section large neg pl (flat_map sflatten sf0) pad gmask bs tail in
    exists f evs full, Decode inflate kind procs newOptions (e ++ rest) = (Ok (f, zlen e, rest), evs) /\ trees_are false 3 8 3 0 sf0 (f_layer f) /\
      map (fun e => playerOf (ev_layer e)) evs = map playerOf full /\ layers_are false 3 8 3 0 (flat_map sflatten sf0) full).
  { intros sf0 S0 V0 e.
    destruct (decode_layers inflate kind procs newOptions h rsv cmd res 3 neg pl sf0 pad gmask bs tail rest Hpr Hh Hr Hcm Hres Hrl) as (f & evs & ED & _ & ET & _ & _ & _ & _ & full & Ee & Lf).
    - left. rewrite Hm, Hd. auto.
    - rewrite Hm. reflexivity.
    - reflexivity.
    - cbn [newOptions o_config_loaded config_of cfg_mode]. rewrite Hm. reflexivity.
    - rewrite Hd. exact S0.
    - exact V0.
    - exists f, evs, full. split; [exact ED|]. rewrite Hm, Hd in *. split; [exact ET|]. split; [|exact Lf].
      rewrite Ee. unfold section_events. cbn [newOptions o_skip_layer]. rewrite <- (map_map ev_layer playerOf). now rewrite events_layers. }
  assert (Hg : match gt with Some t => forall i, 0 <= T8 t i < 65536 | None => True end) by (unfold gt; destruct gamma as [ga|]; [exact (table_range pow ga)|exact I]).
  destruct (D sf Hs HV) as (f & evs & full & ED & ET & Ee & Lf). destruct (D sf' Hs' (valid_each ft dx dy g sf Gr HV)) as (f' & evs' & full' & ED' & ET' & Ee' & Lf').
  exists f, evs, f', evs'. split; [exact ED|]. split; [exact ED'|]. rewrite Ee, Ee'. clear D ED ED' Ee Ee'. unfold sf' in Lf', ET'. rewrite flat_each in Lf'. intros rnd lib mm Hrd Hlb Hmm. rewrite (newMatrix_moves _ _ _ Hmm). split.
  - exact (file_ends inflate large cpus ts dx dy gt g Hg Hc Ht sf full full' Lf Lf' (proj1 Hs) So Sd rnd lib Hrd Hlb Hdx Hdy).
  - intros cpus' r' d w0 w1. exact (file_same inflate large cpus ts dx dy gt g Hg Hc Ht sf full full' _ _ Lf Lf' ET ET' (proj1 Hs) HV Gr So Sd rnd lib Hrd Hlb Hdx Hdy cpus' r' d w0 w1).
Qed.
