(** Loading a file with a translation and loading the file whose layers lie at the new place: the pictures. *)
From Coq Require Import String Permutation QArith.
From Verif Require Import Base BaseFacts SUtil SConfig MRect MThumb SThumb MPicker MConfig MReader MLayer MApi SCompress SRecord SLayer PConfig2 PRecord4
  MSched PSched MBlend MPorter SBlend PLum MWait PWait MRender SRender PRender PRender2 MRenderAll SRenderAll PRenderAll MRenderPx PRenderPx
  PFrame MDraw MTile STile PTile MLoad SLoad PLoad STileRender PTileRender MPipe SPipe SClip PClip PPipe PPipe2 PPipe3 PPipe4 PPipe5 SSharp PSharp2 PSharp3 PSharp4
  SGlass PGlass PGlass1 PGlass2 PGlass3 PGlass4 MTileRender MScale SScale PScale MMove SMove PMove1 PMove2 PMove3 PMove4 MLoadBy PLoadBy PMoveLoad SShift PShift1 PShift2 PShift3 PShift4.
Close Scope string_scope.
Open Scope Z_scope.

(** * The moved forest *)
Lemma flat_moved dx dy sf : flat_map sflatten (map (move_tree dx dy) sf) = map (move_layer dx dy) (flat_map sflatten sf).
Proof.
  assert (T : forall t, sflatten (move_tree dx dy t) = map (move_layer dx dy) (sflatten t)).
  { induction t as [l|dv f c H] using stree_ind2; [reflexivity|]. cbn [move_tree sflatten map]. f_equal. rewrite map_app. f_equal.
    induction H as [|t c Ht _ IH]; [reflexivity|]. cbn [map flat_map]. rewrite map_app. now f_equal. }
  induction sf as [|t sf IH]; [reflexivity|]. cbn [map flat_map]. rewrite map_app. now f_equal.
Qed.
Lemma type_moved dx dy l t : has_type (move_layer dx dy l) t <-> has_type l t. Proof. reflexivity. Qed.
Lemma valid_moved dx dy sf : Forall stree_valid sf -> Forall stree_valid (map (move_tree dx dy) sf).
Proof.
  assert (T : forall t, stree_valid t -> stree_valid (move_tree dx dy t)).
  { induction t as [l|dv f c H] using stree_ind2; intros V; inversion V as [? t0 Ty N1 N2 N3|? ? ? t0 Td Tf Ht Vc]; subst; cbn [move_tree].
    - apply (sleaf_valid _ t0); assumption.
    - apply (sfolder_valid _ _ _ t0); try assumption. clear - H Vc. induction H as [|t c Ht _ IH]; [constructor|]. inversion Vc; subst. cbn [map]. constructor; auto. }
  intros H. apply Forall_forall. intros t I. apply in_map_iff in I. destruct I as (u & <- & I). rewrite Forall_forall in H. auto.
Qed.
Lemma all_typed sf : Forall stree_valid sf -> forall sl, In sl (flat_map sflatten sf) -> exists t, has_type sl t.
Proof.
  assert (T : forall t, stree_valid t -> forall sl, In sl (sflatten t) -> exists ty, has_type sl ty).
  { induction t as [l|dv f c H] using stree_ind2; intros V sl I; inversion V as [? t0 Ty N1 N2 N3|? ? ? t0 Td Tf Ht Vc]; subst; cbn [sflatten] in I.
    - destruct I as [<-|[]]. eauto.
    - destruct I as [<-|I]; [eauto|]. apply in_app_or in I. destruct I as [I|[<-|[]]]; [|eauto]. apply in_flat_map in I. destruct I as (u & Iu & I). rewrite Forall_forall in *. eapply H; eauto. }
  intros H sl I. apply in_flat_map in I. destruct I as (u & Iu & I). rewrite Forall_forall in H. eapply T; eauto.
Qed.

(** * One layer *)
Section one.
  Variables (inflate : bytes -> Z -> option (bytes * Z)) (large : bool) (dx dy i : Z) (sl : slayer) (l l' : lrec).
  Hypothesis V : slayer_valid inflate large 8 3 sl.
  Hypothesis L : layer_is false 3 8 3 i sl l.
  Hypothesis L' : layer_is false 3 8 3 i (move_layer dx dy sl) l'.
  Hypothesis Ty : exists t, has_type sl t.

  Lemma built_same c c' : pseq c' = pseq c -> maskEnabled c' = maskEnabled c -> pmdc c' = pmdc c -> buildAttr l c = buildAttr l' c'.
  Proof.
    intros E1 E2 E3. unfold buildAttr, attrsOf, lVisible, blendModeOf, lFolder. rewrite E1, E2, E3.
    destruct Ty as [t Ht]. rewrite (has_type_is _ _ _ _ (proj1 L) Ht), (has_type_is _ _ _ _ (proj1 L') Ht).
    assert (Eb : l_sdblend l = l_sdblend l').
    { clear V. destruct L as [(_ & _ & _ & _ & _ & _ & _ & _ & _ & _ & A & _) _]. destruct L' as [(_ & _ & _ & _ & _ & _ & _ & _ & _ & _ & A' & _) _].
      cbn [move_layer sl_info sl_blend] in A'. unfold has_type in Ht. destruct (divider_info (sl_info sl)) as [d|].
      - destruct Ht as (bm & sub & Hd). destruct (A _ _ _ Hd) as (_ & -> & _). destruct (A' _ _ _ Hd) as (_ & -> & _). reflexivity.
      - destruct A as (_ & -> & _). destruct A' as (_ & -> & _). reflexivity. }
    rewrite Eb. destruct L as [(_ & _ & B1 & B2 & B3 & B4 & _ & _ & _ & B5 & _) _]. destruct L' as [(_ & _ & B1' & B2' & B3' & B4' & _ & _ & _ & B5' & _) _].
    rewrite B1, B2, B3, B4, B5, B1', B2', B3', B4', B5'. reflexivity.
  Qed.
  Lemma player_placed : placed dx dy (playerOf l) (playerOf l').
  Proof.
    pose proof (layer_image _ _ _ L) as Im. pose proof (layer_image _ _ _ L') as Im'. change (imageOf sl l') in Im'. destruct Ty as [t Ht].
    pose proof (has_type_is _ _ _ _ (proj1 L) Ht) as E1. pose proof (has_type_is _ _ _ _ (proj1 L') Ht) as E2.
    destruct L as [(A1 & A2 & _ & _ & _ & _ & A3 & _) _]. destruct L' as [(A1' & A2' & _ & _ & _ & _ & A3' & _) _].
    split; cbn [playerOf pseq ptype prect pr_ pg_ pb_ pa_ pmrect pmchan pmdc pflags]; unfold plane0; rewrite ?Im, ?Im'; try congruence.
    - rewrite A2, A2'. reflexivity.
    - rewrite A3, A3'. cbn [move_layer sl_mask]. destruct (sl_mask sl); cbn [move_mask mask_of mk_rect mask0]; [right; split; reflexivity|left; reflexivity|left; reflexivity].
    - rewrite A3, A3'. cbn [move_layer sl_mask]. destruct (sl_mask sl); reflexivity.
    - rewrite A3, A3'. cbn [move_layer sl_mask]. destruct (sl_mask sl); reflexivity.
  Qed.
  Hypothesis Hdx : - 2 ^ 51 <= dx <= 2 ^ 51.
  Hypothesis Hdy : - 2 ^ 51 <= dy <= 2 ^ 51.
  Hypothesis So : solid_picture sl.
  Hypothesis Sd : steady sl.
  Lemma moderate_of r : rect_valid r -> rempty r = false -> moderate r dx dy.
  Proof. clear - Hdx Hdy. unfold rect_valid, int32, rempty, moderate. intros. lia. Qed.
  Lemma player_sound : sound dx dy (playerOf l).
  Proof.
    pose proof (layer_image _ _ _ L) as Im. pose proof L as [(A1 & A2 & _ & _ & _ & _ & A3 & _) _].
    split; cbn [playerOf pseq ptype prect pr_ pg_ pb_ pa_ pmrect pmchan pmdc pflags]; rewrite ?A2, ?A3, ?mask_rect_is, ?mask_colour_is.
    - exact (moderate_of _ (proj1 V)).
    - intros HI _. unfold hasImage in HI. cbn [playerOf ptype] in HI. destruct So as [(t & Ht & N)|(S & dr & dg & db & Er & Eg & Eb)].
      { rewrite (has_type_is _ _ _ _ (proj1 L) Ht) in HI. lia. }
      unfold plane0. rewrite !Im, Er, Eg, Eb.
      pose proof (chan_len _ _ _ _ _ _ V Er ltac:(lia) ltac:(lia)) as Lr. pose proof (chan_len _ _ _ _ _ _ V Eg ltac:(lia) ltac:(lia)) as Lg.
      pose proof (chan_len _ _ _ _ _ _ V Eb ltac:(lia) ltac:(lia)) as Lb.
      split; [unfold plane_ok; lia|]. split; [unfold plane_ok; lia|]. split; [unfold plane_ok; lia|]. split.
      + destruct (chan_data sl 8 (-1)) eqn:E0; [|exact I]. pose proof (chan_len _ _ _ _ _ _ V E0 ltac:(lia) ltac:(lia)). unfold plane_ok. lia.
      + intros p v _ (rv & gv & bv & av & _ & _ & _ & Ha & ->). unfold solid in S. assert (K : av = 0 \/ av = 255).
        { destruct (chan_data sl 8 (-1)) as [da|]; [|now right]. exact (Forall_idx _ _ _ _ S Ha). }
        destruct K as [-> | ->]; cbn; auto.
    - intros a Ee Ea. rewrite Im in Ea. split; [exact (moderate_of _ (mask_valid inflate large sl V Ee) Ee)|]. split.
      + pose proof (mask_len inflate large sl a V Ea) as Ln. rewrite mask_rect_is in Ln. unfold plane_ok. lia.
      + unfold on. cbn [playerOf pflags]. rewrite A3. intros On. apply Sd. unfold has_mask. rewrite Ee. cbn [negb]. rewrite andb_true_r.
        unfold mask_rect in Ee. unfold mask_on. rewrite bit1 in On. destruct (sl_mask sl); [discriminate| |]; cbn [mask_of mk_flags] in On; destruct (Z.testbit _ 1); reflexivity || discriminate.
  Qed.
End one.

(** * Trees *)
Lemma forests_same dx dy flat cs cs' :
  (forall i sl r r', nth_error flat i = Some sl -> layer_is false 3 8 3 (Z.of_nat i) sl r -> layer_is false 3 8 3 (Z.of_nat i) (move_layer dx dy sl) r' ->
    exists c c', nth_error cs i = Some c /\ nth_error cs' i = Some c' /\ buildAttr r c = buildAttr r' c') ->
  forall k sf i ls ls', (list_sum (map ssize sf) <= k)%nat -> window flat i (flat_map sflatten sf) ->
  trees_are false 3 8 3 (Z.of_nat i) sf ls -> trees_are false 3 8 3 (Z.of_nat i) (map (move_tree dx dy) sf) ls' -> map (treeOf cs) ls = map (treeOf cs') ls'.
Proof.
  intros HN. induction k as [|k IH]; intros sf i ls ls1 Hsz HW HT HT'.
  { destruct sf as [|[l|d f c] sf]; cbn in Hsz; try lia. inversion HT; subst. inversion HT'; subst. reflexivity. }
  destruct sf as [|t sf]; [inversion HT; subst; inversion HT'; subst; reflexivity|].
  inversion HT as [|? ? ? l ls' T1 T2]; subst. clear HT. cbn [map] in HT'. inversion HT' as [|? ? ? l' ls1' T1' T2']; subst. clear HT'.
  cbn [flat_map] in *. apply window_split in HW. destruct HW as [W1 W2]. cbn [map].
  assert (Hs1 : (ssize t + list_sum (map ssize sf) <= S k)%nat) by exact Hsz.
  assert (Hs2 : (list_sum (map ssize sf) <= k)%nat) by (destruct t; cbn [ssize] in Hs1; lia).
  assert (Ez : zlen (sflatten (move_tree dx dy t)) = zlen (sflatten t)).
  { pose proof (flat_moved dx dy [t]) as E. cbn [map flat_map] in E. rewrite !app_nil_r in E. rewrite E. unfold zlen. now rewrite map_length. }
  rewrite Ez in T2'.
  f_equal; [|apply (IH sf (i + length (sflatten t))%nat); auto; replace (Z.of_nat (i + length (sflatten t))) with (Z.of_nat i + zlen (sflatten t)) by (unfold zlen; lia); assumption].
  destruct t as [sl|dv fo ct].
  - inversion T1 as [? ? r L|]; subst. cbn [move_tree] in T1'. inversion T1' as [? ? r' L'|]; subst. cbn [sflatten length] in *.
    pose proof (W1 0%nat sl eq_refl) as Ef. rewrite Nat.add_0_r in Ef. destruct (HN i sl r r' Ef L L') as (c & c' & Ec & Ec' & Pc).
    cbn [treeOf map]. now rewrite (seq_at _ _ _ L), (seq_at _ _ _ L'), Ec, Ec', Pc.
  - inversion T1 as [|? ? ? ? r lc T3 L]; subst. cbn [move_tree] in T1'. inversion T1' as [|? ? ? ? r' lc' T3' L']; subst. cbn [sflatten] in *.
    cbn [ssize] in Hs1. rewrite flat_moved in L'. set (M := length (flat_map sflatten ct)) in *.
    assert (Wc : window flat (S i) (flat_map sflatten ct) /\ nth_error flat (S i + M) = Some fo).
    { change (dv :: flat_map sflatten ct ++ [fo]) with ([dv] ++ (flat_map sflatten ct ++ [fo])) in W1. apply window_split in W1. destruct W1 as [_ W1].
      cbn [length] in W1. apply window_split in W1. destruct W1 as [W1 W3]. split; [now replace (S i) with (i + 1)%nat by lia|].
      specialize (W3 0%nat fo eq_refl). replace (S i + M)%nat with (i + 1 + length (flat_map sflatten ct) + 0)%nat by (unfold M; lia). exact W3. }
    destruct Wc as [Wc Ef].
    replace (Z.of_nat i + 1 + zlen (flat_map sflatten ct)) with (Z.of_nat (S i + M)) in L by (unfold M, zlen; lia).
    replace (Z.of_nat i + 1 + zlen (map (move_layer dx dy) (flat_map sflatten ct))) with (Z.of_nat (S i + M)) in L' by (unfold M, zlen; rewrite map_length; lia).
    destruct (HN _ fo r r' Ef L L') as (c & c' & Ec & Ec' & Pc). cbn [treeOf]. rewrite (seq_at _ _ _ L), (seq_at _ _ _ L'), Ec, Ec', Pc. do 2 f_equal.
    apply (IH ct (S i)); auto; [lia| |]; replace (Z.of_nat (S i)) with (Z.of_nat i + 1) by lia; assumption.
Qed.
Lemma allL_A P l : allL P l -> allA P l.
Proof. induction l as [a ks cs Hk Hc] using layer_rec'. inversion 1; subst. constructor; [assumption| |]; rewrite Forall_forall in *; auto. Qed.
(** All attributes of the tree are those of copies. *)
Lemma tree_all cs (P : lattr -> Prop) ls : P (latt layer0) -> (forall r c, In c cs -> P (buildAttr r c)) -> Forall (allL P) (map (treeOf cs) ls).
Proof.
  intros P0 HP. assert (T : forall l, allL P (treeOf cs l)).
  { induction l as [r ls0 H] using PNames.layer_ind2. cbn [treeOf]. constructor; [|apply groups_all|constructor].
    - destruct (nth_error cs (Z.to_nat (l_seq r))) as [c|] eqn:E; [|exact P0]. apply HP. exact (nth_error_In _ _ E).
    - apply Forall_forall. intros x I. apply in_map_iff in I. destruct I as (l & <- & I). rewrite Forall_forall in H. auto. }
  apply Forall_forall. intros x I. apply in_map_iff in I. destruct I as (l & <- & I). apply T.
Qed.
Lemma root_all cs (P : lattr -> Prop) ls : P (latt layer0) -> (forall r c, In c cs -> P (buildAttr r c)) -> P (Lattr (-1) true 255 (str "norm"%string) false false false false) -> allL P (rootOf cs ls).
Proof. intros P0 HP PR. unfold rootOf. constructor; [exact PR|apply groups_all; now apply tree_all|constructor]. Qed.

(** * The pictures *)
Lemma sim_picture care ts ls ls' st st' cpus' r' d w0 w1 : Sim care st st' -> (forall c, In c (ldCopied st) -> maskEnabled c = true -> care (pseq c)) ->
  rootOf (ldCopied st) ls = rootOf (ldCopied st') ls' ->
  renderedPx ts (ldImages st) cpus' ts r' d (rootOf (ldCopied st) ls) w0 w1 -> renderedPx ts (ldImages st') cpus' ts r' d (rootOf (ldCopied st') ls') w0 w1.
Proof.
  intros S HC <-. apply rendered_congr.
  - intros q s. unfold canvasTile. pose proof (sim_images _ _ _ S s) as R. unfold irel in R.
    destruct (m_get Z.eqb (ldImages st) s) as [[c m]|], (m_get Z.eqb (ldImages st') s) as [[c' m']|]; try easy. destruct R as [R _]. destruct c, c'; cbn in R; easy || apply R.
  - apply allL_A, root_all; [discriminate| |discriminate]. intros r c I Hm q. cbn [buildAttr attrsOf lmen lseq] in *. specialize (HC c I Hm).
    unfold maskTile. pose proof (sim_images _ _ _ S (pseq c)) as R. unfold irel in R.
    destruct (m_get Z.eqb (ldImages st) (pseq c)) as [[c1 m]|], (m_get Z.eqb (ldImages st') (pseq c)) as [[c' m']|]; try easy. destruct R as [_ R]. specialize (R HC). destruct m, m'; cbn in R; easy || apply R.
Qed.

Section file.
  Variables (inflate : bytes -> Z -> option (bytes * Z)) (large : bool) (cpus : nat) (ts dx dy : Z).
  Hypotheses (Hc : (1 <= cpus)%nat) (Ht : 0 < ts).
  Variables (sf : list stree) (full full' : list lrec) (tr tr' : list MLayer.layer).
  Notation flat := (flat_map sflatten sf).
  Hypothesis Lf : layers_are false 3 8 3 0 flat full.
  Hypothesis Lf' : layers_are false 3 8 3 0 (map (move_layer dx dy) flat) full'.
  Hypothesis Tr : trees_are false 3 8 3 0 sf tr.
  Hypothesis Tr' : trees_are false 3 8 3 0 (map (move_tree dx dy) sf) tr'.
  Hypothesis Hv : Forall (slayer_valid inflate large 8 3) flat.
  Hypothesis HV : Forall stree_valid sf.
  Hypothesis So : Forall solid_picture flat.
  Hypothesis Sd : Forall steady flat.
  Variables (rnd : Q -> Q) (lib : library).
  Hypothesis Hr : SThumb.rounding rnd.
  Hypothesis Hl : good_library lib.
  Hypothesis Hdx : - 2 ^ 51 <= dx <= 2 ^ 51.
  Hypothesis Hdy : - 2 ^ 51 <= dy <= 2 ^ 51.
  Notation T := (translation dx dy).
  Notation stepB := (lstepBy rnd lib cpus ts T None).
  Notation stepA := (lstep cpus ts).
  Notation lsB := (map playerOf full).
  Notation lsA := (map playerOf full').

  Lemma at_index i l l' : nth_error full i = Some l -> nth_error full' i = Some l' -> exists sl, nth_error flat i = Some sl /\
    layer_is false 3 8 3 (Z.of_nat i) sl l /\ layer_is false 3 8 3 (Z.of_nat i) (move_layer dx dy sl) l'.
  Proof.
    intros E E'. assert (Hi : (i < length flat)%nat) by (rewrite <- (layers_are_length _ _ _ _ _ _ _ Lf); apply nth_error_Some; congruence).
    destruct (nth_error flat i) as [sl|] eqn:Ef; [|apply nth_error_None in Ef; lia]. exists sl. split; [reflexivity|].
    destruct (layers_are_nth _ _ _ _ _ _ _ _ _ Lf Ef) as (l1 & E1 & L1). rewrite E in E1. injection E1 as <-. split; [exact L1|].
    destruct (layers_are_nth _ _ _ _ _ _ _ _ _ Lf' (map_nth_error (move_layer dx dy) _ _ Ef)) as (l2 & E2 & L2). rewrite E' in E2. now injection E2 as <-.
  Qed.
  Lemma same_length : length full = length full'.
  Proof. rewrite (layers_are_length _ _ _ _ _ _ _ Lf), (layers_are_length _ _ _ _ _ _ _ Lf'). now rewrite map_length. Qed.
  Lemma forall2_nth {A B} (R : A -> B -> Prop) : forall a b, length a = length b -> (forall i x y, nth_error a i = Some x -> nth_error b i = Some y -> R x y) -> Forall2 R a b.
  Proof.
    clear. induction a as [|x a IH]; intros [|y b] E H; try discriminate; constructor; [exact (H 0%nat x y eq_refl eq_refl)|]. apply IH; [now injection E|]. intros i u v. exact (H (S i) u v).
  Qed.
  Lemma hp : Forall2 (placed dx dy) lsB lsA.
  Proof.
    apply forall2_nth; [now rewrite !map_length, same_length|]. intros i x y E E'. rewrite nth_error_map in E, E'. destruct (nth_error full i) as [l|] eqn:El; [|discriminate]. destruct (nth_error full' i) as [l'|] eqn:El'; [|discriminate].
    injection E as <-. injection E' as <-. destruct (at_index i l l' El El') as (sl & Ef & L & L'). apply (player_placed dx dy (Z.of_nat i) sl); auto. exact (all_typed sf HV sl (nth_error_In _ _ Ef)).
  Qed.
  Lemma hs : Forall (sound dx dy) lsB.
  Proof.
    apply Forall_forall. intros x I. apply in_map_iff in I. destruct I as (l & <- & I). apply In_nth_error in I. destruct I as [i El].
    destruct (nth_error full' i) as [l'|] eqn:El'; [|apply nth_error_None in El'; rewrite <- same_length in El'; apply nth_error_None in El'; congruence].
    destruct (at_index i l l' El El') as (sl & Ef & L & _). pose proof (nth_error_In _ _ Ef) as Hin. rewrite Forall_forall in Hv, So, Sd.
    exact (player_sound inflate large dx dy (Z.of_nat i) sl l (Hv sl Hin) L Hdx Hdy (So sl Hin) (Sd sl Hin)).
  Qed.
  Lemma hq i l : nth_error lsB i = Some l -> pseq l = Z.of_nat i.
  Proof.
    intros E. rewrite nth_error_map in E. destruct (nth_error full i) as [k|] eqn:El; [|discriminate]. injection E as <-.
    destruct (nth_error full' i) as [l'|] eqn:El'; [|apply nth_error_None in El'; rewrite <- same_length in El'; apply nth_error_None in El'; congruence].
    destruct (at_index i k l' El El') as (sl & _ & [(E & _) _] & _). exact E.
  Qed.
  Notation caring := (care lsB).
  Lemma care_is i l0 : nth_error lsB i = Some l0 -> on l0 -> caring (pseq l0).
  Proof.
    intros E O l I Eq. apply In_nth_error in I. destruct I as [j Ej]. rewrite (hq _ _ E), (hq _ _ Ej) in Eq. assert (j = i) by lia. subst j. rewrite E in Ej. now injection Ej as <-.
  Qed.
  Lemma enabled_on c : maskEnabled c = true -> on c.
  Proof. clear. unfold maskEnabled, on. lia. Qed.
  Lemma copy_by st i c : MWait.steps stepB (lstart lsB) st -> lended st -> nth_error (ldCopied st) i = Some c -> exists l0, nth_error lsB i = Some l0 /\ pseq c = pseq l0 /\ pflags c = pflags l0.
  Proof.
    intros S E Ec. destruct (inv_endBy rnd lib cpus ts T None lsB (nodup_of lsB hq) st S E) as (_ & _ & C & Ln).
    destruct (nth_error lsB i) as [l0|] eqn:E0; [|apply nth_error_None in E0; rewrite <- Ln in E0; apply nth_error_None in E0; congruence]. exists l0. split; [reflexivity|].
    destruct (C i l0 E0) as (l & El & St). rewrite Ec in El. injection El as <-. apply stage_sameBy in St. unfold sameButRects in St. rewrite St. cbn. auto.
  Qed.
  Lemma copy_at st i c : MWait.steps stepA (lstart lsA) st -> lended st -> nth_error (ldCopied st) i = Some c -> exists l0, nth_error lsB i = Some l0 /\ pseq c = pseq l0 /\ pflags c = pflags l0.
  Proof.
    intros S E Ec. pose proof (nodup_of lsA (Hq' dx dy lsB lsA hp hq)) as Nd.
    destruct (inv_end cpus ts lsA Nd st S E) as (_ & _ & C & Ln).
    destruct (nth_error lsA i) as [l0'|] eqn:E0'; [|apply nth_error_None in E0'; rewrite <- Ln in E0'; apply nth_error_None in E0'; congruence].
    destruct (nth_error lsB i) as [l0|] eqn:E0; [|apply nth_error_None in E0; rewrite (Forall2_len _ _ _ hp) in E0; apply nth_error_None in E0; congruence]. exists l0. split; [reflexivity|].
    destruct (Forall2_nth1 _ _ _ _ _ hp E0) as (l1 & E1 & P1). rewrite E0' in E1. injection E1 as <-. rewrite <- (pl_seq _ _ _ _ P1), <- (pl_flags _ _ _ _ P1).
    destruct (C i l0' E0') as (l & El & St). rewrite Ec in El. injection El as <-. apply stage_same in St. unfold sameButRects in St. rewrite St. cbn. auto.
  Qed.
  Lemma enabled_same i c c' l0 : lrel caring c c' -> nth_error lsB i = Some l0 -> pseq c = pseq l0 -> pflags c = pflags l0 -> maskEnabled c' = maskEnabled c.
  Proof.
    intros (E1 & E2 & E3 & E4) E0 Es Ef. unfold maskEnabled. rewrite E2. destruct (Z.land (pflags c) 2 =? 0) eqn:On; [|reflexivity]. cbn [andb]. f_equal. apply E4.
    rewrite Es. apply (care_is i); [exact E0|]. unfold on. rewrite <- Ef. lia.
  Qed.
  Lemma root_by_at st st' : MWait.steps stepB (lstart lsB) st -> lended st -> Sim caring st st' -> rootOf (ldCopied st) tr = rootOf (ldCopied st') tr'.
  Proof.
    intros S E Si. unfold rootOf. do 2 f_equal. apply (forests_same dx dy flat) with (k := list_sum (map ssize sf)) (sf := sf) (i := 0%nat); [|apply le_n|intros j sl Ej; exact Ej|exact Tr|exact Tr'].
    intros i sl r r' Ef L L'. destruct (inv_endBy rnd lib cpus ts T None lsB (nodup_of lsB hq) st S E) as (_ & _ & _ & Ln).
    assert (Hi : (i < length (ldCopied st))%nat) by (rewrite Ln, map_length, (layers_are_length _ _ _ _ _ _ _ Lf); apply nth_error_Some; congruence).
    destruct (nth_error (ldCopied st) i) as [c|] eqn:Ec; [|apply nth_error_None in Ec; lia]. destruct (Forall2_nth1 _ _ _ _ _ (sim_copied _ _ _ Si) Ec) as (c' & Ec' & R).
    exists c, c'. split; [reflexivity|]. split; [exact Ec'|]. destruct (copy_by st i c S E Ec) as (l0 & E0 & Es & Ec0).
    apply (built_same dx dy (Z.of_nat i) sl r r' L L' (all_typed sf HV sl (nth_error_In _ _ Ef))); [exact (proj1 R)|exact (enabled_same i c c' l0 R E0 Es Ec0)|exact (proj1 (proj2 (proj2 R)))].
  Qed.
  Lemma root_at_by st st' : MWait.steps stepA (lstart lsA) st' -> lended st' -> Sim caring st' st -> rootOf (ldCopied st') tr' = rootOf (ldCopied st) tr.
  Proof.
    intros S E Si. symmetry. unfold rootOf. do 2 f_equal. apply (forests_same dx dy flat) with (k := list_sum (map ssize sf)) (sf := sf) (i := 0%nat); [|apply le_n|intros j sl Ej; exact Ej|exact Tr|exact Tr'].
    intros i sl r r' Ef L L'. destruct (inv_end cpus ts lsA (nodup_of lsA (Hq' dx dy lsB lsA hp hq)) st' S E) as (_ & _ & _ & Ln).
    assert (Hi : (i < length (ldCopied st'))%nat) by (rewrite Ln, map_length, <- same_length, (layers_are_length _ _ _ _ _ _ _ Lf); apply nth_error_Some; congruence).
    destruct (nth_error (ldCopied st') i) as [c'|] eqn:Ec; [|apply nth_error_None in Ec; lia]. destruct (Forall2_nth1 _ _ _ _ _ (sim_copied _ _ _ Si) Ec) as (c & Ec' & R).
    exists c, c'. split; [exact Ec'|]. split; [reflexivity|]. destruct (copy_at st' i c' S E Ec) as (l0 & E0 & Es & Ec0).
    apply (built_same dx dy (Z.of_nat i) sl r r' L L' (all_typed sf HV sl (nth_error_In _ _ Ef))); [symmetry; exact (proj1 R)|symmetry; exact (enabled_same i c' c l0 R E0 Es Ec0)|symmetry; exact (proj1 (proj2 (proj2 R)))].
  Qed.
  Lemma file_same cpus' r' d w0 w1 :
    (exists st, MWait.steps stepB (lstart lsB) st /\ lended st /\ renderedPx ts (ldImages st) cpus' ts r' d (rootOf (ldCopied st) tr) w0 w1) <->
    (exists st, MWait.steps stepA (lstart lsA) st /\ lended st /\ renderedPx ts (ldImages st) cpus' ts r' d (rootOf (ldCopied st) tr') w0 w1).
  Proof.
    split.
    - intros (st & S & E & R). destruct (by_at rnd lib cpus ts dx dy Hr Hl Hc Ht lsB lsA hp hs hq st S E) as (st' & S' & E' & Si). exists st'. split; [exact S'|]. split; [exact E'|].
      eapply sim_picture; [exact Si| |exact (root_by_at st st' S E Si)|exact R]. intros c I Hm. apply In_nth_error in I. destruct I as [i Ec].
      destruct (copy_by st i c S E Ec) as (l0 & E0 & -> & Ef). apply (care_is i); [exact E0|]. unfold on. rewrite <- Ef. exact (enabled_on c Hm).
    - intros (st' & S' & E' & R). destruct (at_by rnd lib cpus ts dx dy Hr Hl Hc Ht lsB lsA hp hs hq st' S' E') as (st & S & E & Si). exists st. split; [exact S|]. split; [exact E|].
      eapply sim_picture; [exact Si| |exact (root_at_by st st' S' E' Si)|exact R]. intros c I Hm. apply In_nth_error in I. destruct I as [i Ec].
      destruct (copy_at st' i c S' E' Ec) as (l0 & E0 & -> & Ef). apply (care_is i); [exact E0|]. unfold on. rewrite <- Ef. exact (enabled_on c Hm).
  Qed.
  Lemma file_ends : exists st, MWait.steps stepB (lstart lsB) st /\ lended st.
  Proof.
    apply loader_endsBy; [exact Hc|]. eapply Forall_impl; [|exact hs]. intros l S. destruct (canvas_by rnd lib cpus ts dx dy Hr Hl Hc Ht l S) as (k & c & C).
    pose proof (canvasOf_sameBy _ _ _ _ _ _ _ _ _ C) as Ek. destruct (mask_by_ rnd lib cpus ts dx dy Hr Hl Hc Ht l S (prect k)) as (k2 & m & M). exists k, c, k2, m. split; [exact C|]. now rewrite Ek.
  Qed.
End file.

Lemma shifted_file inflate kind procs h rsv cmd res neg pl sf pad gmask bs tail rest cpus ts dx dy : (1 <= procs)%nat -> (1 <= cpus)%nat -> 0 < ts ->
  header_valid h -> h_mode h = 3 -> h_depth h = 8 -> zlen rsv = 6 -> zlen cmd < 4294967296 ->
  Forall rblock_valid res -> zlen (enc_rblocks res) < 4294967296 ->
  let large := h_version h =? 2 in let sf' := map (move_tree dx dy) sf in
  section_valid inflate large neg 8 3 pl (flat_map sflatten sf) pad gmask bs tail -> section_valid inflate large neg 8 3 pl (flat_map sflatten sf') pad gmask bs tail ->
  Forall stree_valid sf -> Forall solid_picture (flat_map sflatten sf) -> Forall steady (flat_map sflatten sf) ->
  - 2 ^ 51 <= dx <= 2 ^ 51 -> - 2 ^ 51 <= dy <= 2 ^ 51 ->
  let enc := enc_config h rsv cmd res ++ enc_section large neg pl (flat_map sflatten sf) pad gmask bs tail in
  let enc' := enc_config h rsv cmd res ++ enc_section large neg pl (flat_map sflatten sf') pad gmask bs tail in
  exists f evs f' evs', Decode inflate kind procs newOptions (enc ++ rest) = (Ok (f, zlen enc, rest), evs) /\ Decode inflate kind procs newOptions (enc' ++ rest) = (Ok (f', zlen enc', rest), evs') /\
    forall rnd lib mm, SThumb.rounding rnd -> good_library lib -> moves_by mm dx dy ->
    (exists st, MWait.steps (lstepBy rnd lib cpus ts (newMatrix mm) None) (lstart (map (fun e => playerOf (ev_layer e)) evs)) st /\ lended st) /\
    forall cpus' r' d w0 w1,
    (exists st, MWait.steps (lstepBy rnd lib cpus ts (newMatrix mm) None) (lstart (map (fun e => playerOf (ev_layer e)) evs)) st /\ lended st /\
      renderedPx ts (ldImages st) cpus' ts r' d (rootOf (ldCopied st) (f_layer f)) w0 w1) <->
    (exists st, MWait.steps (lstep cpus ts) (lstart (map (fun e => playerOf (ev_layer e)) evs')) st /\ lended st /\
      renderedPx ts (ldImages st) cpus' ts r' d (rootOf (ldCopied st) (f_layer f')) w0 w1).
Proof.
  intros Hpr Hc Ht Hh Hm Hd Hr Hcm Hres Hrl large sf' Hs Hs' HV So Sd Hdx Hdy enc enc'.
  assert (D : forall sf0, section_valid inflate large neg 8 3 pl (flat_map sflatten sf0) pad gmask bs tail -> Forall stree_valid sf0 ->
    let e := enc_config h rsv cmd res ++ enc_section large neg pl (flat_map sflatten sf0) pad gmask bs tail in
    exists f evs full, Decode inflate kind procs newOptions (e ++ rest) = (Ok (f, zlen e, rest), evs) /\ trees_are false 3 8 3 0 sf0 (f_layer f) /\
      map (fun e => playerOf (ev_layer e)) evs = map playerOf full /\ layers_are false 3 8 3 0 (flat_map sflatten sf0) full).
  { intros sf0 S0 V0 e.
    destruct (decode_layers inflate kind procs newOptions h rsv cmd res 3 neg pl sf0 pad gmask bs tail rest Hpr Hh Hr Hcm Hres Hrl) as (f & evs & ED & _ & ET & _ & _ & _ & _ & full & Ee & Lf).
    - left. rewrite Hm, Hd. auto.
    - rewrite Hm. reflexivity.
    - reflexivity.
    - cbn [newOptions o_config_loaded config_of cfg_mode]. rewrite Hm. reflexivity.
    - rewrite Hd. exact S0.
    - exact V0.
    - exists f, evs, full. split; [exact ED|]. rewrite Hm, Hd in *. split; [exact ET|]. split; [|exact Lf].
      rewrite Ee. unfold section_events. cbn [newOptions o_skip_layer]. rewrite <- (map_map ev_layer playerOf). now rewrite events_layers. }
  destruct (D sf Hs HV) as (f & evs & full & ED & ET & Ee & Lf). destruct (D sf' Hs' (valid_moved dx dy sf HV)) as (f' & evs' & full' & ED' & ET' & Ee' & Lf').
  exists f, evs, f', evs'. split; [exact ED|]. split; [exact ED'|]. rewrite Ee, Ee'. clear D ED ED' Ee Ee'. unfold sf' in Lf', ET'. rewrite flat_moved in Lf'. intros rnd lib mm Hrd Hlb Hmm. rewrite (newMatrix_moves _ _ _ Hmm). split.
  - exact (file_ends inflate large cpus ts dx dy Hc Ht sf full full' Lf Lf' (proj1 Hs) So Sd rnd lib Hrd Hlb Hdx Hdy).
  - intros cpus' r' d w0 w1. exact (file_same inflate large cpus ts dx dy Hc Ht sf full full' _ _ Lf Lf' ET ET' (proj1 Hs) HV So Sd rnd lib Hrd Hlb Hdx Hdy cpus' r' d w0 w1).
Qed.
