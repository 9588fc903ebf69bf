(** The trees of edited files. *)
From Coq Require Import String Permutation.
From Verif Require Import Base BaseFacts SUtil SConfig MRect MPicker MConfig MReader MLayer MApi SCompress SRecord SLayer PConfig2 PRecord4
  MSched PSched MBlend MPorter SBlend MWait PWait MRender SRender SRenderLate PRender PRender2 MRenderAll SRenderAll PRenderAll MRenderLate MRenderPx PRenderPx
  MDraw MTile STile PTile MLoad SLoad PLoad STileRender PTileRender MPipe SPipe SClip PClip PPipe PPipe2 PPipe3 PPipe5 SSharp PSharp PSharp2 PSharp3 SLive.
Close Scope string_scope.
Open Scope Z_scope.

(** * The layers that the loader gets are the same *)
Lemma alike_refl l : alike l l.
Proof. repeat split; auto. Qed.
Lemma edited_flat e : forall n sf, (list_sum (map ssize sf) <= n)%nat -> forall i sf', trees_edited e i sf sf' ->
  Forall2 alike (flat_map sflatten sf) (flat_map sflatten sf').
Proof.
  induction n as [|n IH]; intros sf Hsz i sf' H.
  { destruct sf as [|[l|d f c] sf]; cbn in Hsz; try lia. inversion H; subst. constructor. }
  destruct sf as [|t sf]; inversion H as [|? ? t' ? ts' T Ts]; subst; [constructor|]. assert (Hs1 : (ssize t + list_sum (map ssize sf) <= S n)%nat) by exact Hsz.
  cbn [flat_map]. apply Forall2_app; [|eapply IH; [destruct t; cbn [ssize] in Hs1; lia|exact Ts]].
  inversion T as [? l l' L|? d f f' c c' C L]; subst; cbn [sflatten].
  - constructor; [exact (proj1 L)|constructor].
  - constructor; [apply alike_refl|]. apply Forall2_app; [|constructor; [exact (proj1 L)|constructor]]. eapply IH; [|exact C]. cbn [ssize] in Hs1. lia.
Qed.
Lemma player_alike inflate large i sl sl' l l' : alike sl sl' -> slayer_valid inflate large 8 3 sl -> layer_is false 3 8 3 i sl l -> layer_is false 3 8 3 i sl' l' -> playerOf l' = playerOf l.
Proof.
  intros (Er & Ec & _ & Em & _ & Et) V L L'. pose proof (layer_image _ _ _ L) as Im. pose proof (layer_image _ _ _ L') as Im'.
  assert (Ed : forall id, planeOf l' id = planeOf l id). { intros id. rewrite Im, Im'. unfold chan_data. now rewrite Ec. }
  assert (Ty : exists t, has_type sl t).
  { unfold has_type. destruct V as (_ & _ & _ & _ & _ & _ & _ & _ & _ & _ & _ & _ & _ & _ & V). destruct (divider_info (sl_info sl)); [|now exists 0]. destruct V as (t & bm & sub & D). eauto. }
  destruct Ty as [t Ty]. pose proof (has_type_is _ _ _ _ (proj1 L) Ty) as T1. pose proof (has_type_is _ _ _ _ (proj1 L') (proj2 (Et t) Ty)) as T2.
  unfold playerOf, plane0. rewrite !Ed, T1, T2. destruct L as [(-> & -> & _ & _ & _ & _ & -> & _) _]. destruct L' as [(-> & -> & _ & _ & _ & _ & -> & _) _]. now rewrite Er, Em.
Qed.
Lemma players_alike inflate large : forall flat flat', Forall2 alike flat flat' -> forall i full full', Forall (slayer_valid inflate large 8 3) flat ->
  layers_are false 3 8 3 i flat full -> layers_are false 3 8 3 i flat' full' -> map playerOf full' = map playerOf full.
Proof.
  induction 1 as [|sl sl' flat flat' A _ IH]; intros i full full' V L L'; destruct full, full'; cbn [layers_are] in *; try easy.
  cbn [map]. f_equal; [eapply player_alike; [exact A|exact (Forall_inv V)|apply L|apply L']|]. eapply IH; [exact (Forall_inv_tail V)|apply L|apply L'].
Qed.

(** * The tree *)
Lemma based_run : forall ks ks', based ks ks' -> match ks with k :: _ => lclipping (latt k) = false | [] => True end.
Proof. intros ks ks' H. inversion H; auto. Qed.
Lemma run_only (cs cs' ks ks' : list MRender.layer) : Forall (fun c => lclipping (latt c) = true) cs -> Forall (fun c => lclipping (latt c) = true) cs' ->
  match ks with k :: _ => lclipping (latt k) = false | [] => True end -> match ks' with k :: _ => lclipping (latt k) = false | [] => True end ->
  cs ++ ks = cs' ++ ks' -> cs = cs' /\ ks = ks'.
Proof.
  intros H. revert cs'. induction H as [|c cs Hc _ IH]; intros cs' H' N N' E; destruct H' as [|c' cs' Hc' H']; cbn [app] in E.
  - auto.
  - subst ks. congruence.
  - subst ks'. congruence.
  - injection E as <- E. destruct (IH cs' H' N N' E) as [-> ->]. auto.
Qed.
Lemma based_fun : forall ks a, based ks a -> forall b, based ks b -> a = b.
Proof.
  induction 1 as [|k cs ks ks' Ek Hk B IH]; intros b Hb.
  - inversion Hb. reflexivity.
  - inversion Hb as [|k2 cs2 ks2 ks2' Ek2 Hk2 B2 [E1 E2] E3]. subst k2 b. destruct (run_only cs2 cs ks2 ks Hk2 Hk (based_run _ _ B2) (based_run _ _ B) E2) as [-> ->]. f_equal. auto.
Qed.
Lemma grouped_fun : forall ks a, grouped ks a -> forall b, grouped ks b -> a = b.
Proof.
  induction 1 as [|k ks ks' Ek G IH|ks ks' B]; intros b Hb.
  - inversion Hb as [| |? ? B]; subst; [reflexivity|]. inversion B. reflexivity.
  - inversion Hb as [|? ? ? ? G2|? ? B]; subst; [f_equal; auto|]. pose proof (based_run _ _ B) as X. cbn in X. congruence.
  - inversion Hb as [|? ? ? E G2|? ? B2]; subst.
    + inversion B. reflexivity.
    + pose proof (based_run _ _ B) as X. cbn in X. congruence.
    + eapply based_fun; eauto.
Qed.
Section touch.
  Variable e : edit.
  Lemma touched_eq k : touched e k = Lay (touch e (latt k)) (map (touched e) (lkids k)) (map (touched e) (lgroup k)).
  Proof. destruct k. reflexivity. Qed.
  Lemma touched_att k : latt (touched e k) = touch e (latt k).
  Proof. now rewrite touched_eq. Qed.
  Lemma clip_touched cs : Forall (fun c => lclipping (latt c) = true) cs -> Forall (fun c => lclipping (latt c) = true) (map (touched e) cs).
  Proof. induction 1; constructor; auto. now rewrite touched_att. Qed.
  Lemma based_touched : forall ks ks', based ks ks' -> based (map (touched e) ks) (map (touched e) ks').
  Proof.
    induction 1 as [|k cs ks ks' Ek Hk _ IH]; [constructor|]. cbn [map touched]. rewrite map_app.
    replace (Lay (touch e (latt k)) _ _) with (Lay (latt (touched e k)) (lkids (touched e k)) (map (touched e) cs)) by (now rewrite touched_eq).
    constructor; [now rewrite touched_att|now apply clip_touched|exact IH].
  Qed.
  Lemma grouped_touched : forall ks ks', grouped ks ks' -> grouped (map (touched e) ks) (map (touched e) ks').
  Proof.
    induction 1 as [|k ks ks' Ek _ IH|ks ks' B]; [constructor| |apply grouped_base; now apply based_touched]. cbn [map touched].
    replace (Lay (touch e (latt k)) _ _) with (Lay (latt (touched e k)) (lkids (touched e k)) []) by (now rewrite touched_eq).
    apply grouped_first; [now rewrite touched_att|exact IH].
  Qed.
  Lemma withGroups_touched ks : withGroups (map (touched e) ks) = map (touched e) (withGroups ks).
  Proof. eapply grouped_fun; [apply withGroups_grouped|]. apply grouped_touched, withGroups_grouped. Qed.

  Variables (cpus : nat) (ts : Z).
  Hypotheses (Hc : (1 <= cpus)%nat) (Ht : 0 < ts).
  Variables (flat : list slayer) (full : list lrec) (st : loader).
  Hypothesis Lf : layers_are false 3 8 3 0 flat full.
  Hypothesis Hs : MWait.steps (lstep cpus ts) (lstart (map playerOf full)) st.
  Hypothesis He : lended st.
  Notation cs := (ldCopied st).

  Lemma leaf_bm_key sl l i t k : attributes_are i sl l -> has_type sl t -> t <> 1 -> t <> 2 -> leaf_key sl k -> blendModeOf l = k.
  Proof.
    intros A T N1 N2 K. pose proof (has_type_is _ _ _ _ A T) as E. destruct A as (_ & _ & B & _). unfold blendModeOf, lFolder. rewrite E, B. replace ((t =? 1) || (t =? 2)) with false by lia.
    change (ascii "pass"%string) with passThrough in K. unfold leaf_key in K. change (ascii "pass"%string) with passThrough in K.
    destruct (list_eqb (sl_blend sl) passThrough) eqn:Ep.
    - apply list_eqb_eq in Ep. destruct K as [[_ ->]|[N _]]; [reflexivity|contradiction].
    - destruct K as [[X _]|[_ ->]]; [|reflexivity]. rewrite X, list_eqb_refl' in Ep. discriminate.
  Qed.
  (** The attributes *)
  Lemma attr_touched i sl sl' r r' : nth_error flat i = Some sl -> layer_edited e (Z.of_nat i) sl sl' -> attributes_are (Z.of_nat i) sl r -> attributes_are (Z.of_nat i) sl' r' ->
    blendModeOf r' = e_bm e (Z.of_nat i) -> exists c, nth_error cs i = Some c /\ buildAttr r' c = touch e (buildAttr r c).
  Proof.
    intros E ((_ & _ & Ec & _ & Eg & _) & Eh & Eo) A A' Eb. destruct (rec_at cpus ts Hc Ht flat full st Lf Hs He i sl E) as (l & c & m & l1 & l2 & l' & L0 & _ & _ & _ & E' & S' & _).
    exists l'. split; [exact E'|]. assert (Es : pseq l' = Z.of_nat i). { rewrite S'. cbn [setMaskRect setRect playerOf pseq]. exact (proj1 (proj1 L0)). }
    unfold buildAttr, attrsOf, touch. cbn [lseq lclipping lbce lmen lmdc]. rewrite Es, Eb, (hidden_visible _ _ _ A'), Eh, negb_involutive.
    destruct A as (_ & _ & _ & _ & -> & _ & _ & _ & _ & -> & _). destruct A' as (_ & _ & _ & -> & -> & _ & _ & _ & _ & -> & _). fold (blends_group sl) (blends_group sl'). now rewrite Eo, Ec, Eg.
  Qed.
  Lemma win_app i a b : window flat i (a ++ b) -> window flat i a /\ window flat (i + length a) b.
  Proof.
    intros W. split; intros j sl E.
    - apply W. rewrite nth_error_app1; [exact E|]. apply nth_error_Some. congruence.
    - replace (i + length a + j)%nat with (i + (length a + j))%nat by lia. apply W. rewrite nth_error_app2 by lia. now replace (length a + j - length a)%nat with j by lia.
  Qed.
  Lemma tree_touched : forall n sf i sf' ls ls', (list_sum (map ssize sf) <= n)%nat -> Forall stree_valid sf' -> window flat i (flat_map sflatten sf) ->
    trees_edited e (Z.of_nat i) sf sf' -> trees_are false 3 8 3 (Z.of_nat i) sf ls -> trees_are false 3 8 3 (Z.of_nat i) sf' ls' ->
    map (treeOf cs) ls' = map (touched e) (map (treeOf cs) ls) /\ length (flat_map sflatten sf') = length (flat_map sflatten sf).
  Proof.
    induction n as [|n IH]; intros sf i sf' ls ls' Hsz HV W ED T T'.
    { destruct sf as [|[l|d f c] sf]; cbn in Hsz; try lia. inversion ED; subst. inversion T; subst. inversion T'; subst. auto. }
    destruct sf as [|t sf]; inversion ED as [|? ? t' ? sf2 E1 E2]; subst.
    { inversion T; subst. inversion T'; subst. auto. }
    inversion T as [|? ? ? l ls2 T1 T2]; subst. inversion T' as [|? ? ? l' ls2' T1' T2']; subst. assert (Hs1 : (ssize t + list_sum (map ssize sf) <= S n)%nat) by exact Hsz.
    cbn [flat_map] in *. apply win_app in W. destruct W as [W1 W2]. pose proof (Forall_inv HV) as V1. pose proof (Forall_inv_tail HV) as V2.
    assert (K : treeOf cs l' = touched e (treeOf cs l) /\ length (sflatten t') = length (sflatten t)).
    { inversion E1 as [? sl sl' Le Lk|? d f f' c c' Ce Le Lk]; subst.
      - inversion T1 as [? ? r L|]; subst. inversion T1' as [? ? r' L'|]; subst. inversion V1 as [? ty Ty N1 N2 N3|]; subst. split; [|reflexivity].
        pose proof (W1 0%nat sl eq_refl) as Ef. rewrite Nat.add_0_r in Ef.
        destruct (attr_touched i sl sl' r r' Ef Le (proj1 L) (proj1 L') (leaf_bm_key _ _ _ _ _ (proj1 L') Ty N1 N2 Lk)) as (c & E & Ea).
        cbn [treeOf touched map]. rewrite (proj1 (proj1 L)), (proj1 (proj1 L')), Nat2Z.id, E, Ea. reflexivity.
      - inversion T1 as [|? ? ? ? r lc Tc L]; subst. inversion T1' as [|? ? ? ? r' lc' Tc' L']; subst. inversion V1 as [|? ? ? ty Td Tf Hty Vc]; subst. cbn [sflatten] in *.
        set (N := length (flat_map sflatten c)) in *.
        assert (Wc : window flat (S i) (flat_map sflatten c) /\ nth_error flat (S i + N) = Some f).
        { change (d :: flat_map sflatten c ++ [f]) with ([d] ++ (flat_map sflatten c ++ [f])) in W1. apply win_app in W1. destruct W1 as [_ W1].
          cbn [length] in W1. apply win_app in W1. destruct W1 as [W1 W3]. split; [now replace (S i) with (i + 1)%nat by lia|].
          specialize (W3 0%nat f eq_refl). replace (S i + N)%nat with (i + 1 + length (flat_map sflatten c) + 0)%nat by (unfold N; lia). exact W3. }
        destruct Wc as [Wc Ef]. replace (Z.of_nat i + 1) with (Z.of_nat (S i)) in * by lia.
        destruct (IH c (S i) c' lc lc' ltac:(cbn [ssize] in Hs1; lia) Vc Wc Ce Tc Tc') as [IHk IHn].
        replace (Z.of_nat (S i) + zlen (flat_map sflatten c)) with (Z.of_nat (S i + N)) in * by (unfold N, zlen; lia).
        replace (Z.of_nat (S i) + zlen (flat_map sflatten c')) with (Z.of_nat (S i + N)) in * by (unfold N, zlen; lia).
        destruct (attr_touched (S i + N) f f' r r' Ef Le (proj1 L) (proj1 L') (folder_bm _ _ _ _ _ (proj1 L') Tf Hty Lk)) as (p & E & Ea). split.
        + cbn [treeOf touched]. rewrite (proj1 (proj1 L)), (proj1 (proj1 L')), Nat2Z.id, E, Ea. cbn [map]. f_equal. rewrite IHk. apply withGroups_touched.
        + cbn [length]. rewrite !app_length. cbn [length]. lia. }
    destruct K as [K Kn].
    assert (Es : Z.of_nat i + zlen (sflatten t) = Z.of_nat (i + length (sflatten t))) by (unfold zlen; lia).
    assert (Es' : Z.of_nat i + zlen (sflatten t') = Z.of_nat (i + length (sflatten t))) by (unfold zlen; lia). rewrite Es in *. rewrite Es' in *.
    destruct (IH sf (i + length (sflatten t))%nat sf2 ls2 ls2' ltac:(destruct t; cbn [ssize] in Hs1; lia) V2 W2 E2 T2 T2') as [I1 I2].
    split; [cbn [map]; now rewrite K, I1|]. rewrite !app_length. lia.
  Qed.
End touch.

(** * Sharp layers are firm *)
Lemma stable_opa {img msk} zero copyT blendOf destInM destOutM destInT destOverT clearT removeAlpha (canvas : Z -> option img) (mask : Z -> option msk) a o ks cs b op :
  stable zero copyT blendOf destInM destOutM destInT destOverT clearT removeAlpha canvas mask
    (Lay (Lattr (lseq a) (lvis a) o (lbm a) (lclipping a) (lbce a) (lmen a) (lmdc a)) ks cs) b op ->
  stable zero copyT blendOf destInM destOutM destInT destOverT clearT removeAlpha canvas mask (Lay a ks cs) b op.
Proof. destruct a. exact (fun H => H). Qed.
Section firm.
  Variables (n : nat) (canvas : Z -> option tile) (mask : Z -> option (list Z)).
  Hypothesis canvas_good : forall s t, canvas s = Some t -> exists f, holds n t f.
  Lemma sharp_firm l : sharpL n canvas mask l -> stable (zeroPx n) MRenderPx.copyPx blendPx destInMPx destOutMPx destInPx destOverPx (clearPx n) removeAlphaPx canvas mask l (zeroPx n) 255.
  Proof.
    intros H. inversion H as [a ks cs Ho Hm Hmode Hleaf Hg Hk Hc]; subst. apply (stable_opa _ _ _ _ _ _ _ _ _ _ _ a 255 ks cs).
    refine (proj1 (draws_sharp n canvas mask canvas_good _ _ _ _ (holds_zero n))). constructor; auto.
  Qed.
  Lemma sharp_sub p : forall l t, sharpL n canvas mask l -> layerAt l p = Some t -> sharpL n canvas mask t.
  Proof.
    induction p as [|[i j] p IH]; intros l t H E; [now injection E as <-|]. cbn [layerAt] in E. destruct (child l (i, j)) as [c|] eqn:Ec; [|discriminate].
    apply (IH c t); [|exact E]. inversion H as [a ks cs _ _ _ _ _ Hk _]; subst. rewrite Forall_forall in Hk.
    unfold child in Ec. cbn [lkids fst snd] in Ec. destruct (nth_error ks i) as [k|] eqn:Ek; [|discriminate]. apply nth_error_In in Ek. specialize (Hk k Ek).
    destruct j as [j|]; [|now injection Ec as <-]. inversion Hk as [a' ks' cs' _ _ _ _ _ _ Hc]; subst. rewrite Forall_forall in Hc. apply Hc. eapply nth_error_In. exact Ec.
  Qed.
End firm.

(** * The tree of an edited file *)
Section edited.
  Variables (inflate : bytes -> Z -> option (bytes * Z)) (large : bool) (cpus : nat) (ts : Z).
  Hypotheses (Hc : (1 <= cpus)%nat) (Ht : 0 < ts).
  Variables (sf : list stree) (full : list lrec) (st : loader) (ls : list MLayer.layer).
  Notation flat := (flat_map sflatten sf).
  Hypothesis Lf : layers_are false 3 8 3 0 flat full.
  Hypothesis Tf : trees_are false 3 8 3 0 sf ls.
  Hypothesis Hv : Forall (slayer_valid inflate large 8 3) flat.
  Hypothesis Hs : MWait.steps (lstep cpus ts) (lstart (map playerOf full)) st.
  Hypothesis He : lended st.
  Notation cs := (ldCopied st).
  Notation ims := (ldImages st).
  Notation n := (Z.to_nat (ts * ts)).

  Lemma edited_tree e sf' full' ls' : trees_edited e 0 sf sf' -> layers_are false 3 8 3 0 (flat_map sflatten sf') full' -> trees_are false 3 8 3 0 sf' ls' ->
    Forall (slayer_valid inflate large 8 3) (flat_map sflatten sf') -> Forall stree_valid sf' -> sharp_forest sf' ->
    let root' := retouched e (rootOf cs ls) in
    okTree blendPx (hasCanvasOf ims) root' /\ (forall q, sharpL n (canvasTile ims q) (maskTile ims q) root') /\
    (forall q s t, canvasTile ims q s = Some t -> exists f, holds n t f) /\
    (forall q p, at_tile ts q p -> forall d c, painted p sf' d c <-> c = kidsC (canvasTile ims q) (maskTile ims q) (pos ts q p) (lkids root') d).
  Proof.
    intros ED Lf' Tf' Hv' HV [HP HG] root'.
    pose proof (players_alike inflate large _ _ (edited_flat e _ sf (le_n _) _ _ ED) 0 full full' Hv Lf Lf') as Ep.
    assert (Hs' : MWait.steps (lstep cpus ts) (lstart (map playerOf full')) st) by (rewrite Ep; exact Hs).
    pose proof (sharp_class _ sf' (le_n _) HV HP) as Hcl.
    destruct (tree_touched e cpus ts Hc Ht flat full st Lf Hs He _ sf 0%nat sf' ls ls' (le_n _) HV (fun j sl E => E) ED Tf Tf') as [Et _].
    pose proof (tree_good inflate large cpus ts Hc Ht _ full' st Lf' Hv' Hs' He Hcl _ sf' 0%nat ls' (le_n _) HV HP (fun j sl E => E) Tf') as G.
    destruct (list_shown ts st _ _ _ _ G HG) as (Pq & Wf & Cg & Bq & Nq & Cq).
    assert (Er : root' = Lay (Lattr (-1) true 255 (str "norm"%string) false false false false) (withGroups (map (treeOf cs) ls')) []).
    { unfold root', retouched, rootOf. cbn [latt lkids lgroup]. now rewrite Et, withGroups_touched. }
    rewrite Er. set (ks := withGroups (map (treeOf cs) ls')) in *. cbn [lkids]. split; [|split; [|split; [|exact Cq]]].
    - split.
      + constructor; [unfold modeOK; change (isPT _) with false; unfold blendPx|intros _|exact Cg|intros ? []|exact Wf|constructor].
        * replace (m_get list_eqb blendModes _) with (Some Normal) by reflexivity. discriminate.
        * cbn [lseq]. unfold hasCanvasOf. destruct (m_get Z.eqb ims (-1)) as [li|] eqn:E; [|reflexivity]. exfalso.
          destruct (inv_end cpus ts _ (seqs_nodup _ _ Lf) st Hs He) as (_ & B & _). destruct (B _ _ E) as (i & l0 & Ei & Es).
          apply nth_error_In in Ei. apply in_map_iff in Ei. destruct Ei as (l1 & <- & Hl). pose proof (proj2 (layers_are_seqs _ _ _ _ _ _ _ Lf) l1 Hl) as X. cbn [playerOf pseq] in Es. lia.
      + cbn [latt lseq lkids]. constructor; [|exact Nq]. intros X. apply Bq in X. lia.
    - intros q. constructor; [now right|intros X; discriminate|intros _; vm_compute; discriminate|intros X; discriminate|intros X; congruence|apply Pq|constructor].
    - exact (canvas_good inflate cpus ts Hc Ht _ full' st Lf' Hs' He Hcl).
  Qed.
End edited.
