(** Proofs: the rectangle of the tree covers everything that is visible. *)
From Coq Require Import String.
From Verif Require Import Base BaseFacts MRect MConfig MReader MLayer MApi SUtil SUtf16 SCompress SConfig SRecord SLayer XRecord PConfig2 PRecord4
  MBlend MPorter SBlend PLum SPorter PPorter MRender SRender MRenderAll SRenderAll MRenderPx PRenderPx MDraw MTile STile PTile STileRender PTileRender MLoad SLoad PLoad MPipe MNames SNames SPipe PPipe2 PPipe3 PPipe4 PPipe5 SSharp SGlass PGlass1 PGlass2 PGlass4 PTop PNames SFrame.
From Verif Require MWait.
Close Scope string_scope.
Open Scope list_scope.
Open Scope Z_scope.

(** * Nothing on nothing *)
Lemma masked_nothing A p l th v : masked A p l th nothing nothing v -> v = nothing.
Proof.
  unfold masked. destruct (has_mask l); [|auto]. intros (m & s' & _ & H & ->).
  assert (s' = nothing) as -> by (destruct H as [[_ ->]|[_ [[_ ->]|[_ ->]]]]; auto using pdmask_nothing). destruct th; reflexivity.
Qed.
Definition blank_at (p : point) (t : stree) : Prop := forall l v, picture_in l t -> leaf_value l p v -> v = nothing.
Lemma grouped_in (P : stree -> Prop) ts gs : layers_grouped ts gs -> Forall P ts -> forall t cs, In (t, cs) gs -> P t.
Proof.
  induction 1 as [|t ts gs E _ IH|t cs ts gs E F N _ IH]; intros H t' cs' Hin.
  - destruct Hin.
  - inversion H; subst. eauto.
  - inversion H as [|? ? H1 H2]; subst. apply Forall_app in H2. destruct H2 as [H2 H3]. destruct Hin as [[= <- <-]|Hin]; [auto|eauto].
Qed.
Lemma blank_content p dv f c : blank_at p (SFolder dv f c) -> Forall (blank_at p) c.
Proof. intros H. apply Forall_forall. intros t Ht l v Hl. apply H. econstructor; eauto. Qed.
Lemma blank_laid A p : forall op ts d d', laid A p op ts d d' -> Forall (blank_at p) ts -> Forall glass_tree ts -> opB op -> d = nothing -> d' = nothing.
Proof.
  pose proof (glass_ind A p (fun t op d v _ => blank_at p t -> glass_tree t -> byte op -> d = nothing -> v = nothing)
    (fun t cs op d d' _ => blank_at p t -> glass_tree t -> byte op -> d = nothing -> d' = nothing)
    (fun t cs v v' _ => v = nothing -> v' = nothing) (fun cs x y _ => True)
    (fun op ts d d' _ => Forall (blank_at p) ts -> Forall glass_tree ts -> opB op -> d = nothing -> d' = nothing)
    (fun op gs d d' _ => (forall t cs, In (t, cs) gs -> blank_at p t /\ glass_tree t) -> opB op -> d = nothing -> d' = nothing)) as G.
  apply G.
  - intros l op d s v Hl Hm B _ _ ->. rewrite (B l s) in Hm by (constructor || exact Hl). rewrite stored_nothing in Hm. now apply masked_nothing in Hm.
  - intros dv f c m op d s v Hf _ IH Hm B Gt Ho ->. inversion Gt; subst. rewrite IH in Hm; [now apply masked_nothing in Hm|now apply blank_content in B|assumption|exact I|reflexivity].
  - intros dv f c op d s v Hf _ IH Hm B Gt Ho ->. inversion Gt; subst. rewrite IH in Hm; [now apply masked_nothing in Hm|now apply blank_content in B|assumption|exact Ho|exact stored_nothing].
  - auto.
  - intros t cs m op d v v' _ _ _ _ IH1 _ IH2 B Gt Ho ->. rewrite (IH2 (IH1 B Gt Ho eq_refl)). apply blended_nothing; [exact Ho|exact nothing_ok].
  - intros t cs op d v v' _ _ _ _ _ IH1 _ IH2 B Gt Ho ->. rewrite (IH2 (IH1 B Gt Ho eq_refl)). exact stored_nothing.
  - auto.
  - auto.
  - intros t cs v x _ _ _ _ ->. apply pdpx_in_nothing.
  - auto.
  - auto.
  - intros op ts gs d d' L _ IH B Gt. apply IH. intros t cs Hin. split; eapply grouped_in; eauto.
  - auto.
  - intros op t cs gs d1 d2 d3 _ IH1 _ IH2 B Ho Hd. destruct (B t cs (or_introl eq_refl)) as [B1 B2]. apply IH2; [intros t' cs' X; apply (B t' cs'); now right|exact Ho|].
    apply IH1; auto. apply within_byte; [exact Ho|now apply glass_opacity].
Qed.

(** * The layers in order *)
Fixpoint sorder (s : stree) : list slayer := match s with SLeaf l => [l] | SFolder _ f c => f :: flat_map sorder c end.
Lemma stree_ind2 (P : stree -> Prop) : (forall l, P (SLeaf l)) -> (forall d f c, Forall P c -> P (SFolder d f c)) -> forall s, P s.
Proof.
  intros H1 H2. fix F 1. intros [l|d f c]; [apply H1|apply H2]. induction c as [|s c IH]; constructor; [apply F|exact IH].
Qed.
Lemma in_sorder sl s : In sl (sorder s) <-> in_tree sl s.
Proof.
  induction s as [l|d f c IH] using stree_ind2; cbn [sorder].
  - split; [intros [<-|[]]; constructor|]. inversion 1. now left.
  - rewrite Forall_forall in IH. split.
    + intros [<-|H]; [constructor|]. apply in_flat_map in H. destruct H as (t & Ht & H). apply (IH t Ht) in H. econstructor; eauto.
    + inversion 1; subst; [now left|right]. apply in_flat_map. exists t. split; [assumption|]. now apply IH.
Qed.
Lemma picture_tree sl s : picture_in sl s -> in_tree sl s.
Proof.
  induction s as [l|d f c IH] using stree_ind2; inversion 1; subst; [constructor|]. rewrite Forall_forall in IH. econstructor; eauto.
Qed.
Lemma picture_glass sl s : picture_in sl s -> glass_tree s -> glass_picture sl.
Proof.
  induction s as [l|d f c IH] using stree_ind2; inversion 1; subst; intros G; inversion G; subst; [assumption|]. rewrite Forall_forall in *. eauto.
Qed.

Section frame.
  Variables (inflate : bytes -> Z -> option (bytes * Z)) (large : bool) (cpus : nat) (ts : Z).
  Hypotheses (Hc : (1 <= cpus)%nat) (Ht : 0 < ts).
  Variables (flat : list slayer) (full : list lrec) (st : loader).
  Hypothesis Lf : layers_are false 3 8 3 0 flat full.
  Hypothesis Hv : Forall (slayer_valid inflate large 8 3) flat.
  Hypothesis Hs : MWait.steps (lstep cpus ts) (lstart (map playerOf full)) st.
  Hypothesis He : lended st.
  Notation cs := (ldCopied st).

  Definition stands_for (r : lrec) (sl : slayer) : Prop := exists i, l_seq r = Z.of_nat i /\ nth_error flat i = Some sl.
  Definition tree_order (iz : Z) (s : stree) (l : MLayer.layer) : Prop := forall i, iz = Z.of_nat i -> windowed flat i (sflatten s) -> Forall2 stands_for (preorder l) (sorder s).
  Definition trees_order (iz : Z) (ss : list stree) (ls : list MLayer.layer) : Prop := forall i, iz = Z.of_nat i -> windowed flat i (flat_map sflatten ss) ->
    Forall2 stands_for (flat_map preorder ls) (flat_map sorder ss).
  Lemma order : (forall i s l, tree_is false 3 8 3 i s l -> tree_order i s l) /\ (forall i ss ls, trees_are false 3 8 3 i ss ls -> trees_order i ss ls).
  Proof.
    apply trees_are_both.
    - intros iz sl l [A _] i -> W. specialize (W 0%nat sl eq_refl). rewrite Nat.add_0_r in W. cbn [preorder flat_map sorder]. constructor; [|constructor]. exists i. split; [apply A|exact W].
    - intros iz d f c l ls _ IH [A _] i -> W. cbn [sflatten] in W.
      change (d :: flat_map sflatten c ++ [f]) with ([d] ++ (flat_map sflatten c ++ [f])) in W. apply windowed_app in W. destruct W as [_ W].
      cbn [length] in W. apply windowed_app in W. destruct W as [W W3]. specialize (W3 0%nat f eq_refl). cbn [preorder sorder]. constructor.
      + eexists. split; [|exact W3]. destruct A as (-> & _). unfold zlen. lia.
      + apply (IH (i + 1)%nat); [lia|exact W].
    - intros iz i -> W. constructor.
    - intros iz t ss l ls _ IH1 _ IH2 i -> W. cbn [flat_map] in *. apply windowed_app in W. destruct W as [W1 W2]. apply Forall2_app; [now apply (IH1 i)|].
      apply (IH2 (i + length (sflatten t))%nat); [unfold zlen; lia|exact W2].
  Qed.

  (** The rectangle of a copy: that of the file, or the one around the tiles *)
  Lemma rect_at i sl : nth_error flat i = Some sl -> exists l c l1 c', layer_is false 3 8 3 (Z.of_nat i) sl l /\ canvasOf cpus ts (playerOf l) l1 c /\
    nth_error cs i = Some c' /\ (prect c' = sl_rect sl \/ exists t, c = Some t /\ bounds ts t (prect c')).
  Proof.
    intros E. destruct (layers_are_nth _ _ _ _ _ _ _ _ _ Lf E) as (l & El & L). rewrite Z.add_0_l in L.
    assert (Ep : nth_error (map playerOf full) i = Some (playerOf l)) by (now apply map_nth_error).
    assert (Nd : NoDup (map pseq (map playerOf full))).
    { rewrite map_map. change (fun l => pseq (playerOf l)) with l_seq. exact (proj1 (layers_are_seqs _ _ _ _ _ _ _ Lf)). }
    destruct (inv_end cpus ts _ Nd st Hs He) as (A & _). destruct (A i _ Ep) as (l2 & c & m & G & (l1 & C & M)).
    destruct (copies cpus ts _ st Hc Ht Nd Hs He) as (_ & B). destruct (B i _ Ep) as (l' & c' & m' & E' & S' & G' & R' & _).
    rewrite G in G'. injection G' as <- <-. exists l, c, l1, l'. split; [exact L|]. split; [exact C|]. split; [exact E'|].
    destruct R' as [R|R]; [left|now right]. rewrite R. cbn [playerOf prect]. apply (proj1 L).
  Qed.

  Lemma rect_covers i sl : nth_error flat i = Some sl -> glass_picture sl -> forall p v, leaf_value sl p v -> v <> nothing -> 0 <= MRect.px p -> 0 <= py p ->
    exists c', nth_error cs i = Some c' /\ pt_in p (prect c') = true.
  Proof.
    intros E G p v Lv Nv Hx Hy. destruct (rect_at i sl E) as (l & c & l1 & c' & L & C & E' & R). exists c'. split; [exact E'|].
    assert (V : slayer_valid inflate large 8 3 sl). { rewrite Forall_forall in Hv. apply Hv. now apply nth_error_In in E. }
    destruct R as [->|(t & -> & B)].
    - unfold leaf_value in Lv. destruct (pt_in p (sl_rect sl)); [reflexivity|]. contradiction.
    - set (q := Pt (MRect.px p / ts * ts) (py p / ts * ts)). assert (At : at_tile ts q p).
      { unfold at_tile, in_tile, q. cbn [MRect.px py]. pose proof (Z.mod_pos_bound (MRect.px p) ts Ht). pose proof (Z.mod_pos_bound (py p) ts Ht).
        pose proof (Z.div_mod (MRect.px p) ts ltac:(lia)). pose proof (Z.div_mod (py p) ts ltac:(lia)). split; [eexists; reflexivity|]. split; [eexists; reflexivity|]. lia. }
      destruct (leaf_glass inflate large cpus ts Hc Ht _ sl l l1 (Some t) G V L C) as (_ & _ & X). destruct (X q p At) as [X1 _].
      unfold cTile in X1. destruct (m_get pt_eqb t q) as [k|] eqn:Gq; [|exfalso; apply X1; eauto]. apply (proj1 B q k p Gq). apply At.
  Qed.

  Lemma aligned_tile box k p p' : aligned ts box -> (ts | MRect.px k) -> (ts | py k) -> in_tile ts k p -> in_tile ts k p' -> pt_in p box = true -> pt_in p' box = true.
  Proof.
    intros ((a & A) & (b & B) & (c & C) & (d & D)) (x & X) (y & Y) T T' P. unfold in_tile, pt_in in *. rewrite A, B, C, D in *. rewrite X, Y in *.
    assert (a <= x /\ x < c /\ b <= y /\ y < d) by nia. assert (a * ts <= x * ts /\ x * ts + ts <= c * ts /\ b * ts <= y * ts /\ y * ts + ts <= d * ts) by nia. lia.
  Qed.
  Lemma rect_least i sl box : nth_error flat i = Some sl -> aligned ts box -> within_box (sl_rect sl) box ->
    exists c', nth_error cs i = Some c' /\ within_box (prect c') box.
  Proof.
    intros E Al W. destruct (rect_at i sl E) as (l & c & l1 & c' & L & C & E' & R). exists c'. split; [exact E'|].
    destruct R as [->|(t & -> & B)]; [exact W|]. intros p0. apply (proj2 B). intros k tl p Gk Tk. unfold canvasOf in C.
    destruct (hasImage (playerOf l) && _); [|destruct C; discriminate]. destruct C as (m & r & Bm & _ & [= ->] & _). cbn [playerOf prect] in Bm.
    assert (Er : l_rect l = sl_rect sl) by apply (proj1 L). rewrite Er in Bm. unfold newTiledImage in Bm. apply (built_spec _ _ _ _ _ _ _ Hc Ht Bm) in Gk. destruct Gk as [Gr F].
    apply fillTile_spec in F; [|lia]. destruct F as (_ & _ & _ & F3). destruct (proj1 F3 eq_refl) as (p' & v & T' & Ip & _).
    destruct (grid_mult _ _ _ Ht Gr) as [D1 D2]. exact (aligned_tile box k p' p Al D1 D2 T' Tk (W p' Ip)).
  Qed.
End frame.

Lemma Forall2_in_l {A B} (R : A -> B -> Prop) u v x : Forall2 R u v -> In x u -> exists y, In y v /\ R x y.
Proof. induction 1 as [|a b u v H _ IH]; [intros []|]. intros [<-|I]; [eauto using in_eq|]. destruct (IH I) as (z & ? & ?). eauto using in_cons. Qed.
Lemma Forall2_in_r {A B} (R : A -> B -> Prop) u v y : Forall2 R u v -> In y v -> exists x, In x u /\ R x y.
Proof. induction 1 as [|a b u v H _ IH]; [intros []|]. intros [<-|I]; [eauto using in_eq|]. destruct (IH I) as (z & ? & ?). eauto using in_cons. Qed.
Lemma px_dec (a b : px) : a = b \/ a <> b.
Proof.
  destruct a as [r g b0 a], b as [r' g' b' a']. destruct (Z.eq_dec r r'), (Z.eq_dec g g'), (Z.eq_dec b0 b'), (Z.eq_dec a a'); subst; try (right; congruence). now left.
Qed.
Lemma grown_covers (cs : list player) rs : forall r0 p, pt_in p r0 = true \/ (exists r, In r rs /\ pt_in p (rectOf cs r) = true) -> pt_in p (grown cs r0 rs) = true.
Proof.
  induction rs as [|r rs IH]; intros r0 p H; cbn [grown fold_left].
  - destruct H as [H|(r & [] & _)]. exact H.
  - apply IH. destruct H as [H|(r' & [<-|I] & H)]; [left; apply union_in; now left|left; apply union_in; now right|right; eauto].
Qed.
Lemma grown_least (cs : list player) box rs : forall r0, within_box r0 box -> (forall r, In r rs -> within_box (rectOf cs r) box) -> within_box (grown cs r0 rs) box.
Proof.
  induction rs as [|r rs IH]; intros r0 H0 H; cbn [grown fold_left]; [exact H0|].
  apply IH; [|intros r' I; apply H; now right]. intros p. apply union_least; [exact H0|]. apply H. now left.
Qed.

Section whole.
  Variables (inflate : bytes -> Z -> option (bytes * Z)).
  Lemma file_framed kind procs h rsv cmd res neg pl sf pad gmask bs tail rest cpus ts : (1 <= procs)%nat -> (1 <= cpus)%nat -> 0 < ts ->
    header_valid h -> h_mode h = 3 -> h_depth h = 8 -> zlen rsv = 6 -> zlen cmd < 4294967296 ->
    Forall rblock_valid res -> zlen (enc_rblocks res) < 4294967296 ->
    let large := h_version h =? 2 in
    section_valid inflate large neg 8 3 pl (flat_map sflatten sf) pad gmask bs tail -> Forall stree_valid sf -> glass_forest sf ->
    let enc := enc_config h rsv cmd res ++ enc_section large neg pl (flat_map sflatten sf) pad gmask bs tail in
    exists f evs, Decode inflate kind procs newOptions (enc ++ rest) = (Ok (f, zlen enc, rest), evs) /\
      let canvas := Rct 0 0 (h_width h) (h_height h) in
      cfg_rect (f_config f) = canvas /\
      forall st, MWait.steps (lstep cpus ts) (lstart (map (fun e => playerOf (ev_layer e)) evs)) st -> lended st ->
      forall (Enc : Type) (nop : Enc) dec d bts r calls,
      newLayers nop dec (defaultDetector nop d) (f_layer f) (ldCopied st) (cfg_rect (f_config f)) = Some (bts, r, calls) ->
      within_box r canvas /\
      (forall p, pt_in p canvas = true -> visible_in sf p -> pt_in p r = true) /\
      (forall box, aligned ts box -> around sf box -> within_box r box) /\
      (forall cpus' r' w0 w1, (1 <= cpus')%nat -> new w0 ->
       renderedPx ts (ldImages st) cpus' ts r' false (rootOf (ldCopied st) (f_layer f)) w0 w1 ->
       forall q p, tileOf ts r' q -> in_tile ts q p -> pt_in p canvas = true -> pt_in p r = false ->
       exists s t, w1 q = Some (s, t) /\ tile_at ts q t p = Some nothing).
  Proof.
    intros Hpr Hc Ht Hh Hm Hd Hr Hcm Hres Hrl large Hs HV HG enc.
    destruct (glass_shown inflate kind procs h rsv cmd res neg pl sf pad gmask bs tail rest cpus ts Hpr Hc Ht Hh Hm Hd Hr Hcm Hres Hrl Hs HV HG) as (f0 & evs0 & ED0 & _ & Show).
    destruct (decode_layers inflate kind procs newOptions h rsv cmd res 3 neg pl sf pad gmask bs tail rest Hpr Hh Hr Hcm Hres Hrl) as (f & evs & ED & EC & ET & _ & _ & _ & _ & full & Ee & Lf).
    - left. rewrite Hm, Hd. auto.
    - rewrite Hm. reflexivity.
    - reflexivity.
    - cbn [newOptions o_config_loaded config_of cfg_mode]. rewrite Hm. reflexivity.
    - rewrite Hd. exact Hs.
    - exact HV.
    - assert (X : (Ok (f0, zlen enc, rest), evs0) = (Ok (f, zlen enc, rest), evs)) by (transitivity (Decode inflate kind procs newOptions (enc ++ rest)); [symmetry; exact ED0|exact ED]). injection X as -> ->. clear ED0. exists f, evs. split; [exact ED|]. rewrite Hm, Hd in *. intros canvas.
      assert (Ecv : cfg_rect (f_config f) = canvas) by (rewrite EC; reflexivity). split; [exact Ecv|]. rewrite Ecv.
      assert (Eev : map (fun e => playerOf (ev_layer e)) evs = map playerOf full).
      { rewrite Ee. unfold section_events. cbn [newOptions o_skip_layer]. rewrite <- (map_map ev_layer playerOf). now rewrite events_layers. }
      rewrite Eev in *. intros st Hst Hend Enc nop dec d bts r calls HN. pose proof (proj1 Hs) as Hvl.
      pose proof (proj2 (facts nop dec inflate large 8 3 cpus ts Hc Ht _ full st Lf Hvl Hst Hend) 0 sf (f_layer f) ET 0%nat eq_refl HV (fun j sl E => E)) as (K & _ & _ & _).
      pose proof (proj2 (order cpus Hc (flat_map sflatten sf)) 0 sf (f_layer f) ET 0%nat eq_refl (fun j sl E => E)) as Or.
      assert (Er : r = rintersect (grown (ldCopied st) ZR (flat_map preorder (f_layer f))) canvas).
      { unfold newLayers in HN. assert (exists g, defaultDetector nop d = Some g) as [g Eg] by (destruct d; eexists; reflexivity). rewrite Eg in HN.
        destruct (f_layer f) as [|l0 ls0] eqn:EL; [injection HN as <- <- <-; reflexivity|]. rewrite <- EL in *. assert (Hne : f_layer f <> []) by congruence.
        destruct (g 0%nat (concat (map l_mbcs (flat_map preorder (f_layer f))))) as [e|] eqn:Ed.
        - destruct (build_all nop dec g (f_layer f) (ldCopied st) e Hne Ed (f_layer f) K) as (b' & ts' & E & _ & _ & R). rewrite E in HN. injection HN as <- <- <-. now rewrite R.
        - pose proof (quiet_all nop dec g (f_layer f) (ldCopied st) Hne (f_layer f) K) as Q. destruct (existsb needs _); [rewrite (Q Ed) in HN; discriminate|].
          destruct Q as (b' & ts' & E & _ & _ & R). rewrite E in HN. injection HN as <- <- <-. now rewrite R. }
      assert (RI : forall p, pt_in p r = true <-> pt_in p (grown (ldCopied st) ZR (flat_map preorder (f_layer f))) = true /\ pt_in p canvas = true).
      { intros p. rewrite Er. apply pt_in_inter. }
      assert (Cov : forall p, pt_in p canvas = true -> visible_in sf p -> pt_in p r = true).
      { intros p Hp (s & l & v & Is & Pl & Lv & Nv). apply RI. split; [|exact Hp]. apply grown_covers. right.
        assert (Il : In l (flat_map sorder sf)). { apply in_flat_map. exists s. split; [exact Is|]. apply in_sorder. now apply picture_tree. }
        destruct (Forall2_in_r _ _ _ _ Or Il) as (r1 & Ir & (i & Ei & En)). exists r1. split; [exact Ir|].
        assert (Gp : glass_picture l). { apply (picture_glass l s Pl). destruct HG as [HG _]. rewrite Forall_forall in HG. auto. }
        destruct (rect_covers inflate large cpus ts Hc Ht _ full st Lf Hvl Hst Hend i l En Gp p v Lv Nv) as (c' & Ec & Pc); [unfold pt_in, canvas in Hp; cbn in Hp; lia|unfold pt_in, canvas in Hp; cbn in Hp; lia|].
        unfold rectOf. rewrite Ei, Nat2Z.id, Ec. exact Pc. }
      split; [intros p X; now apply RI in X|]. split; [exact Cov|]. split.
      + intros box Al Ar p X. apply RI in X. destruct X as [X _]. revert p X. change (within_box (grown (ldCopied st) ZR (flat_map preorder (f_layer f))) box). apply grown_least.
        * intros p X. unfold pt_in, ZR in X. cbn in X. lia.
        * intros r1 Ir. destruct (Forall2_in_l _ _ _ _ Or Ir) as (l & Il & (i & Ei & En)). apply in_flat_map in Il. destruct Il as (s & Is & Il). apply in_sorder in Il.
          destruct (rect_least cpus ts Hc Ht _ full st Lf Hst Hend i l box En Al (Ar s l Is Il)) as (c' & Ec & Wc). unfold rectOf. rewrite Ei, Nat2Z.id, Ec. exact Wc.
      + intros cpus' r' w0 w1 Hc' Hn HR q p Hq Hp Hcv Hout.
        assert (0 <= MRect.px p /\ 0 <= py p) as [Hx Hy] by (unfold pt_in, canvas in Hcv; cbn in Hcv; lia).
        destruct (Show st Hst Hend cpus' r' w0 w1 Hc' Hn HR q p Hq Hp Hx Hy) as (s & t & c & E1 & E2 & E3). exists s, t. split; [exact E1|]. rewrite E3.
        assert (c = nothing) as ->; [|now rewrite !stored_nothing].
        apply (blank_laid (square ts q) p None sf nothing c); [now apply E2| |apply HG|exact I|reflexivity].
        apply Forall_forall. intros s0 Is l v Pl Lv. destruct (px_dec v nothing) as [E|N]; [exact E|]. exfalso.
        rewrite (Cov p Hcv) in Hout; [discriminate|]. exists s0, l, v. auto.
  Qed.
End whole.
