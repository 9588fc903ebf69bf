(** Moving the images of a loaded file by whole pixels. *)
From Coq Require Import String Permutation QArith.
From Verif Require Import Base BaseFacts SUtil SConfig MRect MThumb SThumb MPicker MConfig MReader MLayer MApi SCompress SRecord SLayer PConfig2 PRecord4
  MSched PSched MBlend MPorter SBlend PLum MWait PWait MRender SRender PRender PRender2 MRenderAll SRenderAll PRenderAll MRenderPx PRenderPx
  PFrame MDraw MTile STile PTile MLoad SLoad PLoad STileRender PTileRender MPipe SPipe SClip PClip PPipe PPipe2 PPipe3 PPipe4 PPipe5 SSharp PSharp2 PSharp3 PSharp4
  SGlass PGlass PGlass1 PGlass2 PGlass3 PGlass4 MTileRender MScale SScale PScale MMove SMove PMove1 PMove2.
Close Scope string_scope.
Open Scope Z_scope.

(** * Maps *)
Lemma tree_by rnd lib cpus ts m gt ims imgs out : (1 <= cpus)%nat -> listing ims imgs -> transformTreeBy rnd lib cpus ts m gt imgs out ->
  (forall q li, m_get Z.eqb ims q = Some li -> exists li', m_get Z.eqb out q = Some li' /\ transformLIBy rnd lib cpus ts m gt li li') /\
  (forall q, m_get Z.eqb ims q = None -> m_get Z.eqb out q = None).
Proof.
  intros Hc [ND Ls] (imgs' & s & F & Hi & ->).
  assert (map fst imgs' = map fst imgs) as Ef by (clear - F; induction F as [|a b l l' [E _] F IH]; [reflexivity|]; cbn [map]; now rewrite E, IH).
  assert (zlen imgs = zlen imgs') as El by (unfold zlen; f_equal; rewrite <- (map_length fst imgs), <- (map_length fst imgs'); congruence).
  assert (forall x, In x s <-> In x imgs') as Hin by (intros x; rewrite (interleave_in _ _ Hi), El, index_slices by assumption; reflexivity).
  assert (NoDup (map fst imgs')) as ND' by (rewrite Ef; exact ND).
  assert (forall k a b, In (k, a) s -> In (k, b) s -> a = b) as Hf.
  { intros k a b Ha Hb. apply Hin in Ha, Hb. apply (m_get_nodup _ ND') in Ha, Hb. congruence. }
  pose proof (m_get_images s Hf []) as Mg. split.
  - intros q li H. apply Ls in H.
    assert (exists li', In (q, li') imgs' /\ transformLIBy rnd lib cpus ts m gt li li') as (li' & I & T).
    { clear - F H. induction F as [|[a1 a2] [b1 b2] l l' [E T] F IH]; [destruct H|]. cbn [fst snd] in *. destruct H as [H|H].
      - injection H as -> ->. subst. exists b2. split; [now left|exact T].
      - destruct (IH H) as (li' & I & T'). exists li'. split; [now right|exact T']. }
    exists li'. split; [|exact T]. apply Mg. left. now apply Hin.
  - intros q H. destruct (m_get Z.eqb (exec putImage s []) q) as [v|] eqn:E; [|reflexivity]. exfalso.
    apply Mg in E. destruct E as [E|[_ E]]; [|discriminate]. apply Hin in E. apply (in_map fst) in E. rewrite Ef in E. apply in_map_iff in E.
    destruct E as ([q' li] & E1 & E). cbn [fst] in E1. subst q'. apply Ls in E. congruence.
Qed.
Lemma tree_by_ex rnd lib cpus ts m gt imgs : (forall q li, In (q, li) imgs -> exists li', transformLIBy rnd lib cpus ts m gt li li') ->
  exists out, transformTreeBy rnd lib cpus ts m gt imgs out.
Proof.
  intros G. assert (exists imgs', Forall2 (fun a b => fst b = fst a /\ transformLIBy rnd lib cpus ts m gt (snd a) (snd b)) imgs imgs') as [imgs' F].
  { induction imgs as [|[q li] imgs IH]; [exists []; constructor|]. destruct IH as [l F]; [intros q' li' H; apply (G q' li'); now right|].
    destruct (G q li (or_introl eq_refl)) as [li' T]. exists ((q, li') :: l). constructor; auto. }
  eexists. exists imgs', (concat (map (fun '(a, b) => sliceZ imgs' a b) (indexWorkers cpus (zlen imgs)))).
  split; [exact F|]. split; [apply interleave_concat|reflexivity].
Qed.

(** * All layers of the tree *)
Lemma groups_all P ks : Forall (allL P) ks -> Forall (allL P) (withGroups ks).
Proof.
  intros H. pose proof (withGroups_grouped ks) as G. revert H. generalize (withGroups ks) G. clear G. intros ks' G.
  assert (One : forall k kcs, allL P k -> Forall (allL P) kcs -> allL P (Lay (latt k) (lkids k) kcs)).
  { intros k kcs A F. inversion A as [a ks0 cs Pa Pk Pc]; subst. now constructor. }
  assert (B : forall ks ks', based ks ks' -> Forall (allL P) ks -> Forall (allL P) ks').
  { induction 1 as [|k cs ks0 ks0' _ _ _ IH]; intros H; [constructor|]. inversion H as [|? ? H1 H2]; subst. apply Forall_app in H2. destruct H2 as [H2 H3]. constructor; auto. }
  induction G as [|k ks ks' _ _ IH|ks ks' Bs]; intros H; [constructor| |eauto]. inversion H; subst. constructor; auto.
Qed.
Inductive nodes (N : slayer -> Prop) : stree -> Prop :=
| nodes_leaf l : N l -> nodes N (SLeaf l)
| nodes_folder dv f c : N f -> Forall (nodes N) c -> nodes N (SFolder dv f c).
Lemma forest_all flat cs (N : slayer -> Prop) (P : lattr -> Prop) :
  (forall i sl r, nth_error flat i = Some sl -> N sl -> layer_is false 3 8 3 (Z.of_nat i) sl r -> exists c, nth_error cs i = Some c /\ P (buildAttr r c)) ->
  forall k sf i ls, (list_sum (map ssize sf) <= k)%nat -> Forall (nodes N) sf -> window flat i (flat_map sflatten sf) ->
  trees_are false 3 8 3 (Z.of_nat i) sf ls -> Forall (allL P) (map (treeOf cs) ls).
Proof.
  intros HN. induction k as [|k IH]; intros sf i ls Hsz HP HW HT.
  { destruct sf as [|[l|d f c] sf]; cbn in Hsz; try lia. inversion HT; subst. constructor. }
  destruct sf as [|t sf]; [inversion HT; subst; constructor|].
  inversion HT as [|? ? ? l ls' T1 T2]; subst. clear HT. pose proof (Forall_inv HP) as P1. pose proof (Forall_inv_tail HP) as P2.
  cbn [flat_map] in *. apply window_split in HW. destruct HW as [W1 W2]. cbn [map].
  assert (Hs1 : (ssize t + list_sum (map ssize sf) <= S k)%nat) by exact Hsz.
  assert (Hs2 : (list_sum (map ssize sf) <= k)%nat) by (destruct t; cbn [ssize] in Hs1; lia).
  constructor; [|apply (IH sf (i + length (sflatten t))%nat); auto; replace (Z.of_nat (i + length (sflatten t))) with (Z.of_nat i + zlen (sflatten t)) by (unfold zlen; lia); exact T2].
  destruct t as [sl|dv fo ct].
  - inversion T1 as [? ? r L|]; subst. inversion P1 as [? Nl|]; subst. cbn [sflatten length] in *.
    pose proof (W1 0%nat sl eq_refl) as Ef. rewrite Nat.add_0_r in Ef. destruct (HN i sl r Ef Nl L) as (c & Ec & Pc).
    cbn [treeOf map]. rewrite (seq_at _ _ _ L), Ec. constructor; [exact Pc|constructor|constructor].
  - inversion T1 as [|? ? ? ? r lc T3 L]; subst. inversion P1 as [|? ? ? Nf Nc]; subst. cbn [sflatten] in *.
    cbn [ssize] in Hs1. set (M := length (flat_map sflatten ct)) in *.
    assert (Wc : window flat (S i) (flat_map sflatten ct) /\ nth_error flat (S i + M) = Some fo).
    { change (dv :: flat_map sflatten ct ++ [fo]) with ([dv] ++ (flat_map sflatten ct ++ [fo])) in W1. apply window_split in W1. destruct W1 as [_ W1].
      cbn [length] in W1. apply window_split in W1. destruct W1 as [W1 W3]. split; [now replace (S i) with (i + 1)%nat by lia|].
      specialize (W3 0%nat fo eq_refl). replace (S i + M)%nat with (i + 1 + length (flat_map sflatten ct) + 0)%nat by (unfold M; lia). exact W3. }
    destruct Wc as [Wc Ef].
    replace (Z.of_nat i + 1 + zlen (flat_map sflatten ct)) with (Z.of_nat (S i + M)) in L by (unfold M, zlen; lia).
    destruct (HN _ fo r Ef Nf L) as (c & Ec & Pc). cbn [treeOf]. rewrite (seq_at _ _ _ L), Ec. constructor; [exact Pc| |constructor].
    apply groups_all. apply (IH ct (S i)); auto; [lia|]. replace (Z.of_nat (S i)) with (Z.of_nat i + 1) by lia. exact T3.
Qed.

(** * The layers of the file *)
Section file.
  Variables (inflate : bytes -> Z -> option (bytes * Z)) (large : bool) (cpus : nat) (ts : Z).
  Hypotheses (Hc : (1 <= cpus)%nat) (Ht : 0 < ts <= 2 ^ 50).
  Variables (flat : list slayer) (full : list lrec) (st : loader).
  Hypothesis Lf : layers_are false 3 8 3 0 flat full.
  Hypothesis Hv : Forall (slayer_valid inflate large 8 3) flat.
  Hypothesis Hs : MWait.steps (lstep cpus ts) (lstart (map playerOf full)) st.
  Hypothesis He : lended st.
  Hypothesis Hcl : forall sl, In sl flat -> glass_picture sl \/ exists t, has_type sl t /\ t <> 0.
  Hypothesis Hb : Forall mask_bytes flat.
  Variables (rnd : Q -> Q) (lib : library) (cpusT : nat) (dx dy : Z).
  Hypothesis Hr : SThumb.rounding rnd.
  Hypothesis Hl : good_library lib.
  Hypothesis Hy : typed lib.
  Hypothesis HcT : (1 <= cpusT)%nat.
  Hypothesis Hdx : - 2 ^ 51 <= dx <= 2 ^ 51.
  Hypothesis Hdy : - 2 ^ 51 <= dy <= 2 ^ 51.
  Notation ims := (ldImages st).
  Notation n := (Z.to_nat (ts * ts)).

  (** ** The images of one layer *)
  Definition small {V} (m : tilemap V) : Prop := forall r, tilesRect ts m r -> rempty r = false -> moderate r dx dy.
  Lemma layer_good i sl : nth_error flat i = Some sl -> exists c m, m_get Z.eqb ims (Z.of_nat i) = Some (LI c m) /\
    (match c with Some t => goodImage ts t /\ small t | None => True end) /\ (match m with Some t => goodMask ts t /\ small t | None => True end).
  Proof.
    intros E. destruct (rec_at cpus ts Hc (proj1 Ht) flat full st Lf Hs He i sl E) as (l & c & m & l1 & l2 & l' & L & G & C & M & E' & S' & R'). exists c, m. split; [exact G|].
    pose proof (nth_error_In _ _ E) as Hin. pose proof Hv as Hv'. rewrite Forall_forall in Hv'. pose proof (Hv' sl Hin) as V. split.
    - destruct (Hcl sl Hin) as [Pl|(ty & T & N)].
      + destruct Pl as (Ty & _ & (dr & Er & Br) & (dg & Eg & Bg) & (db & Eb & Bb) & Ha). pose proof (layer_image _ _ _ L) as Im.
        pose proof (has_type_is _ _ _ _ (proj1 L) Ty) as Et. destruct (proj1 L) as (_ & Rc & _).
        unfold canvasOf, hasImage in C. cbn [playerOf prect ptype pr_ pg_ pb_ pa_] in C. rewrite Et, Rc in C. cbn [Z.eqb andb] in C.
        destruct (rempty (sl_rect sl)) eqn:Ee; cbn [negb] in C; [destruct C as [-> _]; exact I|].
        destruct C as (t & r & B & _ & -> & _). unfold plane0 in B. rewrite !Im, Er, Eg, Eb in B. split.
        * apply (built_goodImage _ _ _ _ _ _ _ _ _ Hc (proj1 Ht) Br Bg Bb Ha B).
        * intros r0 Tr Ne. unfold newTiledImage in B. eapply tiles_moderate; [exact Hc|exact Ht| |exact (proj1 V)|exact Hdx|exact Hdy|exact B|exact Tr|exact Ne]. lia.
      + destruct (folder_bare cpus ts Hc (proj1 Ht) flat full st Lf Hs He Hcl i sl ty E T N) as (m2 & G'). rewrite G in G'. injection G' as -> _. exact I.
    - destruct (mask_facts cpus ts (Z.of_nat i) sl l l1 l2 l' c m L C M S' R') as (_ & _ & _ & Em). destruct (rempty (mask_rect sl)) eqn:Ee; [now subst m|].
      pose proof Hb as Hb'. rewrite Forall_forall in Hb'. pose proof (Hb' sl Hin) as Bm. unfold mask_bytes in Bm.
      destruct (chan_data sl 8 (-2)) as [d|]; [|now subst m]. destruct Em as (t & -> & B). split; [eapply built_goodMask; [exact Hc|exact (proj1 Ht)|exact Bm|exact B]|].
      intros r0 Tr Ne. unfold newTiledMask in B. eapply tiles_moderate; [exact Hc|exact Ht| | |exact Hdx|exact Hdy|exact B|exact Tr|exact Ne]; [lia|].
      destruct V as (_ & _ & _ & _ & _ & Vm & _). unfold mask_rect in *. unfold smask_valid in Vm. destruct (sl_mask sl); [discriminate|apply Vm|apply Vm].
  Qed.
  Lemma seq_ims s li : m_get Z.eqb ims s = Some li -> exists i sl, nth_error flat i = Some sl /\ s = Z.of_nat i.
  Proof.
    intros G. destruct (inv_end cpus ts _ (seqs_nodup _ _ Lf) st Hs He) as (_ & B & _). destruct (B _ _ G) as (i & l0 & Ei & Es).
    assert (Hi : (i < length flat)%nat).
    { rewrite <- (layers_are_length _ _ _ _ _ _ _ Lf). rewrite <- (map_length playerOf). apply nth_error_Some. congruence. }
    destruct (nth_error flat i) as [sl|] eqn:Ef; [|apply nth_error_None in Ef; lia]. exists i, sl. split; [exact Ef|].
    destruct (layers_are_nth _ _ _ _ _ _ _ _ _ Lf Ef) as (l3 & E3 & L3). rewrite (map_nth_error playerOf i full E3) in Ei. injection Ei as <-. rewrite <- Es. exact (proj1 (proj1 L3)).
  Qed.
  Notation byT := (transformTreeBy rnd lib cpusT ts (translation dx dy) None).
  Lemma moved_ex imgs : listing ims imgs -> exists out, byT imgs out.
  Proof.
    intros [_ Ls]. apply tree_by_ex. intros q li H. apply Ls in H. destruct (seq_ims q li H) as (i & sl & E & ->). destruct (layer_good i sl E) as (c & m & G & Gc & Gm).
    rewrite H in G. injection G as ->. unfold transformLIBy. cbn [liCanvas liMask].
    assert (exists o, transformOpt (transformImageBy rnd lib cpusT ts (translation dx dy) None) c o) as [o O].
    { destruct c as [t|]; [|exists None; exact I]. destruct (proj1 (transform_shift rnd lib cpusT ts Hr Hl HcT (proj1 Ht) dx dy t (proj1 Gc) (proj2 Gc))) as [t' T]. exists (Some t'). exact T. }
    assert (exists o, transformOpt (transformMaskBy rnd lib cpusT ts (translation dx dy)) m o) as [o' O'].
    { destruct m as [t|]; [|exists None; exact I]. destruct (proj1 (moved_mask rnd lib cpusT ts Hr Hl Hy HcT (proj1 Ht) dx dy t (proj1 Gm) (proj2 Gm))) as [t' T]. exists (Some t'). exact T. }
    exists (LI o o'). split; assumption.
  Qed.

  (** ** Images that are moved *)
  Definition image_moved (sl : slayer) (c c' : option (tilemap px)) : Prop :=
    match c, c' with
    | Some t, Some t' => goodImage ts t /\ goodImage ts t' /\
        (forall p v, 0 <= MRect.px p -> 0 <= py p -> 0 <= MRect.px p + dx -> 0 <= py p + dy -> shows ts z4 t p v -> pa v = 255 \/ v = z4 -> shows ts z4 t' (shifted p dx dy) v) /\
        (glass_picture sl -> forall p, pt_in p (sl_rect sl) = false -> shows ts z4 t' (shifted p dx dy) z4)
    | None, None => True | _, _ => False end.
  Definition mask_moved (sl : slayer) (m m' : option (tilemap Z)) : Prop :=
    match m, m' with
    | Some t, Some t' => goodMask ts t /\ goodMask ts t' /\
        (has_mask sl = true -> mask_colour sl = 0 -> forall p v, 0 <= MRect.px p -> 0 <= py p -> 0 <= MRect.px p + dx -> 0 <= py p + dy -> shows ts 0 t p v -> shows ts 0 t' (shifted p dx dy) v)
    | None, None => True | _, _ => False end.
  Definition moved_all (out : list (Z * limage)) : Prop :=
    (forall i sl, nth_error flat i = Some sl -> exists c m c' m', m_get Z.eqb ims (Z.of_nat i) = Some (LI c m) /\ m_get Z.eqb out (Z.of_nat i) = Some (LI c' m') /\
      image_moved sl c c' /\ mask_moved sl m m') /\
    forall q, m_get Z.eqb ims q = None -> m_get Z.eqb out q = None.

  (** Outside of its rectangle a picture shows nothing. *)
  Lemma outside i sl t m : nth_error flat i = Some sl -> glass_picture sl -> m_get Z.eqb ims (Z.of_nat i) = Some (LI (Some t) m) -> forall p, pt_in p (sl_rect sl) = false -> shows ts z4 t p z4.
  Proof.
    intros E Pl G p Out. pose proof (nth_error_In _ _ E) as Hin. pose proof Hv as Hv'. rewrite Forall_forall in Hv'.
    destruct (rec_at cpus ts Hc (proj1 Ht) flat full st Lf Hs He i sl E) as (l & c0 & m0 & l1 & l2 & l0 & L0 & G0 & C & _). rewrite G in G0. injection G0 as <- <-.
    pose proof (Hv' sl Hin) as V. destruct Pl as (Ty & _ & (dr & Er & Br) & (dg & Eg & Bg) & (db & Eb & Bb) & Ha). pose proof (layer_image _ _ _ L0) as Im.
    pose proof (has_type_is _ _ _ _ (proj1 L0) Ty) as Et. destruct (proj1 L0) as (_ & Rc & _).
    pose proof (chan_len _ _ _ _ _ _ V Er ltac:(lia) ltac:(lia)) as Lr. pose proof (chan_len _ _ _ _ _ _ V Eg ltac:(lia) ltac:(lia)) as Lg.
    pose proof (chan_len _ _ _ _ _ _ V Eb ltac:(lia) ltac:(lia)) as Lb.
    assert (La : match chan_data sl 8 (-1) with Some d => zlen d = rdx (sl_rect sl) * rdy (sl_rect sl) | None => True end).
    { destruct (chan_data sl 8 (-1)) eqn:E0; [|exact I]. eapply chan_len; eauto; lia. }
    unfold canvasOf, hasImage in C. cbn [playerOf prect ptype pr_ pg_ pb_ pa_] in C. rewrite Et, Rc in C. cbn [Z.eqb andb] in C.
    destruct (rempty (sl_rect sl)) eqn:Ee; cbn [negb] in C; [destruct C as [X _]; discriminate|].
    destruct C as (t0 & r0 & B & _ & X & _). injection X as <-. unfold plane0 in B. rewrite !Im, Er, Eg, Eb in B.
    destruct (newTiledImage_spec cpus ts (sl_rect sl) dr dg db (chan_data sl 8 (-1)) 1 Hc (proj1 Ht) ltac:(lia)) as (ws & W & S).
    1-3: unfold plane_ok; lia. { destruct (chan_data sl 8 (-1)); [unfold plane_ok; lia|exact I]. }
    destruct B as (ws' & s & W' & I & Em). rewrite W in W'. injection W' as <-. destruct (S s I) as (_ & _ & _ & S2). rewrite <- Em in S2. now apply S2.
  Qed.

  Lemma transform_moved imgs out : listing ims imgs -> byT imgs out -> moved_all out.
  Proof.
    intros HL HT. split; [|apply (tree_by _ _ _ _ _ _ _ _ _ HcT HL HT)].
    intros i sl E. destruct (layer_good i sl E) as (c & m & G & Gc & Gm). destruct (tree_by _ _ _ _ _ _ _ _ _ HcT HL HT) as [T1 _]. destruct (T1 _ _ G) as ([c' m'] & G' & Tc & Tm).
    exists c, m, c', m'. split; [exact G|]. split; [exact G'|]. cbn [liCanvas liMask] in *. split.
    - destruct c as [t|], c' as [t'|]; try exact Tc. destruct Gc as [Gt Sm]. split; [exact Gt|]. split; [eapply moved_good; eauto; apply Ht|].
      pose proof (proj2 (transform_shift rnd lib cpusT ts Hr Hl HcT (proj1 Ht) dx dy t Gt Sm) t' Tc) as Mv. split.
      + intros p v _ _ X Y Sv [A| ->]; [now apply (Mv p v Sv)|now apply (Mv p _ Sv)].
      + intros Pl p Out. exact (proj2 (Mv p z4 (outside i sl t m E Pl G p Out)) eq_refl).
    - destruct m as [t|], m' as [t'|]; try exact Tm. destruct Gm as [Gt Sm]. split; [exact Gt|].
      destruct (proj2 (moved_mask rnd lib cpusT ts Hr Hl Hy HcT (proj1 Ht) dx dy t Gt Sm) t' Tm) as [Gt' Mv]. split; [exact Gt'|]. intros _ _ p v _ _ X Y Sv. now apply Mv.
  Qed.

  Variable out : list (Z * limage).
  Hypothesis MA : moved_all out.
  Lemma canvas_moved q s t : canvasTile out q s = Some t -> exists f, has n t f.
  Proof.
    unfold canvasTile. destruct (m_get Z.eqb out s) as [[[m|] k]|] eqn:G; try discriminate. intros E.
    destruct (m_get Z.eqb ims s) as [li|] eqn:Gi; [|rewrite (proj2 MA s Gi) in G; discriminate].
    destruct (seq_ims s li Gi) as (i & sl & Ei & ->). destruct (proj1 MA i sl Ei) as (c & m1 & c' & m1' & _ & G' & Gc & _). rewrite G in G'. injection G' as <- <-.
    unfold image_moved in Gc. destruct c as [t0|]; [|destruct Gc]. destruct Gc as (_ & [Al Ok] & _). apply (has_tile ts (proj1 Ht)); [apply (Al q t E)|]. intros v Hin. exact (Ok q t v E Hin).
  Qed.
  Lemma hasCanvas_moved s : hasCanvasOf ims s = hasCanvasOf out s.
  Proof.
    unfold hasCanvasOf. destruct (m_get Z.eqb ims s) as [li|] eqn:Gi.
    - destruct (seq_ims s li Gi) as (i & sl & Ei & ->). destruct (proj1 MA i sl Ei) as (c & m1 & c' & m1' & G & G' & Gc & _). rewrite G in Gi. injection Gi as <-. rewrite G'.
      unfold image_moved in Gc. destruct c, c'; try reflexivity; destruct Gc.
    - now rewrite (proj2 MA s Gi).
  Qed.

  (** ** The attributes *)
  Definition plainBM (sl : slayer) : Prop := forall i r, layer_is false 3 8 3 i sl r -> list_eqb (blendModeOf r) passThrough = false.
  Lemma attr_of i sl r : nth_error flat i = Some sl -> layer_is false 3 8 3 (Z.of_nat i) sl r -> plainBM sl -> steady sl ->
    exists l', nth_error (ldCopied st) i = Some l' /\ isPT (buildAttr r l') = false /\ lseq (buildAttr r l') = Z.of_nat i /\ (lmen (buildAttr r l') = true -> has_mask sl = true /\ mask_colour sl = 0 /\ lmdc (buildAttr r l') = false).
  Proof.
    intros E L NP Sd. destruct (rec_at cpus ts Hc (proj1 Ht) flat full st Lf Hs He i sl E) as (l & c & m & l1 & l2 & l' & L0 & G & C & M & E' & S' & R').
    destruct (mask_facts cpus ts (Z.of_nat i) sl l l1 l2 l' c m L0 C M S' R') as (Ec & Ef & Er & Em). exists l'. split; [exact E'|]. split; [exact (NP _ _ L)|]. split.
    - unfold buildAttr, attrsOf. cbn [lseq]. rewrite S'. cbn [setMaskRect setRect playerOf pseq]. exact (proj1 (proj1 L0)).
    - unfold buildAttr, attrsOf. cbn [lmen lmdc]. unfold maskEnabled. rewrite Ec, Ef. intros Hm. apply andb_true_iff in Hm. destruct Hm as [Hm1 Hm2].
      assert (Ne : rempty (mask_rect sl) = false).
      { destruct (rempty (mask_rect sl)) eqn:Ee; [|reflexivity]. subst m. destruct Er as [Er|(t & X & _)]; [|discriminate]. rewrite Er, Ee in Hm2. discriminate. }
      assert (On : mask_on sl = true).
      { unfold mask_on. rewrite bit1 in Hm1. unfold mask_rect in Ne. destruct (sl_mask sl) as [|r0 cc f pp pad|r0 cc f pp rf rc rr]; [discriminate| |]; cbn [mask_of mk_flags] in Hm1; now destruct (Z.testbit f 1). }
      assert (Hm : has_mask sl = true) by (unfold has_mask; now rewrite On, Ne). rewrite (Sd Hm). auto.
  Qed.

  Variables (p q q' : point).
  Hypothesis Q' : (ts | MRect.px q') /\ (ts | py q') /\ in_tile ts q' (shifted p dx dy).

  Definition drawn (sl : slayer) (X : Prop) : Prop := forall i r, layer_is false 3 8 3 i sl r -> l_sdtype r = 0 -> X.
  Definition fine (sl : slayer) : Prop := plainBM sl /\ steady sl /\ drawn sl (solid sl).
  Lemma fits_moved i sl r : nth_error flat i = Some sl -> fine sl -> layer_is false 3 8 3 (Z.of_nat i) sl r ->
    exists c, nth_error (ldCopied st) i = Some c /\ isPT (buildAttr r c) = false /\ maskFits n (maskTile out q') (buildAttr r c).
  Proof.
    intros E (NP & Sd & _) L. destruct (attr_of i sl r E L NP Sd) as (l' & E' & IP & Sq & _). exists l'. split; [exact E'|]. split; [exact IP|].
    intros _ t. rewrite Sq. unfold maskTile. destruct (proj1 MA i sl E) as (c & m & c' & m' & _ & -> & _ & Gm). unfold mask_moved in Gm. destruct m' as [t'|]; [|discriminate]. destruct m as [t0|]; [|destruct Gm].
    destruct Gm as (_ & [Al Ok] & _). intros Gx. destruct (Al q' t Gx) as (_ & _ & Lx). split; [unfold zlen in Lx; lia|]. apply Forall_forall. intros v Hv1. pose proof (Ok q' t v Gx Hv1) as X. unfold byteZ in X. unfold byte. lia.
  Qed.
  Lemma solid_value sl v : solid sl -> leaf_value sl p v -> pa v = 255 \/ v = nothing.
  Proof.
    unfold solid, leaf_value. destruct (pt_in p (sl_rect sl)); [|auto]. intros Sd (dr & dg & db & r & g & b & a & _ & _ & _ & _ & _ & _ & Ha & ->). destruct (chan_data sl 8 (-1)) as [da|].
    - rewrite Forall_forall in Sd. destruct (Sd a (nth_error_In _ _ Ha)) as [-> | ->]; [now right|now left].
    - subst a. now left.
  Qed.
  Lemma still_moved i sl r : at_tile ts q p -> 0 <= MRect.px p + dx -> 0 <= py p + dy -> nth_error flat i = Some sl -> fine sl -> layer_is false 3 8 3 (Z.of_nat i) sl r ->
    exists c, nth_error (ldCopied st) i = Some c /\ still (canvasTile ims q) (canvasTile out q') (maskTile ims q) (maskTile out q') (pos ts q p) (pos ts q' (shifted p dx dy)) (buildAttr r c).
  Proof.
    intros At X Y E (NP & Sd & So) L. destruct (attr_of i sl r E L NP Sd) as (l' & E' & IP & Sq & Md). exists l'. split; [exact E'|]. split; [exact IP|]. rewrite Sq.
    destruct Q' as (D1 & D2 & Iq). pose proof At as (K1 & K2 & Ip & Px & Py). pose proof (nth_error_In _ _ E) as Hin. pose proof Hv as Hv'. rewrite Forall_forall in Hv'.
    destruct (proj1 MA i sl E) as (c & m & c' & m' & G & G' & Gc & Gm). unfold image_moved in Gc. unfold mask_moved in Gm. split.
    - rewrite (PGlass3.cell_at ts st q p i c m G). unfold cellG, canvasTile. rewrite G'. destruct c as [t|], c' as [t'|]; try (destruct Gc; fail); [|reflexivity].
      destruct Gc as ([Al Ok] & [Al' Ok'] & Mv & _).
      assert (Ev : exists v, cellPx ts (Some t) q p = v /\ shows ts z4 t p v /\ (pa v = 255 \/ v = nothing)).
      { eexists. split; [reflexivity|]. split; [exact (tile_shows z4 ts t q p (proj1 Ht) Al K1 K2 Ip)|].
        destruct (Hcl sl Hin) as [Pl|(ty & T & N)].
        - destruct (rec_at cpus ts Hc (proj1 Ht) flat full st Lf Hs He i sl E) as (l & c0 & m0 & l1 & l2 & l0 & L0 & G0 & C & _). rewrite G in G0. injection G0 as <- <-.
          destruct (leaf_glass inflate large cpus ts Hc (proj1 Ht) _ sl l l1 _ Pl (Hv' sl Hin) L0 C) as (_ & Lv & _). apply (solid_value sl); [exact (So _ _ L (has_type_is _ _ _ _ (proj1 L) (proj1 Pl)))|]. now apply (Lv q p At).
        - destruct (folder_bare cpus ts Hc (proj1 Ht) flat full st Lf Hs He Hcl i sl ty E T N) as (m2 & G2). rewrite G in G2. discriminate. }
      destruct Ev as (v & -> & Sv & Hv1).
      pose proof (Mv p v Px Py X Y Sv Hv1) as Sv'.
      pose proof (shows_tile z4 ts t' q' _ v (proj1 Ht) Al' D1 D2 Iq Sv') as U. destruct (m_get pt_eqb t' q'); [now rewrite U|exact U].
    - intros d s. unfold maskG. rewrite IP, Sq. destruct (lmen (buildAttr r l')); [|reflexivity]. destruct (Md eq_refl) as (Hm & Hz & ->). unfold maskTile. rewrite G, G'.
      destruct m as [t|], m' as [t'|]; try (destruct Gm; fail); [|reflexivity]. destruct Gm as ([Al _] & [Al' _] & Mv).
      pose proof (tile_shows 0 ts t q p (proj1 Ht) Al K1 K2 Ip) as Sv. set (v := match m_get pt_eqb t q with Some _ => _ | None => 0 end) in Sv.
      pose proof (shows_tile 0 ts t' q' _ v (proj1 Ht) Al' D1 D2 Iq (Mv Hm Hz p v Px Py X Y Sv)) as U.
      assert (A1 : match m_get pt_eqb t q with Some m => pdmask DestIn (mv m (pos ts q p)) s | None => nothing end = pdmask DestIn v s).
      { unfold v, mv. destruct (m_get pt_eqb t q); [reflexivity|]. now rewrite pdmask_in0. }
      assert (A2 : match m_get pt_eqb t' q' with Some m => pdmask DestIn (mv m (pos ts q' (shifted p dx dy))) s | None => nothing end = pdmask DestIn v s).
      { unfold mv. destruct (m_get pt_eqb t' q'); [now rewrite U|]. now rewrite U, pdmask_in0. }
      exact (eq_trans A1 (eq_sym A2)).
  Qed.
  Lemma clear_moved i sl r : nth_error flat i = Some sl -> fine sl -> drawn sl (pt_in p (sl_rect sl) = false) -> layer_is false 3 8 3 (Z.of_nat i) sl r ->
    exists c, nth_error (ldCopied st) i = Some c /\ still (fun _ => None) (canvasTile out q') (maskTile out q') (maskTile out q') (pos ts q' (shifted p dx dy)) (pos ts q' (shifted p dx dy)) (buildAttr r c).
  Proof.
    intros E (NP & Sd & So) Out L. destruct (attr_of i sl r E L NP Sd) as (l' & E' & IP & Sq & Md). exists l'. split; [exact E'|]. split; [exact IP|]. rewrite Sq. split; [|reflexivity].
    destruct Q' as (D1 & D2 & Iq). pose proof (nth_error_In _ _ E) as Hin. pose proof Hv as Hv'. rewrite Forall_forall in Hv'.
    destruct (proj1 MA i sl E) as (c & m & c' & m' & G & G' & Gc & _). unfold image_moved in Gc. unfold cellG, canvasTile. rewrite G'. destruct c as [t|], c' as [t'|]; try (destruct Gc; fail); [|reflexivity].
    destruct Gc as ([Al Ok] & [Al' Ok'] & _ & Mv). destruct (Hcl sl Hin) as [Pl|(ty & T & N)].
    - pose proof (Mv Pl p (Out _ _ L (has_type_is _ _ _ _ (proj1 L) (proj1 Pl)))) as Sv'.
      pose proof (shows_tile z4 ts t' q' _ z4 (proj1 Ht) Al' D1 D2 Iq Sv') as U. destruct (m_get pt_eqb t' q'); [now rewrite U|reflexivity].
    - destruct (folder_bare cpus ts Hc (proj1 Ht) flat full st Lf Hs He Hcl i sl ty E T N) as (m2 & G2). rewrite G in G2. discriminate.
  Qed.
End file.

Lemma nodes_impl (N N' : slayer -> Prop) : (forall l, N l -> N' l) -> forall t, nodes N t -> nodes N' t.
Proof. intros H. induction t as [l|dv f c IH] using PFrame.stree_ind2; intros A; inversion A; subst; constructor; auto. rewrite Forall_forall in *. auto. Qed.
Lemma fine_nodes t : stree_valid t -> glass_tree t -> steady_tree t -> solid_tree t -> nodes fine t.
Proof.
  induction t as [l|dv f c IH] using PFrame.stree_ind2; intros V G S D.
  - inversion G as [? _ _ Pl|]; subst. inversion S as [? Sd|]; subst. inversion D as [? So|]; subst. constructor. split; [|split; [exact Sd|]].
    + intros i r L. destruct Pl as (T & (m & M) & _). exact (leaf_not_pt _ _ _ m (proj1 L) T M).
    + intros i r _ _. exact So.
  - inversion V as [|? ? ? t _ T Ht Vc]; subst. inversion G as [|? ? ? m _ Fm _ Gc _]; subst. inversion S as [|? ? ? Sf Nf Sc]; subst. inversion D as [|? ? ? Dc]; subst. constructor.
    + split; [|split; [exact Sf|]].
      * intros i r L. destruct (list_eqb (blendModeOf r) passThrough) eqn:E; [|reflexivity]. apply list_eqb_eq in E. exfalso. apply Nf. now apply (folder_bm_mode _ _ _ _ _ (proj1 L) T Ht Fm).
      * intros i r L E. rewrite (has_type_is _ _ _ _ (proj1 L) T) in E. lia.
    + rewrite Forall_forall in *. auto.
Qed.
Lemma clear_nodes p t : stree_valid t -> clear_of p t -> nodes (fun l => drawn l (pt_in p (sl_rect l) = false)) t.
Proof.
  induction t as [l|dv f c IH] using PFrame.stree_ind2; intros V G.
  - inversion G; subst. constructor. now intros i r _ _.
  - inversion V as [|? ? ? t _ T Ht Vc]; subst. inversion G; subst. constructor.
    + intros i r L E. rewrite (has_type_is _ _ _ _ (proj1 L) T) in E. lia.
    + rewrite Forall_forall in *. auto.
Qed.
Lemma nodes_both (N N' : slayer -> Prop) t : nodes N t -> nodes N' t -> nodes (fun l => N l /\ N' l) t.
Proof. induction t as [l|dv f c IH] using PFrame.stree_ind2; intros A B; inversion A; inversion B; subst; constructor; auto. rewrite Forall_forall in *. auto. Qed.
