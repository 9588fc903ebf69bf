(** Proofs about one tile of the renderer: changes of the tree, panics. *)
From Verif Require Import Base BaseFacts MRender SRender PRender PRender2 PRender3.

Section render.
  Context {img msk : Type}.
  Variable zero : img.
  Variable copyT : img -> img.
  Variable blendOf : bytes -> option (Z -> img -> img -> img).
  Variable destInM destOutM : msk -> img -> img.
  Variable destInT destOverT : img -> img -> img.
  Variable clearT removeAlpha : img -> img.
  Variable canvas : Z -> option img.
  Variable hasCanvas : Z -> bool.
  Variable mask : Z -> option msk.

  Notation tstate := (tstate img).
  Notation inArea := (inArea canvas hasCanvas).
  Notation drawLayer := (drawLayer zero copyT blendOf destInM destOutM destInT destOverT clearT removeAlpha canvas mask).
  Notation putTile := (putTile copyT blendOf).
  Notation drawTop := (drawTop zero copyT blendOf destInM destOutM destInT destOverT clearT removeAlpha canvas mask).
  Notation updateTile := (updateTile zero copyT blendOf destInM destOutM destInT destOverT clearT removeAlpha canvas mask).
  Notation renderTile := (renderTile zero copyT blendOf destInM destOutM destInT destOverT clearT removeAlpha canvas mask).
  Notation clips := (clips zero copyT blendOf destInM destOutM destInT destOverT clearT removeAlpha canvas mask).
  Notation draws := (draws zero copyT blendOf destInM destOutM destInT destOverT clearT removeAlpha canvas mask).
  Notation finish := (finish zero copyT blendOf destInM destOutM destInT destOverT clearT removeAlpha canvas mask).
  Notation invRoot := (invRoot zero copyT blendOf destInM destOutM destInT destOverT clearT removeAlpha canvas hasCanvas mask).
  Notation invKs := (invKs zero copyT blendOf destInM destOutM destInT destOverT clearT removeAlpha canvas hasCanvas mask).
  Notation drawsP := (drawsP zero copyT blendOf destInM destOutM destInT destOverT clearT removeAlpha canvas mask).
  Notation stableRoot := (stableRoot zero copyT blendOf destInM destOutM destInT destOverT clearT removeAlpha canvas mask).
  Notation lwf := (lwf blendOf hasCanvas).
  Notation modeOK := (modeOK blendOf).
  Notation modesOK := (modesOK blendOf).
  Notation ent st s := (m_get Z.eqb (tent st) s).

  (** * Panics *)
  Definition Nspec (l : layer) : Prop := modesOK l -> forall st b op force, drawLayer st b l op force <> None.
  Lemma putTile_some a cs b x op : modeOK a cs -> putTile a b x op <> None.
  Proof.
    intros H E. rewrite (putTile_ok copyT blendOf a cs b x op H) in E. discriminate.
  Qed.
  Lemma clips_some cs : Forall Nspec cs -> Forall modesOK cs -> forall st x, clips cs st x <> None.
  Proof.
    induction 1 as [|c cs Hc _ IH]; intros M st x; [discriminate|]. inversion M; subst. rewrite clips_cons.
    destruct (drawLayer st x c (lopa (latt c)) true) as [[[st1 x1] dr]|] eqn:E; [now apply IH|]. exfalso. revert E. now apply Hc.
  Qed.
  Lemma draws_some al ks : Forall Nspec ks -> Forall modesOK ks -> forall st x d, draws al ks st x d <> None.
  Proof.
    induction 1 as [|c cs Hc _ IH]; intros M st x d; [discriminate|]. inversion M; subst. rewrite draws_cons.
    destruct (drawLayer st x c _ false) as [[[st1 x1] dr]|] eqn:E; [now apply IH|]. exfalso. revert E. now apply Hc.
  Qed.
  Lemma finish_some a cs op b st buf cached : modeOK a cs -> Forall Nspec cs -> Forall modesOK cs -> finish a cs op b st buf cached <> None.
  Proof.
    intros M Hc Mc. unfold PRender.finish. cbn zeta. destruct cs as [|c cs].
    - destruct (putTile a b _ op) eqn:E; [discriminate|]. exfalso. revert E. eapply putTile_some; exact M.
    - destruct (lbce a) eqn:Eb.
      + destruct (clips (c :: cs) st _) as [[st1 x]|] eqn:E1; [|exfalso; revert E1; now apply clips_some].
        destruct (putTile a b _ op) eqn:E; [discriminate|]. exfalso. revert E. eapply putTile_some; exact M.
      + unfold drawWithOpacity. unfold SRender.modeOK in M. destruct (isPT a); [destruct M; congruence|].
        destruct (blendOf (lbm a)); congruence.
  Qed.
  Lemma drawLayer_some l : Nspec l.
  Proof.
    induction l as [a ks cs Hk Hc] using layer_rec'. intros M st b op force. inversion M as [? ? ? Ma Mk Mc]; subst. rewrite drawLayer_eq.
    destruct (negb (lvis a) || (op =? 0)); [discriminate|]. destruct (lclipping a && negb force); [discriminate|].
    destruct (isNil ks).
    - destruct (canvas (lseq a)); [now apply finish_some|discriminate].
    - destruct (ent st (lseq a)) as [[ci|]|].
      + destruct (putTile a b ci op) eqn:E; [discriminate|]. exfalso. revert E. eapply putTile_some; exact Ma.
      + discriminate.
      + destruct (draws _ ks st _ false) as [[[st1 buf] drew]|] eqn:Ed; [|exfalso; revert Ed; now apply draws_some].
        destruct drew; [now apply finish_some|discriminate].
  Qed.
  Lemma drawTop_some ks : Forall modesOK ks -> forall st x d, drawTop ks st x d <> None.
  Proof.
    induction 1 as [|k ks Hk _ IH]; intros st x d; cbn [MRender.drawTop]; [discriminate|].
    destruct (drawLayer st x k (lopa (latt k)) false) as [[[st1 x1] dr]|] eqn:E; [apply IH|]. exfalso. revert E. now apply drawLayer_some.
  Qed.
  Lemma renderTile_some diffOnly root st d : Forall modesOK (lkids root) -> renderTile diffOnly root st d <> None.
  Proof.
    intros M. unfold MRender.renderTile. destruct (updateTile root st) as [[st1 m]|] eqn:E.
    - destruct (m || negb diffOnly); [|discriminate]. destruct (updateTile_present _ _ _ _ _ _ _ _ _ _ _ _ _ _ _ E) as [e Ee].
      unfold paint. rewrite Ee. destruct e; discriminate.
    - exfalso. revert E. unfold MRender.updateTile. destruct (ent st (lseq (latt root))); [discriminate|].
      destruct (drawTop (lkids root) st zero false) as [[[st1 buf] drew]|] eqn:Ed; [discriminate|]. exfalso. revert Ed. now apply drawTop_some.
  Qed.

  (** * A render with a valid cache and a fresh one *)
  Definition fresh : tstate := Tst [] [].
  Lemma invKs_fresh f ks : forall buf, invKs f ks buf fresh.
  Proof.
    assert (A : forall l c, PRender2.inv zero copyT blendOf destInM destOutM destInT destOverT clearT removeAlpha canvas hasCanvas mask c l fresh).
    { induction l as [a ks0 cs Hk Hc] using layer_rec'. intros c. rewrite inv_eq. split; [|split].
      - right. exact I.
      - apply kidsOK_all. rewrite Forall_forall in *. intros k Ik d. unfold PRender2.kidInv. destruct (lclipping (latt k)); [intros s _; reflexivity|now apply Hk].
      - apply groupOK_all. rewrite Forall_forall in *. intros k Ik d. now apply Hc. }
    induction ks as [|k ks IH]; intros buf; [exact I|]. split; [|apply IH].
    unfold PRender2.kidInv. destruct (lclipping (latt k)); [intros s _; reflexivity|apply A].
  Qed.
  Lemma invRoot_fresh root : invRoot root fresh.
  Proof. split; [exact I|apply invKs_fresh]. Qed.

  (** The log does not matter *)
  Lemma invRoot_ents root st st' : (forall s, ent st' s = ent st s) -> invRoot root st -> invRoot root st'.
  Proof.
    intros H [J1 J2]. split; [rewrite H; exact J1|]. revert J2. apply invKs_fewer; [apply all_keep|]. intros s _. auto.
  Qed.

  Lemma render_fresh root st d : lwf root -> NoDup (lseq (latt root) :: flat_map seqs (lkids root)) -> stableRoot root -> invRoot root st ->
    exists st1 st2 d', renderTile false root st d = Some (st1, d') /\ renderTile false root fresh d = Some (st2, d') /\ invRoot root st1 /\
      d' = shown zero copyT blendOf destInM destOutM destInT destOverT clearT removeAlpha canvas mask root d.
  Proof.
    intros W N S H. assert (Wk : Forall lwf (lkids root)) by (inversion W; subst; assumption).
    destruct (updateTile_ok zero copyT blendOf destInM destOutM destInT destOverT clearT removeAlpha canvas hasCanvas mask root st Wk N H S) as (st1 & m1 & E1 & J1 & P1).
    destruct (updateTile_ok zero copyT blendOf destInM destOutM destInT destOverT clearT removeAlpha canvas hasCanvas mask root fresh Wk N (invRoot_fresh root) S) as (st2 & m2 & E2 & J2 & P2).
    unfold MRender.renderTile. rewrite E1, E2, !orb_true_r. unfold paint. rewrite P1, P2.
    unfold shown. cbn zeta. destruct (snd (drawsP idOp (lkids root) zero false)); eauto 8.
  Qed.
  Lemma render_keeps diffOnly root st d st' d' : lwf root -> NoDup (lseq (latt root) :: flat_map seqs (lkids root)) -> stableRoot root -> invRoot root st ->
    renderTile diffOnly root st d = Some (st', d') -> invRoot root st'.
  Proof.
    intros W N S H. assert (Wk : Forall lwf (lkids root)) by (inversion W; subst; assumption).
    destruct (updateTile_ok zero copyT blendOf destInM destOutM destInT destOverT clearT removeAlpha canvas hasCanvas mask root st Wk N H S) as (st1 & m1 & E1 & J1 & P1).
    unfold MRender.renderTile. rewrite E1. destruct (m1 || negb diffOnly).
    - destruct (paint copyT clearT root st1 d); [|discriminate]. intros [= <- <-]. exact J1.
    - intros [= <- <-]. exact J1.
  Qed.

  (** If copying is exact, every buffer is stable *)
  Lemma stable_exact : (forall i, copyT i = i) -> forall root, stableRoot root.
  Proof.
    intros C root. unfold SRender.stableRoot.
    assert (A : forall l b op, stable zero copyT blendOf destInM destOutM destInT destOverT clearT removeAlpha canvas mask l b op).
    { induction l as [a ks cs Hk Hc] using layer_rec'. intros b op. rewrite stable_eq. intros _. split.
      - generalize (startBuf zero copyT a b). clear Hc. induction Hk as [|k ks H _ IH]; intros buf; [exact I|]. split; [intros _; apply H|apply IH].
      - intros m _. split; [|intros _; apply C]. intros _. generalize (removeAlpha (copyT m)). clear Hk.
        induction Hc as [|k ks0 H _ IH]; intros x; [exact I|]. split; [apply H|apply IH]. }
    generalize zero at 2. intros buf. generalize (lkids root). intros ks. revert buf. induction ks as [|k ks IH]; intros buf; [exact I|].
    split; [intros _; apply A|apply IH].
  Qed.
End render.
