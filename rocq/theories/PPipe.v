(** Drawing a tree of plain layers: every pixel is the painting of the pixels of the layers. *)
From Verif Require Import Base BaseFacts MRect MBlend MPorter SBlend PLum PBlend PBlend2 PBlend3 PHsl PPorter
  MRender SRender PRender PRender2 MRenderPx PRenderPx SPipe.
Open Scope Z_scope.

Definition okc (c : option px) : Prop := match c with Some v => pixel_ok v /\ pa v = 255 | None => True end.
Lemma black_ok : pixel_ok black.
Proof. unfold pixel_ok, black. cbn. lia. Qed.
Lemma shown_ok c : okc c -> pixel_ok (shown_as c).
Proof. destruct c as [v|]; [intros [H _]; exact H|intros _; exact black_ok]. Qed.
Lemma over_ok m s d : okc s -> okc d -> okc (over m s d).
Proof.
  destruct s as [s|]; [|intros _ H; exact H]. destruct d as [d|]; [|intros H _; exact H]. intros [Hs As] [Hd Ad]. cbn [over okc].
  destruct (blend8_range m 255 s d ltac:(unfold byte; lia) Hs Hd) as (p & E & _ & Hp). unfold opaque_mix. rewrite E. split; [exact Hp|].
  exact (blend8_opaque_source m s d p Hs Hd As E).
Qed.
Lemma over_px m s d : okc s -> okc d -> orElse (blend8 machine m 255 (shown_as s) (shown_as d)) (shown_as d) = shown_as (over m s d).
Proof.
  intros Hs Hd. destruct s as [s|].
  - destruct Hs as [Hs As]. destruct d as [d|]; [reflexivity|]. cbn [shown_as over].
    rewrite (blend8_over_transparent m 255 s (Px 0 0 0 0)); [|unfold byte; lia|exact Hs|exact black_ok|reflexivity].
    cbv zeta. rewrite As. change (255 * 255 / 255) with 255. cbn [Z.eqb orElse]. destruct s as [r g b a]. cbn [pa] in As. subst a. reflexivity.
  - cbn [over shown_as]. fold (shown_as d). rewrite (blend8_nothing m 255); [reflexivity|unfold byte; lia|exact black_ok|now apply shown_ok|left; reflexivity].
Qed.
Lemma copy_px c : okc c -> orElse (pdB machine Copy true true 65535 (shown_as c) black) black = shown_as c.
Proof.
  intros H. destruct (straight_copy (shown_as c) black (shown_ok c H) black_ok) as (p & -> & _ & P0 & _ & P1). cbn [orElse].
  destruct c as [v|]; [apply P1; destruct H; cbn [shown_as]; lia|apply P0; reflexivity].
Qed.

Lemma nth_map2 {A B C} (f : A -> B -> C) : forall l l' i x y, nth_error l i = Some x -> nth_error l' i = Some y ->
  nth_error (map2 f l l') i = Some (f x y).
Proof.
  induction l as [|a l IH]; intros l' i x y; destruct i as [|i], l' as [|b l']; cbn [nth_error map2]; try discriminate; [congruence|apply IH].
Qed.
Lemma length_map2 {A B C} (f : A -> B -> C) : forall l l', length l = length l' -> length (map2 f l l') = length l.
Proof. induction l as [|a l IH]; intros [|b l'] H; try discriminate; [reflexivity|]. cbn [map2 length] in *. f_equal. apply IH. lia. Qed.

Section draw.
  Variable n : nat.
  Variable canvas : Z -> option tile.
  Variable mask : Z -> option mtile.
  (** The buffer [b] holds the painting [f]. *)
  Definition holds (b : tile) (f : nat -> option px) : Prop :=
    length b = n /\ forall i, (i < n)%nat -> nth_error b i = Some (shown_as (f i)) /\ okc (f i).
  Hypothesis canvas_good : forall s t, canvas s = Some t -> exists f, holds t f.

  Lemma holds_ext b f g : (forall i, (i < n)%nat -> f i = g i) -> holds b f -> holds b g.
  Proof. intros E [L H]. split; [exact L|]. intros i Hi. rewrite <- E by exact Hi. now apply H. Qed.
  Lemma holds_zero : holds (zeroPx n) (fun _ => None).
  Proof. split; [apply repeat_length|]. intros i Hi. split; [|exact I]. now apply nth_error_repeat. Qed.
  Lemma holds_copy b f : holds b f -> copyPx b = b.
  Proof.
    intros [L H]. unfold copyPx. rewrite <- (map_id b) at 2. apply map_ext_in. intros v Hv. apply In_nth_error in Hv. destruct Hv as [i Ei].
    assert (i < n)%nat as Hi by (rewrite <- L; apply nth_error_Some; congruence). destruct (H i Hi) as [E K]. rewrite E in Ei. injection Ei as <-.
    now apply copy_px.
  Qed.
  Lemma holds_blend m s d fs fd : holds s fs -> holds d fd ->
    holds (map2 (fun s d => orElse (blend8 machine m 255 s d) d) s d) (fun i => over m (fs i) (fd i)).
  Proof.
    intros [Ls Hs] [Ld Hd]. split; [rewrite length_map2; lia|]. intros i Hi. destruct (Hs i Hi) as [Es Ks], (Hd i Hi) as [Ed Kd].
    split; [|now apply over_ok]. rewrite (nth_map2 _ _ _ _ _ _ Es Ed). f_equal. now apply over_px.
  Qed.

  Notation body := (body (zeroPx n) copyPx blendPx destInMPx destOutMPx destInPx destOverPx (clearPx n) removeAlphaPx canvas mask).
  Notation pre := (pre (zeroPx n) copyPx blendPx destInMPx destOutMPx destInPx destOverPx (clearPx n) removeAlphaPx canvas mask).
  Notation kidP := (kidP (zeroPx n) copyPx blendPx destInMPx destOutMPx destInPx destOverPx (clearPx n) removeAlphaPx canvas mask).
  Notation drawsP := (drawsP (zeroPx n) copyPx blendPx destInMPx destOutMPx destInPx destOverPx (clearPx n) removeAlphaPx canvas mask).
  Notation stable := (stable (zeroPx n) copyPx blendPx destInMPx destOutMPx destInPx destOverPx (clearPx n) removeAlphaPx canvas mask).
  Notation stableKs := (stableKs (zeroPx n) copyPx blendPx destInMPx destOutMPx destInPx destOverPx (clearPx n) removeAlphaPx canvas mask).

  Definition modeB (a : lattr) : mode := match m_get list_eqb blendModes (lbm a) with Some m => m | None => Normal end.
  Definition cellOf (s : Z) (i : nat) : option px :=
    match canvas s with
    | Some t => match nth_error t i with Some v => if pa v =? 255 then Some v else None | None => None end
    | None => None
    end.
  Inductive plainL : layer -> Prop :=
  | PlainL a ks : lopa a = 255 -> lclipping a = false -> lmen a = false ->
      (isPT a = false -> m_get list_eqb blendModes (lbm a) <> None) -> (isPT a = true -> ks = [] -> canvas (lseq a) = None) ->
      Forall plainL ks -> plainL (Lay a ks []).
  Fixpoint comp (i : nat) (l : layer) (d : option px) : option px :=
    match l with
    | Lay a ks _ =>
        if lvis a then
          match ks with
          | [] => over (modeB a) (cellOf (lseq a) i) d
          | _ => if isPT a then fold_left (fun d k => comp i k d) ks d else over (modeB a) (fold_left (fun d k => comp i k d) ks None) d
          end
        else d
    end.
  Definition comps (i : nat) (ks : list layer) (d : option px) : option px := fold_left (fun d k => comp i k d) ks d.

  Lemma canvas_cell s t : canvas s = Some t -> holds t (cellOf s).
  Proof.
    intros E. destruct (canvas_good s t E) as [f H]. eapply holds_ext; [|exact H]. intros i Hi. destruct H as [L H]. destruct (H i Hi) as [Ei K].
    unfold cellOf. rewrite E, Ei. destruct (f i) as [v|]; [|reflexivity]. destruct K as [_ K]. cbn [shown_as]. now rewrite K.
  Qed.

  Lemma kidOp_255 a : kidOp a 255 255 = 255.
  Proof. unfold kidOp, alphaOf. destruct (isPT a); reflexivity. Qed.

  (** Drawing one layer *)
  Definition draws_well (l : layer) : Prop := forall b f, holds b f ->
    stable l b 255 /\
    exists b' drew, dr1 copyPx blendPx (latt l) (body l b 255) b 255 = (b', drew) /\ holds b' (fun i => comp i l (f i)) /\
      (drew = false -> forall i, (i < n)%nat -> comp i l (f i) = f i).
  Definition full (f : Z -> Z) : Prop := f 255 = 255.
  Lemma draws_all ks g : full g -> Forall plainL ks -> Forall draws_well ks -> forall b f, holds b f ->
    stableKs g ks b /\
    forall dw, exists b' drew, drawsP g ks b dw = (b', drew) /\ holds b' (fun i => comps i ks (f i)) /\
      (drew = false -> dw = false /\ forall i, (i < n)%nat -> comps i ks (f i) = f i).
  Proof.
    intros Hg HP HW. induction HW as [|k ks HW _ IH]; intros b f Hb.
    - split; [exact I|]. intros dw. exists b, dw. split; [reflexivity|]. split; [exact Hb|]. intros ->. auto.
    - inversion HP as [|? ? Pk Pks]; subst. destruct (HW b f Hb) as (Sk & b1 & d1 & E1 & H1 & N1).
      assert (K : kidP g k b = (b1, d1)).
      { unfold SRender.kidP. inversion Pk as [a ks' Ho Hc]; subst. cbn [latt] in *. rewrite Hc, Ho, Hg. exact E1. }
      destruct (IH Pks b1 _ H1) as (Sks & R). split.
      + cbn [SRender.stableKs]. rewrite K. cbn [fst]. split; [|exact Sks]. intros _. inversion Pk as [a ks' Ho Hc]; subst. cbn [latt]. now rewrite Ho, Hg.
      + intros dw. cbn [SRender.drawsP]. rewrite K. cbn [fst snd]. destruct (R (dw || d1)) as (b' & dr & E & H & N).
        exists b', dr. split; [exact E|]. split; [exact H|]. intros X. destruct (N X) as [Y Z]. apply orb_false_iff in Y. destruct Y as [-> ->].
        split; [reflexivity|]. intros i Hi. unfold comps in *. cbn [fold_left]. rewrite Z by exact Hi. now apply N1.
  Qed.

  Lemma draws_plain l : plainL l -> draws_well l.
  Proof.
    induction l as [a ks cs Hk _] using layer_rec'. intros P. inversion P as [? ? Ho Hc Hm Hmode Hleaf Hks]; subst. intros b f Hb.
    assert (HW : Forall draws_well ks). { rewrite Forall_forall in *. auto. }
    cbn [latt].
    assert (Hst : holds (startBuf (zeroPx n) copyPx a b) (fun i => if isPT a then f i else None)).
    { unfold startBuf. destruct (isPT a); [rewrite (holds_copy b f Hb); exact Hb|exact holds_zero]. }
    destruct (draws_all ks (kidOp a 255) (kidOp_255 a) Hks HW _ _ Hst) as (Sks & R). destruct (R false) as (r & dr & Er & Hr & Nr). clear R.
    assert (Epre : pre (Lay a ks []) b 255 =
      if isNil ks then option_map copyPx (canvas (lseq a)) else if dr then Some r else None).
    { unfold SRender.pre. rewrite Er. cbn [fst snd]. unfold maskT. rewrite Hm. destruct (isNil ks); [destruct (canvas (lseq a)); reflexivity|]. now destruct dr. }
    assert (Eput : forall x fx, holds x fx -> isPT a = false -> putT copyPx blendPx a b x 255 = map2 (fun s d => orElse (blend8 machine (modeB a) 255 s d) d) x b).
    { intros x fx Hx Ep. unfold putT. rewrite Ep. unfold blendT, blendPx, modeB. specialize (Hmode Ep). destruct (m_get list_eqb blendModes (lbm a)); [reflexivity|congruence]. }
    split.
    - rewrite stable_eq. intros _. split; [exact Sks|]. intros m Em. split; [intros _; exact I|]. intros En. cbn [grp]. rewrite Epre, En in Em.
      destruct dr; [|discriminate]. injection Em as <-. eapply holds_copy. exact Hr.
    - rewrite body_eq. cbn [latt lgroup]. rewrite Epre. unfold dr1. cbn [comp]. destruct (lvis a) eqn:Ev.
      2: { cbn [negb orb]. exists b, false. split; [reflexivity|]. split; [exact Hb|reflexivity]. }
      cbn [negb orb]. change (255 =? 0) with false. cbn iota. destruct ks as [|k ks].
      + cbn [isNil]. destruct (canvas (lseq a)) as [t|] eqn:Et; cbn [option_map grp].
        * pose proof (canvas_cell _ _ Et) as Ht. destruct (isPT a) eqn:Ep; [specialize (Hleaf eq_refl eq_refl); discriminate|].
          rewrite (holds_copy _ _ Ht). eexists. exists true. split; [reflexivity|]. split; [|discriminate]. rewrite (Eput t _ Ht eq_refl). now apply holds_blend.
        * exists b, false. assert (Z : forall i, over (modeB a) (cellOf (lseq a) i) (f i) = f i) by (intros i; unfold cellOf; rewrite Et; reflexivity).
          split; [reflexivity|]. split; [|intros _ i _; apply Z]. eapply holds_ext; [|exact Hb]. intros i _. now rewrite Z.
      + cbn [isNil]. destruct dr; cbn [option_map grp].
        * eexists. exists true. split; [reflexivity|]. split; [|discriminate]. destruct (isPT a) eqn:Ep.
          -- unfold putT. rewrite Ep. rewrite (holds_copy _ _ Hr). exact Hr.
          -- rewrite (Eput r _ Hr eq_refl). apply (holds_blend (modeB a) r b _ f Hr Hb).
        * destruct (Nr eq_refl) as [_ N]. exists b, false. split; [reflexivity|].
          assert (Z : forall i, (i < n)%nat -> (if isPT a then fold_left (fun d k => comp i k d) (k :: ks) (f i) else over (modeB a) (fold_left (fun d k => comp i k d) (k :: ks) None) (f i)) = f i).
          { intros i Hi. specialize (N i Hi). unfold comps in N. destruct (isPT a); rewrite N; reflexivity. }
          split; [|intros _; exact Z]. eapply holds_ext; [|exact Hb]. intros i Hi. symmetry. now apply Z.
  Qed.

  Notation shown := (shown (zeroPx n) copyPx blendPx destInMPx destOutMPx destInPx destOverPx (clearPx n) removeAlphaPx canvas mask).
  Lemma shown_plain a ks cs d : Forall plainL ks ->
    stableKs idOp ks (zeroPx n) /\ holds (shown (Lay a ks cs) d) (fun i => comps i ks None).
  Proof.
    intros HP. assert (HW : Forall draws_well ks) by (eapply Forall_impl; [exact draws_plain|exact HP]).
    destruct (draws_all ks idOp eq_refl HP HW _ _ holds_zero) as (S & R). split; [exact S|]. destruct (R false) as (b & dr & E & H & N).
    unfold SRender.shown. cbn [lkids]. rewrite E. cbn [fst snd]. destruct dr.
    - rewrite (holds_copy _ _ H). rewrite (holds_copy _ _ H). exact H.
    - destruct (N eq_refl) as [_ N']. unfold clearPx. eapply holds_ext; [|exact holds_zero]. intros i Hi. symmetry. now apply N'.
  Qed.

End draw.
