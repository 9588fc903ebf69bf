(** Drawing a tree of sharp layers: masks of black and white, clipping groups. *)
From Verif Require Import Base BaseFacts MRect MBlend MPorter SBlend SPorter PLum PBlend PBlend2 PBlend3 PHsl PPorter
  MRender SRender PRender PRender2 MRenderPx PRenderPx SPipe PPipe.
Open Scope Z_scope.

(** * Pixels *)
Definition el (s d : option px) : option px := match s with Some _ => s | None => d end.
Lemma el_ok s d : okc s -> okc d -> okc (el s d).
Proof. now destruct s. Qed.

Definition px16 (c : option px) : px := match c with Some v => Px (pr v * 257) (pg v * 257) (pb v * 257) 65535 | None => Px 0 0 0 0 end.
Lemma src_px c : okc c -> src16 true (shown_as c) = px16 c.
Proof.
  destruct c as [[r g b a]|]; [intros [H E]|reflexivity]. cbn [pa] in E. subst a. unfold src16, premulx, wide, px16. cbn [shown_as pr pg pb pa].
  change (255 * 257) with 65535. rewrite !Z.div_mul by lia. reflexivity.
Qed.
Lemma out_px c : okc c -> out16 true (px16 c) = shown_as c.
Proof.
  destruct c as [[r g b a]|]; [intros [H E]|reflexivity]. cbn [pa] in E. subst a. unfold pixel_ok in H. cbn [pr pg pb pa] in H.
  unfold out16, unmulx, low8, px16. cbn [shown_as pr pg pb pa]. change (65535 =? 0) with false. cbn iota. cbn [pr pg pb pa]. rewrite !Z.div_mul by lia. f_equal; lia.
Qed.
Lemma full_mul x : x * 65535 / 65535 = x.
Proof. apply Z.div_mul. lia. Qed.

Lemma pdA_shown op s d c : (s = 0 \/ s = 255) -> okc d -> okc c -> textbook op (Px 0 0 0 (s * 257)) (px16 d) = px16 c ->
  orElse (pdA machine op true 65535 s (shown_as d)) (shown_as d) = shown_as c.
Proof.
  intros Hs Hd Hc E. destruct (pdA_eq machine op true s (shown_as d)) as (-> & _); [now left|unfold byte; lia|now apply shown_ok|discriminate|].
  cbn [orElse]. rewrite src_px by exact Hd. rewrite E. now apply out_px.
Qed.
Lemma pdB_shown op s d c : okc s -> okc d -> okc c -> textbook op (px16 s) (px16 d) = px16 c ->
  orElse (pdB machine op true true 65535 (shown_as s) (shown_as d)) (shown_as d) = shown_as c.
Proof.
  intros Hs Hd Hc E. destruct (pdB_eq machine op true true (shown_as s) (shown_as d)) as (-> & _); [now left|now apply shown_ok|now apply shown_ok|discriminate|discriminate|].
  cbn [orElse]. rewrite !src_px by assumption. rewrite E. now apply out_px.
Qed.
Lemma in_mask s d : (s = 0 \/ s = 255) -> okc d -> orElse (pdA machine DestIn true 65535 s (shown_as d)) (shown_as d) = shown_as (if s =? 255 then d else None).
Proof.
  intros [-> | ->] Hd; (apply pdA_shown; [lia|exact Hd|try exact Hd; exact I|]); unfold textbook; cbn [frac_src frac_dest pa pr pg pb Z.eqb Pos.eqb].
  - destruct d as [v|]; cbn [px16 pr pg pb pa]; rewrite ?Z.mul_0_r; reflexivity.
  - change (255 * 257) with 65535. destruct d as [v|]; cbn [px16 pr pg pb pa]; rewrite ?Z.mul_0_r, ?Z.add_0_l, ?full_mul; reflexivity.
Qed.
Lemma out_mask s d : (s = 0 \/ s = 255) -> okc d -> orElse (pdA machine DestOut true 65535 s (shown_as d)) (shown_as d) = shown_as (if s =? 0 then d else None).
Proof.
  intros [-> | ->] Hd; (apply pdA_shown; [lia|exact Hd|try exact Hd; exact I|]); unfold textbook; cbn [frac_src frac_dest pa pr pg pb Z.eqb Pos.eqb].
  - change (65535 - 0 * 257) with 65535. destruct d as [v|]; cbn [px16 pr pg pb pa]; rewrite ?Z.mul_0_r, ?Z.add_0_l, ?full_mul; reflexivity.
  - change (65535 - 255 * 257) with 0. destruct d as [v|]; cbn [px16 pr pg pb pa]; rewrite ?Z.mul_0_r; reflexivity.
Qed.
Lemma in_px s d : okc s -> okc d -> orElse (pdB machine DestIn true true 65535 (shown_as s) (shown_as d)) (shown_as d) = shown_as (match s with Some _ => d | None => None end).
Proof.
  intros Hs Hd. apply pdB_shown; [exact Hs|exact Hd|now destruct s|]. unfold textbook. cbn [frac_src frac_dest].
  destruct s as [s|], d as [d|]; cbn [px16 pr pg pb pa]; rewrite ?Z.mul_0_r, ?Z.add_0_l, ?full_mul; reflexivity.
Qed.
Lemma under_px s d : okc s -> okc d -> orElse (pdB machine DestOver true true 65535 (shown_as s) (shown_as d)) (shown_as d) = shown_as (el d s).
Proof.
  intros Hs Hd. apply pdB_shown; [exact Hs|exact Hd|now destruct d|]. unfold textbook. cbn [frac_src frac_dest].
  destruct s as [s|], d as [d|]; cbn [px16 pr pg pb pa el]; rewrite ?Z.sub_diag, ?Z.sub_0_r, ?Z.mul_0_r, ?Z.add_0_l, ?Z.add_0_r, ?full_mul; reflexivity.
Qed.

Section draw.
  Variable n : nat.
  Variable canvas : Z -> option tile.
  Variable mask : Z -> option mtile.
  Notation holds := (holds n).
  Hypothesis canvas_good : forall s t, canvas s = Some t -> exists f, holds t f.

  Definition mask_ok (m : mtile) : Prop := length m = n /\ Forall (fun v => v = 0 \/ v = 255) m.
  Lemma mask_nth m i : mask_ok m -> (i < n)%nat -> exists v, nth_error m i = Some v /\ (v = 0 \/ v = 255).
  Proof.
    intros [L H] Hi. destruct (nth_error m i) as [v|] eqn:E; [|apply nth_error_None in E; lia]. exists v. split; [reflexivity|].
    apply nth_error_In in E. rewrite Forall_forall in H. auto.
  Qed.
  Lemma holds_map2 {A} (op : A -> px -> px) (l : list A) b f g : length l = n -> holds b f ->
    (forall i x, (i < n)%nat -> nth_error l i = Some x -> okc (f i) -> op x (shown_as (f i)) = shown_as (g i) /\ okc (g i)) -> holds (map2 op l b) g.
  Proof.
    intros L [Lb Hb] H. split; [rewrite length_map2; lia|]. intros i Hi. destruct (Hb i Hi) as [Eb Kb].
    destruct (nth_error l i) as [x|] eqn:E; [|apply nth_error_None in E; lia]. destruct (H i x Hi E Kb) as [E' K']. split; [|exact K'].
    rewrite (nth_map2 _ _ _ _ _ _ E Eb). now f_equal.
  Qed.
  Lemma holds_in m x f : mask_ok m -> holds x f -> holds (destInMPx m x) (fun i => if match nth_error m i with Some v => v =? 255 | None => false end then f i else None).
  Proof.
    intros Hm Hx. apply holds_map2 with (f := f); [apply Hm|exact Hx|]. intros i v Hi E K. rewrite E. destruct (mask_nth m i Hm Hi) as (v' & E' & Hv). rewrite E in E'. injection E' as <-.
    split; [now apply in_mask|]. destruct (v =? 255); [exact K|exact I].
  Qed.
  Lemma holds_out m x f : mask_ok m -> holds x f -> holds (destOutMPx m x) (fun i => if match nth_error m i with Some v => v =? 0 | None => false end then f i else None).
  Proof.
    intros Hm Hx. apply holds_map2 with (f := f); [apply Hm|exact Hx|]. intros i v Hi E K. rewrite E. destruct (mask_nth m i Hm Hi) as (v' & E' & Hv). rewrite E in E'. injection E' as <-.
    split; [now apply out_mask|]. destruct (v =? 0); [exact K|exact I].
  Qed.
  Lemma holds_inPx s x fs f : holds s fs -> holds x f -> holds (destInPx s x) (fun i => match fs i with Some _ => f i | None => None end).
  Proof.
    intros [Ls Hs] Hx. apply holds_map2 with (f := f); [exact Ls|exact Hx|]. intros i v Hi E K. destruct (Hs i Hi) as [E' K']. rewrite E in E'. injection E' as ->.
    split; [now apply in_px|]. now destruct (fs i).
  Qed.
  Lemma holds_under s x fs f : holds s fs -> holds x f -> holds (destOverPx s x) (fun i => el (f i) (fs i)).
  Proof.
    intros [Ls Hs] Hx. apply holds_map2 with (f := f); [exact Ls|exact Hx|]. intros i v Hi E K. destruct (Hs i Hi) as [E' K']. rewrite E in E'. injection E' as ->.
    split; [now apply under_px|now apply el_ok].
  Qed.
  Lemma holds_opaque x f : holds x f -> holds (removeAlphaPx x) (fun i => Some (match f i with Some v => v | None => Px 0 0 0 255 end)).
  Proof.
    intros [L H]. split; [unfold removeAlphaPx; now rewrite map_length|]. intros i Hi. destruct (H i Hi) as [E K]. unfold removeAlphaPx. rewrite nth_error_map, E. cbn [option_map shown_as].
    destruct (f i) as [[r g b a]|]; cbn [shown_as pr pg pb pa okc] in *.
    - destruct K as [K1 K2]. subst a. split; [reflexivity|]. auto.
    - split; [reflexivity|]. split; [unfold pixel_ok; cbn; lia|reflexivity].
  Qed.

  Notation body := (body (zeroPx n) copyPx blendPx destInMPx destOutMPx destInPx destOverPx (clearPx n) removeAlphaPx canvas mask).
  Notation pre := (pre (zeroPx n) copyPx blendPx destInMPx destOutMPx destInPx destOverPx (clearPx n) removeAlphaPx canvas mask).
  Notation grp := (grp (zeroPx n) copyPx blendPx destInMPx destOutMPx destInPx destOverPx (clearPx n) removeAlphaPx canvas mask).
  Notation maskT := (maskT destInMPx destOutMPx destOverPx (clearPx n) mask).
  Notation kidP := (kidP (zeroPx n) copyPx blendPx destInMPx destOutMPx destInPx destOverPx (clearPx n) removeAlphaPx canvas mask).
  Notation clipP := (clipP (zeroPx n) copyPx blendPx destInMPx destOutMPx destInPx destOverPx (clearPx n) removeAlphaPx canvas mask).
  Notation clipsP := (clipsP (zeroPx n) copyPx blendPx destInMPx destOutMPx destInPx destOverPx (clearPx n) removeAlphaPx canvas mask).
  Notation drawsP := (drawsP (zeroPx n) copyPx blendPx destInMPx destOutMPx destInPx destOverPx (clearPx n) removeAlphaPx canvas mask).
  Notation stable := (stable (zeroPx n) copyPx blendPx destInMPx destOutMPx destInPx destOverPx (clearPx n) removeAlphaPx canvas mask).
  Notation stableKs := (stableKs (zeroPx n) copyPx blendPx destInMPx destOutMPx destInPx destOverPx (clearPx n) removeAlphaPx canvas mask).
  Notation stableCs := (stableCs (zeroPx n) copyPx blendPx destInMPx destOutMPx destInPx destOverPx (clearPx n) removeAlphaPx canvas mask).
  Notation cellOf := (cellOf canvas).

  (** The layers *)
  Definition maskGood (a : lattr) : Prop := lmen a = true -> forall t, mask (lseq a) = Some t -> mask_ok t.
  Inductive sharpL : layer -> Prop :=
  | SharpL a ks cs : lopa a = 0 \/ lopa a = 255 -> maskGood a ->
      (isPT a = false -> m_get list_eqb blendModes (lbm a) <> None) -> (isPT a = true -> ks = [] -> canvas (lseq a) = None) ->
      (cs <> [] -> isPT a = false /\ lbce a = true) -> Forall sharpL ks -> Forall sharpL cs -> sharpL (Lay a ks cs).

  (** One pixel *)
  Definition drawn (a : lattr) : bool := lvis a && negb (lopa a =? 0).
  Definition putC (a : lattr) (s d : option px) : option px := if drawn a then if isPT a then s else over (modeB a) s d else d.
  (** The mask lets pixel [i] be seen *)
  Definition maskC (a : lattr) (i : nat) : bool :=
    match lmen a, lmdc a, mask (lseq a) with
    | false, _, _ => true
    | true, false, Some m => match nth_error m i with Some v => v =? 255 | None => false end
    | true, false, None => false
    | true, true, Some m => match nth_error m i with Some v => v =? 0 | None => false end
    | true, true, None => true
    end.
  Definition maskedC (a : lattr) (i : nat) (d s : option px) : option px :=
    if isPT a then if maskC a i then el s d else d else if maskC a i then s else None.
  Fixpoint bodyC (i : nat) (l : layer) (d : option px) {struct l} : option px :=
    match l with
    | Lay a ks cs =>
        let kids d0 := fold_left (fun d k => if lclipping (latt k) then d else putC (latt k) (bodyC i k d) d) ks d0 in
        let s := if isPT a then kids d else match ks with [] => cellOf (lseq a) i | _ => kids None end in
        match maskedC a i d s with
        | None => None
        | Some c => fold_left (fun d k => putC (latt k) (bodyC i k d) d) cs (Some c)
        end
    end.
  Definition compC (i : nat) (k : layer) (d : option px) : option px := putC (latt k) (bodyC i k d) d.
  Definition kidC (i : nat) (k : layer) (d : option px) : option px := if lclipping (latt k) then d else compC i k d.
  Definition kidsC (i : nat) (ks : list layer) (d : option px) : option px := fold_left (fun d k => kidC i k d) ks d.
  Definition clipsC (i : nat) (cs : list layer) (d : option px) : option px := fold_left (fun d k => compC i k d) cs d.
  Definition grpC (i : nat) (cs : list layer) (s : option px) : option px := match s with None => None | Some c => clipsC i cs (Some c) end.
  Definition preC (i : nat) (a : lattr) (ks : list layer) (d : option px) : option px :=
    if isPT a then kidsC i ks d else match ks with [] => cellOf (lseq a) i | _ => kidsC i ks None end.
  Lemma bodyC_eq i a ks cs d : bodyC i (Lay a ks cs) d = grpC i cs (maskedC a i d (preC i a ks d)).
  Proof. reflexivity. Qed.

  Lemma compC_some i : forall l c, exists c', compC i l (Some c) = Some c'.
  Proof.
    induction l as [a ks cs Hk Hc] using layer_rec'. intros c. unfold compC, putC. cbn [latt]. destruct (drawn a); [|eauto]. destruct (isPT a) eqn:Ep.
    - rewrite bodyC_eq. unfold maskedC. rewrite Ep.
      assert (M : exists c1, (if maskC a i then el (preC i a ks (Some c)) (Some c) else Some c) = Some c1) by (destruct (maskC a i); [destruct (preC i a ks (Some c)); cbn [el]|]; eauto).
      destruct M as (c1 & ->). cbn [grpC]. revert c1. unfold clipsC. clear -Hc. induction Hc as [|k cs H _ IH]; intros c1; cbn [fold_left]; [eauto|]. destruct (H c1) as (c2 & ->). apply IH.
    - destruct (bodyC i (Lay a ks cs) (Some c)); cbn [over]; eauto.
  Qed.
  Lemma kidsC_some i : forall ks c, exists c', kidsC i ks (Some c) = Some c'.
  Proof.
    unfold kidsC. induction ks as [|k ks IH]; intros c; cbn [fold_left]; [eauto|]. unfold kidC at 2. destruct (lclipping (latt k)); [apply IH|]. destruct (compC_some i k c) as (c' & ->). apply IH.
  Qed.
  Lemma el_kids i ks d : el (kidsC i ks d) d = kidsC i ks d.
  Proof. destruct d as [c|]; [|now destruct (kidsC i ks None)]. destruct (kidsC_some i ks c) as (c' & ->). reflexivity. Qed.

  Lemma holds_mask a b x fb f : maskGood a -> holds b fb -> holds x f -> (forall i, (i < n)%nat -> isPT a = true -> el (f i) (fb i) = f i) -> holds (maskT a b x) (fun i => maskedC a i (fb i) (f i)).
  Proof.
    intros Hg Hb Hx He. unfold SRender.maskT, maskedC, maskC. destruct (lmen a) eqn:Em.
    2: { eapply holds_ext; [|exact Hx]. intros i Hi. cbn iota. destruct (isPT a) eqn:Ep; [now rewrite He|reflexivity]. }
    assert (U : forall y fy, holds y fy -> (forall i, (i < n)%nat -> maskedC a i (fb i) (f i) = if isPT a then el (fy i) (fb i) else fy i) ->
      holds (if isPT a then destOverPx b y else y) (fun i => maskedC a i (fb i) (f i))).
    { intros y fy Hy E. destruct (isPT a); (eapply holds_ext; [intros i Hi; symmetry; now apply E|]); [now apply holds_under|exact Hy]. }
    unfold maskedC, maskC in U. rewrite Em in U. specialize (Hg Em). destruct (lmdc a), (mask (lseq a)) as [m|]; eapply U.
    - apply holds_out; [now apply Hg|exact Hx].
    - intros i Hi. cbn iota. destruct (isPT a); destruct (match nth_error m i with Some v => v =? 0 | None => false end); reflexivity.
    - exact Hx.
    - intros i Hi. reflexivity.
    - apply holds_in; [now apply Hg|exact Hx].
    - intros i Hi. cbn iota. destruct (isPT a); destruct (match nth_error m i with Some v => v =? 255 | None => false end); reflexivity.
    - apply holds_zero.
    - intros i Hi. cbn iota. destruct (isPT a); reflexivity.
  Qed.

  Definition draws_well (l : layer) : Prop := forall b f, holds b f ->
    stable l b (lopa (latt l)) /\
    exists b' drew, dr1 copyPx blendPx (latt l) (body l b (lopa (latt l))) b (lopa (latt l)) = (b', drew) /\ holds b' (fun i => compC i l (f i)) /\
      (drew = false -> forall i, (i < n)%nat -> compC i l (f i) = f i).
  Definition sharpO (g : Z -> Z) : Prop := g 0 = 0 /\ g 255 = 255.
  Lemma sharp_op l g : sharpL l -> sharpO g -> g (lopa (latt l)) = lopa (latt l).
  Proof. intros H [G0 G1]. inversion H as [a ks cs Ho]; subst. cbn [latt]. destruct Ho as [-> | ->]; assumption. Qed.
  Lemma draws_all ks g : sharpO g -> Forall sharpL ks -> Forall draws_well ks -> forall b f, holds b f ->
    stableKs g ks b /\
    forall dw, exists b' drew, drawsP g ks b dw = (b', drew) /\ holds b' (fun i => kidsC i ks (f i)) /\
      (drew = false -> dw = false /\ forall i, (i < n)%nat -> kidsC i ks (f i) = f i).
  Proof.
    intros Hg HP HW. induction HW as [|k ks HW _ IH]; intros b f Hb.
    - split; [exact I|]. intros dw. exists b, dw. split; [reflexivity|]. split; [exact Hb|]. intros ->. auto.
    - pose proof (Forall_inv HP) as Pk. pose proof (Forall_inv_tail HP) as Pks. pose proof (sharp_op k g Pk Hg) as Eo.
      assert (K : exists b1 d1, kidP g k b = (b1, d1) /\ holds b1 (fun i => kidC i k (f i)) /\ (d1 = false -> forall i, (i < n)%nat -> kidC i k (f i) = f i) /\
                  (lclipping (latt k) = false -> stable k b (g (lopa (latt k))))).
      { unfold SRender.kidP, kidC. destruct (lclipping (latt k)); [exists b, false; split; [reflexivity|]; split; [exact Hb|]; split; [reflexivity|discriminate]|]. cbv zeta. rewrite Eo.
        destruct (HW b f Hb) as (Sk & b1 & d1 & E1 & H1 & N1). exists b1, d1. auto. }
      destruct K as (b1 & d1 & K & H1 & N1 & Sk). destruct (IH Pks b1 _ H1) as (Sks & R). split.
      + cbn [SRender.stableKs]. rewrite K. cbn [fst]. split; [exact Sk|exact Sks].
      + intros dw. cbn [SRender.drawsP]. rewrite K. cbn [fst snd]. destruct (R (dw || d1)) as (b' & dr & E & H & N).
        exists b', dr. split; [exact E|]. split; [exact H|]. intros X. destruct (N X) as [Y Z]. apply orb_false_iff in Y. destruct Y as [-> ->].
        split; [reflexivity|]. intros i Hi. unfold kidsC in *. cbn [fold_left]. rewrite Z by exact Hi. now apply N1.
  Qed.
  Lemma clips_all cs : Forall draws_well cs -> forall b f, holds b f -> stableCs cs b /\ holds (clipsP cs b) (fun i => clipsC i cs (f i)).
  Proof.
    induction 1 as [|k cs HW _ IH]; intros b f Hb; [split; [exact I|exact Hb]|]. destruct (HW b f Hb) as (Sk & b1 & d1 & E1 & H1 & N1).
    assert (K : clipP k b = b1) by (unfold SRender.clipP; now rewrite E1). destruct (IH b1 _ H1) as [Sc Hc]. cbn [SRender.stableCs SRender.clipsP]. rewrite K. auto.
  Qed.
  Lemma clip_shape i cs c : exists c', clipsC i cs (Some c) = Some c'.
  Proof. unfold clipsC. revert c. induction cs as [|k cs IH]; intros c; cbn [fold_left]; [eauto|]. destruct (compC_some i k c) as (c' & ->). apply IH. Qed.
  Lemma holds_grp a cs m fm : (cs <> [] -> lbce a = true) -> Forall draws_well cs -> holds m fm ->
    (lbce a = true -> stableCs cs (removeAlphaPx (copyPx m))) /\ holds (grp a cs m) (fun i => grpC i cs (fm i)).
  Proof.
    intros Hl HW Hm. rewrite (holds_copy _ _ _ Hm). pose proof (holds_opaque _ _ Hm) as Ho. destruct (clips_all cs HW _ _ Ho) as [S H]. split; [auto|].
    unfold SRender.grp. destruct cs as [|k cs].
    - eapply holds_ext; [|exact Hm]. intros i Hi. unfold grpC, clipsC. cbn [fold_left]. now destruct (fm i).
    - rewrite Hl by discriminate. rewrite (holds_copy _ _ _ Hm). eapply holds_ext; [|apply (holds_inPx _ _ _ _ Hm H)]. intros i Hi. cbv beta. unfold grpC. now destruct (fm i).
  Qed.

  Lemma kidOp_sharp a : sharpO (kidOp a 255).
  Proof. split; unfold kidOp, alphaOf; destruct (isPT a); reflexivity. Qed.

  Lemma draws_sharp l : sharpL l -> draws_well l.
  Proof.
    induction l as [a ks cs Hk Hc] using layer_rec'. intros P. inversion P as [? ? ? Ho Hm Hmode Hleaf Hgrp Hks Hcs]; subst. intros b f Hb.
    assert (HW : Forall draws_well ks). { rewrite Forall_forall in *. auto. }
    assert (HC : Forall draws_well cs). { rewrite Forall_forall in *. auto. }
    cbn [latt]. destruct (lvis a && negb (lopa a =? 0)) eqn:Ed.
    2: { assert (E0 : negb (lvis a) || (lopa a =? 0) = true) by (destruct (lvis a), (lopa a =? 0); auto).
         split; [rewrite stable_eq; congruence|]. exists b, false. unfold dr1. rewrite E0. split; [reflexivity|]. unfold compC, putC, drawn. cbn [latt]. rewrite Ed. auto. }
    assert (E0 : negb (lvis a) || (lopa a =? 0) = false) by (destruct (lvis a), (lopa a =? 0); auto).
    assert (Eo : lopa a = 255) by (destruct Ho as [E|E]; [rewrite E in Ed; rewrite andb_false_r in Ed; discriminate|exact E]).
    assert (Hst : holds (startBuf (zeroPx n) copyPx a b) (fun i => if isPT a then f i else None)).
    { unfold startBuf. destruct (isPT a); [rewrite (holds_copy _ b f Hb); exact Hb|apply holds_zero]. }
    destruct (draws_all ks (kidOp a 255) (kidOp_sharp a) Hks HW _ _ Hst) as (Sks & R). destruct (R false) as (r & dr & Er & Hr & Nr). clear R.
    (* the buffer before the group *)
    assert (Hpre : match pre (Lay a ks cs) b 255 with
                   | Some m => holds m (fun i => maskedC a i (f i) (preC i a ks (f i)))
                   | None => forall i, (i < n)%nat -> maskedC a i (f i) (preC i a ks (f i)) = if isPT a then f i else None
                   end).
    { unfold SRender.pre, preC. destruct ks as [|k ks].
      - cbn [isNil]. destruct (canvas (lseq a)) as [t|] eqn:Et.
        + destruct (isPT a) eqn:Ep; [specialize (Hleaf eq_refl eq_refl); discriminate|]. pose proof (canvas_cell n canvas canvas_good _ _ Et) as Ht. rewrite (holds_copy _ _ _ Ht).
          apply holds_mask; [exact Hm|exact Hb|exact Ht|congruence].
        + intros i Hi. unfold maskedC. destruct (isPT a).
          * cbn [kidsC fold_left]. destruct (maskC a i); [now destruct (f i)|reflexivity].
          * unfold PPipe.cellOf. rewrite Et. now destruct (maskC a i).
      - cbn [isNil]. rewrite Er. cbn [fst snd]. destruct dr.
        + eapply holds_ext; [|apply (holds_mask a b r f _ Hm Hb Hr)].
          * intros i Hi. cbv beta. now destruct (isPT a).
          * intros i Hi Ep. rewrite Ep. apply el_kids.
        + destruct (Nr eq_refl) as [_ N]. intros i Hi. specialize (N i Hi). unfold maskedC. destruct (isPT a); rewrite N; destruct (maskC a i); try reflexivity. now destruct (f i). }
    assert (Eput : forall x fx, holds x fx -> isPT a = false -> putT copyPx blendPx a b x 255 = map2 (fun s d => orElse (blend8 machine (modeB a) 255 s d) d) x b).
    { intros x fx Hx Ep. unfold putT. rewrite Ep. unfold blendT, blendPx, modeB. specialize (Hmode Ep). destruct (m_get list_eqb blendModes (lbm a)); [reflexivity|congruence]. }
    rewrite Eo. assert (Hl : cs <> [] -> lbce a = true) by (intros X; apply Hgrp, X). split.
    - rewrite stable_eq. intros _. split; [exact Sks|]. intros m Em. rewrite Em in Hpre. destruct (holds_grp a cs m _ Hl HC Hpre) as [Sc Hg].
      split; [exact Sc|]. intros _. eapply holds_copy. exact Hg.
    - rewrite body_eq. cbn [latt lgroup]. unfold dr1. rewrite Eo in E0. rewrite E0. unfold compC, putC, drawn. cbn [latt]. rewrite Ed.
      destruct (pre (Lay a ks cs) b 255) as [m|]; cbn [option_map].
      + destruct (holds_grp a cs m _ Hl HC Hpre) as [_ Hg]. exists (putT copyPx blendPx a b (grp a cs m) 255), true. split; [reflexivity|]. split; [|discriminate]. destruct (isPT a) eqn:Ep.
        * unfold putT. rewrite Ep. rewrite (holds_copy _ _ _ Hg). exact Hg.
        * rewrite (Eput _ _ Hg eq_refl). eapply holds_blend; [exact canvas_good|exact Hg|exact Hb].
      + exists b, false. split; [reflexivity|].
        assert (Z : forall i, (i < n)%nat -> (if isPT a then bodyC i (Lay a ks cs) (f i) else over (modeB a) (bodyC i (Lay a ks cs) (f i)) (f i)) = f i).
        { intros i Hi. rewrite bodyC_eq, (Hpre i Hi). destruct (isPT a) eqn:Ep; [|reflexivity]. destruct cs as [|k cs]; [now destruct (f i)|]. destruct Hgrp as [X _]; [discriminate|congruence]. }
        split; [|intros _; exact Z]. eapply holds_ext; [|exact Hb]. intros i Hi. symmetry. now apply Z.
  Qed.

  Notation shown := (shown (zeroPx n) copyPx blendPx destInMPx destOutMPx destInPx destOverPx (clearPx n) removeAlphaPx canvas mask).
  Lemma shown_sharp a ks cs d : Forall sharpL ks ->
    stableKs idOp ks (zeroPx n) /\ holds (shown (Lay a ks cs) d) (fun i => kidsC i ks None).
  Proof.
    intros HP. assert (HW : Forall draws_well ks) by (eapply Forall_impl; [exact draws_sharp|exact HP]).
    destruct (draws_all ks idOp (conj eq_refl eq_refl) HP HW _ _ (holds_zero n)) as (S & R). split; [exact S|]. destruct (R false) as (b & dr & E & H & N).
    unfold SRender.shown. cbn [lkids]. rewrite E. cbn [fst snd]. destruct dr.
    - rewrite (holds_copy _ _ _ H). rewrite (holds_copy _ _ _ H). exact H.
    - destruct (N eq_refl) as [_ N']. unfold clearPx. eapply holds_ext; [|apply holds_zero]. intros i Hi. symmetry. now apply N'.
  Qed.
End draw.
