(** Proofs about one tile of the renderer: what a render changes, and panics. *)
From Verif Require Import Base BaseFacts MRender SRender.

Fixpoint layer_rec' (P : layer -> Prop) (H : forall a ks cs, Forall P ks -> Forall P cs -> P (Lay a ks cs)) (l : layer) {struct l} : P l :=
  match l with
  | Lay a ks cs =>
      let go := fix go (ls : list layer) : Forall P ls :=
        match ls return Forall P ls with [] => Forall_nil _ | c :: ls => Forall_cons _ (layer_rec' P H c) (go ls) end in
      H a ks cs (go ks) (go cs)
  end.

Lemma m_get_dels {V} (d : list Z) : forall (m : list (Z * V)) s,
  m_get Z.eqb (fold_left (m_del Z.eqb) d m) s = if existsb (Z.eqb s) d then None else m_get Z.eqb m s.
Proof.
  induction d as [|x d IH]; intros m s; cbn [fold_left existsb]; [reflexivity|].
  rewrite IH, (m_get_del Z.eqb Z.eqb_eq), Z.eqb_sym. destruct (x =? s) eqn:E.
  - rewrite Z.eqb_sym, E. cbn. now destruct (existsb (Z.eqb s) d).
  - rewrite Z.eqb_sym, E. reflexivity.
Qed.
Lemma existsb_In s d : existsb (Z.eqb s) d = true <-> In s d.
Proof.
  rewrite existsb_exists. split.
  - intros (x & Hx & E). apply Z.eqb_eq in E. now subst.
  - intros H. exists s. split; [exact H|apply Z.eqb_refl].
Qed.

Section render.
  Context {img msk : Type}.
  Variable zero : img.
  Variable copyT : img -> img.
  Variable blendOf : bytes -> option (Z -> img -> img -> img).
  Variable destInM destOutM : msk -> img -> img.
  Variable destInT destOverT : img -> img -> img.
  Variable clearT removeAlpha : img -> img.
  Variable canvas : Z -> option img.
  Variable hasCanvas : Z -> bool.
  Variable mask : Z -> option msk.

  Notation tstate := (tstate img).
  Notation drawLayer := (drawLayer zero copyT blendOf destInM destOutM destInT destOverT clearT removeAlpha canvas mask).
  Notation applyMask := (applyMask destInM destOutM destOverT clearT mask).
  Notation putTile := (putTile copyT blendOf).
  Notation drawTop := (drawTop zero copyT blendOf destInM destOutM destInT destOverT clearT removeAlpha canvas mask).
  Notation updateTile := (updateTile zero copyT blendOf destInM destOutM destInT destOverT clearT removeAlpha canvas mask).
  Notation renderTile := (renderTile zero copyT blendOf destInM destOutM destInT destOverT clearT removeAlpha canvas mask).

  Notation startBuf := (startBuf zero copyT).

  (** The loops of drawLayer by themselves *)
  Definition clips : list layer -> tstate -> img -> option (tstate * img) :=
    fix clips (cs : list layer) (st : tstate) (clipBuf : img) {struct cs} :=
      match cs with
      | [] => Some (st, clipBuf)
      | c :: cs =>
          match drawLayer st clipBuf c (lopa (latt c)) true with
          | Some (st, clipBuf, _) => clips cs st clipBuf
          | None => None
          end
      end.
  Definition draws (al : Z) : list layer -> tstate -> img -> bool -> option (tstate * img * bool) :=
    fix draws (ks : list layer) (st : tstate) (buf : img) (drew : bool) {struct ks} :=
      match ks with
      | [] => Some (st, buf, drew)
      | k :: ks =>
          match drawLayer st buf k (Z.shiftr (lopa (latt k) * al) 23) false with
          | Some (st, buf, dr) => draws ks st buf (drew || isDrew dr)
          | None => None
          end
      end.
  Definition finish (a : lattr) (cs : list layer) (opacity : Z) (b : img) (st : tstate) (buf : img) (cached : bool) : option (tstate * img * drawResult) :=
    let buf := applyMask a b buf in
    match cs with
    | [] =>
        match putTile a b buf opacity with
        | Some b => Some (updateCache copyT DrDrew (lseq a) buf cached st, b, DrDrew)
        | None => None
        end
    | _ =>
        if lbce a then
          match clips cs st (removeAlpha (copyT buf)) with
          | Some (st, clipBuf) =>
              let clipBuf := destInT buf clipBuf in
              match putTile a b clipBuf opacity with
              | Some b => Some (updateCache copyT DrDrew (lseq a) clipBuf cached st, b, DrDrew)
              | None => None
              end
          | None => None
          end
        else
          match drawWithOpacity blendOf b buf opacity (lbm a) with
          | Some b => Some (updateCache copyT DrDrew (lseq a) buf cached st, b, DrDrew)
          | None => None
          end
    end.
  Lemma drawLayer_eq st b a ks cs opacity force : drawLayer st b (Lay a ks cs) opacity force =
    if negb (lvis a) || (opacity =? 0) then Some (st, b, DrInvisible)
    else if lclipping a && negb force then Some (st, b, DrDefered)
    else if isNil ks then
      match canvas (lseq a) with
      | None => Some (st, b, DrSkipped)
      | Some t => finish a cs opacity b st (copyT t) false
      end
    else
      match m_get Z.eqb (tent st) (lseq a) with
      | Some (Some ci) =>
          match putTile a b ci opacity with Some b => Some (st, b, DrDrewFromCache) | None => None end
      | Some None => Some (st, b, DrDrewFromCacheInvisible)
      | None =>
          match draws (alphaOf a opacity) ks st (startBuf a b) false with
          | None => None
          | Some (st, buf, drew) =>
              if drew then finish a cs opacity b st buf true
              else Some (updateCache copyT DrInvisible (lseq a) buf true st, b, DrInvisible)
          end
      end.
  Proof. destruct ks; reflexivity. Qed.
  Lemma draws_cons al k ks st buf drew : draws al (k :: ks) st buf drew =
    match drawLayer st buf k (Z.shiftr (lopa (latt k) * al) 23) false with
    | Some (st, buf, dr) => draws al ks st buf (drew || isDrew dr)
    | None => None
    end.
  Proof. reflexivity. Qed.
  Lemma clips_cons c cs st clipBuf : clips (c :: cs) st clipBuf =
    match drawLayer st clipBuf c (lopa (latt c)) true with
    | Some (st, clipBuf, _) => clips cs st clipBuf
    | None => None
    end.
  Proof. reflexivity. Qed.

  (** * What a render changes *)
  (** [st'] has, besides the entries of [st], new entries for the layers of the log only *)
  Definition ext (st st' : tstate) : Prop := exists d, tlog st' = tlog st ++ d /\
    (forall s, In s d -> m_get Z.eqb (tent st) s = None) /\
    (forall s, ~ In s d -> m_get Z.eqb (tent st') s = m_get Z.eqb (tent st) s).
  Lemma ext_refl st : ext st st.
  Proof. exists []. rewrite app_nil_r. repeat split. intros s []. Qed.
  Lemma ext_trans st1 st2 st3 : ext st1 st2 -> ext st2 st3 -> ext st1 st3.
  Proof.
    intros (d1 & L1 & N1 & K1) (d2 & L2 & N2 & K2). exists (d1 ++ d2). split; [rewrite L2, L1, app_assoc; reflexivity|]. split.
    - intros s H. apply in_app_iff in H. destruct (in_dec Z.eq_dec s d1) as [I|I]; [now apply N1|].
      rewrite <- (K1 s I). apply N2. tauto.
    - intros s H. rewrite in_app_iff in H. rewrite K2, K1 by tauto. reflexivity.
  Qed.
  Lemma ext_set st st' s e : ext st st' -> m_get Z.eqb (tent st) s = None -> ext st (Tst (m_set Z.eqb (tent st') s e) (tlog st' ++ [s])).
  Proof.
    intros (d & L & N & K) E. exists (d ++ [s]). cbn [tlog tent]. split; [rewrite L, app_assoc; reflexivity|]. split.
    - intros x H. apply in_app_iff in H. destruct H as [H|[<-|[]]]; auto.
    - intros x H. rewrite in_app_iff in H. rewrite (m_get_set Z.eqb Z.eqb_eq). destruct (Z.eqb_spec s x) as [->|].
      + exfalso. apply H. right. now left.
      + apply K. tauto.
  Qed.
  Lemma ext_update st st' dr s buf cached : ext st st' -> (cached = true -> m_get Z.eqb (tent st) s = None) ->
    ext st (updateCache copyT dr s buf cached st').
  Proof. intros H N. unfold updateCache. destruct cached; [|exact H]. destruct dr; try exact H; apply ext_set; auto. Qed.

  Definition draw_ext (l : layer) : Prop := forall st b opacity force st' b' dr,
    drawLayer st b l opacity force = Some (st', b', dr) -> ext st st'.
  Lemma clips_ext cs : Forall draw_ext cs -> forall st x st' x', clips cs st x = Some (st', x') -> ext st st'.
  Proof.
    induction 1 as [|c cs Hc _ IH]; intros st x st' x'.
    - intros [= <- <-]. apply ext_refl.
    - rewrite clips_cons. destruct (drawLayer st x c (lopa (latt c)) true) as [[[st1 x1] dr]|] eqn:E; [|discriminate].
      intros H. eapply ext_trans; [eapply Hc; exact E|eapply IH; exact H].
  Qed.
  Lemma draws_ext al ks : Forall draw_ext ks -> forall st x d st' x' d', draws al ks st x d = Some (st', x', d') -> ext st st'.
  Proof.
    induction 1 as [|c cs Hc _ IH]; intros st x d st' x' d'.
    - intros [= <- <- <-]. apply ext_refl.
    - rewrite draws_cons. destruct (drawLayer st x c (Z.shiftr (lopa (latt c) * al) 23) false) as [[[st1 x1] dr]|] eqn:E; [|discriminate].
      intros H. eapply ext_trans; [eapply Hc; exact E|eapply IH; exact H].
  Qed.
  Lemma finish_ext a cs opacity b st0 st buf cached st' b' dr : Forall draw_ext cs -> ext st0 st ->
    (cached = true -> m_get Z.eqb (tent st0) (lseq a) = None) ->
    finish a cs opacity b st buf cached = Some (st', b', dr) -> ext st0 st'.
  Proof.
    intros Hc E0 N. unfold finish. cbn zeta. destruct cs as [|c cs].
    - destruct (putTile a b _ opacity); [|discriminate]. intros [= <- <- <-]. now apply ext_update.
    - destruct (lbce a).
      + destruct (clips (c :: cs) st _) as [[st1 x]|] eqn:E1; [|discriminate].
        destruct (putTile a b _ opacity); [|discriminate]. intros [= <- <- <-]. apply ext_update; [|exact N].
        eapply ext_trans; [exact E0|]. eapply clips_ext; eassumption.
      + destruct (drawWithOpacity blendOf b _ opacity (lbm a)); [|discriminate]. intros [= <- <- <-]. now apply ext_update.
  Qed.
  Lemma drawLayer_ext l : draw_ext l.
  Proof.
    induction l as [a ks cs Hk Hc] using layer_rec'. intros st b opacity force st' b' dr. rewrite drawLayer_eq.
    destruct (negb (lvis a) || (opacity =? 0)); [intros [= <- <- <-]; apply ext_refl|].
    destruct (lclipping a && negb force); [intros [= <- <- <-]; apply ext_refl|].
    destruct (isNil ks).
    - destruct (canvas (lseq a)); [|intros [= <- <- <-]; apply ext_refl].
      apply finish_ext; [exact Hc|apply ext_refl|discriminate].
    - destruct (m_get Z.eqb (tent st) (lseq a)) as [[ci|]|] eqn:Em.
      + destruct (putTile a b ci opacity); [|discriminate]. intros [= <- <- <-]. apply ext_refl.
      + intros [= <- <- <-]. apply ext_refl.
      + destruct (draws _ ks st _ false) as [[[st1 buf] drew]|] eqn:Ed; [|discriminate].
        pose proof (draws_ext _ _ Hk _ _ _ _ _ _ Ed) as E1. destruct drew.
        * apply finish_ext; auto.
        * intros [= <- <- <-]. now apply ext_set.
  Qed.
  Lemma drawTop_ext ks : forall st x d st' x' d', drawTop ks st x d = Some (st', x', d') -> ext st st'.
  Proof.
    induction ks as [|k ks IH]; intros st x d st' x' d'; cbn [MRender.drawTop].
    - intros [= <- <- <-]. apply ext_refl.
    - destruct (drawLayer st x k (lopa (latt k)) false) as [[[st1 x1] dr]|] eqn:E; [|discriminate].
      intros H. eapply ext_trans; [eapply drawLayer_ext; exact E|eapply IH; exact H].
  Qed.
  Lemma updateTile_ext root st st' m : updateTile root st = Some (st', m) -> ext st st'.
  Proof.
    unfold MRender.updateTile. destruct (m_get Z.eqb (tent st) (lseq (latt root))) eqn:E.
    - intros [= <- <-]. apply ext_refl.
    - destruct (drawTop (lkids root) st zero false) as [[[st1 buf] drew]|] eqn:Ed; [|discriminate].
      intros H. assert (X : ext st (updateCache copyT (if drew then DrDrew else DrInvisible) (lseq (latt root)) buf true st1)).
      { apply ext_update; auto. eapply drawTop_ext; exact Ed. }
      injection H as <- <-. exact X.
  Qed.
  Lemma updateTile_present root st st' m : updateTile root st = Some (st', m) ->
    exists e, m_get Z.eqb (tent st') (lseq (latt root)) = Some e.
  Proof.
    unfold MRender.updateTile. destruct (m_get Z.eqb (tent st) (lseq (latt root))) eqn:E.
    - intros [= <- <-]. eauto.
    - destruct (drawTop (lkids root) st zero false) as [[[st1 buf] drew]|] eqn:Ed; [|discriminate].
      intros [= <- <-]. destruct drew; cbn [tent]; rewrite (m_get_set Z.eqb Z.eqb_eq), Z.eqb_refl; eauto.
  Qed.
  Lemma updateTile_unmodified root st st' : updateTile root st = Some (st', false) -> st' = st.
  Proof.
    unfold MRender.updateTile. destruct (m_get Z.eqb (tent st) (lseq (latt root))) eqn:E.
    - congruence.
    - destruct (drawTop (lkids root) st zero false) as [[[st1 buf] drew]|]; discriminate.
  Qed.

  (** Reverting a render restores all entries *)
  Lemma revert_ext st st' : tlog st = [] -> ext st st' ->
    tlog (revert st') = [] /\ forall s, m_get Z.eqb (tent (revert st')) s = m_get Z.eqb (tent st) s.
  Proof.
    intros L0 (d & L & N & K). split; [reflexivity|]. intros s. unfold revert. cbn [tent]. rewrite m_get_dels, L, L0. cbn [app].
    destruct (existsb (Z.eqb s) d) eqn:E.
    - apply existsb_In in E. symmetry. now apply N.
    - apply K. intros H. apply existsb_In in H. congruence.
  Qed.
End render.
