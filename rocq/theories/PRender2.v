(** Proofs about one tile of the renderer: rendering with a valid cache. *)
From Verif Require Import Base BaseFacts MRender SRender PRender.

Lemma NoDup_app_l {A} (l1 l2 : list A) : NoDup (l1 ++ l2) -> NoDup l1.
Proof. induction l1 as [|x l1 IH]; cbn; [constructor|]. intros H. inversion H; subst. constructor; [|auto]. intros I. apply H2. apply in_app_iff. auto. Qed.
Lemma NoDup_app_r {A} (l1 l2 : list A) : NoDup (l1 ++ l2) -> NoDup l2.
Proof. induction l1 as [|x l1 IH]; cbn; [auto|]. intros H. inversion H; subst. auto. Qed.
Lemma NoDup_app_disj {A} (l1 l2 : list A) x : NoDup (l1 ++ l2) -> In x l1 -> In x l2 -> False.
Proof.
  induction l1 as [|y l1 IH]; cbn; [auto|]. intros H I1 I2. inversion H; subst. destruct I1 as [->|I1]; auto.
  apply H2. apply in_app_iff. auto.
Qed.

Section render.
  Context {img msk : Type}.
  Variable zero : img.
  Variable copyT : img -> img.
  Variable blendOf : bytes -> option (Z -> img -> img -> img).
  Variable destInM destOutM : msk -> img -> img.
  Variable destInT destOverT : img -> img -> img.
  Variable clearT removeAlpha : img -> img.
  Variable canvas : Z -> option img.
  Variable hasCanvas : Z -> bool.
  Variable mask : Z -> option msk.

  Notation tstate := (tstate img).
  Notation drawLayer := (drawLayer zero copyT blendOf destInM destOutM destInT destOverT clearT removeAlpha canvas mask).
  Notation maskT := (maskT destInM destOutM destOverT clearT mask).
  Lemma applyMask_eq a b x : applyMask destInM destOutM destOverT clearT mask a b x = maskT a b x.
  Proof. unfold applyMask, SRender.maskT. destruct (lmen a), (lmdc a), (mask (lseq a)); reflexivity. Qed.
  Notation putTile := (putTile copyT blendOf).
  Notation drawTop := (drawTop zero copyT blendOf destInM destOutM destInT destOverT clearT removeAlpha canvas mask).
  Notation updateTile := (updateTile zero copyT blendOf destInM destOutM destInT destOverT clearT removeAlpha canvas mask).
  Notation clips := (clips zero copyT blendOf destInM destOutM destInT destOverT clearT removeAlpha canvas mask).
  Notation draws := (draws zero copyT blendOf destInM destOutM destInT destOverT clearT removeAlpha canvas mask).
  Notation finish := (finish zero copyT blendOf destInM destOutM destInT destOverT clearT removeAlpha canvas mask).
  Notation startBuf := (startBuf zero copyT).
  Notation inArea := (inArea canvas hasCanvas).
  Notation areaRec := (areaRec canvas hasCanvas).

  Notation body := (body zero copyT blendOf destInM destOutM destInT destOverT clearT removeAlpha canvas mask).
  Notation kidP := (kidP zero copyT blendOf destInM destOutM destInT destOverT clearT removeAlpha canvas mask).
  Notation drawsP := (drawsP zero copyT blendOf destInM destOutM destInT destOverT clearT removeAlpha canvas mask).
  Notation clipP := (clipP zero copyT blendOf destInM destOutM destInT destOverT clearT removeAlpha canvas mask).
  Notation clipsP := (clipsP zero copyT blendOf destInM destOutM destInT destOverT clearT removeAlpha canvas mask).
  Notation grp := (grp zero copyT blendOf destInM destOutM destInT destOverT clearT removeAlpha canvas mask).
  Notation pre := (pre zero copyT blendOf destInM destOutM destInT destOverT clearT removeAlpha canvas mask).
  Notation stable := (stable zero copyT blendOf destInM destOutM destInT destOverT clearT removeAlpha canvas mask).
  Notation stableKs := (stableKs zero copyT blendOf destInM destOutM destInT destOverT clearT removeAlpha canvas mask).
  Notation stableCs := (stableCs zero copyT blendOf destInM destOutM destInT destOverT clearT removeAlpha canvas mask).
  Notation stableRoot := (stableRoot zero copyT blendOf destInM destOutM destInT destOverT clearT removeAlpha canvas mask).
  Notation blendT := (blendT blendOf).
  Notation putT := (putT copyT blendOf).
  Notation dr1 := (dr1 copyT blendOf).
  Notation modeOK := (modeOK blendOf).
  Notation lwf := (lwf blendOf hasCanvas).

  Notation ent st s := (m_get Z.eqb (tent st) s).

  Lemma body_eq l b op : body l b op = option_map (grp (latt l) (lgroup l)) (pre l b op).
  Proof.
    destruct l as [a ks cs]. cbn [latt lgroup].
    assert (C : forall x, (fix clipsP (cs : list layer) (x : img) : img :=
                                 match cs with
                                 | [] => x
                                 | c :: cs => clipsP cs (fst (dr1 (latt c) (body c x (lopa (latt c))) x (lopa (latt c))))
                                 end) cs x = clipsP cs x).
    { clear. induction cs as [|c cs IH]; intros x; [reflexivity|]. apply IH. }
    assert (D : forall buf drew, (fix drawsP (ks : list layer) (buf : img) (drew : bool) : img * bool :=
                        match ks with
                        | [] => (buf, drew)
                        | k :: ks =>
                            let o := kidOp a op (lopa (latt k)) in
                            let r := if lclipping (latt k) then (buf, false) else dr1 (latt k) (body k buf o) buf o in
                            drawsP ks (fst r) (drew || snd r)
                        end) ks buf drew = drawsP (kidOp a op) ks buf drew).
    { clear. induction ks as [|k ks IH]; intros buf drew; [reflexivity|]. apply IH. }
    cbn [body pre]. destruct ks as [|k ks]; cbn [isNil].
    - destruct (canvas (lseq a)); [|reflexivity]. cbn [option_map]. unfold SRender.grp. destruct cs; [reflexivity|].
      destruct (lbce a); [|reflexivity]. rewrite <- C. reflexivity.
    - cbn zeta. rewrite D. destruct (snd _); [|reflexivity]. cbn [option_map]. unfold SRender.grp. destruct cs; [reflexivity|].
      destruct (lbce a); [|reflexivity]. rewrite <- C. reflexivity.
  Qed.

  (** * Valid caches *)
  (** No entry for any layer below: for layers that are never drawn *)
  Definition absent (l : layer) (st : tstate) : Prop := forall s, In s (seqs l) -> ent st s = None.
  (** The context in which a layer is drawn: backdrop and opacity; [None] if it is not
      drawn. The buffer of a layer that is not pass-through does not depend on it. *)
  Definition ctx : Type := option (img * Z).
  Definition inner (a : lattr) (c : ctx) : ctx :=
    if isPT a then match c with Some (b, op) => if lvis a && negb (op =? 0) then Some (b, op) else None | None => None end
    else Some (zero, 0).

  Fixpoint inv (c : ctx) (l : layer) (st : tstate) {struct l} : Prop :=
    match l with
    | Lay a ks cs =>
        match inner a c with
        | Some (b, op) =>
            (isNil ks = true \/ match ent st (lseq a) with None => True | Some e => e = option_map copyT (body l b op) end) /\
            (fix invKs (ks : list layer) (buf : img) : Prop :=
               match ks with
               | [] => True
               | k :: ks => (if lclipping (latt k) then absent k st else inv (Some (buf, kidOp a op (lopa (latt k)))) k st) /\
                            invKs ks (fst (kidP (kidOp a op) k buf))
               end) ks (startBuf a b) /\
            match (if lbce a then pre l b op else None) with
            | Some m =>
                (fix invCs (cs : list layer) (x : img) : Prop :=
                   match cs with [] => True | c :: cs => inv (Some (x, lopa (latt c))) c st /\ invCs cs (clipP c x) end)
                  cs (removeAlpha (copyT m))
            | None => (fix invNs (cs : list layer) : Prop := match cs with [] => True | c :: cs => inv None c st /\ invNs cs end) cs
            end
        | None =>
            (isNil ks = true \/ match ent st (lseq a) with None => True | Some e => e = None /\ inArea l = false end) /\
            (fix invDs (ks : list layer) : Prop :=
               match ks with [] => True | k :: ks => (if lclipping (latt k) then absent k st else inv None k st) /\ invDs ks end) ks /\
            (fix invNs (cs : list layer) : Prop := match cs with [] => True | c :: cs => inv None c st /\ invNs cs end) cs
        end
    end.
  Definition kidInv (c : ctx) (k : layer) (st : tstate) : Prop := if lclipping (latt k) then absent k st else inv c k st.
  Fixpoint invKs (f : Z -> Z) (ks : list layer) (buf : img) (st : tstate) : Prop :=
    match ks with
    | [] => True
    | k :: ks => kidInv (Some (buf, f (lopa (latt k)))) k st /\ invKs f ks (fst (kidP f k buf)) st
    end.
  Fixpoint invCs (cs : list layer) (x : img) (st : tstate) : Prop :=
    match cs with [] => True | c :: cs => inv (Some (x, lopa (latt c))) c st /\ invCs cs (clipP c x) st end.
  Definition invDs (ks : list layer) (st : tstate) : Prop := Forall (fun k => kidInv None k st) ks.
  Definition invNs (cs : list layer) (st : tstate) : Prop := Forall (fun c => inv None c st) cs.

  Definition entryOK (c : ctx) (l : layer) (st : tstate) : Prop :=
    isNil (lkids l) = true \/
    match ent st (lseq (latt l)) with
    | None => True
    | Some e => match c with Some (b, op) => e = option_map copyT (body l b op) | None => e = None /\ inArea l = false end
    end.
  Definition kidsOK (c : ctx) (l : layer) (st : tstate) : Prop :=
    match c with
    | Some (b, op) => invKs (kidOp (latt l) op) (lkids l) (startBuf (latt l) b) st
    | None => invDs (lkids l) st
    end.
  Definition groupOK (c : ctx) (l : layer) (st : tstate) : Prop :=
    match c with
    | Some (b, op) => match (if lbce (latt l) then pre l b op else None) with
                      | Some m => invCs (lgroup l) (removeAlpha (copyT m)) st
                      | None => invNs (lgroup l) st
                      end
    | None => invNs (lgroup l) st
    end.
  Lemma inv_eq c l st : inv c l st <->
    entryOK (inner (latt l) c) l st /\ kidsOK (inner (latt l) c) l st /\ groupOK (inner (latt l) c) l st.
  Proof.
    destruct l as [a ks cs]. cbn [inv latt]. unfold entryOK, kidsOK, groupOK. cbn [latt lkids lgroup].
    assert (N : forall cs, (fix invNs (cs : list layer) : Prop := match cs with [] => True | c :: cs => inv None c st /\ invNs cs end) cs <-> invNs cs st).
    { intros cs0. induction cs0 as [|x cs0 IH]; unfold invNs; [split; auto|]. rewrite Forall_cons_iff, IH. reflexivity. }
    destruct (inner a c) as [[b op]|].
    - assert (K : forall ks buf, (fix invKs (ks : list layer) (buf : img) : Prop :=
               match ks with
               | [] => True
               | k :: ks => (if lclipping (latt k) then absent k st else inv (Some (buf, kidOp a op (lopa (latt k)))) k st) /\
                            invKs ks (fst (kidP (kidOp a op) k buf))
               end) ks buf <-> invKs (kidOp a op) ks buf st).
      { intros ks0. induction ks0 as [|x ks0 IH]; intros buf; [reflexivity|]. cbn [invKs]. rewrite IH. reflexivity. }
      assert (C : forall cs x, (fix invCs (cs : list layer) (x : img) : Prop :=
                   match cs with [] => True | c :: cs => inv (Some (x, lopa (latt c))) c st /\ invCs cs (clipP c x) end) cs x <-> invCs cs x st).
      { intros cs0. induction cs0 as [|y cs0 IH]; intros x; [reflexivity|]. cbn [invCs]. rewrite IH. reflexivity. }
      rewrite K. destruct (if lbce a then _ else _); [rewrite C|rewrite N]; reflexivity.
    - assert (D : forall ks, (fix invDs (ks : list layer) : Prop :=
               match ks with [] => True | k :: ks => (if lclipping (latt k) then absent k st else inv None k st) /\ invDs ks end) ks <-> invDs ks st).
      { intros ks0. induction ks0 as [|x ks0 IH]; unfold invDs; [split; auto|]. rewrite Forall_cons_iff, IH. reflexivity. }
      rewrite D, N. reflexivity.
  Qed.

  (** * Deleting entries keeps a cache valid *)
  Definition fewer (S : list Z) (st st' : tstate) : Prop := forall s, In s S -> ent st' s = ent st s \/ ent st' s = None.
  Lemma fewer_incl S S' st st' : (forall s, In s S' -> In s S) -> fewer S st st' -> fewer S' st st'.
  Proof. intros H F s I. apply F. auto. Qed.
  Lemma absent_fewer l st st' : fewer (seqs l) st st' -> absent l st -> absent l st'.
  Proof. intros F H s I. destruct (F s I) as [->|E]; auto. Qed.
  Definition keeps (l : layer) : Prop := forall c st st', fewer (seqs l) st st' -> inv c l st -> inv c l st'.
  Lemma kidInv_fewer k : keeps k -> forall c st st', fewer (seqs k) st st' -> kidInv c k st -> kidInv c k st'.
  Proof. intros H c st st' F. unfold kidInv. destruct (lclipping (latt k)); [now apply absent_fewer|now apply H]. Qed.
  Lemma invKs_fewer f ks : Forall keeps ks -> forall buf st st', fewer (flat_map seqs ks) st st' -> invKs f ks buf st -> invKs f ks buf st'.
  Proof.
    induction 1 as [|k ks Hk _ IH]; intros buf st st' F; [auto|]. cbn [invKs flat_map] in *. intros [H1 H2]. split.
    - revert H1. apply kidInv_fewer; [exact Hk|]. eapply fewer_incl; [|exact F]. intros s I. apply in_app_iff. auto.
    - revert H2. apply IH. eapply fewer_incl; [|exact F]. intros s I. apply in_app_iff. auto.
  Qed.
  Lemma invCs_fewer cs : Forall keeps cs -> forall x st st', fewer (flat_map seqs cs) st st' -> invCs cs x st -> invCs cs x st'.
  Proof.
    induction 1 as [|k ks Hk _ IH]; intros buf st st' F; [auto|]. cbn [invCs flat_map] in *. intros [H1 H2]. split.
    - revert H1. apply Hk. eapply fewer_incl; [|exact F]. intros s I. apply in_app_iff. auto.
    - revert H2. apply IH. eapply fewer_incl; [|exact F]. intros s I. apply in_app_iff. auto.
  Qed.
  Lemma invNs_fewer cs : Forall keeps cs -> forall st st', fewer (flat_map seqs cs) st st' -> invNs cs st -> invNs cs st'.
  Proof.
    unfold invNs. induction 1 as [|k ks Hk _ IH]; intros st st' F; [auto|]. rewrite !Forall_cons_iff. cbn [flat_map] in F. intros [H1 H2]. split.
    - revert H1. apply Hk. eapply fewer_incl; [|exact F]. intros s I. apply in_app_iff. auto.
    - revert H2. apply IH. eapply fewer_incl; [|exact F]. intros s I. apply in_app_iff. auto.
  Qed.
  Lemma invDs_fewer ks : Forall keeps ks -> forall st st', fewer (flat_map seqs ks) st st' -> invDs ks st -> invDs ks st'.
  Proof.
    unfold invDs. induction 1 as [|k ks Hk _ IH]; intros st st' F; [auto|]. rewrite !Forall_cons_iff. cbn [flat_map] in F. intros [H1 H2]. split.
    - revert H1. apply kidInv_fewer; [exact Hk|]. eapply fewer_incl; [|exact F]. intros s I. apply in_app_iff. auto.
    - revert H2. apply IH. eapply fewer_incl; [|exact F]. intros s I. apply in_app_iff. auto.
  Qed.
  Lemma kidsOK_fewer c l st st' : Forall keeps (lkids l) -> fewer (flat_map seqs (lkids l)) st st' -> kidsOK c l st -> kidsOK c l st'.
  Proof. intros K F. unfold kidsOK. destruct c as [[b op]|]; [now apply invKs_fewer|now apply invDs_fewer]. Qed.
  Lemma groupOK_fewer c l st st' : Forall keeps (lgroup l) -> fewer (flat_map seqs (lgroup l)) st st' -> groupOK c l st -> groupOK c l st'.
  Proof.
    intros K F. unfold groupOK. destruct c as [[b op]|]; [|now apply invNs_fewer].
    destruct (if lbce (latt l) then _ else _); [now apply invCs_fewer|now apply invNs_fewer].
  Qed.
  Lemma entryOK_fewer c l st st' : fewer [lseq (latt l)] st st' -> entryOK c l st -> entryOK c l st'.
  Proof.
    intros F [H|H]; [now left|right]. destruct (F _ (or_introl eq_refl)) as [-> | ->]; [exact H|exact I].
  Qed.
  Lemma inv_fewer l : keeps l.
  Proof.
    induction l as [a ks cs Hk Hc] using layer_rec'. intros c st st' F H. rewrite inv_eq in *. cbn [latt] in *.
    cbn [seqs] in F. destruct H as (H1 & H2 & H3). split; [|split].
    - eapply entryOK_fewer; [|exact H1]. eapply fewer_incl; [|exact F]. intros s [<-|[]]. now left.
    - eapply kidsOK_fewer; [exact Hk| |exact H2]. eapply fewer_incl; [|exact F]. intros s I. right. apply in_app_iff. auto.
    - eapply groupOK_fewer; [exact Hc| |exact H3]. eapply fewer_incl; [|exact F]. intros s I. right. apply in_app_iff. auto.
  Qed.
  Lemma all_keep ls : Forall keeps ls.
  Proof. apply Forall_forall. intros l _. apply inv_fewer. Qed.
  Lemma fewer_same S st st' : (forall s, In s S -> ent st' s = ent st s) -> fewer S st st'.
  Proof. intros H s I. auto. Qed.

  (** * Rendering with a valid cache *)
  Lemma stable_eq a ks cs b op : stable (Lay a ks cs) b op <->
    (negb (lvis a) || (op =? 0) = false ->
     stableKs (kidOp a op) ks (startBuf a b) /\
     forall m, pre (Lay a ks cs) b op = Some m -> (lbce a = true -> stableCs cs (removeAlpha (copyT m))) /\
       (isNil ks = false -> copyT (grp a cs m) = grp a cs m)).
  Proof.
    cbn [stable].
    assert (K : forall ks buf, (fix stableKs (ks : list layer) (buf : img) : Prop :=
             match ks with
             | [] => True
             | k :: ks => (lclipping (latt k) = false -> stable k buf (kidOp a op (lopa (latt k)))) /\ stableKs ks (fst (kidP (kidOp a op) k buf))
             end) ks buf <-> stableKs (kidOp a op) ks buf).
    { intros ks0. induction ks0 as [|x ks0 IH]; intros buf; [reflexivity|]. cbn [stableKs]. rewrite IH. reflexivity. }
    assert (C : forall cs x, (fix stableCs (cs : list layer) (x : img) : Prop :=
                    match cs with [] => True | c :: cs => stable c x (lopa (latt c)) /\ stableCs cs (clipP c x) end) cs x <-> stableCs cs x).
    { intros cs0. induction cs0 as [|y cs0 IH]; intros x; [reflexivity|]. cbn [stableCs]. rewrite IH. reflexivity. }
    destruct (negb (lvis a) || (op =? 0)); [split; [discriminate|auto]|]. rewrite K.
    destruct (pre (Lay a ks cs) b op) as [m|].
    - destruct (lbce a).
      + rewrite C. split.
        * intros (H1 & H2 & H3) _. split; [exact H1|]. intros m' [= <-]. auto.
        * intros H. destruct (H eq_refl) as [H1 H2]. destruct (H2 m eq_refl). auto.
      + split.
        * intros (H1 & H2 & H3) _. split; [exact H1|]. intros m' [= <-]. split; [discriminate|auto].
        * intros H. destruct (H eq_refl) as [H1 H2]. destruct (H2 m eq_refl). auto.
    - split.
      + intros (H1 & _) _. split; [exact H1|]. discriminate.
      + intros H. destruct (H eq_refl). auto.
  Qed.

  Lemma putTile_ok a cs b x op : modeOK a cs -> putTile a b x op = Some (putT a b x op).
  Proof.
    unfold modeOK, MRender.putTile, putT, drawWithOpacity, blendT. destruct (isPT a); [reflexivity|].
    destruct (blendOf (lbm a)); [reflexivity|congruence].
  Qed.
  (** The buffer of a layer that is not pass-through does not depend on the context *)
  Lemma pre_free l b b' op op' : isPT (latt l) = false -> pre l b op = pre l b' op'.
  Proof.
    destruct l as [a ks cs]. cbn [latt]. intros E. unfold SRender.pre, SRender.maskT, SRender.startBuf, kidOp, alphaOf. rewrite E. reflexivity.
  Qed.
  Lemma body_free l b b' op op' : isPT (latt l) = false -> body l b op = body l b' op'.
  Proof. intros E. rewrite !body_eq, (pre_free l b b' op op' E). reflexivity. Qed.

  (** In a live context, [inner] gives back the context up to what the buffer does not
      depend on *)
  Lemma inner_live a b op : negb (lvis a) || (op =? 0) = false ->
    inner a (Some (b, op)) = if isPT a then Some (b, op) else Some (zero, 0).
  Proof. intros H. unfold inner. destruct (isPT a); [|reflexivity]. replace (lvis a && negb (op =? 0)) with true by (destruct (lvis a), (op =? 0); auto). reflexivity. Qed.

  Lemma invKs_free a b b' op op' ks st : isPT a = false -> invKs (kidOp a op) ks (startBuf a b) st <-> invKs (kidOp a op') ks (startBuf a b') st.
  Proof. intros E. unfold kidOp, alphaOf, SRender.startBuf. rewrite E. reflexivity. Qed.
  Lemma inv_live a ks cs b op st : negb (lvis a) || (op =? 0) = false ->
    inv (Some (b, op)) (Lay a ks cs) st <->
    entryOK (Some (b, op)) (Lay a ks cs) st /\ invKs (kidOp a op) ks (startBuf a b) st /\ groupOK (Some (b, op)) (Lay a ks cs) st.
  Proof.
    intros H. rewrite inv_eq. cbn [latt]. rewrite (inner_live _ _ _ H). destruct (isPT a) eqn:E; [reflexivity|].
    unfold entryOK, kidsOK, groupOK. cbn [latt lkids lgroup]. rewrite (body_free (Lay a ks cs) zero b 0 op E), (pre_free (Lay a ks cs) zero b 0 op E), (invKs_free a zero b 0 op ks st E).
    reflexivity.
  Qed.

  Definition Rspec (l : layer) : Prop := forall st b op force, lwf l -> NoDup (seqs l) -> inv (Some (b, op)) l st -> stable l b op ->
    (lclipping (latt l) = true -> force = true) ->
    exists st' dr, drawLayer st b l op force = Some (st', fst (dr1 (latt l) (body l b op) b op), dr) /\
      isDrew dr = snd (dr1 (latt l) (body l b op) b op) /\ inv (Some (b, op)) l st' /\
      (forall s, ~ In s (seqs l) -> ent st' s = ent st s).

  Lemma draws_ok f ks :
    Forall Rspec ks -> Forall lwf ks -> NoDup (flat_map seqs ks) -> forall D,
    (forall st buf drew, D [] st buf drew = Some (st, buf, drew)) ->
    (forall k ks st buf drew, D (k :: ks) st buf drew =
       match drawLayer st buf k (f (lopa (latt k))) false with Some (st, buf, dr) => D ks st buf (drew || isDrew dr) | None => None end) ->
    forall st buf drew, invKs f ks buf st -> stableKs f ks buf ->
    exists st', D ks st buf drew = Some (st', fst (drawsP f ks buf drew), snd (drawsP f ks buf drew)) /\
      invKs f ks buf st' /\ (forall s, ~ In s (flat_map seqs ks) -> ent st' s = ent st s).
  Proof.
    intros HR HW HN D D0 D1. induction HR as [|k ks Hk HR IH]; intros st buf drew HI HS.
    - exists st. rewrite D0. cbn. auto.
    - inversion HW as [|? ? Wk Wks]; subst. cbn [flat_map] in HN.
      cbn [invKs stableKs drawsP] in *. destruct HI as [I1 I2]. destruct HS as [S1 S2].
      rewrite D1. unfold kidInv in I1. unfold kidP in *. cbn zeta in *.
      destruct (lclipping (latt k)) eqn:Ec.
      + assert (E : exists dr, drawLayer st buf k (f (lopa (latt k))) false = Some (st, buf, dr) /\ isDrew dr = false).
        { destruct k as [a ks0 cs0]. rewrite drawLayer_eq. cbn [latt] in *. rewrite Ec. cbn [negb andb].
          destruct (negb (lvis a) || _); eauto. }
        destruct E as (dr & E & Ed). rewrite E, Ed. cbn [fst snd] in *.
        destruct (IH Wks (NoDup_app_r _ _ HN) st buf (drew || false) I2 S2) as (st' & E' & J & Fr).
        exists st'. split; [exact E'|]. split.
        * split; [|exact J]. unfold kidInv. rewrite Ec. revert I1. apply absent_fewer. apply fewer_same. intros s Hs.
          apply Fr. intros I. exact (NoDup_app_disj _ _ s HN Hs I).
        * intros s Hs. apply Fr. intros I. apply Hs. cbn [flat_map]. apply in_app_iff. auto.
      + destruct (Hk st buf (f (lopa (latt k))) false Wk (NoDup_app_l _ _ HN) I1 (S1 eq_refl)) as (st1 & dr & E & Ed & J1 & F1).
        { congruence. }
        rewrite E, Ed.
        assert (I2' : invKs f ks (fst (dr1 (latt k) (body k buf (f (lopa (latt k)))) buf (f (lopa (latt k))))) st1).
        { revert I2. apply invKs_fewer; [apply all_keep|]. apply fewer_same. intros s Hs. apply F1. intros I. exact (NoDup_app_disj _ _ s HN I Hs). }
        destruct (IH Wks (NoDup_app_r _ _ HN) st1 _ (drew || snd (dr1 (latt k) (body k buf (f (lopa (latt k)))) buf (f (lopa (latt k))))) I2' S2) as (st' & E' & J & Fr).
        exists st'. split; [exact E'|]. split.
        * split; [|exact J]. unfold kidInv. rewrite Ec. revert J1. apply inv_fewer. apply fewer_same. intros s Hs.
          apply Fr. intros I. exact (NoDup_app_disj _ _ s HN Hs I).
        * intros s Hs. rewrite Fr, F1; [reflexivity| |]; intros I; apply Hs; cbn [flat_map]; apply in_app_iff; auto.
  Qed.

  Lemma clips_ok cs : Forall Rspec cs -> Forall lwf cs -> NoDup (flat_map seqs cs) -> forall st x,
    invCs cs x st -> stableCs cs x ->
    exists st', clips cs st x = Some (st', clipsP cs x) /\ invCs cs x st' /\ (forall s, ~ In s (flat_map seqs cs) -> ent st' s = ent st s).
  Proof.
    intros HR HW HN. induction HR as [|k ks Hk HR IH]; intros st x HI HS.
    - exists st. cbn. auto.
    - inversion HW as [|? ? Wk Wks]; subst. cbn [flat_map] in HN.
      cbn [invCs stableCs clipsP] in *. destruct HI as [I1 I2]. destruct HS as [S1 S2]. rewrite clips_cons.
      destruct (Hk st x (lopa (latt k)) true Wk (NoDup_app_l _ _ HN) I1 S1) as (st1 & dr & E & Ed & J1 & F1); [reflexivity|].
      rewrite E. fold (clipP k x).
      assert (I2' : invCs ks (clipP k x) st1).
      { revert I2. apply invCs_fewer; [apply all_keep|]. apply fewer_same. intros s Hs. apply F1. intros I. exact (NoDup_app_disj _ _ s HN I Hs). }
      destruct (IH Wks (NoDup_app_r _ _ HN) st1 _ I2' S2) as (st' & E' & J & Fr).
      exists st'. split; [exact E'|]. split.
      + split; [|exact J]. revert J1. apply inv_fewer. apply fewer_same. intros s Hs.
        apply Fr. intros I. exact (NoDup_app_disj _ _ s HN Hs I).
      + intros s Hs. rewrite Fr, F1; [reflexivity| |]; intros I; apply Hs; cbn [flat_map]; apply in_app_iff; auto.
  Qed.

  Lemma drawsP_draws a op ks : forall st buf drew, Forall Rspec ks -> Forall lwf ks -> NoDup (flat_map seqs ks) ->
    invKs (kidOp a op) ks buf st -> stableKs (kidOp a op) ks buf ->
    exists st', draws (alphaOf a op) ks st buf drew = Some (st', fst (drawsP (kidOp a op) ks buf drew), snd (drawsP (kidOp a op) ks buf drew)) /\
      invKs (kidOp a op) ks buf st' /\ (forall s, ~ In s (flat_map seqs ks) -> ent st' s = ent st s).
  Proof.
    intros st buf drew HR HW HN HI HS.
    apply (draws_ok (kidOp a op) ks HR HW HN (draws (alphaOf a op))); [reflexivity| |exact HI|exact HS].
    intros k ks0 st0 buf0 drew0. rewrite draws_cons. reflexivity.
  Qed.

  (** After masking: the clipping group and the final copy or blend *)
  Lemma finish_ok a cs op b st buf cached : modeOK a cs -> Forall Rspec cs -> Forall lwf cs -> NoDup (flat_map seqs cs) ->
    let m := maskT a b buf in
    (if lbce a then invCs cs (removeAlpha (copyT m)) st else invNs cs st) ->
    (lbce a = true -> stableCs cs (removeAlpha (copyT m))) ->
    exists st', finish a cs op b st buf cached =
        Some (updateCache copyT DrDrew (lseq a) (grp a cs m) cached st', putT a b (grp a cs m) op, DrDrew) /\
      (if lbce a then invCs cs (removeAlpha (copyT m)) st' else invNs cs st') /\
      (forall s, ~ In s (flat_map seqs cs) -> ent st' s = ent st s).
  Proof.
    intros HM HR HW HN m HI HS. unfold PRender.finish. cbn zeta. rewrite applyMask_eq. fold m. unfold SRender.grp. destruct cs as [|c cs].
    - exists st. rewrite (putTile_ok a [] b m op HM). repeat split; auto.
    - destruct (lbce a) eqn:Eb.
      + destruct (clips_ok (c :: cs) HR HW HN st (removeAlpha (copyT m)) HI (HS eq_refl)) as (st' & E & J & F).
        rewrite E, (putTile_ok a (c :: cs) b _ op HM). exists st'. auto.
      + exists st. unfold modeOK in HM. unfold drawWithOpacity, putT, blendT. destruct (isPT a).
        * destruct HM; congruence.
        * destruct (blendOf (lbm a)); [|congruence]. auto.
  Qed.

  Lemma ent_set (st : tstate) s e x log : ent (Tst (m_set Z.eqb (tent st) s e) log) x = if s =? x then Some e else ent st x.
  Proof. cbn [tent]. rewrite (m_get_set Z.eqb Z.eqb_eq). reflexivity. Qed.

  Lemma drawLayer_ok l : Rspec l.
  Proof.
    induction l as [a ks cs Hk Hc] using layer_rec'. intros st b op force HW HN HI HS HF. cbn [latt] in *.
    inversion HW as [a0 ks0 cs0 HM HC HO HG HWk HWc]; subst a0 ks0 cs0.
    rewrite drawLayer_eq. unfold dr1. destruct (negb (lvis a) || (op =? 0)) eqn:Ev.
    { exists st, DrInvisible. repeat split; auto. }
    replace (lclipping a && negb force) with false by (destruct (lclipping a), force; auto; now rewrite HF in *).
    cbn [seqs] in HN. apply NoDup_cons_iff in HN. destruct HN as [HNa HN].
    pose proof (NoDup_app_l _ _ HN) as HNk. pose proof (NoDup_app_r _ _ HN) as HNc.
    rewrite (inv_live _ _ _ _ _ _ Ev) in HI. destruct HI as (I1 & I2 & I3).
    rewrite stable_eq in HS. destruct (HS Ev) as [S1 S2]. clear HS.
    destruct (isNil ks) eqn:En.
    - (* a leaf *)
      destruct ks; [|discriminate]. rewrite body_eq. cbn [pre isNil latt lgroup].
      unfold groupOK in I3. cbn [latt lgroup pre isNil] in I3.
      destruct (canvas (lseq a)) as [t|] eqn:Et.
      + cbn [option_map fst snd].
        destruct (finish_ok a cs op b st (copyT t) false HM Hc HWc HNc) as (st' & E & J & F).
        { destruct (lbce a); exact I3. }
        { intros Eb. apply S2; [|exact Eb]. cbn [pre isNil]. now rewrite Et. }
        exists st', DrDrew. rewrite E. split; [reflexivity|]. split; [reflexivity|]. split.
        * rewrite (inv_live _ _ _ _ _ _ Ev). split; [now left|]. split; [exact I|].
          unfold groupOK. cbn [latt lgroup pre isNil]. rewrite Et. destruct (lbce a); exact J.
        * intros s Hs. apply F. intros X. apply Hs. cbn [seqs flat_map app]. now right.
      + exists st, DrSkipped. cbn [option_map fst snd]. repeat split; auto.
        rewrite (inv_live _ _ _ _ _ _ Ev). split; [now left|]. split; [exact I|].
        unfold groupOK. cbn [latt lgroup pre isNil]. now rewrite Et.
    - destruct I1 as [I1|I1]; [cbn [lkids] in I1; congruence|]. cbn [latt] in I1.
      destruct (ent st (lseq a)) as [e|] eqn:Ee.
      + (* from the cache *)
        assert (J : inv (Some (b, op)) (Lay a ks cs) st).
        { rewrite (inv_live _ _ _ _ _ _ Ev). repeat split; auto. right. cbn [latt]. now rewrite Ee. }
        destruct (body (Lay a ks cs) b op) as [x|] eqn:Eb; cbn [option_map] in I1; subst e.
        * assert (Ex : copyT x = x).
          { rewrite body_eq in Eb. cbn [latt lgroup] in Eb. destruct (pre (Lay a ks cs) b op) as [m|]; [|discriminate].
            cbn [option_map] in Eb. injection Eb as <-. now apply (S2 m eq_refl). }
          rewrite Ex, (putTile_ok a cs b x op HM). exists st, DrDrewFromCache. repeat split; auto.
        * exists st, DrDrewFromCacheInvisible. repeat split; auto.
      + (* not in the cache *)
        destruct (drawsP_draws a op ks st (startBuf a b) false Hk HWk HNk I2 S1) as (st1 & E1 & J1 & F1). rewrite E1.
        set (r := drawsP (kidOp a op) ks (startBuf a b) false) in *.
        assert (P : pre (Lay a ks cs) b op = if snd r then Some (maskT a b (fst r)) else None).
        { unfold SRender.pre. rewrite En. reflexivity. }
        rewrite body_eq, P. cbn [latt lgroup]. unfold groupOK in I3. cbn [latt lgroup] in I3. rewrite P in I3, S2.
        assert (Fc : fewer (flat_map seqs cs) st st1).
        { apply fewer_same. intros s Hs. apply F1. intros X. exact (NoDup_app_disj _ _ s HN X Hs). }
        destruct (snd r) eqn:Er.
        * cbn [option_map fst snd].
          destruct (finish_ok a cs op b st1 (fst r) true HM Hc HWc HNc) as (st2 & E2 & J2 & F2).
          { destruct (lbce a); [revert I3; apply invCs_fewer; [apply all_keep|exact Fc]|revert I3; apply invNs_fewer; [apply all_keep|exact Fc]]. }
          { intros Eb. now apply (S2 _ eq_refl). }
          rewrite E2. set (m := maskT a b (fst r)) in *.
          exists (updateCache copyT DrDrew (lseq a) (grp a cs m) true st2), DrDrew. split; [reflexivity|]. split; [reflexivity|].
          unfold updateCache. split.
          -- rewrite (inv_live _ _ _ _ _ _ Ev). split; [|split].
             ++ right. cbn [latt]. rewrite ent_set, Z.eqb_refl, body_eq, P. reflexivity.
             ++ revert J1. apply invKs_fewer; [apply all_keep|]. apply fewer_same. intros s Hs. rewrite ent_set.
                destruct (Z.eqb_spec (lseq a) s) as [<-|]; [destruct HNa; apply in_app_iff; now left|].
                apply F2. intros X. exact (NoDup_app_disj _ _ s HN Hs X).
             ++ assert (F3 : fewer (flat_map seqs cs) st2 (Tst (m_set Z.eqb (tent st2) (lseq a) (Some (copyT (grp a cs m)))) (tlog st2 ++ [lseq a]))).
                { apply fewer_same. intros s Hs. rewrite ent_set. destruct (Z.eqb_spec (lseq a) s) as [<-|]; [destruct HNa; apply in_app_iff; now right|reflexivity]. }
                unfold groupOK. cbn [latt lgroup]. rewrite P.
                destruct (lbce a); [revert J2; apply invCs_fewer; [apply all_keep|exact F3]|revert J2; apply invNs_fewer; [apply all_keep|exact F3]].
          -- intros s Hs. cbn [seqs] in Hs. rewrite ent_set. destruct (Z.eqb_spec (lseq a) s) as [<-|]; [destruct Hs; now left|].
             rewrite F2, F1; [reflexivity| |]; intros X; apply Hs; right; apply in_app_iff; auto.
        * cbn [option_map fst snd].
          exists (updateCache copyT DrInvisible (lseq a) (fst r) true st1), DrInvisible. split; [reflexivity|]. split; [reflexivity|].
          unfold updateCache. split.
          -- rewrite (inv_live _ _ _ _ _ _ Ev). split; [|split].
             ++ right. cbn [latt]. rewrite ent_set, Z.eqb_refl, body_eq, P. reflexivity.
             ++ revert J1. apply invKs_fewer; [apply all_keep|]. apply fewer_same. intros s Hs. rewrite ent_set.
                destruct (Z.eqb_spec (lseq a) s) as [<-|]; [destruct HNa; apply in_app_iff; now left|reflexivity].
             ++ unfold groupOK. cbn [latt lgroup]. rewrite P. replace (if lbce a then None else None) with (@None img) in * by now destruct (lbce a).
                revert I3. apply invNs_fewer; [apply all_keep|]. intros s Hs. rewrite ent_set.
                destruct (Z.eqb_spec (lseq a) s) as [<-|]; [destruct HNa; apply in_app_iff; now right|]. now apply Fc.
          -- intros s Hs. cbn [seqs] in Hs. rewrite ent_set. destruct (Z.eqb_spec (lseq a) s) as [<-|]; [destruct Hs; now left|].
             rewrite F1; [reflexivity|]. intros X; apply Hs; right; apply in_app_iff; auto.
  Qed.

  (** * The whole tree *)
  Definition invRoot (root : layer) (st : tstate) : Prop :=
    match ent st (lseq (latt root)) with
    | None => True
    | Some e => e = let r := drawsP idOp (lkids root) zero false in if snd r then Some (copyT (fst r)) else None
    end /\ invKs idOp (lkids root) zero st.
  Lemma updateTile_ok root st : Forall lwf (lkids root) -> NoDup (lseq (latt root) :: flat_map seqs (lkids root)) ->
    invRoot root st -> stableRoot root ->
    exists st' m, updateTile root st = Some (st', m) /\ invRoot root st' /\
      ent st' (lseq (latt root)) = Some (let r := drawsP idOp (lkids root) zero false in if snd r then Some (copyT (fst r)) else None).
  Proof.
    intros HW HN [I1 I2] HS. apply NoDup_cons_iff in HN. destruct HN as [HNa HN].
    unfold MRender.updateTile. destruct (ent st (lseq (latt root))) as [e|] eqn:Ee.
    - exists st, false. split; [reflexivity|]. split; [split; [now rewrite Ee|exact I2]|]. now rewrite Ee, I1.
    - destruct (draws_ok idOp (lkids root)) with (D := drawTop) (st := st) (buf := zero) (drew := false) as (st1 & E & J & F); auto.
      { apply Forall_forall. intros k _. apply drawLayer_ok. }
      rewrite E. set (r := drawsP idOp (lkids root) zero false) in *.
      eexists _, true. split; [reflexivity|].
      assert (X : forall e log, invKs idOp (lkids root) zero (Tst (m_set Z.eqb (tent st1) (lseq (latt root)) e) log)).
      { intros e log. revert J. apply invKs_fewer; [apply all_keep|]. apply fewer_same. intros s Hs. rewrite ent_set.
        destruct (Z.eqb_spec (lseq (latt root)) s) as [<-|]; [contradiction|reflexivity]. }
      unfold updateCache, invRoot. destruct (snd r) eqn:Er; fold r; rewrite ent_set, Z.eqb_refl; repeat split; auto; cbn zeta; rewrite ?Er; auto.
  Qed.
End render.
