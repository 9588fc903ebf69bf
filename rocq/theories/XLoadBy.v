(** An execution of the loader with a transformation, one layer after the other, for examples. *)
From Coq Require Import Permutation QArith.
From Verif Require Import Base BaseFacts MRect MThumb MSched PSched MBlend MWait MDraw MTile MLoad SLoad PLoad PPipe5 XPipe MScale MLoadBy.
Open Scope Z_scope.

Section seq.
  Variables (rnd : Q -> Q) (lib : library) (ts : Z) (mm : aff) (gt : option gammaTable).
  Notation step := (lstepBy rnd lib 1 ts mm gt).
  Definition canvasXBy (l : player) : option (player * option (tilemap px)) :=
    if hasImage l && negb (rempty (prect l)) then
      match newScaledTiledImage rnd lib 1 ts (prect l) (pr_ l) (pg_ l) (pb_ l) (pa_ l) 1 mm gt with
      | Some w => Some (setRect l (boundsOf ts (runAll w)), Some (runAll w))
      | None => None
      end
    else Some (l, None).
  Definition maskXBy (l : player) : option (player * option (tilemap Z)) :=
    if negb (rempty (pmrect l)) then
      match pmchan l with
      | Some a => match newScaledTiledMask rnd lib 1 ts (pmrect l) a (pmdc l) mm with
                  | Some w => Some (setMaskRect l (boundsOf ts (runAll w)), Some (runAll w))
                  | None => None
                  end
      | None => Some (l, None)
      end
    else Some (l, None).
  Definition loadXBy (l : player) : option (player * limage) :=
    match canvasXBy l with
    | Some (l1, c) => match maskXBy l1 with Some (l2, m) => Some (l2, LI c m) | None => None end
    | None => None
    end.
  Fixpoint loadsXBy (ls : list player) : option (list (player * limage)) :=
    match ls with
    | [] => Some []
    | l :: ls => match loadXBy l, loadsXBy ls with Some r, Some rs => Some (r :: rs) | _, _ => None end
    end.
  Definition loadSeqBy (ls : list player) : option loader :=
    option_map (fun rs => LD (map fst rs) (length rs) [] (imagesX rs) (map fst rs)) (loadsXBy ls).

  Lemma canvasXBy_ok l l' c : canvasXBy l = Some (l', c) -> canvasOfBy rnd lib 1 ts mm gt l l' c.
  Proof.
    unfold canvasXBy, canvasOfBy. destruct (_ && _); [|intros [= <- <-]; auto]. destruct (newScaledTiledImage _ _ _ _ _ _ _ _ _ _ _ _) as [w|]; [|discriminate]. intros [= <- <-].
    exists (runAll w), (boundsOf ts (runAll w)). split; [|split; [|auto]]; [exists w, (concat w); repeat split; apply interleave_concat|exists (map fst (runAll w)); split; [apply Permutation_refl|reflexivity]].
  Qed.
  Lemma maskXBy_ok l l' c : maskXBy l = Some (l', c) -> maskOfBy rnd lib 1 ts mm l l' c.
  Proof.
    unfold maskXBy, maskOfBy. destruct (negb _); [|intros [= <- <-]; auto]. destruct (pmchan l) as [a|]; [|intros [= <- <-]; auto]. destruct (newScaledTiledMask _ _ _ _ _ _ _ _) as [w|]; [|discriminate]. intros [= <- <-].
    exists (runAll w), (boundsOf ts (runAll w)). split; [|split; [|auto]]; [exists w, (concat w); repeat split; apply interleave_concat|exists (map fst (runAll w)); split; [apply Permutation_refl|reflexivity]].
  Qed.
  Lemma loads_runBy ls0 : forall ls rs done ims, loadsXBy ls = Some rs ->
    MWait.steps step (lstart ls0) (LD (done ++ ls) (length done) [] ims []) ->
    MWait.steps step (lstart ls0) (LD (done ++ map fst rs) (length done + length rs) [] (fold_left (fun ims r => m_set Z.eqb ims (pseq (fst r)) (snd r)) rs ims) []).
  Proof.
    induction ls as [|l ls IH]; intros rs done ims E S; cbn [loadsXBy] in E; [injection E as <-; cbn [length map fold_left]; now rewrite Nat.add_0_r|].
    unfold loadXBy in E. destruct (canvasXBy l) as [[l1 c]|] eqn:C; [|discriminate]. destruct (maskXBy l1) as [[l2 m]|] eqn:M; [|discriminate].
    destruct (loadsXBy ls) as [rs'|] eqn:R; [|discriminate]. injection E as <-. cbn [map fst length fold_left snd].
    replace (length done + Datatypes.S (length rs'))%nat with (length (done ++ [l2]) + length rs')%nat by (rewrite app_length; cbn; lia).
    replace (done ++ l2 :: map fst rs') with ((done ++ [l2]) ++ map fst rs') by now rewrite <- app_assoc. apply IH; [reflexivity|]. rewrite app_length, <- app_assoc. cbn [length app].
    replace (length done + 1)%nat with (Datatypes.S (length done)) by lia.
    eapply steps_next; [eapply steps_next; [eapply steps_next; [eapply steps_next; [exact S|]|]|]|].
    - apply LB_send; [rewrite app_length|]; cbn [length]; lia.
    - apply (LB_canvas rnd lib 1 ts mm gt _ _ [] (length done) [] ims [] l l1 c); [apply nth_mid|now apply canvasXBy_ok].
    - rewrite setNth_mid. apply (LB_mask rnd lib 1 ts mm gt _ _ [] (length done) c [] ims [] l1 l2 m); [apply nth_mid|now apply maskXBy_ok].
    - rewrite setNth_mid. apply (LB_store rnd lib 1 ts mm gt _ _ [] (length done) (LI c m) [] ims [] l2). apply nth_mid.
  Qed.
  Lemma copies_runBy ls0 ls n ims : n = length ls -> MWait.steps step (lstart ls0) (LD ls n [] ims []) -> forall b a, a ++ b = ls -> MWait.steps step (lstart ls0) (LD ls n [] ims a) ->
    MWait.steps step (lstart ls0) (LD ls n [] ims ls).
  Proof.
    intros -> S. induction b as [|x b IH]; intros a E S'; [rewrite app_nil_r in E; now subst a|]. apply (IH (a ++ [x])); [now rewrite <- app_assoc|].
    eapply steps_next; [exact S'|]. apply LB_copy. rewrite <- E. apply nth_mid.
  Qed.
  Lemma loadSeqBy_runs ls st : loadSeqBy ls = Some st -> MWait.steps step (lstart ls) st /\ lended st.
  Proof.
    unfold loadSeqBy. destruct (loadsXBy ls) as [rs|] eqn:R; [|discriminate]. intros [= <-]. split; [|unfold lended; cbn; rewrite map_length; auto].
    pose proof (loads_runBy ls ls rs [] [] R (steps_refl _ _)) as S. cbn [app length Nat.add] in S. change (fold_left _ rs []) with (imagesX rs) in S.
    eapply copies_runBy with (b := map fst rs) (a := []); [now rewrite map_length|exact S|reflexivity|exact S].
  Qed.
End seq.
