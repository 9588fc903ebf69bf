(** An execution of the loader with one layer after the other, for examples. *)
From Verif Require Import Base BaseFacts MRect MSched PSched MBlend MWait MDraw MTile MLoad SLoad PLoad PPipe5.
Open Scope Z_scope.

Section seq.
  Variable ts : Z.
  Definition runAll {V} (l : list (list (point * list V))) : tilemap V := exec putTile (concat l) [].
  Definition boundsOf {V} (m : tilemap V) : rect := fold_left (fun r k => runion (tileRect ts k) r) (map fst m) ZR.
  Definition canvasX (l : player) : option (player * option (tilemap px)) :=
    if hasImage l && negb (rempty (prect l)) then
      match newTiledImage 1 ts (prect l) (pr_ l) (pg_ l) (pb_ l) (pa_ l) 1 with
      | Some w => Some (setRect l (boundsOf (runAll w)), Some (runAll w))
      | None => None
      end
    else Some (l, None).
  Definition maskX (l : player) : option (player * option (tilemap Z)) :=
    if negb (rempty (pmrect l)) then
      match pmchan l with
      | Some a => match newTiledMask 1 ts (pmrect l) a (pmdc l) with
                  | Some w => Some (setMaskRect l (boundsOf (runAll w)), Some (runAll w))
                  | None => None
                  end
      | None => Some (l, None)
      end
    else Some (l, None).
  Definition loadX (l : player) : option (player * limage) :=
    match canvasX l with
    | Some (l1, c) => match maskX l1 with Some (l2, m) => Some (l2, LI c m) | None => None end
    | None => None
    end.
  Fixpoint loadsX (ls : list player) : option (list (player * limage)) :=
    match ls with
    | [] => Some []
    | l :: ls => match loadX l, loadsX ls with Some r, Some rs => Some (r :: rs) | _, _ => None end
    end.
  Definition imagesX (rs : list (player * limage)) : list (Z * limage) :=
    fold_left (fun ims r => m_set Z.eqb ims (pseq (fst r)) (snd r)) rs [].
  Definition loadSeq (ls : list player) : option loader :=
    option_map (fun rs => LD (map fst rs) (length rs) [] (imagesX rs) (map fst rs)) (loadsX ls).

  Lemma canvasX_ok l l' c : canvasX l = Some (l', c) -> canvasOf 1 ts l l' c.
  Proof.
    unfold canvasX, canvasOf. destruct (_ && _); [|intros [= <- <-]; auto]. destruct (newTiledImage _ _ _ _ _ _ _ _) as [w|]; [|discriminate]. intros [= <- <-].
    exists (runAll w), (boundsOf (runAll w)). split; [|split; [|auto]]; [exists w, (concat w); repeat split; apply interleave_concat|exists (map fst (runAll w)); split; [apply Permutation.Permutation_refl|reflexivity]].
  Qed.
  Lemma maskX_ok l l' c : maskX l = Some (l', c) -> maskOf 1 ts l l' c.
  Proof.
    unfold maskX, maskOf. destruct (negb _); [|intros [= <- <-]; auto]. destruct (pmchan l) as [a|]; [|intros [= <- <-]; auto]. destruct (newTiledMask _ _ _ _ _) as [w|]; [|discriminate]. intros [= <- <-].
    exists (runAll w), (boundsOf (runAll w)). split; [|split; [|auto]]; [exists w, (concat w); repeat split; apply interleave_concat|exists (map fst (runAll w)); split; [apply Permutation.Permutation_refl|reflexivity]].
  Qed.
  Lemma setNth_mid {A} (v x : A) : forall a b, setNth (length a) v (a ++ x :: b) = a ++ v :: b.
  Proof. induction a as [|y a IH]; intros b; [reflexivity|]. cbn [length app setNth]. now rewrite IH. Qed.
  Lemma nth_mid {A} (x : A) : forall a b, nth_error (a ++ x :: b) (length a) = Some x.
  Proof. induction a as [|y a IH]; intros b; [reflexivity|]. cbn [length app nth_error]. apply IH. Qed.
  Lemma loads_run ls0 : forall ls rs done ims, loadsX ls = Some rs ->
    MWait.steps (lstep 1 ts) (lstart ls0) (LD (done ++ ls) (length done) [] ims []) ->
    MWait.steps (lstep 1 ts) (lstart ls0) (LD (done ++ map fst rs) (length done + length rs) [] (fold_left (fun ims r => m_set Z.eqb ims (pseq (fst r)) (snd r)) rs ims) []).
  Proof.
    induction ls as [|l ls IH]; intros rs done ims E S; cbn [loadsX] in E; [injection E as <-; cbn [length map fold_left]; now rewrite Nat.add_0_r|].
    unfold loadX in E. destruct (canvasX l) as [[l1 c]|] eqn:C; [|discriminate]. destruct (maskX l1) as [[l2 m]|] eqn:M; [|discriminate].
    destruct (loadsX ls) as [rs'|] eqn:R; [|discriminate]. injection E as <-. cbn [map fst length fold_left snd].
    replace (length done + Datatypes.S (length rs'))%nat with (length (done ++ [l2]) + length rs')%nat by (rewrite app_length; cbn; lia).
    replace (done ++ l2 :: map fst rs') with ((done ++ [l2]) ++ map fst rs') by now rewrite <- app_assoc. apply IH; [reflexivity|]. rewrite app_length, <- app_assoc. cbn [length app].
    replace (length done + 1)%nat with (Datatypes.S (length done)) by lia.
    eapply steps_next; [eapply steps_next; [eapply steps_next; [eapply steps_next; [exact S|]|]|]|].
    - apply L_send; [rewrite app_length|]; cbn [length]; lia.
    - apply (L_canvas 1 ts _ _ [] (length done) [] ims [] l l1 c); [apply nth_mid|now apply canvasX_ok].
    - rewrite setNth_mid. apply (L_mask 1 ts _ _ [] (length done) c [] ims [] l1 l2 m); [apply nth_mid|now apply maskX_ok].
    - rewrite setNth_mid. apply (L_store 1 ts _ _ [] (length done) (LI c m) [] ims [] l2). apply nth_mid.
  Qed.
  Lemma copies_run ls0 ls n ims : n = length ls -> MWait.steps (lstep 1 ts) (lstart ls0) (LD ls n [] ims []) -> forall b a, a ++ b = ls -> MWait.steps (lstep 1 ts) (lstart ls0) (LD ls n [] ims a) ->
    MWait.steps (lstep 1 ts) (lstart ls0) (LD ls n [] ims ls).
  Proof.
    intros -> S. induction b as [|x b IH]; intros a E S'; [rewrite app_nil_r in E; now subst a|]. apply (IH (a ++ [x])); [now rewrite <- app_assoc|].
    eapply steps_next; [exact S'|]. apply L_copy. rewrite <- E. apply nth_mid.
  Qed.
  Lemma loadSeq_runs ls st : loadSeq ls = Some st -> MWait.steps (lstep 1 ts) (lstart ls) st /\ lended st.
  Proof.
    unfold loadSeq. destruct (loadsX ls) as [rs|] eqn:R; [|discriminate]. intros [= <-]. split; [|unfold lended; cbn; rewrite map_length; auto].
    pose proof (loads_run ls ls rs [] [] R (steps_refl _ _)) as S. cbn [app length Nat.add] in S. change (fold_left _ rs []) with (imagesX rs) in S.
    eapply copies_run with (b := map fst rs) (a := []); [now rewrite map_length|exact S|reflexivity|exact S].
  Qed.
End seq.
