(** Theorems about the layers' images that New loads with a translation and a gamma (property C75). *)
From Coq Require Import QArith SpecFloat.
From Verif Require Import Base BaseFacts MRect MThumb SThumb MSched MBlend SBlend MRender MWait MTile STile MLoad SLoad MTileRender STileRender MScale SScale PScale TScale MMove SMove MLoadBy PMoveLoad XLoadBy TMoveLoad PNewGamma.
Open Scope Z_scope.

(** ** C75 *)

(** New with a matrix that moves by whole pixels (zeros in the diagonal stand for ones), with a gamma or without, on any
    list of layers, by a library that copies whole pixels. When it has ended, whatever the schedule, the tiles stored for
    each layer with a picture show at the moved place every opaque pixel of the layer, its colours sent through both
    tables if there is a gamma and the offset is not zero, and unchanged otherwise. Transparent pixels stay transparent,
    and nothing is shown elsewhere. Missing: partly transparent pixels (their fate is up to the library); that the colours
    do not change with a gamma is false ([C75_gamma_refuted]). *)
Theorem C75_new_partial : forall rnd lib cpus ts mm dx dy pow gamma ls st,
  SThumb.rounding rnd -> good_library lib -> (1 <= cpus)%nat -> 0 < ts -> moves_by mm dx dy -> NoDup (map pseq ls) ->
  let gt := option_map (makeGammaTable pow) gamma in
  let f c := match gt with Some t => if (dx =? 0) && (dy =? 0) then c else T16 t (T8 t c) | None => c end in
  MWait.steps (lstepBy rnd lib cpus ts (newMatrix mm) gt) (lstart ls) st -> lended st ->
  forall l, In l ls -> ptype l = 0 -> moderate (prect l) dx dy -> plane_ok (prect l) 1 (pr_ l) -> plane_ok (prect l) 1 (pg_ l) -> plane_ok (prect l) 1 (pb_ l) ->
  match pa_ l with Some a => plane_ok (prect l) 1 a | None => True end ->
  exists t m, m_get Z.eqb (ldImages st) (pseq l) = Some (LI (Some t) m) /\ well_tiled ts t /\
    (forall p v, pt_in p (prect l) = true -> 0 <= MRect.px p + dx -> 0 <= py p + dy -> source_px (pr_ l) (pg_ l) (pb_ l) (pa_ l) (sample_pos (prect l) 1 p) v -> pa v = 255 ->
       shows ts z4 t (shifted p dx dy) (Px (f (pr v)) (f (pg v)) (f (pb v)) 255)) /\
    (forall p v, pt_in p (prect l) = true -> source_px (pr_ l) (pg_ l) (pb_ l) (pa_ l) (sample_pos (prect l) 1 p) v -> pa v = 0 -> shows ts z4 t (shifted p dx dy) z4) /\
    (forall p, pt_in p (prect l) = false -> shows ts z4 t (shifted p dx dy) z4).
Proof. exact new_gamma. Qed.
Print Assumptions C75_new_partial.

(** The hypotheses are met: a layer of two pixels, the second transparent, and a folder; offsets (2, 1) and gamma 2. *)
Definition two : player := PL 5 0 (Rct 0 0 2 1) [100; 9] [150; 9] [200; 9] (Some [255; 0]) (Rct 0 0 0 0) None 0 0.
Definition fold : player := PL 6 1 (Rct 0 0 0 0) [] [] [] None (Rct 0 0 0 0) None 0 0.
Definition two_step := lstepBy (fun x => x) exactLib 1 2 (newMatrix (offsets 2 1)) (Some (makeGammaTable somePow (fofZ 2))).
Example C75_new_used :
  (exists st, MWait.steps two_step (lstart [two; fold]) st /\ lended st) /\
  forall st, MWait.steps two_step (lstart [two; fold]) st -> lended st ->
  exists t m, m_get Z.eqb (ldImages st) 5 = Some (LI (Some t) m) /\ shows 2 z4 t (Pt 2 1) (Px 99 149 199 255) /\ shows 2 z4 t (Pt 3 1) z4 /\ shows 2 z4 t (Pt 0 0) z4.
Proof.
  split.
  - destruct (loadSeqBy (fun x => x) exactLib 2 (newMatrix (offsets 2 1)) (Some (makeGammaTable somePow (fofZ 2))) [two; fold]) as [st|] eqn:E; [exists st; exact (loadSeqBy_runs _ _ _ _ _ _ _ E)|].
    exfalso. assert (match loadSeqBy (fun x => x) exactLib 2 (newMatrix (offsets 2 1)) (Some (makeGammaTable somePow (fofZ 2))) [two; fold] with Some _ => true | None => false end = true) as H by (vm_compute; reflexivity).
    rewrite E in H. discriminate H.
  - intros st S L.
    assert (Nd : NoDup (map pseq [two; fold])) by (repeat constructor; cbn; intuition discriminate).
    destruct (C75_new_partial (fun x => x) exactLib 1 2 (offsets 2 1) 2 1 somePow (Some (fofZ 2)) [two; fold] st id_rounding exactLib_good ltac:(lia) ltac:(lia) ltac:(repeat split; now left) Nd S L two (or_introl eq_refl) eq_refl)
      as (t & m & G & _ & M1 & M2 & M3); try (unfold moderate, plane_ok, rdx, rdy, zlen; cbn; lia).
    exists t, m. split; [exact G|]. split; [|split].
    + destruct (C75_tables somePow somePow_ok 100 ltac:(lia)) as (_ & T1 & _). destruct (C75_tables somePow somePow_ok 150 ltac:(lia)) as (_ & T2 & _). destruct (C75_tables somePow somePow_ok 200 ltac:(lia)) as (_ & T3 & _).
      specialize (M1 (Pt 0 0) (Px 100 150 200 255) eq_refl ltac:(cbn; lia) ltac:(cbn; lia) ltac:(exists 100, 150, 200, 255; repeat split; reflexivity) eq_refl).
      cbv zeta in T1, T2, T3. cbn [pr pg pb option_map Z.eqb andb] in M1. rewrite T1, T2, T3 in M1. exact M1.
    + exact (M2 (Pt 1 0) (Px 0 0 0 0) eq_refl ltac:(exists 9, 9, 9, 0; repeat split; reflexivity) eq_refl).
    + exact (M3 (Pt (-2) (-1)) eq_refl).
Qed.
