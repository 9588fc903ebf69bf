(** Proofs about transformed rectangles. *)
From Coq Require Import QArith Qround Lqa.
From Verif Require Import Base MRect MThumb SThumb.
Open Scope Q_scope.

Section transform.
  Variable rnd : Q -> Q.
  Hypothesis Hr : rounding rnd.
  Let mono := proj1 Hr.
  Let exactZ := proj2 Hr.

  Lemma rnd_comp x y : x == y -> rnd x == rnd y.
  Proof. intros E. apply Qle_antisym; apply mono; rewrite E; apply Qle_refl. Qed.
  Lemma fadd_mono x x' y y' : x <= x' -> y <= y' -> fadd rnd x y <= fadd rnd x' y'.
  Proof. intros. unfold fadd. apply mono. lra. Qed.
  Lemma fmul_between a x0 x x1 : (x0 <= x <= x1)%Z ->
    (exists xi, (xi = x0 \/ xi = x1) /\ fmul rnd (inject_Z xi) a <= fmul rnd (inject_Z x) a) /\
    (exists xi, (xi = x0 \/ xi = x1) /\ fmul rnd (inject_Z x) a <= fmul rnd (inject_Z xi) a).
  Proof.
    intros [H1 H2]. rewrite Zle_Qle in H1, H2. unfold fmul. destruct (Qlt_le_dec a 0).
    - split; [exists x1|exists x0]; (split; [auto|]); apply mono; nra.
    - split; [exists x0|exists x1]; (split; [auto|]); apply mono; nra.
  Qed.
  (** A coordinate of the image lies between those of two corners. *)
  Lemma coord_between a b c x0 x x1 y0 y y1 : (x0 <= x <= x1)%Z -> (y0 <= y <= y1)%Z ->
    let f i j := fadd rnd (fadd rnd (fmul rnd (inject_Z i) a) (fmul rnd (inject_Z j) b)) c in
    (exists i j, (i = x0 \/ i = x1) /\ (j = y0 \/ j = y1) /\ f i j <= f x y) /\
    (exists i j, (i = x0 \/ i = x1) /\ (j = y0 \/ j = y1) /\ f x y <= f i j).
  Proof.
    intros Hx Hy f. destruct (fmul_between a x0 x x1 Hx) as [(i & Hi & Li) (i' & Hi' & Li')].
    destruct (fmul_between b y0 y y1 Hy) as [(j & Hj & Lj) (j' & Hj' & Lj')]. unfold f. split.
    - exists i, j. split; [exact Hi|]. split; [exact Hj|]. apply fadd_mono; [|apply Qle_refl]. now apply fadd_mono.
    - exists i', j'. split; [exact Hi'|]. split; [exact Hj'|]. apply fadd_mono; [|apply Qle_refl]. now apply fadd_mono.
  Qed.

  Definition bounds (b : Q * Q * Q * Q) (p : Q * Q) : Prop :=
    let '(xMin, yMin, xMax, yMax) := b in
    xMin <= fst p /\ yMin <= snd p /\ fadd rnd (fst p) 1 <= xMax /\ fadd rnd (snd p) 1 <= yMax.
  Lemma qlt_spec x y : if qlt x y then x < y else y <= x.
  Proof.
    unfold qlt. destruct (Qle_bool y x) eqn:E; cbn.
    - now apply Qle_bool_iff.
    - apply Qnot_le_lt. intros H. apply Qle_bool_iff in H. congruence.
  Qed.
  Lemma spread_bounds b p : bounds (spread rnd b p) p /\ (forall q, bounds b q -> bounds (spread rnd b p) q).
  Proof.
    destruct b as [[[xMin yMin] xMax] yMax], p as [dx dy]. unfold spread, bounds. cbn [fst snd].
    pose proof (qlt_spec dx xMin) as A. pose proof (qlt_spec dy yMin) as B. pose proof (qlt_spec xMax (fadd rnd dx 1)) as C. pose proof (qlt_spec yMax (fadd rnd dy 1)) as D.
    destruct (qlt dx xMin), (qlt dy yMin), (qlt xMax (fadd rnd dx 1)), (qlt yMax (fadd rnd dy 1)); (split; [lra|intros q Hq; lra]).
  Qed.
  Lemma bounds_first p : bounds (fst p, snd p, fadd rnd (fst p) 1, fadd rnd (snd p) 1) p.
  Proof. unfold bounds. repeat split; apply Qle_refl. Qed.

  Lemma transformRect_corners r m : exists b, (forall i j, (i = rx0 r \/ i = rx1 r) -> (j = ry0 r \/ j = ry1 r) -> bounds b (applyAff rnd m i j)) /\
    transformRect rnd r m = let '(xMin, yMin, xMax, yMax) := b in Rct (Qfloor xMin) (Qfloor yMin) (Qceiling xMax) (Qceiling yMax).
  Proof.
    unfold transformRect. destruct (applyAff rnd m (rx0 r) (ry0 r)) as [dx dy] eqn:E.
    set (b0 := (dx, dy, fadd rnd dx 1, fadd rnd dy 1)).
    set (b1 := spread rnd b0 (applyAff rnd m (rx1 r) (ry0 r))).
    set (b2 := spread rnd b1 (applyAff rnd m (rx1 r) (ry1 r))).
    set (b3 := spread rnd b2 (applyAff rnd m (rx0 r) (ry1 r))).
    exists b3. split; [|now destruct b3 as [[[? ?] ?] ?]].
    destruct (spread_bounds b0 (applyAff rnd m (rx1 r) (ry0 r))) as [A1 A2]. destruct (spread_bounds b1 (applyAff rnd m (rx1 r) (ry1 r))) as [B1 B2].
    destruct (spread_bounds b2 (applyAff rnd m (rx0 r) (ry1 r))) as [C1 C2]. fold b1 in A1, A2. fold b2 in B1, B2. fold b3 in C1, C2.
    intros i j [->| ->] [->| ->]; auto. rewrite E. apply C2, B2, A2. exact (bounds_first (dx, dy)).
  Qed.

  Lemma transformRect_covers r m x y : (rx0 r <= x <= rx1 r)%Z -> (ry0 r <= y <= ry1 r)%Z ->
    let p := applyAff rnd m x y in let t := transformRect rnd r m in
    inject_Z (rx0 t) <= fst p /\ fadd rnd (fst p) 1 <= inject_Z (rx1 t) /\
    inject_Z (ry0 t) <= snd p /\ fadd rnd (snd p) 1 <= inject_Z (ry1 t).
  Proof.
    intros Hx Hy p t. destruct (transformRect_corners r m) as (b & Hb & E). subst t. rewrite E. clear E. destruct b as [[[xMin yMin] xMax] yMax].
    cbn [rx0 ry0 rx1 ry1]. unfold bounds in Hb.
    pose proof (Qfloor_le xMin). pose proof (Qfloor_le yMin). pose proof (Qle_ceiling xMax). pose proof (Qle_ceiling yMax).
    destruct (coord_between (a0 m) (a1 m) (a2 m) _ x _ _ y _ Hx Hy) as [(i & j & Hi & Hj & L) (i' & j' & Hi' & Hj' & L')].
    destruct (coord_between (a3 m) (a4 m) (a5 m) _ x _ _ y _ Hx Hy) as [(k & l & Hk & Hl & M) (k' & l' & Hk' & Hl' & M')].
    pose proof (Hb i j Hi Hj) as B1. pose proof (Hb i' j' Hi' Hj') as B2. pose proof (Hb k l Hk Hl) as B3. pose proof (Hb k' l' Hk' Hl') as B4.
    unfold p, applyAff in *. cbn [fst snd] in *.
    apply (fun H => fadd_mono _ _ 1 1 H (Qle_refl 1)) in L'. apply (fun H => fadd_mono _ _ 1 1 H (Qle_refl 1)) in M'.
    destruct B1 as (B1 & _), B2 as (_ & _ & B2 & _), B3 as (_ & B3 & _), B4 as (_ & _ & _ & B4). 
    repeat split; eapply Qle_trans; try eassumption; eapply Qle_trans; eassumption.
  Qed.

  (** The identity. *)
  Definition ident : aff := Aff 1 0 0 0 1 0.
  Lemma rnd_Z q n : (- 2 ^ 53 <= n <= 2 ^ 53)%Z -> q == inject_Z n -> rnd q == inject_Z n.
  Proof. intros H E. rewrite (rnd_comp _ _ E). now apply exactZ. Qed.
  Lemma ident_at x y : (- 2 ^ 53 <= x <= 2 ^ 53)%Z -> (- 2 ^ 53 <= y <= 2 ^ 53)%Z ->
    fst (applyAff rnd ident x y) == inject_Z x /\ snd (applyAff rnd ident x y) == inject_Z y.
  Proof.
    intros Hx Hy. unfold applyAff, fadd, fmul, ident. cbn [fst snd a0 a1 a2 a3 a4 a5].
    assert (rnd (inject_Z x * 1) == inject_Z x) as E1 by (apply rnd_Z; [exact Hx|lra]).
    assert (rnd (inject_Z y * 1) == inject_Z y) as E2 by (apply rnd_Z; [exact Hy|lra]).
    assert (rnd (inject_Z x * 0) == inject_Z 0) as E3 by (apply rnd_Z; [lia|change (inject_Z 0) with 0; lra]).
    assert (rnd (inject_Z y * 0) == inject_Z 0) as E4 by (apply rnd_Z; [lia|change (inject_Z 0) with 0; lra]).
    change (inject_Z 0) with 0 in *. split; apply rnd_Z; try assumption.
    - assert (rnd (rnd (inject_Z x * 1) + rnd (inject_Z y * 0)) == inject_Z x) as -> by (apply rnd_Z; [exact Hx|lra]). lra.
    - assert (rnd (rnd (inject_Z x * 0) + rnd (inject_Z y * 1)) == inject_Z y) as -> by (apply rnd_Z; [exact Hy|lra]). lra.
  Qed.
  Definition boxIs (b : Q * Q * Q * Q) (x0 y0 x1 y1 : Z) : Prop :=
    let '(xMin, yMin, xMax, yMax) := b in xMin == inject_Z x0 /\ yMin == inject_Z y0 /\ xMax == inject_Z x1 /\ yMax == inject_Z y1.
  Lemma spread_is b x0 y0 x1 y1 p x y : boxIs b x0 y0 x1 y1 -> fst p == inject_Z x -> snd p == inject_Z y ->
    (- 2 ^ 52 <= x <= 2 ^ 52)%Z -> (- 2 ^ 52 <= y <= 2 ^ 52)%Z ->
    boxIs (spread rnd b p) (Z.min x0 x) (Z.min y0 y) (Z.max x1 (x + 1)) (Z.max y1 (y + 1)).
  Proof.
    destruct b as [[[xMin yMin] xMax] yMax], p as [dx dy]. unfold boxIs, spread. cbn [fst snd]. intros (A & B & C & D) Ex Ey Hx Hy.
    assert (fadd rnd dx 1 == inject_Z (x + 1)) as Fx by (apply rnd_Z; [lia|rewrite inject_Z_plus, Ex; reflexivity]).
    assert (fadd rnd dy 1 == inject_Z (y + 1)) as Fy by (apply rnd_Z; [lia|rewrite inject_Z_plus, Ey; reflexivity]).
    assert (forall u v i j, u == inject_Z i -> v == inject_Z j -> (if qlt u v then u else v) == inject_Z (Z.min j i)) as M1.
    { intros u v i j Eu Ev. pose proof (qlt_spec u v) as S. destruct (qlt u v); rewrite Eu, Ev in S; [rewrite <- Zlt_Qlt in S|rewrite <- Zle_Qle in S].
      - rewrite Z.min_r by lia. exact Eu.
      - rewrite Z.min_l by lia. exact Ev. }
    assert (forall u v i j, u == inject_Z i -> v == inject_Z j -> (if qlt u v then v else u) == inject_Z (Z.max i j)) as M2.
    { intros u v i j Eu Ev. pose proof (qlt_spec u v) as S. destruct (qlt u v); rewrite Eu, Ev in S; [rewrite <- Zlt_Qlt in S|rewrite <- Zle_Qle in S].
      - rewrite Z.max_r by lia. exact Ev.
      - rewrite Z.max_l by lia. exact Eu. }
    split; [now apply M1|]. split; [now apply M1|]. split; now apply M2.
  Qed.
  Lemma transformRect_ident r : (- 2 ^ 52 <= rx0 r <= rx1 r)%Z -> (rx1 r <= 2 ^ 52)%Z -> (- 2 ^ 52 <= ry0 r <= ry1 r)%Z -> (ry1 r <= 2 ^ 52)%Z ->
    transformRect rnd r ident = Rct (rx0 r) (ry0 r) (rx1 r + 1) (ry1 r + 1).
  Proof.
    intros Hx Hx1 Hy Hy1. unfold transformRect. destruct (applyAff rnd ident (rx0 r) (ry0 r)) as [dx dy] eqn:E.
    destruct (ident_at (rx0 r) (ry0 r) ltac:(lia) ltac:(lia)) as [A1 A2]. rewrite E in A1, A2. cbn [fst snd] in A1, A2.
    destruct (ident_at (rx1 r) (ry0 r) ltac:(lia) ltac:(lia)) as [B1 B2]. destruct (ident_at (rx1 r) (ry1 r) ltac:(lia) ltac:(lia)) as [C1 C2].
    destruct (ident_at (rx0 r) (ry1 r) ltac:(lia) ltac:(lia)) as [D1 D2].
    assert (boxIs (dx, dy, fadd rnd dx 1, fadd rnd dy 1) (rx0 r) (ry0 r) (rx0 r + 1) (ry0 r + 1)) as I0.
    { unfold boxIs. split; [exact A1|]. split; [exact A2|]. split; apply rnd_Z; try lia; rewrite inject_Z_plus; [rewrite A1|rewrite A2]; reflexivity. }
    pose proof (spread_is _ _ _ _ _ _ _ _ I0 B1 B2 ltac:(lia) ltac:(lia)) as I1.
    pose proof (spread_is _ _ _ _ _ _ _ _ I1 C1 C2 ltac:(lia) ltac:(lia)) as I2.
    pose proof (spread_is _ _ _ _ _ _ _ _ I2 D1 D2 ltac:(lia) ltac:(lia)) as I3.
    cbv zeta. set (b3 := spread rnd (spread rnd (spread rnd (dx, dy, fadd rnd dx 1, fadd rnd dy 1) (applyAff rnd ident (rx1 r) (ry0 r))) (applyAff rnd ident (rx1 r) (ry1 r))) (applyAff rnd ident (rx0 r) (ry1 r))) in *.
    clearbody b3. destruct b3 as [[[xMin yMin] xMax] yMax]. destruct I3 as (J1 & J2 & J3 & J4).
    rewrite (Qfloor_comp _ _ J1), (Qfloor_comp _ _ J2), (Qceiling_comp _ _ J3), (Qceiling_comp _ _ J4), !Qfloor_Z, !Qceiling_Z. f_equal; lia.
  Qed.
End transform.
