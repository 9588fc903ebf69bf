(** Proofs about drawing and transforming tiles. *)
From Coq Require Import Permutation.
From Verif Require Import Base BaseFacts MRect MSched PSched MDraw PDraw PDraw2 MBlend SBlend MPorter PPorter MRender MTile STile PTile MLoad SLoad PLoad MTileRender STileRender.
Open Scope Z_scope.

(** * Stores into cells that determine their value *)
Lemma zkey_dec {V} (l : list (Z * V)) i : {v | In (i, v) l} + {forall v, ~ In (i, v) l}.
Proof.
  induction l as [|[j w] l IH]; [right; intros v []|]. destruct IH as [[v H]|H]; [left; exists v; now right|].
  destruct (Z.eq_dec j i) as [->|N]; [left; exists w; now left|]. right. intros v [E|E]; [congruence|exact (H v E)].
Defined.
Lemma exec_store_out {V} (l : list (Z * V)) : forall m i, (forall v, ~ In (i, v) l) -> idx (exec store l m) i = idx m i.
Proof.
  induction l as [|[j w] l IH]; intros m i H; [reflexivity|].
  change (exec store ((j, w) :: l) m) with (exec store l (store (j, w) m)). rewrite IH by (intros v Hv; apply (H v); now right).
  rewrite idx_store. cbn [fst snd]. destruct (Z.eqb_spec i j) as [->|N]; [exfalso; apply (H w); now left|].
  now rewrite ?andb_false_r.
Qed.
Lemma exec_store_in {V} (l : list (Z * V)) : (forall i v v', In (i, v) l -> In (i, v') l -> v = v') ->
  forall m i v, In (i, v) l -> 0 <= i < zlen m -> idx (exec store l m) i = Some v.
Proof.
  induction l as [|[j w] l IH]; intros Hf m i v Hin Hi; [destruct Hin|].
  change (exec store ((j, w) :: l) m) with (exec store l (store (j, w) m)).
  destruct (zkey_dec l i) as [[v' Hv']|Hn].
  - rewrite (Hf i v v' Hin (or_intror Hv')). apply IH; [|exact Hv'|now rewrite zlen_store]. intros i0 a b Ha Hb. apply (Hf i0); now right.
  - rewrite exec_store_out by exact Hn. destruct Hin as [E|E]; [|destruct (Hn _ E)]. injection E as -> ->.
    rewrite idx_store. cbn [fst snd]. now replace ((i =? i) && (0 <=? i) && (i <? zlen m)) with true by lia.
Qed.

(** * Lists of optional results *)
Lemma allSome_in {A B} (f : A -> option B) ps l : allSome (map f ps) = Some l -> forall y, In y l <-> exists x, In x ps /\ f x = Some y.
Proof.
  intros E y. apply allSome_some in E. split.
  - intros H. apply (in_map Some) in H. rewrite <- E in H. apply in_map_iff in H. destruct H as (x & H1 & H2). eauto.
  - intros (x & H1 & H2). apply (in_map f) in H1. rewrite E, H2 in H1. apply in_map_iff in H1. destruct H1 as (y' & E' & H). congruence.
Qed.
Lemma allSome_map_total {A B} (f : A -> option B) ps : (forall x, In x ps -> f x <> None) -> exists l, allSome (map f ps) = Some l.
Proof.
  induction ps as [|x ps IH]; intros H; [now exists []|]. destruct IH as [l E]; [intros; apply H; now right|].
  specialize (H x (or_introl eq_refl)). cbn [map allSome]. destruct (f x) as [b|]; [|congruence]. rewrite E. eauto.
Qed.

Lemma in_rectPoints r p : In p (rectPoints r) <-> pt_in p r = true.
Proof.
  unfold rectPoints. rewrite in_gridPoints, !in_forUp by lia. unfold pt_in. split; [lia|].
  intros H. split; (split; [lia|]); [exists (MRect.px p - rx0 r)|exists (py p - ry0 r)]; lia.
Qed.
Lemma pt_in_inter p a b : pt_in p (rintersect a b) = true <-> pt_in p a = true /\ pt_in p b = true.
Proof.
  unfold rintersect. cbv zeta. destruct (rempty _) eqn:E; unfold rempty in E; cbn [rx0 rx1 ry0 ry1] in E; unfold pt_in, ZR; cbn [rx0 rx1 ry0 ry1]; lia.
Qed.
Lemma cellIx_inj rc p q : pt_in p rc = true -> pt_in q rc = true -> cellIx rc p = cellIx rc q -> p = q.
Proof.
  unfold pt_in, cellIx, rdx. intros H1 H2 E. destruct p as [x y], q as [x' y']. cbn [MRect.px py] in *.
  set (w := rx1 rc - rx0 rc) in *. assert (y = y') by nia. subst. f_equal. lia.
Qed.
Lemma cellIx_range rc p : pt_in p rc = true -> 0 <= cellIx rc p < rdx rc * rdy rc.
Proof. unfold pt_in, cellIx, rdx, rdy. intros H. nia. Qed.

Section grid.
  Variable ts : Z.
  Hypothesis Ht : 0 < ts.
  Lemma gridStart_div a : (ts | gridStart ts a).
  Proof. exists (Z.quot a ts). reflexivity. Qed.
  Lemma gridStart_exact a : (ts | a) -> gridStart ts a = a.
  Proof. intros [q ->]. unfold gridStart. rewrite Z.quot_mul; lia. Qed.
  Lemma grid_aligned rc k : grid ts rc k -> (ts | MRect.px k) /\ (ts | py k).
  Proof.
    intros [G1 G2]. apply in_forUp in G1, G2; try lia. destruct G1 as (_ & a & _ & ->), G2 as (_ & b & _ & ->).
    split; (apply Z.divide_add_r; [apply gridStart_div|apply Z.divide_factor_r]).
  Qed.
  Lemma aligned_unique k k' p : (ts | MRect.px k) -> (ts | py k) -> (ts | MRect.px k') -> (ts | py k') -> in_tile ts k p -> in_tile ts k' p -> k = k'.
  Proof.
    intros [a A] [b B] [a' A'] [b' B'] [P1 P2] [P3 P4]. destruct k as [x y], k' as [x' y']. cbn [MRect.px py] in *.
    assert (a = a') by nia. assert (b = b') by nia. subst. reflexivity.
  Qed.
  (** The region that the grid of Render covers *)
  Definition covered (rc : rect) (p : point) : Prop := (0 <= MRect.px p /\ 0 <= py p) \/ ((ts | rx0 rc) /\ (ts | ry0 rc)).
  Lemma covered_grid rc p : pt_in p rc = true -> covered rc p -> gridStart ts (rx0 rc) <= MRect.px p /\ gridStart ts (ry0 rc) <= py p.
  Proof.
    unfold pt_in. intros H [[H1 H2]|[H1 H2]].
    - split; apply gridStart_nonneg; lia.
    - rewrite !gridStart_exact by assumption. lia.
  Qed.

End grid.

Section render.
  Context {V : Type}.
  Variable zero : V.
  Variable cp : V -> option V.
  Variable ts : Z.
  Hypothesis Ht : 0 < ts.
  Notation renderTile := (renderTile zero cp ts).
  Notation renderTiled := (renderTiled zero cp).
  Definition cellVal (tiles : tilemap V) (k p : point) : option V :=
    match m_get pt_eqb tiles k with Some c => let? v := tile_at ts k c p in cp v | None => Some zero end.

  Lemma renderTile_in rc tiles k l : renderTile rc tiles k = Some l ->
    forall i v, In (i, v) l <-> exists p, in_tile ts k p /\ pt_in p rc = true /\ i = cellIx rc p /\ cellVal tiles k p = Some v.
  Proof.
    unfold MTileRender.renderTile, cellVal. intros E i v. destruct (m_get pt_eqb tiles k) as [c|].
    - rewrite (allSome_in _ _ _ E). split.
      + intros (p & Hp & F). apply in_rectPoints, pt_in_inter in Hp. destruct Hp as [P1 P2]. exists p. split; [now apply pt_tileRect|]. split; [exact P2|].
        change (idx c _) with (tile_at ts k c p) in F. destruct (tile_at ts k c p) as [x|]; [|discriminate].
        destruct (cp x); [|discriminate]. injection F as <- <-. auto.
      + intros (p & P1 & P2 & -> & F). exists p. split; [apply in_rectPoints, pt_in_inter; split; [now apply pt_tileRect|exact P2]|].
        change (idx c _) with (tile_at ts k c p). destruct (tile_at ts k c p) as [x|]; [|discriminate]. rewrite F. reflexivity.
    - injection E as <-. rewrite in_map_iff. split.
      + intros (p & F & Hp). injection F as <- <-. apply in_rectPoints, pt_in_inter in Hp. exists p. rewrite pt_tileRect. tauto.
      + intros (p & P1 & P2 & -> & F). injection F as <-. exists p. split; [reflexivity|]. apply in_rectPoints, pt_in_inter. rewrite <- pt_tileRect. auto.
  Qed.
  Lemma renderTile_total rc tiles k : (forall p, in_tile ts k p -> cellVal tiles k p <> None) -> renderTile rc tiles k <> None.
  Proof.
    unfold MTileRender.renderTile, cellVal. intros H. destruct (m_get pt_eqb tiles k) as [c|]; [|discriminate].
    destruct (allSome_map_total (fun p => let? v := idx c ((py p - py k) * ts + (MRect.px p - MRect.px k)) in let? v := cp v in Some (cellIx rc p, v))
      (rectPoints (rintersect (tileRect ts k) rc))) as [l ->]; [|discriminate].
    intros p Hp. apply in_rectPoints, pt_in_inter in Hp. destruct Hp as [Hp _]. apply pt_tileRect in Hp. specialize (H p Hp).
    change (idx c _) with (tile_at ts k c p). destruct (tile_at ts k c p) as [x|]; [|congruence]. destruct (cp x); [discriminate|congruence].
  Qed.

  Lemma renderTiled_in cpus rc tiles ws : (1 <= cpus)%nat -> renderTiled cpus ts rc tiles = Some ws ->
    forall i v, In (i, v) (concat ws) <-> exists k p, grid ts rc k /\ in_tile ts k p /\ pt_in p rc = true /\ i = cellIx rc p /\ cellVal tiles k p = Some v.
  Proof.
    intros Hc E i v. unfold MTileRender.renderTiled in E. cbv zeta in E. rewrite in_concat. split.
    - intros (l & Hl & Hv). apply (allSome_in _ _ _ E) in Hl. destruct Hl as ([a b] & Hab & W). unfold renderWorker in W.
      destruct (allSome _) as [ls|] eqn:El in W; [|discriminate]. injection W as <-. apply in_concat in Hv. destruct Hv as (l & Hl & Hv).
      apply (allSome_in _ _ _ El) in Hl. destruct Hl as (k & Hk & R). exists k. apply (renderTile_in _ _ _ _ R) in Hv. destruct Hv as (p & H).
      exists p. split; [|exact H]. apply (grid_split cpus); eauto.
    - intros (k & p & G & H). apply (grid_split cpus) in G; [|assumption..]. destruct G as (a & b & Hab & Hk).
      destruct (renderWorker zero cp ts rc tiles (gridStart ts (rx0 rc)) (rx1 rc) a b) as [l|] eqn:W.
      2:{ exfalso. apply allSome_some in E. assert (In None (map Some ws)) as F; [|apply in_map_iff in F; destruct F as (? & F & _); discriminate].
          rewrite <- E. apply in_map_iff. exists (a, b). auto. }
      exists l. split; [apply (allSome_in _ _ _ E); exists (a, b); auto|]. unfold renderWorker in W.
      destruct (allSome _) as [ls|] eqn:El in W; [|discriminate]. injection W as <-. apply in_concat.
      destruct (renderTile rc tiles k) as [l|] eqn:R.
      2:{ exfalso. apply allSome_some in El. assert (In None (map Some ls)) as F; [|apply in_map_iff in F; destruct F as (? & F & _); discriminate].
          rewrite <- El. apply in_map_iff. exists k. auto. }
      exists l. split; [apply (allSome_in _ _ _ El); eauto|]. apply (renderTile_in _ _ _ _ R). eauto.
  Qed.
  Lemma renderTiled_total cpus rc tiles : (forall k p, in_tile ts k p -> cellVal tiles k p <> None) -> exists ws, renderTiled cpus ts rc tiles = Some ws.
  Proof.
    intros H. unfold MTileRender.renderTiled. cbv zeta. apply allSome_map_total. intros [a b] _. unfold renderWorker.
    destruct (allSome_map_total (renderTile rc tiles) (gridPoints ts (gridStart ts (rx0 rc)) (rx1 rc) a b)) as [l ->]; [|discriminate].
    intros k _. apply renderTile_total. intros p. apply H.
  Qed.

  Lemma aligned_well_tiled (m : tilemap V) : aligned ts m -> well_tiled ts m.
  Proof.
    intros A. split.
    - intros k k' c c' p H H' P P'. destruct (A k c H) as (A1 & A2 & _), (A k' c' H') as (B1 & B2 & _). eapply aligned_unique; eauto.
    - intros k c H. apply (A k c H).
  Qed.
  Lemma tile_at_some k (c : list V) p : zlen c = ts * ts -> in_tile ts k p -> exists v, tile_at ts k c p = Some v /\ In v c.
  Proof.
    intros L P. destruct (idx_lt c (off ts k p)) as [v E]; [rewrite L; now apply off_range|].
    exists v. split; [exact E|]. unfold idx in E. destruct (_ <? 0); [discriminate|]. eapply nth_error_In. exact E.
  Qed.

  Lemma render_total cpus rc tiles : aligned ts tiles -> (forall k c v, m_get pt_eqb tiles k = Some c -> In v c -> cp v <> None) ->
    exists ws, renderTiled cpus ts rc tiles = Some ws.
  Proof.
    intros A C. apply renderTiled_total. intros k p P. unfold cellVal. destruct (m_get pt_eqb tiles k) as [c|] eqn:E; [|discriminate].
    destruct (tile_at_some k c p (proj2 (proj2 (A k c E))) P) as (v & -> & Hv). exact (C k c v E Hv).
  Qed.
  Lemma render_spec cpus rc tiles ws s old : (1 <= cpus)%nat -> aligned ts tiles -> renderTiled cpus ts rc tiles = Some ws -> interleave ws s ->
    zlen old = rdx rc * rdy rc ->
    zlen (exec store s old) = zlen old /\
    forall p, pt_in p rc = true -> covered ts rc p ->
      exists v w, shows ts zero tiles p v /\ image_at rc (exec store s old) p w /\
        ((exists k c, m_get pt_eqb tiles k = Some c /\ In v c /\ cp v = Some w) \/ (v = zero /\ w = zero)).
  Proof.
    intros Hc A E Hi L. split; [apply zlen_exec_store|]. intros p Hp Cv.
    pose proof (renderTiled_in _ _ _ _ Hc E) as R.
    assert (forall i v v', In (i, v) s -> In (i, v') s -> v = v') as F.
    { intros i v v' H1 H2. apply (interleave_in _ _ Hi) in H1, H2. apply R in H1, H2.
      destruct H1 as (k & q & G & T & I & -> & C), H2 as (k' & q' & G' & T' & I' & E' & C').
      apply cellIx_inj in E'; [|assumption..]. subst q'.
      destruct (grid_aligned ts Ht rc k G), (grid_aligned ts Ht rc k' G'). assert (k = k') by (eapply aligned_unique; eauto). congruence. }
    destruct (covered_grid ts Ht rc p Hp Cv) as [G1 G2].
    destruct (grid_cover (fun _ => @None (option V)) ts rc p Ht) as (k & G & T); [unfold pt_in in Hp; lia|unfold pt_in in Hp; lia|].
    pose proof (cellIx_range rc p Hp) as Rg.
    destruct (m_get pt_eqb tiles k) as [c|] eqn:Ek.
    - destruct (tile_at_some k c p (proj2 (proj2 (A k c Ek))) T) as (v & Ev & Hv).
      destruct (cp v) as [w|] eqn:Ew.
      + exists v, w. split; [left; eauto|]. split; [|left; eauto].
        apply (exec_store_in s F old (cellIx rc p)); [|lia]. apply (interleave_in _ _ Hi), R. exists k, p. unfold cellVal. rewrite Ek, Ev. auto.
      + exfalso.
        assert (renderTile rc tiles k = None) as N.
        { unfold MTileRender.renderTile. rewrite Ek. destruct (allSome _) as [l|] eqn:El; [|reflexivity]. exfalso.
          apply allSome_some in El. assert (In None (map Some l)) as Q; [|apply in_map_iff in Q; destruct Q as (? & Q & _); discriminate].
          rewrite <- El. apply in_map_iff. exists p. change (idx c _) with (tile_at ts k c p). rewrite Ev, Ew. split; [reflexivity|].
          apply in_rectPoints, pt_in_inter. split; [now apply pt_tileRect|exact Hp]. }
        apply (grid_split cpus) in G; [|assumption..]. destruct G as (a & b & Hab & Hk).
        unfold MTileRender.renderTiled in E. cbv zeta in E. apply allSome_some in E.
        assert (In None (map Some ws)) as Q; [|apply in_map_iff in Q; destruct Q as (? & Q & _); discriminate].
        rewrite <- E. apply in_map_iff. exists (a, b). split; [|exact Hab]. unfold renderWorker.
        destruct (allSome _) as [ls|] eqn:El; [|reflexivity]. exfalso. apply allSome_some in El.
        assert (In None (map Some ls)) as Q; [|apply in_map_iff in Q; destruct Q as (? & Q & _); discriminate].
        rewrite <- El. apply in_map_iff. eauto.
    - exists zero, zero. split; [|split; [|now right]].
      + right. split; [reflexivity|]. intros k' c' H' T'. destruct (A k' c' H') as (B1 & B2 & _). destruct (grid_aligned ts Ht rc k G) as [B3 B4].
        rewrite (aligned_unique ts Ht k k' p B3 B4 B1 B2 T T') in Ek. congruence.
      + apply (exec_store_in s F old (cellIx rc p)); [|lia]. apply (interleave_in _ _ Hi), R. exists k, p. unfold cellVal. rewrite Ek. auto.
  Qed.
  Lemma shows_fun (m : tilemap V) p v v' : well_tiled ts m -> shows ts zero m p v -> shows ts zero m p v' -> v = v'.
  Proof.
    intros [W _] [(k & c & H & T & E)|[-> N]] [(k' & c' & H' & T' & E')|[-> N']]; [| | |reflexivity].
    - assert (k = k') by (eapply W; eauto). subst. congruence.
    - destruct (N' k c H T).
    - destruct (N k' c' H' T').
  Qed.

  (** * The rectangle of aligned tiles *)
  Lemma union_div a b : ((ts | rx0 a) /\ (ts | ry0 a)) -> ((ts | rx0 b) /\ (ts | ry0 b)) -> (ts | rx0 (runion a b)) /\ (ts | ry0 (runion a b)).
  Proof.
    intros [A1 A2] [B1 B2]. unfold runion. destruct (rempty a); [auto|]. destruct (rempty b); [auto|]. cbn [rx0 ry0].
    split; apply Z.min_case; assumption.
  Qed.
  Lemma tilesRect_div (m : tilemap V) r : aligned ts m -> tilesRect ts m r -> (ts | rx0 r) /\ (ts | ry0 r).
  Proof.
    intros A (ks & P & ->).
    assert (forall k, In k ks -> (ts | MRect.px k) /\ (ts | py k)) as K.
    { intros k Hk. apply (Permutation_in k P) in Hk. apply m_get_keys in Hk. destruct Hk as [c Hk]. destruct (A k c Hk) as (? & ? & _). auto. }
    clear P. assert (forall r0, (ts | rx0 r0) /\ (ts | ry0 r0) -> let r := fold_left (fun r k => runion (tileRect ts k) r) ks r0 in (ts | rx0 r) /\ (ts | ry0 r)) as H.
    { induction ks as [|k ks IH]; intros r0 H0; cbn [fold_left]; [exact H0|]. apply IH; [intros; apply K; now right|].
      apply union_div; [|exact H0]. unfold tileRect. cbn [rx0 ry0]. apply K. now left. }
    apply H. cbn. split; apply Z.divide_0_r.
  Qed.
End render.

(** * Cutting the drawn image into tiles again *)
Lemma rempty_pos r : rempty r = false -> 0 < rdx r /\ 0 < rdy r.
Proof. unfold rempty, rdx, rdy. lia. Qed.
Lemma zlen_zrep {V} (z : V) n : 0 <= n -> zlen (zrepeat z n) = n.
Proof. apply zlen_zrepeat. Qed.

Section retile.
  Context {V : Type}.
  Variable zero : V.
  Variable cp : V -> option V.
  Variable get : list V -> Z -> option (option V).
  Variable dX : Z.
  Variables (P N : V -> Prop) (Q : V -> V -> Prop).
  Hypothesis Hcp : forall v, P v -> exists w, cp v = Some w /\ Q v w.
  Hypothesis HQ0 : Q zero zero.
  Hypothesis HQ : forall v w, Q v w -> N w.
  Hypothesis HQP : forall v w, P v \/ v = zero -> Q v w -> P w.
  Hypothesis Hget : forall img i w, idx img i = Some w -> N w -> exists o, get img (i * dX) = Some o /\ (match o with Some v => v | None => zero end) = w.
  Variable ts : Z.
  Hypothesis Ht : 0 < ts.
  Variable cpus : nat.
  Hypothesis Hc : (1 <= cpus)%nat.

  Lemma rendered_spec rc (m : tilemap V) old img : aligned ts m -> cellsOK P m -> m <> [] -> zlen old = rdx rc * rdy rc ->
    rendered zero cp cpus ts rc m old img ->
    zlen img = zlen old /\ forall p, pt_in p rc = true -> covered ts rc p ->
      exists v w, shows ts zero m p v /\ image_at rc img p w /\ Q v w /\ (P v \/ v = zero).
  Proof.
    intros A C Hm L R. unfold rendered in R. destruct m as [|t m0] eqn:Em; [congruence|]. rewrite <- Em in *. clear t m0 Em Hm.
    destruct R as (ws & s & E & Hi & ->). destruct (render_spec zero cp ts Ht cpus rc m ws s old Hc A E Hi L) as [R1 R2].
    split; [exact R1|]. intros p Hp Cv. destruct (R2 p Hp Cv) as (v & w & S & I & [(k & c & H1 & H2 & H3)|[-> ->]]).
    - exists v, w. destruct (Hcp v (C k c v H1 H2)) as (w' & E' & H). assert (w' = w) by congruence. subst w'.
      split; [exact S|]. split; [exact I|]. split; [exact H|]. left. exact (C k c v H1 H2).
    - exists zero, zero. auto.
  Qed.

  Lemma tilesRect_ne (m : tilemap V) r : tilesRect ts m r -> rempty r = false -> m <> [].
  Proof. intros (ks & Pm & ->) H ->. cbn in Pm. apply Permutation_sym, Permutation_nil in Pm. subst ks. discriminate. Qed.

  Lemma retile_spec (m : tilemap V) r img : aligned ts m -> cellsOK P m -> tilesRect ts m r -> rempty r = false ->
    rendered zero cp cpus ts r m (zrepeat zero (rdx r * rdy r)) img ->
    (exists ws, newTiled zero (get img) cpus ts r dX = Some ws) /\
    forall m', built (newTiled zero (get img) cpus ts r dX) m' ->
      aligned ts m' /\ cellsOK P m' /\ forall p, exists v w, shows ts zero m p v /\ shows ts zero m' p w /\ Q v w.
  Proof.
    intros A C T Er R. destruct (rempty_pos r Er) as [X Y]. assert (0 <= rdx r * rdy r) as Hn by nia. pose proof (tilesRect_div ts m r A T) as Dv.
    destruct (rendered_spec r m _ img A C (tilesRect_ne m r T Er) (zlen_zrep zero _ Hn) R) as [_ R2].
    assert (forall p, pt_in p r = true -> covered ts r p) as Cv by (intros; right; exact Dv).
    split.
    - apply newTiled_total; [assumption..|]. intros p Hp. destruct (R2 p Hp (Cv p Hp)) as (v & w & _ & I & q & _).
      destruct (Hget img (cellIx r p) w I (HQ _ _ q)) as (o & G & _). change (sample_pos r dX p) with (cellIx r p * dX). congruence.
    - intros m' B. pose proof (built_spec _ _ _ _ _ _ _ Hc Ht B) as Bs. destruct B as (ws & s & E & Hi & ->).
      destruct (tiles_spec _ _ _ _ _ _ _ s Hc Ht E Hi) as (T1 & T2 & T3 & _). set (m' := exec putTile s []) in *.
      assert (forall p, exists v w, shows ts zero m p v /\ shows ts zero m' p w /\ Q v w /\ (P v \/ v = zero)) as Sh.
      { intros p. destruct (pt_in p r) eqn:Hp.
        - destruct (R2 p Hp (Cv p Hp)) as (v & w & S & I & q & Pv). exists v, w. split; [exact S|]. split; [|auto].
          destruct (covered_grid ts Ht r p Hp (Cv p Hp)) as [G1 G2]. destruct (T2 p Hp G1 G2) as (o & Go & So).
          destruct (Hget img (cellIx r p) w I (HQ _ _ q)) as (o' & G' & Eo). change (cellIx r p * dX) with (sample_pos r dX p) in G'.
          assert (o' = o) by congruence. subst o'. rewrite Eo in So. exact So.
        - exists zero, zero. split; [|auto]. right. split; [reflexivity|]. intros k c H Hk.
          destruct (tilesRect_bounds ts m r T) as [Bd _]. rewrite (Bd k c p H Hk) in Hp. discriminate. }
      assert (aligned ts m') as A'.
      { intros k c H. apply Bs in H. destruct H as [G F]. destruct (grid_aligned ts Ht r k G). apply fillTile_spec in F; [|lia]. tauto. }
      split; [exact A'|]. split.
      + intros k c v H Hv. destruct (A' k c H) as (A1 & A2 & L). apply In_nth_error in Hv. destruct Hv as [i Ei].
        assert (Z.of_nat i < ts * ts) as Li. { rewrite <- L. unfold zlen. assert (i < length c)%nat by (apply nth_error_Some; congruence). lia. }
        set (p := Pt (MRect.px k + Z.of_nat i mod ts) (py k + Z.of_nat i / ts)).
        pose proof (Z.mod_pos_bound (Z.of_nat i) ts Ht). pose proof (Z.div_mod (Z.of_nat i) ts ltac:(lia)) as DM.
        assert (0 <= Z.of_nat i / ts) by (apply Z.div_pos; lia). assert (Z.of_nat i / ts < ts) by (apply Z.div_lt_upper_bound; lia).
        destruct (Sh p) as (v0 & w & _ & S & q & Pv). assert (shows ts zero m' p v) as S'.
        { left. exists k, c. split; [exact H|]. split; [unfold p, in_tile; cbn [MRect.px py]; lia|].
          unfold tile_at, p. cbn [MRect.px py]. replace (_ * ts + _) with (Z.of_nat i) by lia. unfold idx.
          replace (Z.of_nat i <? 0) with false by lia. now rewrite Nat2Z.id. }
        rewrite (shows_fun zero ts m' p v w T1 S' S). eapply HQP; eauto.
      + intros p. destruct (Sh p) as (v & w & H). exists v, w. tauto.
  Qed.
End retile.

(** * Pixels *)
Definition normal (w : px) : Prop := pa w = 0 -> w = Px 0 0 0 0.
Lemma copyPx_spec v : pixel_ok v -> exists w, copyPx v = Some w /\ pixel_ok w /\ nearly v w.
Proof.
  intros H. assert (pixel_ok (Px 0 0 0 0)) as H0 by (unfold pixel_ok; cbn; lia).
  destruct (straight_copy v (Px 0 0 0 0) H H0) as (w & E & A & Z0 & C & X). exists w. split; [exact E|].
  destruct (pdB_eq machine Copy true true v (Px 0 0 0 0)) as (E' & K & _); try (left; reflexivity); auto; try discriminate.
  cbv zeta in E', K. assert (Hw := eq_trans (eq_sym E) E'). injection Hw as ->. split; [exact K|]. unfold nearly.
  split; [exact A|]. split; [exact Z0|]. split; [intros; apply C; lia|intros; apply X; lia].
Qed.
Lemma copyMask_spec v : byteZ v -> copyMask v = Some v.
Proof.
  unfold byteZ. intros H. unfold copyMask, pdF, pd. cbn [pdAlpha pa machine w16]. f_equal. unfold u8, u16.
  rewrite (Z.mod_small (v * 257)) by lia. rewrite Z.shiftr_div_pow2 by lia. change (2 ^ 8) with 256.
  replace (v * 257) with (v + v * 256) by lia. rewrite Z.div_add by lia. rewrite (Z.div_small v) by lia. apply Z.mod_small. lia.
Qed.

Lemma pixBytes_idx img : forall i w, idx img i = Some w ->
  idx (pixBytes img) (i * 4) = Some (pr w) /\ idx (skipn 1 (pixBytes img)) (i * 4) = Some (pg w) /\
  idx (skipn 2 (pixBytes img)) (i * 4) = Some (pb w) /\ idx (skipn 3 (pixBytes img)) (i * 4) = Some (pa w).
Proof.
  assert (forall i w j, idx img i = Some w -> 0 <= j < 4 -> idx (pixBytes img) (j + i * 4) = idx [pr w; pg w; pb w; pa w] j) as H.
  { induction img as [|q img IH]; intros i w j E Hj.
    - unfold idx in E. destruct (i <? 0); [discriminate|]. destruct (Z.to_nat i); discriminate.
    - pose proof (idx_some_lt _ _ _ E) as R. cbn [pixBytes flat_map]. fold (pixBytes img). destruct (Z.eq_dec i 0) as [->|n].
      + rewrite idx_cons_0 in E. injection E as ->. rewrite idx_app_l by (unfold zlen; cbn [length]; lia). f_equal. lia.
      + rewrite idx_cons_S in E by lia. rewrite idx_app_r by (unfold zlen; cbn [length]; lia).
        replace (j + i * 4 - zlen [pr q; pg q; pb q; pa q]) with (j + (i - 1) * 4) by (unfold zlen; cbn [length]; lia). now apply IH. }
  intros i w E. pose proof (idx_some_lt _ _ _ E). rewrite !idx_skipn by lia.
  repeat split; [apply (H i w 0 E)|apply (H i w 1 E)|apply (H i w 2 E)|apply (H i w 3 E)]; lia.
Qed.
Definition getPix (img : list px) : Z -> option (option px) :=
  getImage (pixBytes img) (skipn 1 (pixBytes img)) (skipn 2 (pixBytes img)) (Some (skipn 3 (pixBytes img))).
Lemma getPix_spec img i w : idx img i = Some w -> normal w /\ 0 <= pa w ->
  exists o, getPix img (i * 4) = Some o /\ (match o with Some v => v | None => Px 0 0 0 0 end) = w.
Proof.
  intros E [N Z0]. destruct (pixBytes_idx img i w E) as (R & G & B & A). unfold getPix, getImage. rewrite A.
  destruct (Z.ltb_spec 0 (pa w)).
  - rewrite B, G, R. eexists. split; [reflexivity|]. now destruct w.
  - eexists. split; [reflexivity|]. symmetry. apply N. lia.
Qed.
Lemma getMask_spec img i w : idx img i = Some w -> True -> exists o, getMask img 0 (i * 1) = Some o /\ (match o with Some v => v | None => 0 end) = w.
Proof.
  intros E _. unfold getMask. replace (i * 1) with i by lia. rewrite E. cbn. destruct (Z.eqb_spec w 0); eexists; split; eauto.
Qed.

Definition nearlyOK (v w : px) : Prop := nearly v w /\ pixel_ok w.
Lemma nearly_zero : nearlyOK (Px 0 0 0 0) (Px 0 0 0 0).
Proof. unfold nearlyOK, nearly, pixel_ok. cbn [pr pg pb pa]. split; [|lia]. split; [reflexivity|]. split; [reflexivity|]. split; [lia|lia]. Qed.
Lemma nearly_normal v w : nearlyOK v w -> normal w /\ 0 <= pa w.
Proof. intros [(A & Z0 & _) K]. unfold normal, pixel_ok in *. split; [intros; apply Z0; congruence|lia]. Qed.

Section transform.
  Variable cpus : nat.
  Variable ts : Z.
  Hypothesis Hc : (1 <= cpus)%nat.
  Hypothesis Ht : 0 < ts.
  Notation z4 := (Px 0 0 0 0).

  Lemma render_image rc m old img : goodImage ts m -> m <> [] -> zlen old = rdx rc * rdy rc -> rendered z4 copyPx cpus ts rc m old img ->
    zlen img = zlen old /\ forall p, pt_in p rc = true -> covered ts rc p ->
      exists v w, shows ts z4 m p v /\ image_at rc img p w /\ nearly v w.
  Proof.
    intros [A C] Hm L R.
    destruct (rendered_spec z4 copyPx pixel_ok nearlyOK) with (5 := A) (6 := C) (9 := R) as [H1 H2]; auto using nearly_zero.
    - intros v Hv. destruct (copyPx_spec v Hv) as (w & E & K & N). exists w. unfold nearlyOK. auto.
    - split; [exact H1|]. intros p Hp Cv. destruct (H2 p Hp Cv) as (v & w & S & I & [q _] & _). eauto.
  Qed.
  Lemma render_mask rc m old img : goodMask ts m -> m <> [] -> zlen old = rdx rc * rdy rc -> rendered 0 copyMask cpus ts rc m old img ->
    zlen img = zlen old /\ forall p, pt_in p rc = true -> covered ts rc p -> exists v, shows ts 0 m p v /\ image_at rc img p v.
  Proof.
    intros [A C] Hm L R.
    destruct (rendered_spec 0 copyMask byteZ eq) with (5 := A) (6 := C) (9 := R) as [H1 H2]; auto.
    - intros v Hv. exists v. split; [now apply copyMask_spec|reflexivity].
    - split; [exact H1|]. intros p Hp Cv. destruct (H2 p Hp Cv) as (v & w & S & I & <- & _). eauto.
  Qed.
  Lemma render_image_total rc m : goodImage ts m -> exists ws, renderTiled z4 copyPx cpus ts rc m = Some ws.
  Proof. intros [A C]. apply render_total; auto. intros k c v H Hv. destruct (copyPx_spec v (C k c v H Hv)) as (w & -> & _). discriminate. Qed.
  Lemma render_mask_total rc m : goodMask ts m -> exists ws, renderTiled 0 copyMask cpus ts rc m = Some ws.
  Proof. intros [A C]. apply render_total; auto. intros k c v H Hv. rewrite (copyMask_spec v (C k c v H Hv)). discriminate. Qed.

  Lemma retile_image m r img : goodImage ts m -> tilesRect ts m r -> rempty r = false ->
    rendered z4 copyPx cpus ts r m (zrepeat z4 (rdx r * rdy r)) img ->
    (exists ws, newTiled z4 (getPix img) cpus ts r 4 = Some ws) /\
    forall m', built (newTiled z4 (getPix img) cpus ts r 4) m' -> goodImage ts m' /\ nearlyImage ts m m'.
  Proof.
    intros [A C] T Er R.
    destruct (retile_spec z4 copyPx getPix 4 pixel_ok (fun w => normal w /\ 0 <= pa w) nearlyOK) with (ts := ts) (cpus := cpus) (m := m) (r := r) (img := img) as [H1 H2]; auto using nearly_zero, getPix_spec; try exact nearly_normal.
    - intros v Hv. destruct (copyPx_spec v Hv) as (w & E & K & N). exists w. unfold nearlyOK. auto.
    - intros v w _ [_ K]. exact K.
    - split; [exact H1|]. intros m' B. destruct (H2 m' B) as (A' & C' & S). split; [split; assumption|].
      intros p. destruct (S p) as (v & w & S1 & S2 & [q _]). eauto.
  Qed.
  Lemma retile_mask m r img : goodMask ts m -> tilesRect ts m r -> rempty r = false ->
    rendered 0 copyMask cpus ts r m (zrepeat 0 (rdx r * rdy r)) img ->
    (exists ws, newTiled 0 (getMask img 0) cpus ts r 1 = Some ws) /\
    forall m', built (newTiled 0 (getMask img 0) cpus ts r 1) m' -> goodMask ts m' /\ sameMask ts m m'.
  Proof.
    intros [A C] T Er R.
    destruct (retile_spec 0 copyMask (fun img => getMask img 0) 1 byteZ (fun _ => True) eq) with (ts := ts) (cpus := cpus) (m := m) (r := r) (img := img) as [H1 H2]; auto using getMask_spec.
    - intros v Hv. exists v. split; [now apply copyMask_spec|reflexivity].
    - intros v w [H| ->] <-; [exact H|]. unfold byteZ; lia.
    - split; [exact H1|]. intros m' B. destruct (H2 m' B) as (A' & C' & S). split; [split; assumption|].
      intros p. destruct (S p) as (v & w & S1 & S2 & <-). eauto.
  Qed.

  Lemma tilesRect_empty {V} (m : tilemap V) r k c : tilesRect ts m r -> rempty r = true -> m_get pt_eqb m k = Some c -> False.
  Proof. intros T E H. rewrite (bounds_nonempty ts m r k c Ht (tilesRect_bounds ts m r T) H) in E. discriminate. Qed.
  Lemma transform_image m m' : goodImage ts m -> transformImage cpus ts m m' -> goodImage ts m' /\ nearlyImage ts m m'.
  Proof.
    intros G (r & T & H). destruct (rempty r) eqn:Er.
    - subst m'. split; [split; intros k c; discriminate|]. intros p. exists z4, z4. split; [|split; [|apply nearly_zero]].
      + right. split; [reflexivity|]. intros k c Hm. destruct (tilesRect_empty _ _ _ _ T Er Hm).
      + right. split; [reflexivity|]. intros k c Hm. discriminate.
    - destruct H as (img & R & B). exact (proj2 (retile_image m r img G T Er R) m' B).
  Qed.
  Lemma transform_mask m m' : goodMask ts m -> transformMask cpus ts m m' -> goodMask ts m' /\ sameMask ts m m'.
  Proof.
    intros G (r & T & H). destruct (rempty r) eqn:Er.
    - subst m'. split; [split; intros k c; discriminate|]. intros p. exists 0. split.
      + right. split; [reflexivity|]. intros k c Hm. destruct (tilesRect_empty _ _ _ _ T Er Hm).
      + right. split; [reflexivity|]. intros k c Hm. discriminate.
    - destruct H as (img & R & B). exact (proj2 (retile_mask m r img G T Er R) m' B).
  Qed.
  (** Some result exists. *)
  Lemma tilesRect_ex {V} (m : tilemap V) : exists r, tilesRect ts m r.
  Proof. eexists. exists (map fst m). split; [apply Permutation_refl|reflexivity]. Qed.
  Lemma rendered_ex {V} (z : V) cp rc m old : (exists ws, renderTiled z cp cpus ts rc m = Some ws) -> exists img, rendered z cp cpus ts rc m old img.
  Proof. intros [ws E]. unfold rendered. destruct m; [eauto|]. exists (exec store (concat ws) old), ws, (concat ws). auto using interleave_concat. Qed.
  Lemma built_ex {V} (ws : option (list (list (point * list V)))) : (exists l, ws = Some l) -> exists m, built ws m.
  Proof. intros [l ->]. exists (exec putTile (concat l) []), l, (concat l). auto using interleave_concat. Qed.
  Lemma transform_image_ex m : goodImage ts m -> exists m', transformImage cpus ts m m'.
  Proof.
    intros G. destruct (tilesRect_ex m) as [r T]. destruct (rempty r) eqn:Er; [exists [], r; rewrite Er; auto|].
    destruct (rendered_ex z4 copyPx r m (zrepeat z4 (rdx r * rdy r)) (render_image_total r m G)) as [img R].
    destruct (built_ex _ (proj1 (retile_image m r img G T Er R))) as [m' B]. exists m', r. rewrite Er. split; [exact T|]. exists img. auto.
  Qed.
  Lemma transform_mask_ex m : goodMask ts m -> exists m', transformMask cpus ts m m'.
  Proof.
    intros G. destruct (tilesRect_ex m) as [r T]. destruct (rempty r) eqn:Er; [exists [], r; rewrite Er; auto|].
    destruct (rendered_ex 0 copyMask r m (zrepeat 0 (rdx r * rdy r)) (render_mask_total r m G)) as [img R].
    destruct (built_ex _ (proj1 (retile_mask m r img G T Er R))) as [m' B]. exists m', r. rewrite Er. split; [exact T|]. exists img. auto.
  Qed.
End transform.

(** * What the tile builder makes *)
Lemma cell_point ts k i : 0 < ts -> 0 <= i < ts * ts -> exists p, in_tile ts k p /\ off ts k p = i.
Proof.
  intros Ht Hi. pose proof (Z.mod_pos_bound i ts Ht). pose proof (Z.div_mod i ts ltac:(lia)).
  assert (0 <= i / ts) by (apply Z.div_pos; lia). assert (i / ts < ts) by (apply Z.div_lt_upper_bound; lia).
  exists (Pt (MRect.px k + i mod ts) (py k + i / ts)). unfold in_tile, off. cbn [MRect.px py]. lia.
Qed.
Lemma built_good {V} (zero : V) get (P : V -> Prop) cpus ts r dX m : (1 <= cpus)%nat -> 0 < ts -> P zero -> (forall i v, get i = Some (Some v) -> P v) ->
  built (newTiled zero get cpus ts r dX) m -> aligned ts m /\ cellsOK P m.
Proof.
  intros Hc Ht P0 Pg B. pose proof (built_spec _ _ _ _ _ _ _ Hc Ht B) as Bs. split.
  - intros k c H. apply Bs in H. destruct H as [G F]. destruct (grid_aligned ts Ht r k G). apply fillTile_spec in F; [|lia]. tauto.
  - intros k c v H Hv. apply Bs in H. destruct H as [G F]. apply fillTile_spec in F; [|lia]. destruct F as (L & F1 & F2 & _).
    apply In_nth_error in Hv. destruct Hv as [i Ei].
    assert (Z.of_nat i < ts * ts) as Li. { rewrite <- L. unfold zlen. assert (i < length c)%nat by (apply nth_error_Some; congruence). lia. }
    destruct (cell_point ts k (Z.of_nat i) Ht ltac:(lia)) as (p & Hp & Eo).
    assert (tile_at ts k c p = Some v) as E.
    { unfold tile_at. fold (off ts k p). rewrite Eo. unfold idx. replace (Z.of_nat i <? 0) with false by lia. now rewrite Nat2Z.id. }
    destruct (pt_in p r) eqn:I.
    + destruct (F1 p Hp I) as (o & Go & Ho). rewrite E in Ho. injection Ho as ->. destruct o as [w|]; [exact (Pg _ _ Go)|exact P0].
    + specialize (F2 p Hp I). congruence.
Qed.
Lemma built_goodImage cpus ts rc r g b a dX m : (1 <= cpus)%nat -> 0 < ts ->
  bytes_ok r -> bytes_ok g -> bytes_ok b -> match a with Some a => bytes_ok a | None => True end ->
  built (newTiledImage cpus ts rc r g b a dX) m -> goodImage ts m.
Proof.
  intros Hc Ht Br Bg Bb Ba B. apply built_good with (P := pixel_ok) in B; [exact B|assumption|assumption|unfold pixel_ok; cbn; lia|].
  intros i v E. unfold getImage in E.
  assert (forall l x, bytes_ok l -> idx l i = Some x -> 0 <= x <= 255) as K.
  { intros l x H Ex. pose proof (Forall_idx _ _ _ _ H Ex) as Hx. unfold is_byte in Hx. lia. }
  destruct a as [a|].
  - destruct (idx a i) as [av|] eqn:Ea; [|discriminate]. destruct (0 <? av); [|discriminate].
    destruct (idx b i) eqn:Eb; [|discriminate]. destruct (idx g i) eqn:Eg; [|discriminate]. destruct (idx r i) eqn:Er; [|discriminate].
    injection E as <-. pose proof (K _ _ Ba Ea). pose proof (K _ _ Bb Eb). pose proof (K _ _ Bg Eg). pose proof (K _ _ Br Er). unfold pixel_ok. cbn [pr pg pb pa]. auto.
  - destruct (idx b i) eqn:Eb; [|discriminate]. destruct (idx g i) eqn:Eg; [|discriminate]. destruct (idx r i) eqn:Er; [|discriminate].
    injection E as <-. pose proof (K _ _ Bb Eb). pose proof (K _ _ Bg Eg). pose proof (K _ _ Br Er). unfold pixel_ok. cbn [pr pg pb pa]. lia.
Qed.
Lemma built_goodMask cpus ts rc a dc m : (1 <= cpus)%nat -> 0 < ts -> bytes_ok a -> built (newTiledMask cpus ts rc a dc) m -> goodMask ts m.
Proof.
  intros Hc Ht Ba B. apply built_good with (P := byteZ) in B; [exact B|assumption|assumption|unfold byteZ; lia|].
  intros i v E. unfold getMask in E. destruct (idx a i) as [x|] eqn:Ex; [|discriminate].
  pose proof (Forall_idx _ _ _ _ Ba Ex) as Hx. unfold is_byte in Hx. unfold byteZ.
  destruct (dc =? 0); [destruct (x =? 0)|destruct (x =? 255)]; try discriminate; injection E as <-; lia.
Qed.

(** * The tree *)
Lemma sliceZ_app {A} (l : list A) a b c : 0 <= a <= b -> b <= c -> sliceZ l a b ++ sliceZ l b c = sliceZ l a c.
Proof.
  intros H1 H2. unfold sliceZ. replace (Z.to_nat b) with (Z.to_nat a + Z.to_nat (b - a))%nat by lia.
  replace (Z.to_nat (c - a)) with (Z.to_nat (b - a) + Z.to_nat (c - b))%nat by lia.
  rewrite <- skipn_skipn. set (l' := skipn (Z.to_nat a) l). clearbody l'. generalize (Z.to_nat (b - a)) (Z.to_nat (c - b)). intros n k. clear.
  revert l'. induction n as [|n IH]; intros l'; [reflexivity|]. destruct l' as [|x l']; cbn; [now rewrite !firstn_nil|]. now rewrite IH.
Qed.
Lemma splitRows_slices {A} (l : list A) step m : 0 <= step -> forall y0 y1, 0 <= y0 -> y0 + Z.of_nat m * step <= y1 ->
  concat (map (fun '(a, b) => sliceZ l a b) (splitRows m y0 y1 step)) = sliceZ l y0 y1.
Proof.
  intros Hs. induction m as [|m IH]; intros y0 y1 H0 H; cbn [splitRows map concat]; [apply app_nil_r|].
  rewrite IH by nia. apply sliceZ_app; nia.
Qed.
Lemma index_slices {A} (l : list A) cpus : (1 <= cpus)%nat -> concat (map (fun '(a, b) => sliceZ l a b) (indexWorkers cpus (zlen l))) = l.
Proof.
  intros Hc. unfold indexWorkers. cbv zeta. destruct (fitWorkers_spec cpus (zlen l) Hc) as [H1 _]. set (n := fitWorkers _ _) in *. pose proof (zlen_nonneg l).
  rewrite quot_nonneg by lia. set (q := zlen l / Z.of_nat n).
  assert (0 <= q /\ Z.of_nat n * q <= zlen l) as [Q1 Q2] by (subst q; split; [apply Z.div_pos; lia|apply Z.mul_div_le; lia]).
  rewrite splitRows_slices by (try lia; nia). unfold sliceZ, zlen. replace (Z.to_nat (Z.of_nat (length l) - 0)) with (length l) by lia. cbn [Z.to_nat skipn]. apply firstn_all.
Qed.
Lemma m_get_images s : (forall k a b, In (k, a) s -> In (k, b) s -> a = b) ->
  forall m k v, m_get Z.eqb (exec putImage s m) k = Some v <-> In (k, v) s \/ ((forall v', ~ In (k, v') s) /\ m_get Z.eqb m k = Some v).
Proof.
  induction s as [|[j w] s IH]; intros Hf m k v.
  - cbn. split; [intros H; right; split; [intros v' []|exact H]|]. intros [[]|[_ H]]. exact H.
  - change (exec putImage ((j, w) :: s) m) with (exec putImage s (putImage (j, w) m)).
    rewrite IH by (intros k' a b Ha Hb; apply (Hf k'); now right).
    unfold putImage. cbn [fst snd]. rewrite (m_get_set Z.eqb Z.eqb_eq). destruct (Z.eqb_spec j k) as [->|N].
    + split.
      * intros [H|[_ H]]; [left; now right|]. injection H as ->. left; now left.
      * intros [[H|H]|[H _]]; [|now left|exfalso; apply (H w); now left]. injection H as ->.
        destruct (zkey_dec s k) as [[v' Hv']|Hn]; [|right; auto]. left. rewrite (Hf k v v' (or_introl eq_refl) (or_intror Hv')). exact Hv'.
    + split.
      * intros [H|[H1 H2]]; [left; now right|]. right. split; [|exact H2]. intros v' [E|E]; [congruence|exact (H1 v' E)].
      * intros [[H|H]|[H1 H2]]; [congruence|now left|]. right. split; [|exact H2]. intros v' E. apply (H1 v'). now right.
Qed.
Lemma m_get_nodup {V} (l : list (Z * V)) : NoDup (map fst l) -> forall k v, m_get Z.eqb l k = Some v <-> In (k, v) l.
Proof.
  induction l as [|[j w] l IH]; intros H k v; cbn [m_get]; [split; [discriminate|intros []]|].
  cbn [map fst] in H. apply NoDup_cons_iff in H. destruct H as [N H]. destruct (Z.eqb_spec k j) as [->|E].
  - split; [intros F; injection F as ->; now left|]. intros [F|F]; [congruence|]. exfalso. apply N. apply in_map_iff. exists (j, v). auto.
  - rewrite IH by exact H. split; [now right|]. intros [F|F]; [congruence|exact F].
Qed.
Lemma transformLI_spec cpus ts li li' : (1 <= cpus)%nat -> 0 < ts -> goodLayer ts li -> transformLI cpus ts li li' -> goodLayer ts li' /\ nearlyLayer ts li li'.
Proof.
  intros Hc Ht [G1 G2] [T1 T2]. unfold goodLayer, nearlyLayer. unfold transformOpt in T1, T2.
  destruct (liCanvas li) as [m|], (liCanvas li') as [m'|]; try contradiction; destruct (liMask li) as [n|], (liMask li') as [n'|]; try contradiction.
  - destruct (transform_image _ _ Hc Ht _ _ G1 T1), (transform_mask _ _ Hc Ht _ _ G2 T2). auto.
  - destruct (transform_image _ _ Hc Ht _ _ G1 T1). auto.
  - destruct (transform_mask _ _ Hc Ht _ _ G2 T2). auto.
  - auto.
Qed.
Lemma transform_tree cpus ts imgs out : (1 <= cpus)%nat -> 0 < ts -> NoDup (map fst imgs) -> (forall q li, In (q, li) imgs -> goodLayer ts li) ->
  transformTree cpus ts imgs out ->
  (forall q li, m_get Z.eqb imgs q = Some li -> exists li', m_get Z.eqb out q = Some li' /\ goodLayer ts li' /\ nearlyLayer ts li li') /\
  (forall q, m_get Z.eqb imgs q = None -> m_get Z.eqb out q = None).
Proof.
  intros Hc Ht ND G (imgs' & s & F & Hi & ->).
  assert (map fst imgs' = map fst imgs) as Ef by (clear - F; induction F as [|a b l l' [E _] F IH]; [reflexivity|]; cbn [map]; now rewrite E, IH).
  assert (zlen imgs = zlen imgs') as El by (unfold zlen; f_equal; rewrite <- (map_length fst imgs), <- (map_length fst imgs'); congruence).
  assert (forall x, In x s <-> In x imgs') as Hin by (intros x; rewrite (interleave_in _ _ Hi), El, index_slices by assumption; reflexivity).
  assert (NoDup (map fst imgs')) as ND' by (rewrite Ef; exact ND).
  assert (forall k a b, In (k, a) s -> In (k, b) s -> a = b) as Hf.
  { intros k a b Ha Hb. apply Hin in Ha, Hb. apply (m_get_nodup _ ND') in Ha, Hb. congruence. }
  pose proof (m_get_images s Hf []) as Mg. split.
  - intros q li H. apply (m_get_nodup _ ND) in H. pose proof (G q li H) as Gl.
    assert (exists li', In (q, li') imgs' /\ transformLI cpus ts li li') as (li' & I & T).
    { clear - F H. induction F as [|[a1 a2] [b1 b2] l l' [E T] F IH]; [destruct H|]. cbn [fst snd] in *. destruct H as [H|H].
      - injection H as -> ->. subst. exists b2. split; [now left|exact T].
      - destruct (IH H) as (li' & I & T'). exists li'. split; [now right|exact T']. }
    exists li'. split; [|now apply (transformLI_spec cpus)]. apply Mg. left. now apply Hin.
  - intros q H. destruct (m_get Z.eqb (exec putImage s []) q) as [v|] eqn:E; [|reflexivity]. exfalso.
    apply Mg in E. destruct E as [E|[_ E]]; [|discriminate]. apply Hin in E. apply (in_map fst) in E. rewrite Ef in E. apply in_map_iff in E.
    destruct E as ([q' li] & E1 & E). cbn [fst] in E1. subst q'. apply (m_get_nodup _ ND) in E. congruence.
Qed.
Lemma transformLI_ex cpus ts li : (1 <= cpus)%nat -> 0 < ts -> goodLayer ts li -> exists li', transformLI cpus ts li li'.
Proof.
  intros Hc Ht [G1 G2]. unfold transformLI.
  assert (exists o, transformOpt (transformImage cpus ts) (liCanvas li) o) as [o O].
  { destruct (liCanvas li) as [m|]; [|exists None; exact I]. destruct (transform_image_ex cpus ts Hc Ht m G1) as [m' H]. exists (Some m'). exact H. }
  assert (exists o, transformOpt (transformMask cpus ts) (liMask li) o) as [o' O'].
  { destruct (liMask li) as [m|]; [|exists None; exact I]. destruct (transform_mask_ex cpus ts Hc Ht m G2) as [m' H]. exists (Some m'). exact H. }
  exists (LI o o'). split; assumption.
Qed.
Lemma transformTree_ex cpus ts imgs : (1 <= cpus)%nat -> 0 < ts -> (forall q li, In (q, li) imgs -> goodLayer ts li) -> exists out, transformTree cpus ts imgs out.
Proof.
  intros Hc Ht G. assert (exists imgs', Forall2 (fun a b => fst b = fst a /\ transformLI cpus ts (snd a) (snd b)) imgs imgs') as [imgs' F].
  { induction imgs as [|[q li] imgs IH]; [exists []; constructor|]. destruct IH as [l F]; [intros q' li' H; apply (G q' li'); now right|].
    destruct (transformLI_ex cpus ts li Hc Ht (G q li (or_introl eq_refl))) as [li' T]. exists ((q, li') :: l). constructor; auto. }
  eexists. exists imgs', (concat (map (fun '(a, b) => sliceZ imgs' a b) (indexWorkers cpus (zlen imgs)))).
  split; [exact F|]. split; [apply interleave_concat|reflexivity].
Qed.
