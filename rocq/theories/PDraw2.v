From Verif Require Import Base BaseFacts MRect MSched PSched MDraw SDraw PDraw.
Open Scope Z_scope.

Lemma zseq_S n : zseq (S n) = 0 :: map (fun k => k + 1) (zseq n).
Proof. unfold zseq. cbn [seq map]. f_equal. rewrite <- seq_shift, !map_map. apply map_ext. intros; lia. Qed.

Lemma zseq_add a b : zseq (a + b) = zseq a ++ map (fun k => k + Z.of_nat a) (zseq b).
Proof.
  induction a as [|a IH]; cbn [Nat.add].
  - cbn [zseq seq map app]. rewrite <- (map_id (zseq b)) at 1. apply map_ext. intros; lia.
  - rewrite !zseq_S, IH, map_app, map_map. cbn [app]. f_equal. f_equal. apply map_ext. intros; lia.
Qed.

Lemma cols_eq sxD dxD : sxD <> 0 -> forall n fuel i j sx1, (n <= fuel)%nat -> sx1 = i + Z.of_nat n * sxD ->
  cols fuel i sx1 sxD j dxD = Some (map (fun k => (i + k * sxD, j + k * dxD)) (zseq n)).
Proof.
  intros Hs n. induction n as [|n IH]; intros fuel i j sx1 Hf ->.
  - destruct fuel; cbn [cols]; replace (i =? _) with true by lia; reflexivity.
  - destruct fuel as [|fuel]; [lia|]. cbn [cols]. replace (i =? _) with false by nia.
    rewrite IH by lia. rewrite zseq_S. cbn [map]. rewrite map_map. do 2 f_equal; [f_equal; lia|].
    apply map_ext. intros; f_equal; lia.
Qed.

Lemma steps_eq d : d <> 0 -> forall n fuel i e, (n <= fuel)%nat -> e = i + Z.of_nat n * d ->
  steps fuel i e d = Some (map (fun k => i + k * d) (zseq n)).
Proof.
  intros Hs n. induction n as [|n IH]; intros fuel i e Hf ->.
  - destruct fuel; cbn [steps]; replace (i =? _) with true by lia; reflexivity.
  - destruct fuel as [|fuel]; [lia|]. cbn [steps]. replace (i =? _) with false by nia.
    rewrite IH by lia. rewrite zseq_S. cbn [map]. rewrite map_map. do 2 f_equal; [lia|].
    apply map_ext. intros; lia.
Qed.

Lemma rows_eq row dyD syD : forall y d0 s0,
  rows y row d0 s0 dyD syD = map (fun k => row (d0 + k * dyD) (s0 + k * syD)) (zseq y).
Proof.
  induction y as [|y IH]; intros d0 s0; [reflexivity|]. cbn [rows]. rewrite IH, zseq_S. cbn [map]. rewrite map_map.
  f_equal; [f_equal; lia|]. apply map_ext. intros; f_equal; lia.
Qed.

Lemma rows_app row dyD syD a b d0 s0 :
  rows (a + b) row d0 s0 dyD syD = rows a row d0 s0 dyD syD ++ rows b row (d0 + dyD * Z.of_nat a) (s0 + syD * Z.of_nat a) dyD syD.
Proof.
  rewrite !rows_eq, zseq_add, map_app, map_map. f_equal. apply map_ext. intros; f_equal; lia.
Qed.

Lemma split_rows row dyD syD step : 0 <= step -> forall m d0 s0 y, Z.of_nat m * step <= y ->
  concat (map (fun w => let '(d0, s0, y) := w in rows (Z.to_nat y) row d0 s0 dyD syD) (split m d0 s0 y step dyD syD))
  = rows (Z.to_nat y) row d0 s0 dyD syD.
Proof.
  intros Hs m. induction m as [|m IH]; intros d0 s0 y Hy; cbn [split map concat].
  - apply app_nil_r.
  - rewrite IH by lia. replace (Z.to_nat y) with (Z.to_nat step + Z.to_nat (y - step))%nat by lia.
    now rewrite rows_app, Z2Nat.id by lia.
Qed.

Lemma split_length dyD syD step : forall m d0 s0 y, length (split m d0 s0 y step dyD syD) = S m.
Proof. induction m; intros; cbn; [reflexivity|]. now rewrite IHm. Qed.

Lemma fitWorkers_spec n y : (1 <= n)%nat ->
  (1 <= fitWorkers n y <= n)%nat /\ (fitWorkers n y = 1%nat \/ 2 * Z.of_nat (fitWorkers n y) <= y).
Proof.
  induction n as [|n IH]; intros H; [lia|]. cbn [fitWorkers]. destruct n as [|n]; [lia|].
  destruct (y <? Z.shiftl (Z.of_nat (S (S n))) 1) eqn:E; [specialize (IH ltac:(lia)); lia|].
  rewrite Z.shiftl_mul_pow2 in E by lia. change (2 ^ 1) with 2 in E. lia.
Qed.

(** The workers' rows are all rows, each once and in order. *)
Lemma parallel_rows cpus y row d0 s0 dyD syD : (1 <= cpus)%nat -> 0 <= y ->
  exists wss, parallel cpus y row d0 s0 dyD syD = map (@concat pact) wss /\
    concat wss = rows (Z.to_nat y) row d0 s0 dyD syD /\ length wss = fitWorkers cpus y.
Proof.
  intros Hc Hy. unfold parallel. destruct (fitWorkers_spec cpus y Hc) as [H1 H2].
  set (n := fitWorkers cpus y) in *.
  set (ws := if Nat.eqb n 1 then [(d0, s0, y)] else split (n - 1) d0 s0 y (y / Z.of_nat n) dyD syD).
  exists (map (fun w => let '(d0, s0, y) := w in rows (Z.to_nat y) row d0 s0 dyD syD) ws). split; [|split].
  - rewrite map_map. apply map_ext. intros [[? ?] ?]. reflexivity.
  - unfold ws. destruct (Nat.eqb n 1) eqn:E; [cbn; now rewrite app_nil_r|]. apply split_rows.
    + apply Z.div_pos; lia.
    + apply Nat.eqb_neq in E. pose proof (Z.mul_div_le y (Z.of_nat n) ltac:(lia)).
      assert (0 <= y / Z.of_nat n) by (apply Z.div_pos; lia). nia.
  - rewrite map_length. unfold ws. destruct (Nat.eqb n 1) eqn:E; [apply Nat.eqb_eq in E; now rewrite E|].
    rewrite split_length. apply Nat.eqb_neq in E. lia.
Qed.

Lemma FOP_zseq {B} (R : B -> B -> Prop) (g : Z -> B) : forall n,
  (forall i j, 0 <= i -> i < j -> j < Z.of_nat n -> R (g i) (g j)) -> ForallOrdPairs R (map g (zseq n)).
Proof.
  intros n. revert g. induction n as [|n IH]; intros g H; [constructor|]. rewrite zseq_S. cbn [map]. rewrite map_map.
  constructor.
  - apply Forall_forall. intros x Hx. apply in_map_iff in Hx. destruct Hx as (k & <- & Hk). apply in_zseq in Hk. apply H; lia.
  - apply (IH (fun k => g (k + 1))). intros; apply H; lia.
Qed.

Lemma FOP_concat {B} (R : B -> B -> Prop) ls : Forall (ForallOrdPairs R) ls ->
  ForallOrdPairs (fun l l' => forall a b, In a l -> In b l' -> R a b) ls -> ForallOrdPairs R (concat ls).
Proof.
  induction ls as [|l ls IH]; intros H1 H2; cbn; [constructor|]. inversion H1; inversion H2; subst.
  assert (ForallOrdPairs R (concat ls)) as Hc by auto.
  assert (forall a b, In a l -> In b (concat ls) -> R a b) as Hx.
  { intros a b Ha Hb. apply in_concat in Hb. destruct Hb as (l' & Hl' & Hb).
    match goal with H : Forall _ ls |- _ => rewrite Forall_forall in H; eapply H; eassumption end. }
  clear - H3 Hc Hx. induction l as [|x l IHl]; cbn; [assumption|]. inversion H3; subst. constructor.
  - apply Forall_app. split; [assumption|]. apply Forall_forall. intros; apply Hx; [now left|assumption].
  - apply IHl; [assumption|]. intros; apply Hx; [now right|assumption].
Qed.

Lemma FOP_map_in {A B} (R : B -> B -> Prop) (g : A -> B) l :
  ForallOrdPairs (fun a b => R (g a) (g b)) l -> ForallOrdPairs R (map g l).
Proof.
  induction 1; cbn; constructor; [|assumption]. apply Forall_forall. intros y Hy. apply in_map_iff in Hy.
  destruct Hy as (z & <- & Hz). rewrite Forall_forall in H. auto.
Qed.

(** Pixels of an image: bounds and disjointness. *)
Lemma pt_in_spec p r : pt_in p r = true <-> rx0 r <= px p < rx1 r /\ ry0 r <= py p < ry1 r.
Proof. unfold pt_in. lia. Qed.

Lemma off_bounds bpp v n p : 0 <= bpp -> view_ok bpp v n -> pt_in p (vrect v) = true ->
  0 <= (py p - ry0 (vrect v)) * vstride v /\
  0 <= (px p - rx0 (vrect v)) * bpp /\
  (py p - ry0 (vrect v)) * vstride v + (px p - rx0 (vrect v)) * bpp + bpp <= vlen v.
Proof.
  intros Hb (H1 & H2 & H3 & H4) Hp. rewrite pt_in_spec in Hp. destruct (vrect v) as [x0 y0 x1 y1].
  cbn [rx0 ry0 rx1 ry1] in *. destruct H4 as [H4 H5]; [unfold rempty; cbn; lia|]. unfold rdx, rdy in *. cbn [rx0 ry0 rx1 ry1] in *.
  assert (0 <= vstride v) by nia. repeat split; nia.
Qed.

Lemma paddr_bounds bpp v n p : 0 <= bpp -> view_ok bpp v n -> pt_in p (vrect v) = true ->
  vbase v <= paddr bpp v p /\ paddr bpp v p + bpp <= vbase v + vlen v.
Proof. intros Hb Hv Hp. pose proof (off_bounds _ _ _ _ Hb Hv Hp). unfold paddr. lia. Qed.

Lemma paddr_disjoint bpp v n p q : 0 <= bpp -> view_ok bpp v n -> pt_in p (vrect v) = true -> pt_in q (vrect v) = true ->
  p <> q -> paddr bpp v p + bpp <= paddr bpp v q \/ paddr bpp v q + bpp <= paddr bpp v p.
Proof.
  intros Hb (H1 & H2 & H3 & H4) Hp Hq Hn. rewrite pt_in_spec in Hp, Hq. unfold paddr. destruct (vrect v) as [x0 y0 x1 y1].
  destruct p as [a b], q as [c d]. cbn [rx0 ry0 rx1 ry1 px py] in *.
  destruct H4 as [H4 H5]; [unfold rempty; cbn; lia|]. unfold rdx, rdy in *. cbn [rx0 ry0 rx1 ry1] in *.
  assert (0 <= vstride v) by nia.
  destruct (Z.lt_trichotomy b d) as [Hl|[->|Hl]].
  - left. nia.
  - assert (a <> c) by congruence. destruct (Z.lt_trichotomy a c) as [?|[?|?]]; [left; nia|lia|right; nia].
  - right. nia.
Qed.

Section grid.
  Context {V : Type} (ss ds : Z) (f : list V -> list V -> option (list V)).
  Variables (dst : view) (gp : Z -> Z -> point) (srcs : point -> list Z) (dx dy : nat)
            (area : point -> Prop) (sources : point -> list V -> Prop) (h : list V).
  Definition gact (p : point) : pact := PA (paddr ds dst p) (srcs p) true.
  Definition apart (p q : point) : Prop := forall x, paddr ds dst p <= x < paddr ds dst p + ds -> ~ In x (srcs q).

  Lemma grid_drawn (wss : list (list (list pact))) :
    concat wss = map (fun k => map (fun t => gact (gp k t)) (zseq dx)) (zseq dy) ->
    (forall p, area p <-> exists k t, 0 <= k < Z.of_nat dy /\ 0 <= t < Z.of_nat dx /\ p = gp k t) ->
    (forall p, area p -> pt_in p (vrect dst) = true) ->
    view_ok ds dst (zlen h) -> 0 <= ds ->
    (forall p, area p -> zlen (srcs p) = ss /\ forall x, In x (srcs p) -> 0 <= x < zlen h) ->
    (forall k t k' t', gp k t = gp k' t' -> k = k' /\ t = t') ->
    (forall k t k' t', 0 <= k < Z.of_nat dy -> 0 <= t < Z.of_nat dx -> 0 <= k' < Z.of_nat dy -> 0 <= t' < Z.of_nat dx ->
       k < k' \/ k = k' /\ t < t' -> apart (gp k t) (gp k' t')) ->
    (length wss <= 1)%nat \/
      (forall k t k' t', 0 <= k < Z.of_nat dy -> 0 <= t < Z.of_nat dx -> 0 <= k' < Z.of_nat dy -> 0 <= t' < Z.of_nat dx ->
        k' < k -> apart (gp k t) (gp k' t')) ->
    (forall p l, sources p l <-> reads h (srcs p) = Some l) ->
    defined_on ds f area sources dst h ->
    all_runs ds f (map (@concat pact) wss) h (drawn ds f area sources dst h).
  Proof.
    intros Hc Harea Hin Hv Hds Hsrc Hinj Hord Hrow Hrd Hf.
    assert (forall p q, area p -> area q -> p <> q -> apart p q -> noconf ds (gact p) (gact q)) as Hnc.
    { intros p q Hp Hq Hn Ha x Hx. cbn [aw ars gact] in *. split; [now apply Ha|].
      pose proof (paddr_disjoint ds dst _ p q Hds Hv (Hin _ Hp) (Hin _ Hq) Hn). lia. }
    assert (forall k t, 0 <= k < Z.of_nat dy -> 0 <= t < Z.of_nat dx -> area (gp k t)) as Har by (intros; apply Harea; eauto 10).
    assert (ForallOrdPairs (noconf ds) (concat (concat wss))) as H1.
    { rewrite Hc. apply FOP_concat.
      - apply Forall_forall. intros l Hl. apply in_map_iff in Hl. destruct Hl as (k & <- & Hk). apply in_zseq in Hk.
        apply FOP_zseq. intros i j Hi Hij Hj. apply Hnc; [apply Har; lia|apply Har; lia| |apply Hord; lia].
        intros E. apply Hinj in E. lia.
      - apply FOP_zseq. intros i j Hi Hij Hj a b Ha Hb. apply in_map_iff in Ha, Hb.
        destruct Ha as (t & <- & Ht), Hb as (t' & <- & Ht'). apply in_zseq in Ht, Ht'.
        apply Hnc; [apply Har; lia|apply Har; lia| |apply Hord; lia]. intros E. apply Hinj in E. lia. }
    assert (Forall (act_ok ss ds (zlen h)) (concat (concat wss))) as H2.
    { rewrite Hc. apply Forall_forall. intros a Ha. apply in_concat in Ha. destruct Ha as (l & Hl & Ha).
      apply in_map_iff in Hl. destruct Hl as (k & <- & Hk). apply in_map_iff in Ha. destruct Ha as (t & <- & Ht).
      apply in_zseq in Hk, Ht. assert (area (gp k t)) as Ha by (apply Har; lia).
      pose proof (paddr_bounds ds dst _ _ Hds Hv (Hin _ Ha)). destruct Hv as (V1 & V2 & V3 & _). destruct (Hsrc _ Ha).
      unfold act_ok, gact; cbn [aok aw ars]. repeat split; try assumption; try lia; firstorder. }
    intros r Hr.
    rewrite (runs_snapshot ss ds f wss h H1) with (r := r); [|idtac|exact H2|exact Hr].
    2:{ destruct Hrow as [Hrow|Hrow]; [now left|right]. rewrite Hc. apply FOP_zseq. intros i j Hi Hij Hj a b Ha Hb.
        apply in_map_iff in Ha, Hb. destruct Ha as (t & <- & Ht), Hb as (t' & <- & Ht'). apply in_zseq in Ht, Ht'.
        apply Hnc; [apply Har; lia|apply Har; lia| |apply Hrow; lia]. intros E. apply Hinj in E. lia. }
    assert (forall a, In a (concat (concat wss)) <-> exists p, area p /\ a = gact p) as Hall.
    { intros a. rewrite Hc. rewrite in_concat. split.
      - intros (l & Hl & Ha). apply in_map_iff in Hl. destruct Hl as (k & <- & Hk). apply in_map_iff in Ha.
        destruct Ha as (t & <- & Ht). apply in_zseq in Hk, Ht. exists (gp k t). split; [apply Har; lia|reflexivity].
      - intros (p & Hp & ->). apply Harea in Hp. destruct Hp as (k & t & Hk & Ht & ->).
        eexists. split; [apply in_map_iff; exists k; split; [reflexivity|apply in_zseq; lia]|].
        apply in_map_iff. exists t. split; [reflexivity|apply in_zseq; lia]. }
    destruct (exec_snapshot ss ds f Hds (concat (concat wss)) h H1 H2) as (h' & E1 & E2 & E3 & E4).
    { intros a sv dv Ha Hs Hd. apply Hall in Ha. destruct Ha as (p & Hp & ->). cbn [gact aw ars] in *.
      apply (Hf p); [assumption|now apply Hrd|]. apply pixel_is_reads. split; [|assumption].
      destruct (reads_ok h (addrs (paddr ds dst p) ds)) as (vs & R1 & R2).
      { intros x Hx. apply in_addrs in Hx. pose proof (paddr_bounds ds dst _ _ Hds Hv (Hin _ Hp)). destruct Hv as (? & ? & ? & _). lia. }
      rewrite Hd in R1. injection R1 as <-. rewrite R2. unfold addrs. rewrite zlen_map. unfold zseq. rewrite zlen_map. unfold zlen. rewrite seq_length. lia. }
    exists h'. split; [exact E1|]. split; [exact E2|].
    split.
    - intros p sv dd Hp Hs Hd. apply pixel_is_reads in Hd. destruct Hd as [Hd1 Hd2].
      destruct (E3 (gact p) sv dd) as (o & O1 & O2 & O3).
      + apply Hall. eauto.
      + cbn [gact ars]. now apply Hrd.
      + exact Hd2.
      + exists o. split; [exact O1|]. apply pixel_is_reads. split; [exact O2|exact O3].
    - intros a Ha. apply E4. intros b Hb. apply Hall in Hb. destruct Hb as (p & Hp & ->). cbn [gact aw]. now apply Ha.
  Qed.
End grid.

(** The actions of the workers are the pixels of the area. *)
Lemma grid_acts ds dst gp srcs dx dy area (wss : list (list (list pact))) :
  concat wss = map (fun k => map (fun t => gact ds dst srcs (gp k t)) (zseq dx)) (zseq dy) ->
  (forall p, area p <-> exists k t, 0 <= k < Z.of_nat dy /\ 0 <= t < Z.of_nat dx /\ p = gp k t) ->
  forall a, In a (concat (map (@concat pact) wss)) <-> exists p, area p /\ a = gact ds dst srcs p.
Proof.
  intros Hc Harea a. replace (concat (map (@concat pact) wss)) with (concat (concat wss)).
  2:{ clear. induction wss; cbn; [reflexivity|]. now rewrite <- IHwss, concat_app. }
  rewrite Hc. rewrite in_concat. split.
  - intros (l & Hl & Ha). apply in_map_iff in Hl. destruct Hl as (k & <- & Hk). apply in_map_iff in Ha.
    destruct Ha as (t & <- & Ht). apply in_zseq in Hk, Ht. exists (gp k t). split; [|reflexivity]. apply Harea. eauto 10.
  - intros (p & Hp & ->). apply Harea in Hp. destruct Hp as (k & t & Hk & Ht & ->).
    eexists. split; [apply in_map_iff; exists k; split; [reflexivity|apply in_zseq; lia]|].
    apply in_map_iff. exists t. split; [reflexivity|apply in_zseq; lia].
Qed.

