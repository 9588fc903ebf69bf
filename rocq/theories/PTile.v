(** Proofs about tiling. *)
From Coq Require Import Permutation.
From Verif Require Import Base BaseFacts MRect MSched PSched MDraw PDraw PDraw2 MBlend MTile STile.
Open Scope Z_scope.

(** * Loops *)
Lemma spanLoop_eq n : forall d s a b, spanLoop n d s a b = map (fun k => (d + k * a, s + k * b)) (zseq n).
Proof.
  induction n as [|n IH]; intros; [reflexivity|]. cbn [spanLoop]. rewrite IH, zseq_S. cbn [map]. rewrite map_map.
  f_equal; [f_equal; lia|]. apply map_ext. intros; f_equal; lia.
Qed.
Lemma in_forPairs d dEnd a s b x y : 0 < a ->
  In (x, y) (forPairs d dEnd a s b) <-> exists k, 0 <= k /\ x = d + k * a /\ y = s + k * b /\ x < dEnd.
Proof.
  intros Ha. unfold forPairs. rewrite spanLoop_eq, in_map_iff. unfold trips. split.
  - intros (k & E & Hk). injection E as <- <-. apply in_zseq in Hk. exists k. repeat split; try lia.
    assert (k < (dEnd - d + a - 1) / a) as H by lia. assert (k + 1 <= (dEnd - d + a - 1) / a) as H1 by lia.
    pose proof (Z.mul_div_le (dEnd - d + a - 1) a Ha). nia.
  - intros (k & Hk & -> & -> & H). exists k. split; [reflexivity|]. apply in_zseq. split; [lia|].
    assert (k + 1 <= (dEnd - d + a - 1) / a); [|lia]. apply Z.div_le_lower_bound; [lia|]. lia.
Qed.
Lemma forUp_eq t0 t1 step : forUp t0 t1 step = map (fun k => t0 + k * step) (zseq (trips t0 t1 step)).
Proof. unfold forUp, forPairs. rewrite spanLoop_eq, map_map. reflexivity. Qed.
Lemma in_forUp t0 t1 step t : 0 < step -> In t (forUp t0 t1 step) <-> t0 <= t < t1 /\ exists k, 0 <= k /\ t = t0 + k * step.
Proof.
  intros H. unfold forUp. rewrite in_map_iff. split.
  - intros ([x y] & E & Hin). cbn [fst] in E. subst x. apply in_forPairs in Hin; [|lia]. destruct Hin as (k & Hk & -> & _ & Hl). split; [nia|eauto].
  - intros ([Ha Hb] & k & Hk & ->). exists (t0 + k * step, 0 + k * 0). split; [reflexivity|]. apply in_forPairs; [lia|]. exists k. lia.
Qed.
Lemma NoDup_zseq n : NoDup (zseq n).
Proof. unfold zseq. apply FinFun.Injective_map_NoDup; [intros a b; lia|apply seq_NoDup]. Qed.
Lemma forUp_progression t0 t1 step : 0 < step -> progression t0 t1 step (forUp t0 t1 step).
Proof.
  intros H. split; [|intros; now apply in_forUp]. rewrite forUp_eq. apply FinFun.Injective_map_NoDup; [|apply NoDup_zseq].
  intros a b E. nia.
Qed.

(** * The split *)
Lemma forUp_app a q y1 step : 0 < step -> 0 <= q -> a + q * step <= y1 ->
  forUp a (a + q * step) step ++ forUp (a + q * step) y1 step = forUp a y1 step.
Proof.
  intros Hs Hq Hy. rewrite !forUp_eq.
  assert (trips a y1 step = (trips a (a + q * step) step + trips (a + q * step) y1 step)%nat) as ->.
  { unfold trips. replace (a + q * step - a + step - 1) with ((step - 1) + q * step) by lia. rewrite Z.div_add, (Z.div_small (step - 1)) by lia.
    replace (y1 - a + step - 1) with ((y1 - (a + q * step) + step - 1) + q * step) by lia. rewrite Z.div_add by lia.
    assert (0 <= (y1 - (a + q * step) + step - 1) / step) by (apply Z.div_pos; lia). lia. }
  rewrite zseq_add, map_app, map_map. f_equal. apply map_ext. intros k.
  assert (Z.of_nat (trips a (a + q * step) step) = q) as ->; [|lia].
  unfold trips. replace (a + q * step - a + step - 1) with ((step - 1) + q * step) by lia. rewrite Z.div_add, (Z.div_small (step - 1)) by lia. lia.
Qed.
Lemma splitRows_forUp ts q : 0 < ts -> 0 <= q -> forall m y0 y1, (m = O \/ y0 + Z.of_nat m * (q * ts) <= y1) ->
  concat (map (fun '(a, b) => forUp a b ts) (splitRows m y0 y1 (q * ts))) = forUp y0 y1 ts.
Proof.
  intros Ht Hq m. induction m as [|m IH]; intros y0 y1 H; cbn [splitRows map concat]; [now rewrite app_nil_r|].
  rewrite IH; [|right; nia]. apply forUp_app; [lia|lia|nia].
Qed.
Lemma splitRows_length m : forall y0 y1 s, length (splitRows m y0 y1 s) = S m.
Proof. induction m; intros; cbn; [reflexivity|]. now rewrite IHm. Qed.
Lemma quot_nonneg a b : 0 <= a -> 0 < b -> Z.quot a b = a / b.
Proof. intros. now apply Z.quot_div_nonneg. Qed.
Lemma tileWorkers_forUp cpus ts y0 y1 : (1 <= cpus)%nat -> 0 < ts ->
  concat (map (fun '(a, b) => forUp a b ts) (tileWorkers cpus ts y0 y1)) = forUp y0 y1 ts /\
  (1 <= length (tileWorkers cpus ts y0 y1) <= cpus)%nat.
Proof.
  intros Hc Ht. unfold tileWorkers. cbv zeta. destruct (fitWorkers_spec cpus (Z.quot (y1 - y0) ts) Hc) as [H1 H2].
  set (n := fitWorkers _ _) in *. split; [|rewrite splitRows_length; lia].
  destruct H2 as [H2|H2]; [rewrite H2; cbn; apply app_nil_r|].
  assert (0 <= y1 - y0). { destruct (Z.leb_spec 0 (y1 - y0)); [lia|]. exfalso.
    assert (Z.quot (y1 - y0) ts <= 0) by (apply Z.quot_le_upper_bound; lia). lia. }
  rewrite (quot_nonneg (y1 - y0)) in * by lia. rewrite quot_nonneg by (try lia; apply Z.div_pos; lia).
  set (yl := (y1 - y0) / ts) in *. assert (yl * ts <= y1 - y0) by (subst yl; pose proof (Z.mul_div_le (y1 - y0) ts Ht); lia). clearbody yl.
  set (q := yl / Z.of_nat n). assert (0 <= q /\ Z.of_nat n * q <= yl) as [Q1 Q2] by (subst q; split; [apply Z.div_pos; lia|apply Z.mul_div_le; lia]). clearbody q.
  apply splitRows_forUp; [lia|lia|]. right. nia.
Qed.
Lemma indexWorkers_forUp cpus len : (1 <= cpus)%nat -> 0 <= len ->
  concat (map (fun '(a, b) => forUp a b 1) (indexWorkers cpus len)) = zseq (Z.to_nat len) /\
  (1 <= length (indexWorkers cpus len) <= cpus)%nat.
Proof.
  intros Hc Hl. unfold indexWorkers. cbv zeta. destruct (fitWorkers_spec cpus len Hc) as [H1 H2].
  set (n := fitWorkers _ _) in *. split; [|rewrite splitRows_length; lia].
  assert (forUp 0 len 1 = zseq (Z.to_nat len)) as <-.
  { rewrite forUp_eq. unfold trips. replace (len - 0 + 1 - 1) with len by lia. rewrite Z.div_1_r. rewrite <- (map_id (zseq _)) at 2. apply map_ext. intros; lia. }
  rewrite quot_nonneg by lia. set (q := len / Z.of_nat n).
  assert (0 <= q /\ Z.of_nat n * q <= len) as [Q1 Q2] by (subst q; split; [apply Z.div_pos; lia|apply Z.mul_div_le; lia]). clearbody q.
  replace q with (q * 1) at 1 by lia. apply splitRows_forUp; [lia|lia|]. right. nia.
Qed.

(** * One tile *)
Lemma tileSpan_spec ts t r0 r1 dMin dMax sMin : tileSpan ts t r0 r1 = (dMin, dMax, sMin) ->
  (forall i, dMin <= i < dMax <-> 0 <= i < ts /\ r0 <= t + i < r1) /\ (forall i, sMin + (i - dMin) = t + i - r0).
Proof.
  unfold tileSpan. destruct (Z.ltb_spec (t - r0) 0); cbv zeta; intros E; injection E as <- <- <-;
    match goal with |- context [if ?a <? ?b then _ else _] => destruct (Z.ltb_spec a b) end; split; intros; lia.
Qed.

Definition off (ts : Z) (k p : point) : Z := (py p - py k) * ts + (MRect.px p - MRect.px k).
Lemma in_tileCells ts r dX k d s : 0 < ts ->
  In (d, s) (tileCells ts r dX (MRect.px k) (py k)) <->
  exists p, pt_in p r = true /\ in_tile ts k p /\ d = off ts k p /\ s = sample_pos r dX p.
Proof.
  intros Ht. unfold tileCells. destruct (tileSpan ts (MRect.px k) (rx0 r) (rx1 r)) as [[dxMin dxMax] sxMin] eqn:Ex.
  destruct (tileSpan ts (py k) (ry0 r) (ry1 r)) as [[dyMin dyMax] syMin] eqn:Ey.
  apply tileSpan_spec in Ex. destruct Ex as [X1 X2]. apply tileSpan_spec in Ey. destruct Ey as [Y1 Y2].
  rewrite in_flat_map. unfold in_tile, off, sample_pos, pt_in. split.
  - intros ([dy sy] & H1 & H2). apply in_forPairs in H1; [|lia]. destruct H1 as (j & Hj & -> & -> & Hj2).
    apply in_forPairs in H2; [|lia]. destruct H2 as (i & Hi & -> & -> & Hi2).
    assert (dyMin <= dyMin + j < dyMax) as J by nia. apply Y1 in J. specialize (Y2 (dyMin + j)).
    assert (dxMin <= dxMin + i < dxMax) as I by lia. apply X1 in I. specialize (X2 (dxMin + i)).
    exists (Pt (MRect.px k + dxMin + i) (py k + dyMin + j)). cbn [MRect.px py]. repeat split; try lia.
  - intros ([x y] & Hr & Hk & -> & ->). cbn [MRect.px py] in *.
    assert (dyMin <= y - py k < dyMax) as J by (apply Y1; lia). assert (dxMin <= x - MRect.px k < dxMax) as I by (apply X1; lia).
    specialize (Y2 (y - py k)). specialize (X2 (x - MRect.px k)).
    exists ((y - py k) * ts, (syMin + (y - py k - dyMin)) * (rdx r * dX)). split.
    + apply in_forPairs; [lia|]. exists (y - py k - dyMin). repeat split; try lia. nia.
    + apply in_forPairs; [lia|]. exists (x - MRect.px k - dxMin). repeat split; lia.
Qed.
Lemma off_inj ts k p q : 0 < ts -> in_tile ts k p -> in_tile ts k q -> off ts k p = off ts k q -> p = q.
Proof. intros Ht [A B] [C D] E. destruct p as [x y], q as [x' y']. cbn [MRect.px py] in *. unfold off in E. cbn [MRect.px py] in E. assert (y = y') by nia. subst. f_equal. nia. Qed.
Lemma off_range ts k p : 0 < ts -> in_tile ts k p -> 0 <= off ts k p < ts * ts.
Proof. intros Ht [A B]. unfold off. nia. Qed.

Section fill.
  Context {V : Type}.
  Variable zero : V.
  Variable get : Z -> option (option V).
  Notation put := (putCell get).

  Lemma exec_cons p l st : exec put (p :: l) st = exec put l (put p st).
  Proof. reflexivity. Qed.
  Lemma exec_none l : exec put l None = None.
  Proof. induction l; [reflexivity|]. exact IHl. Qed.

  Definition functional (l : list (Z * Z)) := forall d s s', In (d, s) l -> In (d, s') l -> s = s'.

  Lemma fill_spec l : functional l -> forall buf u buf' u', exec put l (Some (buf, u)) = Some (buf', u') ->
    zlen buf' = zlen buf /\
    (forall d s, In (d, s) l -> exists o, get s = Some o /\ match o with Some v => idx buf' d = Some v | None => idx buf' d = idx buf d end) /\
    (forall d, (forall s, ~ In (d, s) l) -> idx buf' d = idx buf d) /\
    (u' = true <-> u = true \/ exists d s v, In (d, s) l /\ get s = Some (Some v)).
  Proof.
    induction l as [|[d0 s0] l IH]; intros Hf buf u buf' u'.
    - intros E. injection E as <- <-. split; [reflexivity|]. split; [intros ? ? []|]. split; [reflexivity|].
      split; [now left|]. intros [H|(? & ? & ? & [] & _)]; exact H.
    - assert (functional l) as Hf' by (intros d s s' H1 H2; apply (Hf d); now right).
      rewrite exec_cons. unfold putCell at 2. cbn [fst snd]. destruct (get s0) as [[v|]|] eqn:G; [| |intros E; rewrite exec_none in E; discriminate].
      + destruct (upd buf d0 v) as [b1|] eqn:U; [|intros E; rewrite exec_none in E; discriminate].
        intros E. specialize (IH Hf' _ _ _ _ E). destruct IH as (I1 & I2 & I3 & I4).
        assert (forall d, idx b1 d = if d =? d0 then Some v else idx buf d) as U2.
        { intros d. rewrite (idx_upd _ _ _ d _ U). destruct (Z.eqb_spec d0 d), (Z.eqb_spec d d0); try lia; reflexivity. }
        split; [rewrite I1; eapply upd_zlen; exact U|]. split; [|split].
        * intros d s [H|H].
          -- injection H as <- <-. exists (Some v). split; [exact G|].
             destruct (in_dec (fun a b : Z * Z => ltac:(decide equality; apply Z.eq_dec)) (d0, s0) l) as [Hin|Hin].
             ++ destruct (I2 d0 s0 Hin) as (o & Go & Ho). rewrite G in Go. injection Go as <-. exact Ho.
             ++ rewrite I3, U2, Z.eqb_refl; [reflexivity|]. intros s Hs. apply Hin.
                rewrite (Hf d0 s0 s); [exact Hs|now left|now right].
          -- destruct (I2 d s H) as (o & Go & Ho). exists o. split; [exact Go|]. destruct o; [exact Ho|].
             rewrite Ho, U2. destruct (Z.eqb_spec d d0) as [->|]; [|reflexivity].
             exfalso. assert (s0 = s) by (apply (Hf d0); [now left|now right]). subst. congruence.
        * intros d H. rewrite I3 by (intros s Hs; apply (H s); now right). rewrite U2.
          destruct (Z.eqb_spec d d0) as [->|]; [|reflexivity]. exfalso. apply (H s0). now left.
        * rewrite I4. split; [intros _; right; exists d0, s0, v; split; [now left|exact G]|now left].
      + intros E. specialize (IH Hf' _ _ _ _ E). destruct IH as (I1 & I2 & I3 & I4).
        split; [exact I1|]. split; [|split].
        * intros d s [H|H]; [|exact (I2 d s H)]. injection H as <- <-. exists None. split; [exact G|].
          destruct (in_dec (fun a b : Z * Z => ltac:(decide equality; apply Z.eq_dec)) (d0, s0) l) as [Hin|Hin].
          -- destruct (I2 d0 s0 Hin) as (o & Go & Ho). rewrite G in Go. injection Go as <-. exact Ho.
          -- apply I3. intros s Hs. apply Hin. rewrite (Hf d0 s0 s); [exact Hs|now left|now right].
        * intros d H. apply I3. intros s Hs. apply (H s). now right.
        * rewrite I4. split; (intros [H|(d & s & v & H & Hv)]; [now left|right]).
          -- exists d, s, v. split; [now right|exact Hv].
          -- exists d, s, v. split; [|exact Hv]. destruct H as [H|H]; [|exact H]. injection H as <- <-. congruence.
  Qed.

  Lemma fill_unused l : forall buf u buf', exec put l (Some (buf, u)) = Some (buf', false) -> buf' = buf.
  Proof.
    assert (forall l buf buf' u, exec put l (Some (buf, true)) = Some (buf', u) -> u = true) as T.
    { clear l. induction l as [|[d s] l IH]; intros buf buf' u E; [cbn in E; congruence|].
      rewrite exec_cons in E. unfold putCell at 2 in E. cbn [fst snd] in E. destruct (get s) as [[v|]|]; [| |rewrite exec_none in E; discriminate].
      - destruct (upd buf d v); [|rewrite exec_none in E; discriminate]. eapply IH. exact E.
      - eapply IH. exact E. }
    induction l as [|[d s] l IH]; intros buf u buf' E; [cbn in E; congruence|].
    rewrite exec_cons in E. unfold putCell at 2 in E. cbn [fst snd] in E. destruct (get s) as [[v|]|]; [| |rewrite exec_none in E; discriminate].
    - destruct (upd buf d v); [|rewrite exec_none in E; discriminate]. apply T in E. discriminate.
    - eapply IH. exact E.
  Qed.

  Lemma fill_total l : forall buf u, (forall d s, In (d, s) l -> get s <> None /\ 0 <= d < zlen buf) ->
    exists buf' u', exec put l (Some (buf, u)) = Some (buf', u').
  Proof.
    induction l as [|[d s] l IH]; intros buf u H; [cbn; eauto|]. rewrite exec_cons. unfold putCell at 2. cbn [fst snd].
    destruct (H d s (or_introl eq_refl)) as [G D]. destruct (get s) as [[v|]|] eqn:E; [| |congruence].
    - unfold upd. replace ((0 <=? d) && (d <? zlen buf)) with true by lia. apply IH. intros d' s' H'.
      destruct (H d' s' (or_intror H')). split; [assumption|]. now rewrite zlen_upd_nat.
    - apply IH. intros d' s' H'. apply H. now right.
  Qed.
End fill.

(** * All tiles *)
Lemma interleave_in {A} (ls : list (list A)) r : interleave ls r -> forall a, In a r <-> In a (concat ls).
Proof.
  induction 1 as [ls Hnil | l1 x t l2 r Hil IH]; intros a.
  - rewrite (concat_nils _ Hnil). reflexivity.
  - cbn [In]. rewrite IH, !concat_app. cbn [concat]. rewrite !in_app_iff. cbn [In]. tauto.
Qed.
Lemma allSome_some {A} (l : list (option A)) : forall l', allSome l = Some l' <-> l = map Some l'.
Proof.
  induction l as [|[a|] l IH]; intros l'; cbn [allSome].
  - split; [intros E; injection E as <-; reflexivity|]. destruct l'; [reflexivity|discriminate].
  - specialize (IH (tl l')). destruct (allSome l) as [t|].
    + split.
      * intros E. injection E as <-. cbn [tl map] in *. f_equal. now apply IH.
      * destruct l' as [|a' l']; [discriminate|]. cbn [map tl] in *. intros E. injection E as -> E. apply IH in E. now injection E as ->.
    + split; [discriminate|]. destruct l' as [|a' l']; [discriminate|]. cbn [map tl] in *. intros E. injection E as -> E. apply IH in E. discriminate.
  - split; [discriminate|]. destruct l'; discriminate.
Qed.
Lemma pt_eqb_spec p q : reflect (p = q) (pt_eqb p q).
Proof.
  destruct p as [x y], q as [x' y']. unfold pt_eqb. cbn [MRect.px py].
  destruct (Z.eqb_spec x x'), (Z.eqb_spec y y'); cbn; constructor; congruence.
Qed.
Lemma m_get_putTile {V} (w : point * list V) m k : m_get pt_eqb (putTile w m) k = if pt_eqb k (fst w) then Some (snd w) else m_get pt_eqb m k.
Proof.
  unfold putTile, m_set. destruct w as [a c]. cbn [fst snd m_get]. destruct (pt_eqb_spec k a) as [|N]; [reflexivity|].
  unfold m_del. induction m as [|[k0 c0] m IH]; [reflexivity|]. cbn [filter fst m_get].
  destruct (pt_eqb_spec a k0) as [->|N0]; cbn [negb m_get]; rewrite IH.
  - destruct (pt_eqb_spec k k0); [congruence|reflexivity].
  - reflexivity.
Qed.
Lemma key_dec {V} (r : list (point * list V)) k : {c | In (k, c) r} + {forall c, ~ In (k, c) r}.
Proof.
  induction r as [|[a ca] r IH]; [right; intros c []|]. destruct IH as [[c H]|H]; [left; exists c; now right|].
  destruct (pt_eqb_spec a k) as [->|N]; [left; exists ca; now left|]. right. intros c [E|E]; [congruence|exact (H c E)].
Defined.
Lemma m_get_tiles {V} (r : list (point * list V)) : (forall k c c', In (k, c) r -> In (k, c') r -> c = c') ->
  forall m k c, m_get pt_eqb (exec putTile r m) k = Some c <-> In (k, c) r \/ ((forall c', ~ In (k, c') r) /\ m_get pt_eqb m k = Some c).
Proof.
  induction r as [|[a ca] r IH]; intros Hf m k c.
  - cbn. split; [intros H; right; split; [intros c' []|exact H]|]. intros [[]|[_ H]]. exact H.
  - change (exec putTile ((a, ca) :: r) m) with (exec putTile r (putTile (a, ca) m)).
    rewrite IH by (intros k' c1 c2 H1 H2; apply (Hf k'); now right). rewrite m_get_putTile. cbn [fst snd].
    destruct (pt_eqb_spec k a) as [->|N]; cbn [In]; split.
    + intros [H|[_ H]]; [now left; right|]. injection H as ->. now left; left.
    + intros [[H|H]|[H _]]; [|now left|exfalso; apply (H ca); now left]. injection H as ->.
      destruct (key_dec r a) as [[c' H']|H']; [|right; split; [exact H'|reflexivity]].
      left. rewrite (Hf a c c'); [exact H'|now left|now right].
    + intros [H|[H1 H2]]; [now left; right|]. right. split; [|exact H2]. intros c' [E|E]; [congruence|exact (H1 c' E)].
    + intros [[E|H]|[H1 H2]]; [congruence|now left|]. right. split; [|exact H2]. intros c' E. apply (H1 c'). now right.
Qed.

Section tiles.
  Context {V : Type}.
  Variable zero : V.
  Variable get : Z -> option (option V).

  Lemma tileCells_functional ts r dX k : 0 < ts -> functional (tileCells ts r dX (MRect.px k) (py k)).
  Proof.
    intros Ht d s s' H1 H2. apply in_tileCells in H1; [|lia]. apply in_tileCells in H2; [|lia].
    destruct H1 as (p & P1 & P2 & -> & ->). destruct H2 as (q & Q1 & Q2 & E & ->).
    now rewrite (off_inj ts k p q Ht P2 Q2 E).
  Qed.
  Lemma zlen_fresh ts : 0 < ts -> zlen (freshBuf zero ts) = ts * ts.
  Proof. intros. unfold freshBuf. apply zlen_zrepeat. nia. Qed.
  Lemma idx_fresh ts i : 0 <= i < ts * ts -> idx (freshBuf zero ts) i = Some zero.
  Proof. intros. unfold freshBuf, idx, zrepeat. replace (i <? 0) with false by lia. apply nth_error_repeat. lia. Qed.

  (** What one tile holds. *)
  Lemma fillTile_spec ts r dX k c u : 0 < ts -> fillTile get ts r dX (MRect.px k) (py k) (freshBuf zero ts) = Some (c, u) ->
    zlen c = ts * ts /\
    (forall p, in_tile ts k p -> pt_in p r = true ->
       exists o, get (sample_pos r dX p) = Some o /\ tile_at ts k c p = Some (match o with Some v => v | None => zero end)) /\
    (forall p, in_tile ts k p -> pt_in p r = false -> tile_at ts k c p = Some zero) /\
    (u = true <-> exists p v, in_tile ts k p /\ pt_in p r = true /\ get (sample_pos r dX p) = Some (Some v)).
  Proof.
    intros Ht E. unfold fillTile in E. apply fill_spec in E; [|now apply tileCells_functional].
    destruct E as (E1 & E2 & E3 & E4). rewrite zlen_fresh in E1 by lia. split; [exact E1|]. split; [|split].
    - intros p Hk Hr. destruct (E2 (off ts k p) (sample_pos r dX p)) as (o & Go & Ho).
      { apply in_tileCells; [lia|]. exists p. auto. }
      exists o. split; [exact Go|]. unfold tile_at. change ((py p - py k) * ts + (MRect.px p - MRect.px k)) with (off ts k p).
      destruct o; [exact Ho|]. rewrite Ho. apply idx_fresh. now apply off_range.
    - intros p Hk Hr. unfold tile_at. change ((py p - py k) * ts + (MRect.px p - MRect.px k)) with (off ts k p).
      rewrite E3; [apply idx_fresh; now apply off_range|]. intros s Hs. apply in_tileCells in Hs; [|lia].
      destruct Hs as (q & Q1 & Q2 & Q3 & _). rewrite (off_inj ts k p q) in Hr; [congruence|lia|assumption..].
    - rewrite E4. split.
      + intros [H|(d & s & v & Hin & Hv)]; [discriminate|]. apply in_tileCells in Hin; [|lia].
        destruct Hin as (p & P1 & P2 & -> & ->). eauto.
      + intros (p & v & P1 & P2 & P3). right. exists (off ts k p), (sample_pos r dX p), v. split; [|exact P3].
        apply in_tileCells; [lia|]. eauto.
  Qed.

  Lemma tileLoop_spec ts r dX pts : forall l, tileLoop zero get ts r dX pts (freshBuf zero ts) = Some l ->
    (forall k c, In (k, c) l <-> In k pts /\ fillTile get ts r dX (MRect.px k) (py k) (freshBuf zero ts) = Some (c, true)) /\
    (forall k, In k pts -> fillTile get ts r dX (MRect.px k) (py k) (freshBuf zero ts) <> None).
  Proof.
    induction pts as [|p pts IH]; intros l; cbn [tileLoop].
    - intros E. injection E as <-. split; [intros; cbn; tauto|intros ? []].
    - destruct (fillTile get ts r dX (MRect.px p) (py p) (freshBuf zero ts)) as [[b [|]]|] eqn:F; [| |discriminate].
      + destruct (tileLoop zero get ts r dX pts (freshBuf zero ts)) as [l'|] eqn:L; [|discriminate].
        intros E. injection E as <-. destruct (IH l' eq_refl) as [I1 I2]. split.
        * intros k c. cbn [In]. rewrite I1. split.
          -- intros [E|[H1 H2]]; [injection E as <- <-; split; [now left|exact F]|]. split; [now right|exact H2].
          -- intros [[<-|H] H2]; [left; congruence|]. now right.
        * intros k [<-|H]; [congruence|now apply I2].
      + assert (b = freshBuf zero ts) as -> by (eapply fill_unused; exact F).
        intros E. destruct (IH l E) as [I1 I2]. split.
        * intros k c. cbn [In]. rewrite I1. split.
          -- intros [H1 H2]. split; [now right|exact H2].
          -- intros [[<-|H] H2]; [congruence|]. now split.
        * intros k [<-|H]; [congruence|now apply I2].
  Qed.
  Lemma tileLoop_total ts r dX pts : (forall k, In k pts -> fillTile get ts r dX (MRect.px k) (py k) (freshBuf zero ts) <> None) ->
    exists l, tileLoop zero get ts r dX pts (freshBuf zero ts) = Some l.
  Proof.
    induction pts as [|p pts IH]; intros H; cbn [tileLoop]; [eauto|].
    destruct IH as [l L]; [intros; apply H; now right|]. specialize (H p (or_introl eq_refl)).
    destruct (fillTile get ts r dX (MRect.px p) (py p) (freshBuf zero ts)) as [[b [|]]|] eqn:F; [| |congruence].
    - rewrite L. eauto.
    - assert (b = freshBuf zero ts) as -> by (eapply fill_unused; exact F). eauto.
  Qed.

  Lemma in_gridPoints ts x0 x1 y0 y1 k : In k (gridPoints ts x0 x1 y0 y1) <-> In (MRect.px k) (forUp x0 x1 ts) /\ In (py k) (forUp y0 y1 ts).
  Proof.
    unfold gridPoints. rewrite in_flat_map. split.
    - intros (ty & H & Hk). apply in_map_iff in Hk. destruct Hk as (tx & <- & Hx). cbn. auto.
    - intros [H1 H2]. exists (py k). split; [exact H2|]. apply in_map_iff. exists (MRect.px k). split; [now destruct k|exact H1].
  Qed.

  Definition grid (ts : Z) (r : rect) (k : point) : Prop :=
    In (MRect.px k) (forUp (gridStart ts (rx0 r)) (rx1 r) ts) /\ In (py k) (forUp (gridStart ts (ry0 r)) (ry1 r) ts).

  Lemma grid_split cpus ts r k : (1 <= cpus)%nat -> 0 < ts ->
    grid ts r k <-> exists a b, In (a, b) (tileWorkers cpus ts (gridStart ts (ry0 r)) (ry1 r)) /\
      In k (gridPoints ts (gridStart ts (rx0 r)) (rx1 r) a b).
  Proof.
    intros Hc Ht. unfold grid. rewrite <- (proj1 (tileWorkers_forUp cpus ts (gridStart ts (ry0 r)) (ry1 r) Hc Ht)).
    rewrite in_concat. split.
    - intros (H1 & l & Hl & Hy). apply in_map_iff in Hl. destruct Hl as ([a b] & <- & Hab). exists a, b. split; [exact Hab|].
      apply in_gridPoints. auto.
    - intros (a & b & Hab & Hk). apply in_gridPoints in Hk. destruct Hk as [H1 H2]. split; [exact H1|]. exists (forUp a b ts). split; [|exact H2].
      apply in_map_iff. exists (a, b). auto.
  Qed.

  Lemma newTiled_in cpus ts r dX ws : (1 <= cpus)%nat -> 0 < ts -> newTiled zero get cpus ts r dX = Some ws ->
    (forall k c, In (k, c) (concat ws) <-> grid ts r k /\ fillTile get ts r dX (MRect.px k) (py k) (freshBuf zero ts) = Some (c, true)) /\
    (forall k, grid ts r k -> fillTile get ts r dX (MRect.px k) (py k) (freshBuf zero ts) <> None).
  Proof.
    intros Hc Ht E. unfold newTiled in E. apply allSome_some in E. split.
    - intros k c. rewrite (grid_split cpus ts r k Hc Ht), in_concat. split.
      + intros (l & Hl & Hk). assert (In (Some l) (map Some ws)) as H by now apply in_map. rewrite <- E in H.
        apply in_map_iff in H. destruct H as ([a b] & Hw & Hab). apply tileLoop_spec in Hw. apply (proj1 Hw) in Hk. destruct Hk as [H1 H2].
        split; [|exact H2]. exists a, b. auto.
      + intros [(a & b & Hab & Hk) F].
        assert (In (tileWorker zero get ts r dX (gridStart ts (rx0 r)) (rx1 r) a b) (map Some ws)) as H.
        { rewrite <- E. apply in_map_iff. exists (a, b). auto. }
        apply in_map_iff in H. destruct H as (l & Hl & Hws). exists l. split; [exact Hws|].
        symmetry in Hl. apply tileLoop_spec in Hl. apply (proj1 Hl). auto.
    - intros k Hk. apply (grid_split cpus ts r k Hc Ht) in Hk. destruct Hk as (a & b & Hab & Hk).
      assert (In (tileWorker zero get ts r dX (gridStart ts (rx0 r)) (rx1 r) a b) (map Some ws)) as H.
      { rewrite <- E. apply in_map_iff. exists (a, b). auto. }
      apply in_map_iff in H. destruct H as (l & Hl & Hws). symmetry in Hl. apply tileLoop_spec in Hl. now apply (proj2 Hl).
  Qed.

  Lemma grid_unique ts r k k' p : 0 < ts -> grid ts r k -> grid ts r k' -> in_tile ts k p -> in_tile ts k' p -> k = k'.
  Proof.
    intros Ht [H1 H2] [H3 H4] [P1 P2] [P3 P4]. apply in_forUp in H1, H2, H3, H4; try lia.
    destruct H1 as (_ & a & _ & A), H2 as (_ & b & _ & B), H3 as (_ & a' & _ & A'), H4 as (_ & b' & _ & B').
    destruct k as [x y], k' as [x' y']. cbn [MRect.px py] in *. assert (a = a') by nia. assert (b = b') by nia. subst a' b'. f_equal; lia.
  Qed.
  Lemma grid_cover ts r p : 0 < ts -> gridStart ts (rx0 r) <= MRect.px p < rx1 r -> gridStart ts (ry0 r) <= py p < ry1 r ->
    exists k, grid ts r k /\ in_tile ts k p.
  Proof.
    intros Ht Hx Hy. set (x0 := gridStart ts (rx0 r)) in *. set (y0 := gridStart ts (ry0 r)) in *.
    pose proof (Z.mul_div_le (MRect.px p - x0) ts Ht). pose proof (Z.mul_succ_div_gt (MRect.px p - x0) ts Ht).
    pose proof (Z.mul_div_le (py p - y0) ts Ht). pose proof (Z.mul_succ_div_gt (py p - y0) ts Ht).
    assert (0 <= (MRect.px p - x0) / ts) by (apply Z.div_pos; lia). assert (0 <= (py p - y0) / ts) by (apply Z.div_pos; lia).
    set (i := (MRect.px p - x0) / ts) in *. set (j := (py p - y0) / ts) in *.
    exists (Pt (x0 + i * ts) (y0 + j * ts)). unfold grid, in_tile. cbn [MRect.px py]. fold x0 y0. split; [|split; nia].
    split; apply in_forUp; try lia; (split; [nia|]); [exists i|exists j]; lia.
  Qed.

  (** The tiles, whatever the schedule. *)
  Lemma tiles_spec cpus ts r dX ws s : (1 <= cpus)%nat -> 0 < ts -> newTiled zero get cpus ts r dX = Some ws -> interleave ws s ->
    let m := exec putTile s [] in
    well_tiled ts m /\
    (forall p, pt_in p r = true -> gridStart ts (rx0 r) <= MRect.px p -> gridStart ts (ry0 r) <= py p ->
       exists o, get (sample_pos r dX p) = Some o /\ shows ts zero m p (match o with Some v => v | None => zero end)) /\
    (forall p, pt_in p r = false -> shows ts zero m p zero) /\
    (forall p, MRect.px p < gridStart ts (rx0 r) \/ py p < gridStart ts (ry0 r) -> shows ts zero m p zero).
  Proof.
    intros Hc Ht E Hi m. destruct (newTiled_in _ _ _ _ _ Hc Ht E) as [N1 N2].
    assert (forall k c, m_get pt_eqb m k = Some c <-> grid ts r k /\ fillTile get ts r dX (MRect.px k) (py k) (freshBuf zero ts) = Some (c, true)) as M.
    { intros k c. unfold m. rewrite m_get_tiles.
      - rewrite (interleave_in _ _ Hi), N1. cbn [m_get]. split; [intros [H|[_ H]]; [exact H|discriminate]|now left].
      - intros k' c1 c2 H1 H2. apply (interleave_in _ _ Hi) in H1, H2. apply N1 in H1, H2. destruct H1, H2. congruence. }
    clearbody m.
    assert (forall p, gridStart ts (rx0 r) <= MRect.px p < rx1 r -> gridStart ts (ry0 r) <= py p < ry1 r -> 
      (exists k c u, grid ts r k /\ in_tile ts k p /\ fillTile get ts r dX (MRect.px k) (py k) (freshBuf zero ts) = Some (c, u))) as Cov.
    { intros p Hx Hy. destruct (grid_cover ts r p Ht Hx Hy) as (k & K1 & K2). specialize (N2 k K1).
      destruct (fillTile get ts r dX (MRect.px k) (py k) (freshBuf zero ts)) as [[c u]|] eqn:F; [|congruence]. exists k, c, u. auto. }
    split; [|split; [|split]].
    - split.
      + intros k k' c c' p H1 H2. apply M in H1, H2. apply (grid_unique ts r k k' p Ht); tauto.
      + intros k c H. apply M in H. destruct H as [_ H]. apply fillTile_spec in H; [|lia]. apply H.
    - intros p Hp Gx Gy. assert (Hp' := Hp). unfold pt_in in Hp'. destruct (Cov p) as (k & c & u & K1 & K2 & F); [lia|lia|].
      destruct (fillTile_spec _ _ _ _ _ _ Ht F) as (F1 & F2 & F3 & F4). destruct (F2 p K2 Hp) as (o & Go & Ho).
      exists o. split; [exact Go|]. destruct u.
      + left. exists k, c. split; [apply M; auto|]. auto.
      + right. destruct o as [v|].
        * exfalso. assert (false = true) by (apply F4; eauto). discriminate.
        * split; [reflexivity|]. intros k' c' Hm Hk'. apply M in Hm. destruct Hm as [M1 M2].
          assert (k = k') by (apply (grid_unique ts r k k' p Ht); auto). subst k'. congruence.
    - intros p Hp. unfold shows.
      destruct (existsb (fun kc => (MRect.px (fst kc) <=? MRect.px p) && (MRect.px p <? MRect.px (fst kc) + ts) && (py (fst kc) <=? py p) && (py p <? py (fst kc) + ts)) (concat ws)) eqn:X.
      + apply existsb_exists in X. destruct X as ([k c] & K1 & K2). cbn [fst] in K2. apply N1 in K1. assert (in_tile ts k p) by (unfold in_tile; lia).
        left. exists k, c. split; [apply M; exact K1|]. split; [assumption|]. destruct K1 as [_ F]. apply fillTile_spec in F; [|lia]. apply F; assumption.
      + right. split; [reflexivity|]. intros k c Hm Hk. apply M in Hm. apply N1 in Hm.
        assert (existsb (fun kc => (MRect.px (fst kc) <=? MRect.px p) && (MRect.px p <? MRect.px (fst kc) + ts) && (py (fst kc) <=? py p) && (py p <? py (fst kc) + ts)) (concat ws) = true); [|congruence].
        apply existsb_exists. exists (k, c). split; [exact Hm|]. cbn [fst]. unfold in_tile in Hk. lia.
    - intros p Hp. right. split; [reflexivity|]. intros k c Hm [Hx Hy]. apply M in Hm. destruct Hm as [[G1 G2] _].
      apply in_forUp in G1, G2; try lia.
  Qed.

  Lemma newTiled_total cpus ts r dX : (1 <= cpus)%nat -> 0 < ts ->
    (forall p, pt_in p r = true -> get (sample_pos r dX p) <> None) -> exists ws, newTiled zero get cpus ts r dX = Some ws.
  Proof.
    intros Hc Ht H. unfold newTiled.
    assert (forall l, exists ws, allSome (map (fun '(a, b) => tileWorker zero get ts r dX (gridStart ts (rx0 r)) (rx1 r) a b) l) = Some ws) as A.
    { induction l as [|[a b] l [ws IH]]; [now exists []|]. cbn [map allSome]. destruct (tileLoop_total ts r dX (gridPoints ts (gridStart ts (rx0 r)) (rx1 r) a b)) as [w W].
      - intros k _. unfold fillTile. destruct (fill_total get (tileCells ts r dX (MRect.px k) (py k)) (freshBuf zero ts) false) as (b' & u' & ->); [|discriminate].
        intros d s Hin. apply in_tileCells in Hin; [|lia]. destruct Hin as (p & P1 & P2 & -> & ->). split; [now apply H|].
        rewrite zlen_fresh by lia. now apply off_range.
      - exists (w :: ws). change (tileWorker zero get ts r dX (gridStart ts (rx0 r)) (rx1 r) a b) with (tileLoop zero get ts r dX (gridPoints ts (gridStart ts (rx0 r)) (rx1 r) a b) (freshBuf zero ts)).
        rewrite W, IH. reflexivity. }
    apply A.
  Qed.
End tiles.

Lemma gridStart_le ts a : 0 < ts -> 0 <= a -> gridStart ts a <= a.
Proof. intros. unfold gridStart. rewrite quot_nonneg by lia. pose proof (Z.mul_div_le a ts). lia. Qed.
Lemma gridStart_neg ts a : 0 < ts -> gridStart ts a <= a \/ a < 0.
Proof. intros. destruct (Z.le_gt_cases 0 a); [left; now apply gridStart_le|right; lia]. Qed.

Lemma sample_range r dX p : 0 < dX -> pt_in p r = true -> 0 <= sample_pos r dX p /\ sample_pos r dX p <= (rdx r * rdy r - 1) * dX.
Proof.
  intros Hd H. unfold pt_in in H. unfold sample_pos, rdx, rdy. destruct p as [x y]. cbn [MRect.px py] in *.
  assert (0 <= y - ry0 r <= ry1 r - ry0 r - 1) by lia. assert (0 <= x - rx0 r <= rx1 r - rx0 r - 1) by lia.
  set (w := rx1 r - rx0 r) in *. set (h := ry1 r - ry0 r) in *. set (j := y - ry0 r) in *. set (i := x - rx0 r) in *. clearbody w h i j.
  assert (0 <= j * w + i <= w * h - 1) as H2 by nia. set (n := j * w + i) in *. set (m := w * h - 1) in *. clearbody n m. nia.
Qed.

Lemma gridStart_nonneg ts a x : 0 < ts -> a <= x -> 0 <= x -> gridStart ts a <= x.
Proof.
  intros Ht H1 H2. destruct (Z.le_gt_cases 0 a); [pose proof (gridStart_le ts a Ht); lia|].
  unfold gridStart. assert (Z.quot a ts <= 0) by (apply Z.quot_le_upper_bound; lia). nia.
Qed.
Lemma idx_lt {A} (l : list A) i : 0 <= i < zlen l -> exists v, idx l i = Some v.
Proof.
  intros H. unfold idx. replace (i <? 0) with false by lia. destruct (nth_error l (Z.to_nat i)) eqn:E; [eauto|].
  apply nth_error_None in E. unfold zlen in H. lia.
Qed.
Lemma sample_plane r dX p b : 0 < dX -> plane_ok r dX b -> pt_in p r = true -> exists v, idx b (sample_pos r dX p) = Some v.
Proof. intros Hd Hb Hp. destruct (sample_range r dX p Hd Hp). apply idx_lt. unfold plane_ok in Hb. split; [lia|]. nia. Qed.

Lemma getImage_source r g b a dX rc p : 0 < dX -> plane_ok rc dX r -> plane_ok rc dX g -> plane_ok rc dX b ->
  match a with Some a => plane_ok rc dX a | None => True end -> pt_in p rc = true ->
  exists o, getImage r g b a (sample_pos rc dX p) = Some o /\
    source_px r g b a (sample_pos rc dX p) (match o with Some v => v | None => Px 0 0 0 0 end).
Proof.
  intros Hd Hr Hg Hb Ha Hp. destruct (sample_plane _ _ _ _ Hd Hr Hp) as [rv Er]. destruct (sample_plane _ _ _ _ Hd Hg Hp) as [gv Eg].
  destruct (sample_plane _ _ _ _ Hd Hb Hp) as [bv Eb]. unfold getImage, source_px. rewrite Er, Eg, Eb. destruct a as [a|].
  - destruct (sample_plane _ _ _ _ Hd Ha Hp) as [av Ea]. rewrite Ea. destruct (0 <? av) eqn:E.
    + eexists. split; [reflexivity|]. exists rv, gv, bv, av. rewrite E. auto.
    + eexists. split; [reflexivity|]. exists rv, gv, bv, av. rewrite E. auto 10.
  - eexists. split; [reflexivity|]. exists rv, gv, bv, 255. auto 10.
Qed.
Lemma source_px_fun r g b a i v v' : source_px r g b a i v -> source_px r g b a i v' -> v = v'.
Proof.
  intros (r1 & g1 & b1 & a1 & R1 & G1 & B1 & A1 & ->) (r2 & g2 & b2 & a2 & R2 & G2 & B2 & A2 & ->).
  assert (a1 = a2) by (destruct a; congruence). assert (r1 = r2) by congruence. assert (g1 = g2) by congruence. assert (b1 = b2) by congruence. now subst.
Qed.

Lemma newTiledImage_spec cpus ts rc r g b a dX : (1 <= cpus)%nat -> 0 < ts -> 0 < dX ->
  plane_ok rc dX r -> plane_ok rc dX g -> plane_ok rc dX b -> match a with Some a => plane_ok rc dX a | None => True end ->
  exists ws, newTiledImage cpus ts rc r g b a dX = Some ws /\
  forall s, interleave ws s -> let m := exec putTile s [] in
    well_tiled ts m /\
    (forall p, pt_in p rc = true -> 0 <= MRect.px p -> 0 <= py p ->
       exists v, source_px r g b a (sample_pos rc dX p) v /\ shows ts (Px 0 0 0 0) m p v) /\
    (forall p, pt_in p rc = true -> MRect.px p < 0 \/ py p < 0 ->
       exists v, source_px r g b a (sample_pos rc dX p) v /\ (shows ts (Px 0 0 0 0) m p v \/ shows ts (Px 0 0 0 0) m p (Px 0 0 0 0))) /\
    (forall p, pt_in p rc = false -> shows ts (Px 0 0 0 0) m p (Px 0 0 0 0)).
Proof.
  intros Hc Ht Hd Hr Hg Hb Ha. unfold newTiledImage.
  destruct (newTiled_total (Px 0 0 0 0) (getImage r g b a) cpus ts rc dX Hc Ht) as [ws W].
  { intros p Hp. destruct (getImage_source r g b a dX rc p) as (o & -> & _); auto; discriminate. }
  exists ws. split; [exact W|]. intros s Hs. set (m := exec putTile s []). destruct (tiles_spec _ _ _ _ _ _ _ s Hc Ht W Hs) as (T1 & T2 & T3 & T4). fold m in T1, T2, T3, T4.
  split; [exact T1|]. split; [|split; [|exact T3]].
  - intros p Hp Hx Hy. destruct (getImage_source r g b a dX rc p) as (o & G & S); auto.
    destruct (T2 p Hp) as (o' & G' & S').
    + apply gridStart_nonneg; unfold pt_in in Hp; lia.
    + apply gridStart_nonneg; unfold pt_in in Hp; lia.
    + rewrite G in G'. injection G' as <-. eauto.
  - intros p Hp Hn. destruct (getImage_source r g b a dX rc p) as (o & G & S); auto.
    eexists. split; [exact S|].
    destruct (Z.lt_ge_cases (MRect.px p) (gridStart ts (rx0 rc))); [right; apply T4; lia|].
    destruct (Z.lt_ge_cases (py p) (gridStart ts (ry0 rc))); [right; apply T4; lia|].
    destruct (T2 p Hp) as (o' & G' & S'); try lia. rewrite G in G'. injection G' as <-. now left.
Qed.

Lemma newTiledMask_spec cpus ts rc a dc : (1 <= cpus)%nat -> 0 < ts -> plane_ok rc 1 a ->
  exists ws, newTiledMask cpus ts rc a dc = Some ws /\
  forall s, interleave ws s -> let m := exec putTile s [] in
    well_tiled ts m /\
    (forall p, pt_in p rc = true -> 0 <= MRect.px p -> 0 <= py p ->
       exists v, shows ts 0 m p v /\ idx a (sample_pos rc 1 p) = Some (mask_value dc v)) /\
    (forall p, pt_in p rc = false -> shows ts 0 m p 0).
Proof.
  intros Hc Ht Ha. unfold newTiledMask. destruct (newTiled_total 0 (getMask a dc) cpus ts rc 1 Hc Ht) as [ws W].
  { intros p Hp. destruct (sample_plane rc 1 p a ltac:(lia) Ha Hp) as [v E]. unfold getMask. rewrite E.
    destruct (dc =? 0), (v =? 0), (v =? 255); discriminate. }
  exists ws. split; [exact W|]. intros s Hs. set (m := exec putTile s []). destruct (tiles_spec _ _ _ _ _ _ _ s Hc Ht W Hs) as (T1 & T2 & T3 & _). fold m in T1, T2, T3.
  split; [exact T1|]. split; [|exact T3]. intros p Hp Hx Hy. destruct (T2 p Hp) as (o & G & S).
  - apply gridStart_nonneg; unfold pt_in in Hp; lia.
  - apply gridStart_nonneg; unfold pt_in in Hp; lia.
  - eexists. split; [exact S|]. unfold getMask in G. destruct (idx a (sample_pos rc 1 p)) as [v|]; [|discriminate].
    unfold mask_value. destruct (Z.eqb_spec dc 0); destruct (Z.eqb_spec v 0); destruct (Z.eqb_spec v 255); injection G as <-; f_equal; lia.
Qed.
