From Verif Require Import Base BaseFacts MRect MSched PSched MDraw SDraw PDraw PDraw2 PDraw3.
Open Scope Z_scope.

(** ** Uniform sources. *)

Lemma no_draw {V} ds (f : list V -> list V -> option (list V)) area sources dst (h : list V) :
  (forall p, ~ area p) -> all_runs ds f [] h (drawn ds f area sources dst h).
Proof.
  intros Hno q Hq. exists h.
  assert (q = []) as ->.
  { inversion Hq; [reflexivity|]. destruct l1; discriminate. }
  split; [reflexivity|]. split; [reflexivity|]. split; [intros p ? ? Hp; destruct (Hno p Hp)|reflexivity].
Qed.

Section uniform.
  Variables (dst : view) (js : list Z) (dyD : Z).
  Definition rowG (d : Z) : list pact := map (fun j => PA (vbase dst + d + j) [] true) js.

  Lemma rowsU_eq off y : (forall k j, 0 <= k < y -> In j js -> inSlice (vlen dst - off) (k * dyD) j 4 = true) -> 
    rowsU dst js off y dyD = map (fun k => rowG (off + k * dyD)) (zseq (Z.to_nat y)).
  Proof.
    intros H. unfold rowsU. rewrite rows_eq. apply map_ext_in. intros k Hk. apply in_zseq in Hk.
    unfold rowG. apply map_ext_in. intros j Hj. unfold pixelU. rewrite Z.add_0_l, H by (assumption || lia). f_equal. lia.
  Qed.

  Lemma splitUniform_rows step : 1 <= step -> 0 <= dyD -> forall m off y, 0 <= off -> Z.of_nat m * step < y ->
    (forall k j, 0 <= k < y -> In j js -> 0 <= j /\ off + k * dyD + j + 4 <= vlen dst) -> js <> [] ->
    exists ws, splitUniform m (vlen dst) off y step dyD = Some ws /\ length ws = S m /\
      concat (map (fun w => rowsU dst js (fst w) (snd w) dyD) ws) = map (fun k => rowG (off + k * dyD)) (zseq (Z.to_nat y)).
  Proof.
    intros Hst Hd m. induction m as [|m IH]; intros off y H0 Hy Hb Hjs.
    - exists [(off, y)]. split; [reflexivity|]. split; [reflexivity|]. cbn [map concat fst snd]. rewrite app_nil_r. apply rowsU_eq.
      intros k j Hk Hj. destruct (Hb k j Hk Hj). unfold inSlice. assert (0 <= k * dyD) by nia. lia.
    - cbn [splitUniform]. destruct js as [|j0 js'] eqn:Ejs; [congruence|].
      assert (0 <= dyD * step) by nia.
      destruct (Hb step j0) as [B1 B2]; [nia|now left|].
      replace ((0 <=? dyD * step) && _) with true by lia.
      destruct (IH (off + dyD * step) (y - step)) as (ws & -> & E2 & E3); [lia|nia| |congruence|].
      { intros k j Hk Hj. destruct (Hb (k + step) j); [lia|assumption|]. split; [assumption|nia]. }
      eexists. split; [reflexivity|]. split; [cbn; now rewrite E2|]. cbn [map concat fst snd]. rewrite E3.
      rewrite <- Ejs in *. rewrite rowsU_eq.
      2:{ intros k j Hk Hj. destruct (Hb k j); [nia|assumption|]. unfold inSlice. assert (0 <= k * dyD) by nia. lia. }
      replace (Z.to_nat y) with (Z.to_nat step + Z.to_nat (y - step))%nat by nia. rewrite zseq_add, map_app, map_map. f_equal.
      apply map_ext. intros k. f_equal. rewrite Z2Nat.id by lia. lia.
  Qed.
End uniform.

Theorem drawUniform_drawn {V} cpus dst r sp f (h : list V) :
  (1 <= cpus)%nat -> view_ok 4 dst (zlen h) ->
  defined_on 4 f (in_clip (vrect dst) r uniformBounds sp None (Pt 0 0)) (fun p l => l = []) dst h ->
  exists ls, drawUniform cpus dst r sp = Some ls /\
    all_runs 4 f ls h (drawn 4 f (in_clip (vrect dst) r uniformBounds sp None (Pt 0 0)) (fun p l => l = []) dst h).
Proof.
  intros Hcpu Hd Hf. unfold drawUniform.
  destruct (clipRect (vrect dst) r uniformBounds sp None (Pt 0 0)) as [[R sp'] mp'] eqn:Hc.
  assert (forall p, pt_in p R = true <-> in_clip (vrect dst) r uniformBounds sp None (Pt 0 0) p) as Hp.
  { intros p. rewrite <- clip_points, Hc. reflexivity. }
  destruct (rempty R) eqn:He.
  - exists []. split; [reflexivity|]. apply no_draw. intros p Hi. apply Hp in Hi. unfold rempty in He. rewrite pt_in_spec in Hi. lia.
  - assert (0 < rdx R /\ 0 < rdy R) as [Hdx Hdy] by (unfold rempty, rdx, rdy in *; lia).
    assert (forall p, pt_in p R = true -> pt_in p (vrect dst) = true) as Hin by (intros p Hi; apply Hp in Hi; apply Hi).
    pose proof (off_bounds 4 dst _ _ ltac:(lia) Hd (Hin _ (corner_in _ He))) as Hb0. unfold rmin in Hb0; cbn [px py] in Hb0.
    assert (0 <= vstride dst) as Hst.
    { destruct Hd as (_ & _ & _ & Hd). pose proof (Hin _ (corner_in _ He)) as Hi. rewrite pt_in_spec in Hi. destruct Hd; [unfold rempty; lia|].
      unfold rdx in *. lia. }
    set (off := pixOffset 4 dst (rx0 R) (ry0 R)).
    assert (off = (ry0 R - ry0 (vrect dst)) * vstride dst + (rx0 R - rx0 (vrect dst)) * 4) as Eoff by reflexivity.
    replace ((0 <=? off) && (off <=? vlen dst)) with true by lia.
    rewrite shiftl2. rewrite cols_eq with (n := Z.to_nat (rdx R)) by lia.
    set (js := map snd _). assert (js = map (fun k => k * 4) (zseq (Z.to_nat (rdx R)))) as Ejs.
    { unfold js. rewrite map_map. apply map_ext. intros; cbn [snd]; lia. }
    clearbody js.
    assert (js <> []) as Hjs.
    { rewrite Ejs. replace (Z.to_nat (rdx R)) with (S (Z.to_nat (rdx R - 1))) by lia. rewrite zseq_S. discriminate. }
    assert (forall k j, 0 <= k < rdy R -> In j js -> 0 <= j /\ off + k * vstride dst + j + 4 <= vlen dst) as Hb.
    { intros k j Hk Hj. rewrite Ejs in Hj. apply in_map_iff in Hj. destruct Hj as (t & <- & Ht). apply in_zseq in Ht. split; [lia|].
      pose proof (off_bounds 4 dst _ (Pt (rx0 R + t) (ry0 R + k)) ltac:(lia) Hd) as Hb. cbn [px py] in Hb.
      assert (pt_in (Pt (rx0 R + t) (ry0 R + k)) R = true) as Hi by (rewrite pt_in_spec; cbn [px py]; unfold rdx, rdy in *; lia).
      specialize (Hb (Hin _ Hi)). lia. }
    destruct (fitWorkers_spec cpus (rdy R) Hcpu) as [Hn1 Hn2]. set (n := fitWorkers cpus (rdy R)) in *.
    assert (exists ws, (if Nat.eqb n 1 then Some [(off, rdy R)]
       else splitUniform (n - 1) (vlen dst) off (rdy R) (rdy R / Z.of_nat n) (vstride dst)) = Some ws /\
       concat (map (fun w => rowsU dst js (fst w) (snd w) (vstride dst)) ws) = map (fun k => rowG dst js (off + k * vstride dst)) (zseq (Z.to_nat (rdy R)))) as (ws & -> & Ews).
    { destruct (Nat.eqb n 1) eqn:En.
      - exists [(off, rdy R)]. split; [reflexivity|]. cbn [map concat fst snd]. rewrite app_nil_r. apply rowsU_eq.
        intros k j Hk Hj. destruct (Hb k j Hk Hj). unfold inSlice. assert (0 <= k * vstride dst) by nia. lia.
      - apply Nat.eqb_neq in En. assert (1 <= rdy R / Z.of_nat n) by (apply Z.div_le_lower_bound; lia).
        pose proof (Z.mul_div_le (rdy R) (Z.of_nat n) ltac:(lia)).
        destruct (splitUniform_rows dst js (vstride dst) (rdy R / Z.of_nat n) ltac:(lia) Hst (n - 1) off (rdy R)) as (ws & E1 & E2 & E3); try assumption; try lia.
        exists ws. auto. }
    eexists. split; [reflexivity|].
    rewrite <- (map_map (fun w => rowsU dst js (fst w) (snd w) (vstride dst)) (@concat pact)).
    eapply (grid_drawn 0 4 f dst (gpt true R) (fun _ => []) (Z.to_nat (rdx R)) (Z.to_nat (rdy R)) _ _ h).
    + rewrite Ews. apply map_ext. intros k. unfold rowG. rewrite Ejs, map_map. apply map_ext. intros t.
      unfold gact, gpt, paddr. cbn [px py]. f_equal. rewrite Eoff. lia.
    + intros p. rewrite <- Hp. now apply gpt_range.
    + intros p Hi. apply Hp in Hi. auto.
    + exact Hd.
    + lia.
    + intros p _. split; [reflexivity|]. intros x [].
    + apply gpt_inj.
    + intros k t k' t' _ _ _ _ _ x _ [].
    + right. intros k t k' t' _ _ _ _ _ x _ [].
    + intros p l. cbn [reads]. split; congruence.
    + exact Hf.
Qed.

(** ** The fallback. *)

Section fallback.
  Variables (dst src : view) (mask : option view) (pX spX mpX endX d cy my : Z).
  Variable xs : list Z.
  Hypothesis Hxs : loopF pX endX d = Some xs.
  Hypothesis Hd : d = 1 \/ d = -1.
  Definition rowF (y : Z) : list pact :=
    map (fun x => pixelF dst src mask x y (spX + (x - pX)) (cy + y) (mpX + (x - pX)) (my + y)) xs.

  Lemma bodyF_eq pY spY mpY endY n : endY = pY + Z.of_nat n * d -> spY = cy + pY -> mpY = my + pY ->
    bodyF dst src mask pX pY spX spY mpX mpY endX endY d = Some (map (fun k => rowF (pY + k * d)) (zseq n)).
  Proof.
    intros -> -> ->. unfold bodyF. rewrite Hxs. unfold loopF. rewrite steps_eq with (n := n) by (destruct Hd; lia).
    rewrite map_map. f_equal. apply map_ext. intros k. unfold rowF. apply map_ext. intros x. f_equal; lia.
  Qed.

  Lemma splitF_rows st : forall m pY spY mpY endY n, endY = pY + Z.of_nat n * d -> spY = cy + pY -> mpY = my + pY ->
    (m * st <= n)%nat ->
    exists ls, omapM (fun w => let '(pY, spY, mpY, endY) := w in bodyF dst src mask pX pY spX spY mpX mpY endX endY d)
        (splitF m pY spY mpY (pY + Z.of_nat st * d) endY (Z.of_nat st * d)) = Some ls /\ length ls = S m /\
      concat ls = map (fun k => rowF (pY + k * d)) (zseq n).
  Proof.
    induction m as [|m IH]; intros pY spY mpY endY n HE HS HM Hle; cbn [splitF omapM].
    - rewrite (bodyF_eq _ _ _ _ n) by assumption. eexists. split; [reflexivity|]. split; [reflexivity|]. cbn [concat]. apply app_nil_r.
    - rewrite (bodyF_eq _ _ _ _ st) by (assumption || lia).
      replace (pY + Z.of_nat st * d + Z.of_nat st * d) with ((pY + Z.of_nat st * d) + Z.of_nat st * d) by lia.
      destruct (IH (pY + Z.of_nat st * d) (spY + Z.of_nat st * d) (mpY + Z.of_nat st * d) endY (n - st)%nat) as (ls & -> & E1 & E2); [nia|lia|lia|nia|].
      eexists. split; [reflexivity|]. split; [cbn; now rewrite E1|]. cbn [concat]. rewrite E2.
      replace n with (st + (n - st))%nat at 2 by nia. rewrite zseq_add, map_app, map_map. f_equal.
      apply map_ext. intros k. f_equal. lia.
  Qed.
End fallback.

Definition fsrcs (src : view) (mask : option view) (r : rect) (sp mp p : point) : list Z :=
  paddr 1 src (aligned r sp p) :: match mask with None => [] | Some m => [paddr 1 m (aligned r mp p)] end.

(** The source cell and, if there is one, the mask cell of a pixel. *)
Definition fsources {V} (h : list V) (src : view) (mask : option view) (r : rect) (sp mp p : point) (l : list V) : Prop :=
  exists s, pixel_is h 1 src (aligned r sp p) s /\
    match mask with None => l = s | Some m => exists a, pixel_is h 1 m (aligned r mp p) a /\ l = s ++ a end.

Lemma pixel_is_1 {V} (h : list V) v p l : pixel_is h 1 v p l -> exists c, l = [c] /\ idx h (paddr 1 v p) = Some c.
Proof.
  intros [H1 H2]. destruct l as [|c [|? ?]]; [discriminate| |rewrite !zlen_cons in H1; pose proof (zlen_nonneg l); lia].
  exists c. split; [reflexivity|]. specialize (H2 0 ltac:(lia)). now rewrite Z.add_0_r, idx_cons_0 in H2.
Qed.

Lemma pixel_is_cell {V} (h : list V) v p c : idx h (paddr 1 v p) = Some c -> pixel_is h 1 v p [c].
Proof. intros H. split; [reflexivity|]. intros k Hk. replace k with 0 by lia. now rewrite Z.add_0_r, idx_cons_0. Qed.

Lemma cellOf_paddr v x y : cellOf v x y = paddr 1 v (Pt x y). Proof. reflexivity. Qed.

Theorem drawFallback_drawn {V} cpus same dst src r sp mask mp f (h : list V) :
  (1 <= cpus)%nat -> view_ok 1 dst (zlen h) -> view_ok 1 src (zlen h) ->
  match mask with None => True | Some m => view_ok 1 m (zlen h) /\ separate dst m end ->
  let mb := match mask with None => None | Some m => Some (vrect m) end in
  let r' := fst (fst (clipRect (vrect dst) r (vrect src) sp mb mp)) in
  (separate dst src \/ (src = dst /\ same = true /\ (fitWorkers cpus (rdy r') = 1%nat \/ py sp = ry0 r))) ->
  defined_on 1 f (in_clip (vrect dst) r (vrect src) sp mb mp) (fsources h src mask r sp mp) dst h ->
  exists ls, drawFallback cpus same dst src r sp mask mp = Some ls /\
    (forall a, In a (concat ls) <-> exists p, in_clip (vrect dst) r (vrect src) sp mb mp p /\
       a = PA (paddr 1 dst p) (paddr 1 src (aligned r sp p) :: match mask with None => [] | Some m => [paddr 1 m (aligned r mp p)] end) true) /\
    all_runs 1 f ls h (drawn 1 f (in_clip (vrect dst) r (vrect src) sp mb mp) (fsources h src mask r sp mp) dst h).
Proof.
  intros Hcpu Hd Hs Hm mb r' Hcf Hf. unfold drawFallback. fold mb.
  destruct (clipRect (vrect dst) r (vrect src) sp mb mp) as [[R sp'] mp'] eqn:Hc. cbn [fst] in r'. subst r'.
  assert (forall p, pt_in p R = true <-> in_clip (vrect dst) r (vrect src) sp mb mp p) as Hp.
  { intros p. rewrite <- clip_points, Hc. reflexivity. }
  destruct (rempty R) eqn:He.
  - assert (forall p, ~ in_clip (vrect dst) r (vrect src) sp mb mp p) as Hno.
    { intros p Hi. apply Hp in Hi. unfold rempty in He. rewrite pt_in_spec in Hi. lia. }
    exists []. split; [reflexivity|]. split; [|now apply no_draw]. intros a. split; [intros []|]. intros (p & Hi & _). destruct (Hno p Hi).
  - assert (0 < rdx R /\ 0 < rdy R) as [Hdx Hdy] by (unfold rempty, rdx, rdy in *; lia).
    pose proof (clip_aligned _ _ _ _ _ _ _ _ _ Hc) as Hal.
    assert (forall p, pt_in p R = true -> pt_in p (vrect dst) = true /\ pt_in (aligned R sp' p) (vrect src) = true /\
      match mask with None => True | Some m => pt_in (aligned R mp' p) (vrect m) = true end) as Hin.
    { intros p Hi. apply Hp in Hi. destruct Hi as (_ & H1 & H2 & H3). destruct (Hal p) as [-> ->].
      split; [assumption|]. split; [assumption|]. unfold mb in H3. destruct mask; assumption. }
    set (fwd := negb (processBackward same R sp')).
    set (pX := if fwd then rx0 R else rx1 R - 1). set (pY := if fwd then ry0 R else ry1 R - 1).
    set (endX := if fwd then rx1 R else rx0 R - 1). set (endY := if fwd then ry1 R else ry0 R - 1).
    set (d := if fwd then 1 else -1).
    replace (if processBackward same R sp' then (rx1 R - 1, ry1 R - 1, rx0 R - 1, ry0 R - 1, -1) else (rx0 R, ry0 R, rx1 R, ry1 R, 1))
      with (pX, pY, endX, endY, d) by (unfold pX, pY, endX, endY, d, fwd; destruct (processBackward _ _ _); reflexivity).
    replace (if 0 <? d then endY - pY else pY - endY) with (rdy R) by (unfold d, endY, pY, rdy; destruct fwd; cbn; lia).
    destruct (fitWorkers_spec cpus (rdy R) Hcpu) as [Hn1 Hn2]. set (n := fitWorkers cpus (rdy R)) in *.
    assert (d = 1 \/ d = -1) as Hdd by (unfold d; destruct fwd; auto).
    assert (loopF pX endX d = Some (map (fun k => pX + k * d) (zseq (Z.to_nat (rdx R))))) as Hxs.
    { unfold loopF. apply steps_eq; unfold pX, endX, d, rdx in *; destruct fwd; lia. }
    set (xs := map (fun k => pX + k * d) (zseq (Z.to_nat (rdx R)))) in *.
    set (ofsX := pX - rx0 R) in *. set (ofsY := pY - ry0 R) in *.
    assert (endY = pY + Z.of_nat (Z.to_nat (rdy R)) * d) as HE by (unfold endY, pY, d, rdy in *; destruct fwd; lia).
    set (cy := py sp' + ofsY - pY). set (my := py mp' + ofsY - pY).
    set (G := fun w : Z * Z * Z * Z => let '(pY, spY, mpY, endY) := w in
       bodyF dst src mask pX pY (px sp' + ofsX) spY (px mp' + ofsX) mpY endX endY d).
    assert (exists wss, omapM G (if Nat.eqb n 1 then [(pY, py sp' + ofsY, py mp' + ofsY, endY)]
       else splitF (n - 1) pY (py sp' + ofsY) (py mp' + ofsY) (pY + rdy R / Z.of_nat n * d) endY (rdy R / Z.of_nat n * d)) = Some wss /\
       length wss = n /\
       concat wss = map (fun k => rowF dst src mask pX (px sp' + ofsX) (px mp' + ofsX) cy my xs (pY + k * d)) (zseq (Z.to_nat (rdy R)))) as (wss & -> & Elen & Ews).
    { destruct (Nat.eqb n 1) eqn:En.
      - apply Nat.eqb_eq in En. cbn [omapM]. unfold G.
        rewrite (bodyF_eq dst src mask pX (px sp' + ofsX) (px mp' + ofsX) endX d cy my xs Hxs Hdd _ _ _ _ (Z.to_nat (rdy R))); [|assumption|unfold cy; lia|unfold my; lia].
        eexists. split; [reflexivity|]. split; [cbn; lia|]. cbn [concat]. apply app_nil_r.
      - apply Nat.eqb_neq in En. assert (1 <= rdy R / Z.of_nat n) by (apply Z.div_le_lower_bound; lia).
        pose proof (Z.mul_div_le (rdy R) (Z.of_nat n) ltac:(lia)) as Hmd.
        destruct (splitF_rows dst src mask pX (px sp' + ofsX) (px mp' + ofsX) endX d cy my xs Hxs Hdd (Z.to_nat (rdy R / Z.of_nat n)) (n - 1) pY (py sp' + ofsY) (py mp' + ofsY) endY (Z.to_nat (rdy R))) as (ls & E1 & E2 & E3); [assumption|unfold cy; lia|unfold my; lia| |].
        { apply Nat2Z.inj_le. rewrite Nat2Z.inj_mul, !Z2Nat.id by lia. nia. }
        rewrite Z2Nat.id in E1 by lia. exists ls. split; [exact E1|]. split; [lia|exact E3]. }
    eexists. split; [reflexivity|].
    assert (forall k t, 0 <= k < Z.of_nat (Z.to_nat (rdy R)) -> 0 <= t < Z.of_nat (Z.to_nat (rdx R)) -> pt_in (gpt fwd R k t) R = true) as Hg.
    { intros k t Hk Ht. apply (gpt_range fwd); [assumption|]. exists k, t. auto. }
    assert (forall k t k' t', 0 <= k < Z.of_nat (Z.to_nat (rdy R)) -> 0 <= t < Z.of_nat (Z.to_nat (rdx R)) ->
       0 <= k' < Z.of_nat (Z.to_nat (rdy R)) -> 0 <= t' < Z.of_nat (Z.to_nat (rdx R)) ->
       (separate dst src \/ src = dst /\ gpt fwd R k t <> aligned R sp' (gpt fwd R k' t')) ->
       apart 1 dst (fsrcs src mask R sp' mp') (gpt fwd R k t) (gpt fwd R k' t')) as Hap.
    { intros k t k' t' K T K' T' Hcase x Hx Hi. unfold fsrcs in Hi.
      destruct (Hin _ (Hg k t K T)) as (G1 & _). destruct (Hin _ (Hg k' t' K' T')) as (_ & G2 & G3).
      pose proof (paddr_bounds 1 dst _ _ ltac:(lia) Hd G1) as B1. destruct Hi as [Hi|Hi].
      - destruct Hcase as [Hsep|[-> Hne]].
        + pose proof (paddr_bounds 1 src _ _ ltac:(lia) Hs G2) as B2. unfold separate in Hsep. lia.
        + pose proof (paddr_disjoint 1 dst _ _ _ ltac:(lia) Hd G1 G2 Hne). lia.
      - destruct mask as [m|]; [|destruct Hi]. destruct Hi as [Hi|[]]. destruct Hm as [Hm1 Hm2].
        pose proof (paddr_bounds 1 m _ _ ltac:(lia) Hm1 G3) as B2. unfold separate in Hm2. lia. }
    assert (concat wss = map (fun k => map (fun t => gact 1 dst (fsrcs src mask R sp' mp') (gpt fwd R k t)) (zseq (Z.to_nat (rdx R)))) (zseq (Z.to_nat (rdy R)))) as Egrid.
    { rewrite Ews. apply map_ext_in. intros k Hk. apply in_zseq in Hk. unfold rowF, xs. rewrite map_map. apply map_ext_in. intros t Ht. apply in_zseq in Ht.
      destruct (Hin _ (Hg k t Hk Ht)) as (G1 & G2 & G3).
      assert (Pt (pX + t * d) (pY + k * d) = gpt fwd R k t) as Ep by (unfold gpt, pX, pY, d; destruct fwd; f_equal; lia).
      assert (Pt (px sp' + ofsX + (pX + t * d - pX)) (cy + (pY + k * d)) = aligned R sp' (gpt fwd R k t)) as Eq.
      { rewrite <- Ep. unfold aligned, cy, ofsX, ofsY. cbn [px py]. f_equal; lia. }
      assert (Pt (px mp' + ofsX + (pX + t * d - pX)) (my + (pY + k * d)) = aligned R mp' (gpt fwd R k t)) as Em.
      { rewrite <- Ep. unfold aligned, my, ofsX, ofsY. cbn [px py]. f_equal; lia. }
      unfold pixelF, gact, fsrcs. destruct mask as [m|]; rewrite !cellOf_paddr, ?Em, Ep, Eq, G1, G2, ?G3; reflexivity. }
    split.
    { intros a. rewrite (grid_acts 1 dst (gpt fwd R) (fsrcs src mask R sp' mp') (Z.to_nat (rdx R)) (Z.to_nat (rdy R))
          (in_clip (vrect dst) r (vrect src) sp mb mp) wss Egrid).
      - unfold gact, fsrcs. split; intros (p & Hi & ->); exists p; destruct (Hal p) as [-> ->]; auto.
      - intros p. rewrite <- Hp. now apply gpt_range. }
    eapply (grid_drawn (match mask with None => 1 | Some _ => 2 end) 1 f dst (gpt fwd R) (fsrcs src mask R sp' mp') (Z.to_nat (rdx R)) (Z.to_nat (rdy R)) _ _ h).
    + exact Egrid.
    + intros p. rewrite <- Hp. now apply gpt_range.
    + intros p Hi. apply Hp in Hi. apply (Hin _ Hi).
    + exact Hd.
    + lia.
    + intros p Hi. apply Hp in Hi. destruct (Hin _ Hi) as (_ & G2 & G3). unfold fsrcs. split.
      * destruct mask; reflexivity.
      * pose proof (paddr_bounds 1 src _ _ ltac:(lia) Hs G2). destruct Hs as (? & ? & ? & _).
        intros x [<-|Hx]; [lia|]. destruct mask as [m|]; [|destruct Hx]. destruct Hx as [<-|[]]. destruct Hm as [Hm _].
        pose proof (paddr_bounds 1 m _ _ ltac:(lia) Hm G3). destruct Hm as (? & ? & ? & _). lia.
    + apply gpt_inj.
    + intros k t k' t' K T K' T' Hlt. apply Hap; try assumption. destruct Hcf as [Hsep|(-> & -> & _)]; [now left|right]. split; [reflexivity|].
      intros E. pose proof (Hg k t K T) as W. rewrite pt_in_spec in W. pose proof (Hg k' t' K' T') as W'. rewrite pt_in_spec in W'.
      unfold fwd, processBackward, roverlaps, rempty, radd, psub, rmin, rdx, rdy in *. rewrite E in W. unfold aligned in W, E. cbn [px py rx0 ry0 rx1 ry1] in *.
      destruct (_ && _ && _) eqn:Eb; cbn [negb] in *; unfold gpt in E, W, W'; cbn [px py] in *; injection E; intros; lia.
    + destruct Hcf as [Hsep|(-> & -> & [Hone|Hy])].
      * right. intros; apply Hap; auto.
      * left. lia.
      * right. intros k t k' t' K T K' T' Hlt. apply Hap; try assumption. right. split; [reflexivity|]. rewrite (proj1 (Hal _)).
        intros E. apply (f_equal py) in E. unfold gpt, aligned in E. destruct fwd; cbn [px py] in E; lia.
    + intros p l. unfold fsources, fsrcs. destruct (Hal p) as [-> ->]. split.
      * intros (s & Hs1 & Hl). apply pixel_is_1 in Hs1. destruct Hs1 as (c & -> & Hs1). cbn [reads]. rewrite Hs1.
        destruct mask as [m|]; [|now subst l].
        destruct Hl as (a & Ha & ->). apply pixel_is_1 in Ha. destruct Ha as (c' & -> & Ha). cbn [reads]. rewrite Ha. reflexivity.
      * cbn [reads]. destruct (idx h (paddr 1 src (aligned r sp p))) as [c|] eqn:E1; [|discriminate].
        destruct mask as [m|]; cbn [reads].
        -- destruct (idx h (paddr 1 m (aligned r mp p))) as [c'|] eqn:E2; [|discriminate]. intros [= <-].
           exists [c]. split; [now apply pixel_is_cell|]. exists [c']. split; [now apply pixel_is_cell|reflexivity].
        -- intros [= <-]. exists [c]. split; [now apply pixel_is_cell|reflexivity].
    + exact Hf.
Qed.
