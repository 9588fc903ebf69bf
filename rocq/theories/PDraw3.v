From Verif Require Import Base BaseFacts MRect MSched PSched MDraw SDraw PDraw PDraw2.
Open Scope Z_scope.

Lemma pt_in_intersect p r s : pt_in p (rintersect r s) = pt_in p r && pt_in p s.
Proof.
  unfold rintersect, rempty, pt_in. cbn [rx0 ry0 rx1 ry1]. destruct r as [a1 a2 a3 a4], s as [b1 b2 b3 b4], p as [x y]. cbn [rx0 ry0 rx1 ry1 px py].
  destruct (_ || _) eqn:E; unfold ZR; cbn [rx0 ry0 rx1 ry1]; lia.
Qed.

Lemma pt_in_add p r q : pt_in p (radd r q) = pt_in (psub p q) r.
Proof. unfold pt_in, radd, psub. cbn [rx0 ry0 rx1 ry1 px py]. lia. Qed.

Lemma clip_points db r sb sp mb mp p :
  pt_in p (fst (fst (clipRect db r sb sp mb mp))) = true <-> in_clip db r sb sp mb mp p.
Proof.
  unfold clipRect, in_clip.
  assert (forall q, psub p (psub (rmin r) q) = aligned r q p) as Ha.
  { intros q. unfold psub, rmin, aligned. cbn [px py]. f_equal; lia. }
  match goal with |- context [if ?c then (?r, ?s, ?m) else _] => set (R := r); replace (fst (fst (if c then (R, s, m) else _))) with R by (destruct c; reflexivity) end.
  unfold R. destruct mb as [m|]; rewrite !pt_in_intersect, !pt_in_add, !Ha; rewrite !andb_true_iff; tauto.
Qed.

Lemma clip_aligned db r sb sp mb mp r' sp' mp' : clipRect db r sb sp mb mp = (r', sp', mp') ->
  forall p, aligned r' sp' p = aligned r sp p /\ aligned r' mp' p = aligned r mp p.
Proof.
  unfold clipRect. match goal with |- context [if _ then (?r, _, _) else _] => set (R := r) end. cbn [rmin px py].
  destruct (_ && _) eqn:E; intros [= <- <- <-] p; unfold aligned; cbn [px py]; split; f_equal; lia.
Qed.

Lemma point_eta p : Pt (px p) (py p) = p. Proof. now destruct p. Qed.
Lemma point_eq p q : px p = px q -> py p = py q -> p = q. Proof. destruct p, q; cbn; congruence. Qed.

Lemma reads_zlen {V} (h : list V) : forall l vs, reads h l = Some vs -> zlen vs = zlen l.
Proof.
  induction l as [|a l IH]; cbn [reads]; intros vs H; [now inversion H|]. destruct (idx h a); [|discriminate].
  destruct (reads h l); [|discriminate]. inversion H; subst. rewrite !zlen_cons, (IH l0) by reflexivity. reflexivity.
Qed.
Lemma zlen_addrs a n : 0 <= n -> zlen (addrs a n) = n.
Proof. intros H. unfold addrs. rewrite zlen_map. unfold zseq. rewrite zlen_map. unfold zlen. rewrite seq_length. lia. Qed.

(** The k-th row and t-th column of a loop over [r]. *)
Definition gpt (fwd : bool) (r : rect) (k t : Z) : point :=
  if fwd then Pt (rx0 r + t) (ry0 r + k) else Pt (rx1 r - 1 - t) (ry1 r - 1 - k).

Lemma gpt_inj fwd r k t k' t' : gpt fwd r k t = gpt fwd r k' t' -> k = k' /\ t = t'.
Proof. unfold gpt. destruct fwd; intros [= ? ?]; lia. Qed.

Lemma gpt_range fwd r p : rempty r = false ->
  (pt_in p r = true <-> exists k t, 0 <= k < Z.of_nat (Z.to_nat (rdy r)) /\ 0 <= t < Z.of_nat (Z.to_nat (rdx r)) /\ p = gpt fwd r k t).
Proof.
  intros He. unfold rempty in He. rewrite pt_in_spec. unfold gpt, rdx, rdy. split.
  - intros H. destruct fwd.
    + exists (py p - ry0 r), (px p - rx0 r). repeat split; try lia. apply point_eq; cbn [px py]; lia.
    + exists (ry1 r - 1 - py p), (rx1 r - 1 - px p). repeat split; try lia. apply point_eq; cbn [px py]; lia.
  - intros (k & t & Hk & Ht & ->). destruct fwd; cbn [px py]; lia.
Qed.

Definition psrcs (ss : Z) (src : view) (r : rect) (sp p : point) : list Z := addrs (paddr ss src (aligned r sp p)) ss.

Lemma inSlice_ok bpp v n p x0 : 0 <= bpp -> view_ok bpp v n -> pt_in p (vrect v) = true -> rx0 (vrect v) <= x0 <= px p ->
  inSlice (vlen v) ((py p - ry0 (vrect v)) * vstride v + (x0 - rx0 (vrect v)) * bpp) ((px p - x0) * bpp) bpp = true.
Proof.
  intros Hb Hv Hp Hx. pose proof (off_bounds _ _ _ _ Hb Hv Hp). unfold inSlice.
  assert (0 <= (x0 - rx0 (vrect v)) * bpp) by nia. assert (0 <= (px p - x0) * bpp) by nia. nia.
Qed.

Lemma pixel_act ss dst src n r sp p d0 s0 i j :
  (ss = 4 \/ ss = 1) -> view_ok 4 dst n -> view_ok ss src n ->
  pt_in p (vrect dst) = true -> pt_in (aligned r sp p) (vrect src) = true ->
  rx0 (vrect dst) <= rx0 r <= px p -> rx0 (vrect src) <= px sp ->
  d0 = (py p - ry0 (vrect dst)) * vstride dst + (rx0 r - rx0 (vrect dst)) * 4 ->
  j = (px p - rx0 r) * 4 ->
  s0 = (py (aligned r sp p) - ry0 (vrect src)) * vstride src + (px sp - rx0 (vrect src)) * ss ->
  i = (px p - rx0 r) * ss ->
  pixel ss dst src d0 s0 (i, j) = gact 4 dst (psrcs ss src r sp) p.
Proof.
  intros Hss Hd Hs Hp Hq Hx Hy -> -> -> ->. unfold pixel, gact, psrcs, paddr. f_equal.
  - lia.
  - f_equal. unfold aligned. cbn [px py]. lia.
  - rewrite (inSlice_ok 4 dst n p (rx0 r)) by (assumption || lia).
    replace ((px p - rx0 r) * ss) with ((px (aligned r sp p) - px sp) * ss) by (unfold aligned; cbn [px]; lia).
    rewrite (inSlice_ok ss src n (aligned r sp p) (px sp)); try assumption; try lia.
    unfold aligned; cbn [px]; lia.
Qed.

Lemma shiftl2 x : Z.shiftl x 2 = x * 4. Proof. now rewrite Z.shiftl_mul_pow2. Qed.

(** Where the loops may run concurrently or the images are the same. *)
Definition conflict_free (cpus : nat) (dst src : view) (ss : Z) (r : rect) (sp : point) (r' : rect) : Prop :=
  separate dst src \/
  (src = dst /\ ss = 4 /\ (fitWorkers cpus (rdy r') = 1%nat \/ py sp = ry0 r)).

Lemma area_gpt db r sb sp mb mp r' sp' mp' fwd : clipRect db r sb sp mb mp = (r', sp', mp') -> rempty r' = false ->
  forall p, in_clip db r sb sp mb mp p <->
    exists k t, 0 <= k < Z.of_nat (Z.to_nat (rdy r')) /\ 0 <= t < Z.of_nat (Z.to_nat (rdx r')) /\ p = gpt fwd r' k t.
Proof.
  intros Hc He p. pose proof (clip_points db r sb sp mb mp p) as H. rewrite Hc in H. cbn [fst] in H.
  rewrite <- H. now apply gpt_range.
Qed.

Lemma corner_in r : rempty r = false -> pt_in (rmin r) r = true.
Proof. unfold rempty, pt_in, rmin; cbn [px py]. lia. Qed.

(** The rows of the whole loop are the grid of pixel actions. *)
Lemma loop_grid ss dst src n r sp mb mp r' sp' mp' l :
  (ss = 4 \/ ss = 1) -> view_ok 4 dst n -> view_ok ss src n ->
  clipRect (vrect dst) r (vrect src) sp mb mp = (r', sp', mp') -> rempty r' = false ->
  l = (if ss =? 1 then prepare1to4 dst src r' sp' else prepare4to4 dst src r' sp') ->
  exists cs, loopCols l = Some cs /\
    rows (Z.to_nat (rdy r')) (fun d0 s0 => map (pixel ss dst src d0 s0) cs) (l_d0 l) (l_s0 l) (l_dyD l) (l_syD l) =
    map (fun k => map (fun t => gact 4 dst (psrcs ss src r' sp') (gpt (forwards r' sp') r' k t)) (zseq (Z.to_nat (rdx r')))) (zseq (Z.to_nat (rdy r'))).
Proof.
  intros Hss Hd Hs Hc He Hl.
  assert (0 < rdx r' /\ 0 < rdy r') as [Hdx Hdy] by (unfold rempty, rdx, rdy in *; lia).
  pose proof (clip_aligned _ _ _ _ _ _ _ _ _ Hc) as Hal.
  assert (forall p, pt_in p r' = true -> pt_in p (vrect dst) = true /\ pt_in (aligned r' sp' p) (vrect src) = true) as Hin.
  { intros p Hp. pose proof (clip_points (vrect dst) r (vrect src) sp mb mp p) as H. rewrite Hc in H. cbn [fst] in H.
    apply H in Hp. destruct Hp as (_ & H1 & H2 & _). rewrite (proj1 (Hal p)). auto. }
  destruct (Hin (rmin r') (corner_in _ He)) as [Hi1 Hi2]. rewrite pt_in_spec in Hi1, Hi2.
  unfold rmin, aligned in Hi1, Hi2; cbn [px py] in Hi1, Hi2.
  set (fwd := forwards r' sp') in *.
  set (i0 := if fwd then 0 else (rdx r' - 1) * ss). set (sD := if fwd then ss else - ss).
  set (j0 := if fwd then 0 else (rdx r' - 1) * 4). set (dD := if fwd then 4 else -4).
  assert (loopCols l = Some (map (fun k => (i0 + k * sD, j0 + k * dD)) (zseq (Z.to_nat (rdx r'))))) as Hcols.
  { unfold loopCols. rewrite Hl. unfold prepare1to4, prepare4to4. fold fwd.
    destruct Hss as [->| ->]; cbn [Z.eqb Pos.eqb]; unfold i0, sD, j0, dD; destruct fwd;
      cbn [l_sx0 l_sx1 l_sxD l_dx0 l_dxD]; rewrite ?shiftl2; (rewrite cols_eq with (n := Z.to_nat (rdx r')); [f_equal; apply map_ext; intros; f_equal; lia|lia|lia|lia]). }
  eexists. split; [exact Hcols|]. rewrite rows_eq. apply map_ext_in. intros k Hk. rewrite map_map. apply map_ext_in. intros t Ht.
  apply in_zseq in Hk, Ht.
  assert (pt_in (gpt fwd r' k t) r' = true) as Hg by (apply (gpt_range fwd); [assumption|]; exists k, t; auto).
  destruct (Hin _ Hg) as [G1 G2].
  apply (pixel_act ss dst src n); try assumption; try lia.
  - rewrite pt_in_spec in Hg. lia.
  - rewrite Hl. unfold prepare1to4, prepare4to4. fold fwd.
    destruct Hss as [->| ->]; cbn [Z.eqb Pos.eqb]; unfold gpt; destruct fwd; cbn [l_d0 l_dyD px py]; unfold pixOffset, rdx, rdy; lia.
  - unfold j0, dD, gpt, rdx. destruct fwd; cbn [px]; lia.
  - rewrite Hl. unfold prepare1to4, prepare4to4. fold fwd.
    destruct Hss as [->| ->]; cbn [Z.eqb Pos.eqb]; unfold gpt, aligned; destruct fwd; cbn [l_s0 l_syD px py]; unfold pixOffset, rdx, rdy; lia.
  - unfold i0, sD, gpt, rdx. destruct fwd; cbn [px]; lia.
Qed.

(** A source pixel read after the write of another pixel is not that pixel. *)
Lemma self_apart dst n r' sp' p q :
  view_ok 4 dst n -> pt_in p (vrect dst) = true -> pt_in (aligned r' sp' q) (vrect dst) = true ->
  p <> aligned r' sp' q -> apart 4 dst (psrcs 4 dst r' sp') p q.
Proof.
  intros Hv Hp Hq Hn x Hx Hi. unfold psrcs in Hi. apply in_addrs in Hi.
  pose proof (paddr_disjoint 4 dst n _ _ ltac:(lia) Hv Hp Hq Hn). lia.
Qed.

Lemma lex_apart r' sp' k t k' t' : k < k' \/ k = k' /\ t < t' ->
  gpt (forwards r' sp') r' k t <> aligned r' sp' (gpt (forwards r' sp') r' k' t').
Proof.
  intros H E. unfold gpt, aligned in E. destruct (forwards r' sp') eqn:Ef; unfold forwards in Ef; injection E; cbn [px py]; lia.
Qed.

Theorem drawPix_drawn {V} cpus ss dst src r sp mask mp zero f (h : list V) :
  (1 <= cpus)%nat -> (ss = 4 \/ ss = 1) ->
  view_ok 4 dst (zlen h) -> view_ok ss src (zlen h) ->
  let mb := match mask with None => None | Some _ => Some uniformBounds end in
  let r' := fst (fst (clipRect (vrect dst) r (vrect src) sp mb mp)) in
  conflict_free cpus dst src ss r sp r' ->
  defined_on 4 f
      (fun p => in_clip (vrect dst) r (vrect src) sp mb mp p /\ match mask with None => True | Some a => zero a = false end)
      (fun p l => pixel_is h ss src (aligned r sp p) l) dst h ->
  exists ls, drawPix cpus ss dst src r sp mask mp zero = Some ls /\
    (forall a, In a (concat ls) <-> exists p,
       (in_clip (vrect dst) r (vrect src) sp mb mp p /\ match mask with None => True | Some a => zero a = false end) /\
       a = PA (paddr 4 dst p) (addrs (paddr ss src (aligned r sp p)) ss) true) /\
    all_runs 4 f ls h (drawn 4 f
      (fun p => in_clip (vrect dst) r (vrect src) sp mb mp p /\ match mask with None => True | Some a => zero a = false end)
      (fun p l => pixel_is h ss src (aligned r sp p) l) dst h).
Proof.
  intros Hcpu Hss Hd Hs mb r' Hcf Hf. unfold drawPix. fold mb.
  destruct (clipRect (vrect dst) r (vrect src) sp mb mp) as [[R sp'] mp'] eqn:Hc. cbn [fst] in r'. subst r'.
  assert (forall ls, concat ls = [] -> (forall p, ~ (in_clip (vrect dst) r (vrect src) sp mb mp p /\ match mask with None => True | Some a => zero a = false end)) ->
    all_runs 4 f ls h (drawn 4 f
      (fun p => in_clip (vrect dst) r (vrect src) sp mb mp p /\ match mask with None => True | Some a => zero a = false end)
      (fun p l => pixel_is h ss src (aligned r sp p) l) dst h)) as Hnone.
  { intros ls Hls Hno q Hq. exists h.
    assert (q = []) as ->.
    { clear - Hls Hq. induction Hq; [reflexivity|]. rewrite concat_app in Hls. apply app_eq_nil in Hls. destruct Hls as [_ Hls]. discriminate. }
    split; [reflexivity|]. split; [reflexivity|]. split; [intros p ? ? Hp; destruct (Hno p Hp)|reflexivity]. }
  destruct (rempty R) eqn:He.
  - assert (forall p, ~ (in_clip (vrect dst) r (vrect src) sp mb mp p /\ match mask with None => True | Some a => zero a = false end)) as Hno.
    2:{ exists []. split; [reflexivity|]. split; [|now apply Hnone]. intros a. split; [intros []|]. intros (p & Hp & _). destruct (Hno p Hp). }
    intros p [Hp _].
    pose proof (clip_points (vrect dst) r (vrect src) sp mb mp p) as H. rewrite Hc in H. cbn [fst] in H. apply H in Hp.
    unfold rempty in He. rewrite pt_in_spec in Hp. lia.
  - destruct (match mask with None => false | Some a => zero a end) eqn:Ez.
    + assert (forall p, ~ (in_clip (vrect dst) r (vrect src) sp mb mp p /\ match mask with None => True | Some a => zero a = false end)) as Hno.
      { intros p [_ Hp]. destruct mask; congruence. }
      exists []. split; [reflexivity|]. split; [|now apply Hnone]. intros a. split; [intros []|]. intros (p & Hp & _). destruct (Hno p Hp).
    + destruct (loop_grid ss dst src (zlen h) r sp mb mp R sp' mp' _ Hss Hd Hs Hc He eq_refl) as (cs & Hcs & Hrows).
      rewrite Hcs. eexists. split; [reflexivity|].
      match goal with |- context [parallel _ _ ?row ?a ?b ?c ?d] =>
        destruct (parallel_rows cpus (rdy R) row a b c d Hcpu) as (wss & E1 & E2 & E3) end.
      { unfold rempty, rdy in *. lia. }
      rewrite E1. rewrite Hrows in E2.
      pose proof (clip_aligned _ _ _ _ _ _ _ _ _ Hc) as Hal.
      assert (forall p, in_clip (vrect dst) r (vrect src) sp mb mp p /\ match mask with None => True | Some a => zero a = false end <->
        in_clip (vrect dst) r (vrect src) sp mb mp p) as Heq.
      { intros p. destruct mask; tauto. }
      assert (forall p, in_clip (vrect dst) r (vrect src) sp mb mp p -> pt_in p (vrect dst) = true /\ pt_in (aligned R sp' p) (vrect src) = true) as Hin.
      { intros p (_ & H1 & H2 & _). rewrite (proj1 (Hal p)). auto. }
      assert (forall k t, 0 <= k < Z.of_nat (Z.to_nat (rdy R)) -> 0 <= t < Z.of_nat (Z.to_nat (rdx R)) ->
        in_clip (vrect dst) r (vrect src) sp mb mp (gpt (forwards R sp') R k t)) as Hg.
      { intros k t Hk Ht. apply (area_gpt _ _ _ _ _ _ _ _ _ (forwards R sp') Hc He). eauto 10. }
      assert (0 <= ss) as Hss0 by lia.
      split.
      { intros a. rewrite (grid_acts 4 dst (gpt (forwards R sp') R) (psrcs ss src R sp') (Z.to_nat (rdx R)) (Z.to_nat (rdy R))
          (fun p => in_clip (vrect dst) r (vrect src) sp mb mp p /\ match mask with None => True | Some a => zero a = false end) wss E2).
        - unfold gact, psrcs. split; intros (p & Hp & ->); exists p; rewrite (proj1 (Hal p)); auto.
        - intros p. rewrite Heq. apply (area_gpt _ _ _ _ _ _ _ _ _ (forwards R sp') Hc He). }
      eapply (grid_drawn ss 4 f dst (gpt (forwards R sp') R) (psrcs ss src R sp') (Z.to_nat (rdx R)) (Z.to_nat (rdy R)) _ _ h wss).
      * exact E2.
      * intros p. rewrite Heq. apply (area_gpt _ _ _ _ _ _ _ _ _ (forwards R sp') Hc He).
      * intros p Hp. apply Heq in Hp. now apply Hin.
      * exact Hd.
      * lia.
      * intros p Hp. apply Heq in Hp. destruct (Hin p Hp) as [_ G]. unfold psrcs. split.
        -- unfold addrs. rewrite zlen_map. unfold zseq. rewrite zlen_map. unfold zlen. rewrite seq_length. lia.
        -- intros x Hx. apply in_addrs in Hx. pose proof (paddr_bounds ss src _ _ Hss0 Hs G). destruct Hs as (? & ? & ? & _). lia.
      * apply gpt_inj.
      * intros k t k' t' K T K' T' Hlt. pose proof (Hin _ (Hg k t K T)) as [G1 _]. pose proof (Hin _ (Hg k' t' K' T')) as [_ G2].
        destruct Hcf as [Hsep|(-> & -> & _)].
        -- intros x Hx Hi. unfold psrcs in Hi. apply in_addrs in Hi.
           pose proof (paddr_bounds 4 dst _ _ ltac:(lia) Hd G1). pose proof (paddr_bounds ss src _ _ Hss0 Hs G2). unfold separate in Hsep. lia.
        -- eapply self_apart; try eassumption. now apply lex_apart.
      * destruct Hcf as [Hsep|(-> & -> & [Hone|Hy])].
        -- right. intros k t k' t' K T K' T' Hlt x Hx Hi. unfold psrcs in Hi. apply in_addrs in Hi.
           pose proof (Hin _ (Hg k t K T)) as [G1 _]. pose proof (Hin _ (Hg k' t' K' T')) as [_ G2].
           pose proof (paddr_bounds 4 dst _ _ ltac:(lia) Hd G1). pose proof (paddr_bounds ss src _ _ Hss0 Hs G2). unfold separate in Hsep. lia.
        -- left. lia.
        -- right. intros k t k' t' K T K' T' Hlt.
           pose proof (Hin _ (Hg k t K T)) as [G1 _]. pose proof (Hin _ (Hg k' t' K' T')) as [_ G2].
           eapply self_apart; try eassumption. rewrite (proj1 (Hal _)). intros E. apply (f_equal py) in E.
           unfold gpt, aligned in E. destruct (forwards R sp'); cbn [px py] in E; lia.
      * intros p l. rewrite pixel_is_reads. unfold psrcs. rewrite (proj1 (Hal p)). split; [now intros [_ H]|]. intros H. split; [|exact H].
        clear - H Hss0. apply reads_zlen in H. rewrite H. apply zlen_addrs; assumption.
      * exact Hf.
Qed.
