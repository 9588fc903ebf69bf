From Coq Require Import Permutation.
From Verif Require Import Base BaseFacts MRect MSched PSched MDraw SDraw.
Open Scope Z_scope.

Lemma in_zseq n k : In k (zseq n) <-> 0 <= k < Z.of_nat n.
Proof.
  unfold zseq. rewrite in_map_iff. split.
  - intros (x & <- & H). apply in_seq in H. lia.
  - intros H. exists (Z.to_nat k). split; [lia|]. apply in_seq. lia.
Qed.

Lemma in_addrs a n x : In x (addrs a n) <-> a <= x < a + n.
Proof.
  unfold addrs. rewrite in_map_iff. split.
  - intros (k & <- & H). apply in_zseq in H. lia.
  - intros H. exists (x - a). split; [lia|]. apply in_zseq. lia.
Qed.

Lemma idx_store {V} (h : list V) w a :
  idx (store w h) a = if (a =? fst w) && (0 <=? a) && (a <? zlen h) then Some (snd w) else idx h a.
Proof.
  unfold store. destruct ((0 <=? fst w) && (fst w <? zlen h)) eqn:E.
  - unfold idx. destruct (a <? 0) eqn:Ea; [replace (_ && _ && _) with false by lia; reflexivity|].
    rewrite nth_error_upd_nat. unfold zlen in *.
    destruct (Nat.eqb (Z.to_nat (fst w)) (Z.to_nat a)) eqn:En.
    + apply Nat.eqb_eq in En. destruct (Nat.ltb _ _) eqn:El.
      * replace (_ && _ && _) with true; [reflexivity|]. symmetry. apply Nat.ltb_lt in El. lia.
      * apply Nat.ltb_ge in El. lia.
    + apply Nat.eqb_neq in En. replace (_ && _ && _) with false by lia. reflexivity.
  - destruct (_ && _ && _) eqn:E2; [lia|reflexivity].
Qed.

Lemma idx_stores {V} (vs : list V) : forall pos h a, 0 <= pos -> pos + zlen vs <= zlen h ->
  idx (exec store (seq_stores pos vs) h) a =
  if (pos <=? a) && (a <? pos + zlen vs) then idx vs (a - pos) else idx h a.
Proof.
  induction vs as [|v vs IH]; intros pos h a H0 H1; cbn [seq_stores exec fold_left].
  - rewrite zlen_nil in *. replace (_ && _) with false by lia. reflexivity.
  - fold (exec store (seq_stores (pos + 1) vs) (store (pos, v) h)). rewrite zlen_cons in *. pose proof (zlen_nonneg vs).
    rewrite IH by (rewrite ?zlen_store; lia). rewrite idx_store. cbn [fst snd].
    destruct (a =? pos) eqn:E.
    + apply Z.eqb_eq in E. subst a. replace ((pos + 1 <=? pos) && _) with false by lia.
      replace ((pos <=? pos) && _) with true by lia. replace (true && _ && _) with true by lia.
      now rewrite Z.sub_diag, idx_cons_0.
    + cbn [andb]. destruct ((pos + 1 <=? a) && _) eqn:E2.
      * replace ((pos <=? a) && _) with true by lia. rewrite idx_cons_S by lia. f_equal. lia.
      * replace ((pos <=? a) && _) with false by lia. reflexivity.
Qed.

Lemma reads_ext {V} (h h' : list V) l : (forall a, In a l -> idx h' a = idx h a) -> reads h' l = reads h l.
Proof.
  induction l as [|a l IH]; intros H; [reflexivity|]. cbn [reads]. rewrite (H a (or_introl eq_refl)).
  rewrite IH; [reflexivity|]. intros; apply H; now right.
Qed.

Lemma reads_ok {V} (h : list V) l : (forall a, In a l -> 0 <= a < zlen h) -> exists vs, reads h l = Some vs /\ zlen vs = zlen l.
Proof.
  induction l as [|a l IH]; intros H; [now exists []|]. cbn [reads].
  destruct (idx_in h a) as [v ->]; [apply H; now left|].
  destruct IH as (vs & -> & E); [intros; apply H; now right|]. exists (v :: vs). split; [reflexivity|]. rewrite !zlen_cons. lia.
Qed.

Lemma reads_Forall {V} (P : V -> Prop) (h : list V) l vs : Forall P h -> reads h l = Some vs -> Forall P vs.
Proof.
  intros HP. revert vs. induction l as [|a l IH]; cbn [reads]; intros vs H.
  - inversion H. constructor.
  - destruct (idx h a) eqn:E; [|discriminate]. destruct (reads h l); [|discriminate]. inversion H; subst.
    constructor; [exact (Forall_idx P h _ _ HP E)|auto].
Qed.

Lemma reads_app {V} (h : list V) l l' :
  reads h (l ++ l') = match reads h l with Some a => match reads h l' with Some b => Some (a ++ b) | None => None end | None => None end.
Proof.
  induction l as [|a l IH]; cbn [reads app].
  - destruct (reads h l'); reflexivity.
  - rewrite IH. destruct (idx h a), (reads h l), (reads h l'); reflexivity.
Qed.

Lemma addrs_S a n : 0 <= n -> addrs a (1 + n) = a :: addrs (a + 1) n.
Proof.
  intros H. unfold addrs. replace (Z.to_nat (1 + n)) with (S (Z.to_nat n)) by lia.
  unfold zseq. cbn [seq map]. f_equal; [lia|]. rewrite <- seq_shift, !map_map. apply map_ext. intros; lia.
Qed.

Lemma addrs_nil a : addrs a 0 = []. Proof. reflexivity. Qed.

(** A pixel is what reading its cells gives. *)
Lemma reads_addrs {V} (h : list V) : forall vs a, (reads h (addrs a (zlen vs)) = Some vs <->
  forall k, 0 <= k < zlen vs -> idx h (a + k) = idx vs k).
Proof.
  induction vs as [|v vs IH]; intros a.
  - rewrite zlen_nil, addrs_nil. split; [intros; lia|reflexivity].
  - pose proof (zlen_nonneg vs). rewrite zlen_cons, addrs_S by lia. cbn [reads]. split.
    + intros H1 k Hk. destruct (idx h a) eqn:E; [|discriminate]. destruct (reads h _) eqn:E2; [|discriminate].
      inversion H1; subst. destruct (Z.eq_dec k 0) as [->|Hn].
      * now rewrite Z.add_0_r, idx_cons_0.
      * rewrite idx_cons_S by lia. rewrite IH in E2. rewrite <- E2 by lia. f_equal. lia.
    + intros H1. pose proof (H1 0 ltac:(lia)) as H2. rewrite Z.add_0_r, idx_cons_0 in H2. rewrite H2.
      replace (reads h (addrs (a + 1) (zlen vs))) with (Some vs); [reflexivity|]. symmetry. apply IH.
      intros k Hk. specialize (H1 (k + 1) ltac:(lia)). rewrite idx_cons_S in H1 by lia.
      replace (k + 1 - 1) with k in H1 by lia. rewrite <- H1. f_equal. lia.
Qed.

Lemma pixel_is_reads {V} (h : list V) bpp v p l : pixel_is h bpp v p l <->
  zlen l = bpp /\ reads h (addrs (paddr bpp v p) bpp) = Some l.
Proof.
  unfold pixel_is. split; intros [<- H]; (split; [reflexivity|]); now apply reads_addrs.
Qed.

Section runs.
  Context {V : Type} (ss ds : Z) (f : list V -> list V -> option (list V)).

  (** [a]'s writes meet neither [b]'s reads nor [b]'s writes. *)
  Definition noconf (a b : pact) : Prop :=
    forall x, aw a <= x < aw a + ds -> ~ In x (ars b) /\ ~ (aw b <= x < aw b + ds).

  Definition act_ok (n : Z) (a : pact) : Prop :=
    aok a = true /\ 0 <= aw a /\ aw a + ds <= n /\ zlen (ars a) = ss /\ forall x, In x (ars a) -> 0 <= x < n.

  Lemma step_none a : step ds f a None = None. Proof. reflexivity. Qed.

  (** The effect of one action. *)
  Lemma step_some a h h' : step ds f a (Some h) = Some h' ->
    exists sv dv o, reads h (ars a) = Some sv /\ reads h (addrs (aw a) ds) = Some dv /\ f sv dv = Some o /\
      zlen o = ds /\ aok a = true /\ h' = exec store (seq_stores (aw a) o) h.
  Proof.
    unfold step. destruct (aok a); [|discriminate]. destruct (reads h (ars a)) as [sv|]; [|discriminate].
    destruct (reads h (addrs (aw a) ds)) as [dv|]; [|discriminate]. destruct (f sv dv) as [o|] eqn:E; [|discriminate].
    destruct (zlen o =? ds) eqn:El; [|discriminate]. intros [= <-]. exists sv, dv, o. repeat split; auto; lia.
  Qed.

  Lemma exec_store_out (vs : list V) : forall pos h a, ~ (pos <= a < pos + zlen vs) ->
    idx (exec store (seq_stores pos vs) h) a = idx h a.
  Proof.
    induction vs as [|v vs IH]; intros pos h a H; [reflexivity|]. cbn [seq_stores exec fold_left].
    fold (exec store (seq_stores (pos + 1) vs) (store (pos, v) h)). rewrite zlen_cons in H. pose proof (zlen_nonneg vs).
    rewrite IH by lia. rewrite idx_store. cbn [fst]. replace (a =? pos) with false by lia. reflexivity.
  Qed.

  Lemma step_reads a b h h' : step ds f a (Some h) = Some h' -> noconf a b ->
    reads h' (ars b) = reads h (ars b) /\ reads h' (addrs (aw b) ds) = reads h (addrs (aw b) ds).
  Proof.
    intros H Hn. apply step_some in H. destruct H as (sv & dv & o & _ & _ & _ & Hl & _ & ->).
    split; apply reads_ext; intros x Hx; apply exec_store_out; rewrite Hl; intros Hc; specialize (Hn x Hc).
    - tauto.
    - apply in_addrs in Hx. tauto.
  Qed.

  Lemma exec_stores_commute (o1 o2 : list V) p1 p2 h :
    (forall x, p1 <= x < p1 + zlen o1 -> ~ (p2 <= x < p2 + zlen o2)) ->
    exec store (seq_stores p1 o1) (exec store (seq_stores p2 o2) h) =
    exec store (seq_stores p2 o2) (exec store (seq_stores p1 o1) h).
  Proof.
    intros H. revert h.
    assert (forall l l', (forall a b, In a l -> In b l' -> commute store a b) -> forall h : list V,
      exec store l (exec store l' h) = exec store l' (exec store l h)) as G.
    { intros l l'. induction l as [|w l IH]; intros Hc h; [reflexivity|]. cbn [exec fold_left].
      fold (exec store l (store w (exec store l' h))). fold (exec store l (store w h)).
      rewrite <- (exec_swap store w l') by (intros b Hb; apply Hc; [now left|easy]).
      apply IH. intros; apply Hc; [now right|easy]. }
    intros h. apply G. intros a b Ha Hb. apply store_commute. apply seq_stores_in in Ha, Hb. intros E. apply (H (fst a)); lia.
  Qed.

  Lemma step_commute a b : noconf a b -> noconf b a -> commute (step ds f) a b.
  Proof.
    intros Hab Hba [h|]; [|reflexivity].
    destruct (step ds f a (Some h)) as [ha|] eqn:Ea, (step ds f b (Some h)) as [hb|] eqn:Eb; cbn.
    - destruct (step_reads _ _ _ _ Ea Hab) as [R1 R2]. destruct (step_reads _ _ _ _ Eb Hba) as [R3 R4].
      apply step_some in Ea, Eb. destruct Ea as (s1 & d1 & o1 & A1 & A2 & A3 & A4 & A5 & ->).
      destruct Eb as (s2 & d2 & o2 & B1 & B2 & B3 & B4 & B5 & ->).
      unfold step. rewrite A5, B5, R1, R2, R3, R4, A1, A2, A3, B1, B2, B3, A4, B4, Z.eqb_refl. f_equal.
      apply exec_stores_commute. rewrite A4, B4. intros x Hx. apply (Hab x Hx).
    - destruct (step_reads _ _ _ _ Ea Hab) as [R1 R2]. unfold step in *. cbv beta iota in Eb. rewrite R1, R2.
      destruct (aok b); [|reflexivity]. destruct (reads h (ars b)); [|reflexivity]. destruct (reads h (addrs (aw b) ds)); [|reflexivity].
      destruct (f _ _) as [o|]; [|reflexivity]. destruct (zlen o =? ds); [discriminate|reflexivity].
    - destruct (step_reads _ _ _ _ Eb Hba) as [R1 R2]. unfold step in *. cbv beta iota in Ea. rewrite R1, R2.
      destruct (aok a); [|reflexivity]. destruct (reads h (ars a)); [|reflexivity]. destruct (reads h (addrs (aw a) ds)); [|reflexivity].
      destruct (f _ _) as [o|]; [|reflexivity]. destruct (zlen o =? ds); [discriminate|reflexivity].
    - reflexivity.
  Qed.

  Hypothesis Hds : 0 <= ds.

  (** A list in which no action writes what a later one reads computes every pixel
      from the original heap. *)
  Lemma exec_snapshot : forall l h, ForallOrdPairs noconf l -> Forall (act_ok (zlen h)) l ->
    (forall a sv dv, In a l -> reads h (ars a) = Some sv -> reads h (addrs (aw a) ds) = Some dv ->
       exists o, f sv dv = Some o /\ zlen o = ds) ->
    exists h', exec (step ds f) l (Some h) = Some h' /\ zlen h' = zlen h /\
      (forall a sv dv, In a l -> reads h (ars a) = Some sv -> reads h (addrs (aw a) ds) = Some dv ->
         exists o, f sv dv = Some o /\ zlen o = ds /\ reads h' (addrs (aw a) ds) = Some o) /\
      (forall x, (forall a, In a l -> ~ (aw a <= x < aw a + ds)) -> idx h' x = idx h x).
  Proof.
    induction l as [|a l IH]; intros h Hp Hok Hf.
    - exists h. split; [reflexivity|]. split; [reflexivity|]. split; [intros ? ? ? []|reflexivity].
    - inversion Hp as [|? ? Hpa Hpl]; subst. inversion Hok as [|? ? Ha Hl]; subst.
      destruct Ha as (K1 & K2 & K3 & K4 & K5).
      destruct (reads_ok h (ars a) K5) as (sv & S1 & S2).
      destruct (reads_ok h (addrs (aw a) ds)) as (dv & D1 & D2).
      { intros x Hx. apply in_addrs in Hx. lia. }
      assert (zlen dv = ds) as D3 by (rewrite D2; unfold addrs; rewrite zlen_map; unfold zseq; rewrite zlen_map; unfold zlen; rewrite seq_length; lia).
      destruct (Hf a sv dv) as (o & O1 & O2); [now left|assumption|assumption|].
      set (h1 := exec store (seq_stores (aw a) o) h).
      assert (step ds f a (Some h) = Some h1) as Est.
      { unfold step. rewrite K1, S1, D1, O1, O2, Z.eqb_refl. reflexivity. }
      destruct (IH h1) as (h' & E1 & E2 & E4 & E5); [assumption| | |].
      { unfold h1. rewrite zlen_exec_store. assumption. }
      { intros b sv' dv' Hb Hs Hd. rewrite Forall_forall in Hpa. destruct (step_reads _ _ _ _ Est (Hpa b Hb)) as [R1 R2].
        apply (Hf b); [now right|now rewrite <- R1|now rewrite <- R2]. }
      exists h'. split; [|split; [|split]].
      + cbn [exec fold_left]. fold (exec (step ds f) l (step ds f a (Some h))). now rewrite Est.
      + rewrite E2. apply zlen_exec_store.
      + intros b sv' dv' [<-|Hb] Hs Hd.
        * rewrite Hs in S1. rewrite Hd in D1. inversion S1; inversion D1; subst. exists o. split; [assumption|]. split; [assumption|].
          rewrite <- O2. apply reads_addrs. intros k Hk. rewrite E5.
          2:{ intros c Hc. rewrite Forall_forall in Hpa. apply (Hpa c Hc). lia. }
          unfold h1. rewrite idx_stores by lia. replace ((aw a <=? _) && _) with true by lia. f_equal. lia.
        * rewrite Forall_forall in Hpa. destruct (step_reads _ _ _ _ Est (Hpa b Hb)) as [R1 R2].
          apply E4; [assumption|now rewrite R1|now rewrite R2].
      + intros x Hx. rewrite E5 by (intros; apply Hx; now right). unfold h1.
        apply exec_store_out. rewrite O2. apply Hx. now left.
  Qed.

  Lemma FOP_concat_inv {B} (R : B -> B -> Prop) ls : ForallOrdPairs R (concat ls) ->
    ForallOrdPairs (fun l l' => forall a b, In a l -> In b l' -> R a b) ls.
  Proof.
    induction ls as [|l ls IH]; cbn; intros H; [constructor|].
    assert (ForallOrdPairs R (concat ls) /\ forall a b, In a l -> In b (concat ls) -> R a b) as [H1 H2].
    { clear IH. induction l as [|x l IHl]; cbn in *; [split; [assumption|easy]|]. inversion H as [|? ? Hx Hr]; subst.
      destruct (IHl Hr) as [G1 G2]. split; [assumption|]. intros a b [<-|Ha] Hb.
      - rewrite Forall_forall in Hx. apply Hx. apply in_or_app. now right.
      - now apply G2. }
    constructor; [|auto]. apply Forall_forall. intros l' Hl' a b Ha Hb. apply H2; [assumption|]. apply in_concat. eauto.
  Qed.

  Lemma FOP_impl {B} (R R' : B -> B -> Prop) l : (forall a b, R a b -> R' a b) -> ForallOrdPairs R l -> ForallOrdPairs R' l.
  Proof. intros H. induction 1; constructor; [eapply Forall_impl; [|eassumption]; auto|assumption]. Qed.

  (** Workers with whole rows [wss], rows that do not disturb each other. *)
  Lemma runs_snapshot (wss : list (list (list pact))) h :
    ForallOrdPairs noconf (concat (concat wss)) ->
    (length wss <= 1)%nat \/ ForallOrdPairs (fun r r' => forall a b, In a r -> In b r' -> noconf b a) (concat wss) ->
    Forall (act_ok (zlen h)) (concat (concat wss)) ->
    forall r, interleave (map (@concat pact) wss) r ->
    exec (step ds f) r (Some h) = exec (step ds f) (concat (concat wss)) (Some h).
  Proof.
    intros Hp Hrow Hok r Hr.
    rewrite (interleave_exec (step ds f) _ _ Hr).
    - f_equal. clear. induction wss; cbn; [reflexivity|]. now rewrite IHwss, concat_app.
    - assert (ForallOrdPairs (fun r r' => forall a b, In a r -> In b r' -> noconf a b) (concat wss)) as H1 by (apply FOP_concat_inv; exact Hp).
      destruct Hrow as [Hn|Hrow].
      + destruct wss as [|w [|? ?]]; cbn in *; try lia; repeat constructor.
      + apply FOP_concat_inv in H1, Hrow.
        assert (forall ws : list (list (list pact)),
          ForallOrdPairs (fun w w' => forall r r', In r w -> In r' w' -> forall a b, In a r -> In b r' -> noconf a b) ws ->
          ForallOrdPairs (fun w w' => forall r r', In r w -> In r' w' -> forall a b, In a r -> In b r' -> noconf b a) ws ->
          ForallOrdPairs (fun l l' => forall a b, In a l -> In b l' -> commute (step ds f) a b) (map (@concat pact) ws)) as G.
        2:{ apply G; assumption. }
        clear Hp Hrow Hok H1. induction ws as [|w ws IH]; intros H1 H2; cbn; [constructor|].
        inversion H1 as [|? ? A1 A2]; inversion H2 as [|? ? B1 B2]; subst. constructor; [|auto].
        rewrite Forall_forall in *. intros l Hl a b Ha Hb. apply in_map_iff in Hl. destruct Hl as (w' & <- & Hw').
        apply in_concat in Ha, Hb. destruct Ha as (r1 & Hr1 & Ha), Hb as (r2 & Hr2 & Hb).
        apply step_commute; [eapply A1|eapply B1]; eassumption.
  Qed.
End runs.
