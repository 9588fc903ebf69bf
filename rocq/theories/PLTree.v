(** Proofs about clipping groups, copies of trees and parent links. *)
From Verif Require Import Base BaseFacts MLTree SLTree.

Lemma upd_in {A} (l : list A) i v : 0 <= i < zlen l -> exists l', upd l i v = Some l'.
Proof. intros H. unfold upd. replace ((0 <=? i) && (i <? zlen l)) with true by lia. eauto. Qed.

(** * reverse *)
Lemma reverseFrom_spec {A} (l0 : list A) : forall n i l,
  zlen l = zlen l0 -> 0 <= i -> i + Z.of_nat n = zlen l0 / 2 ->
  (forall j, 0 <= j < zlen l0 -> idx l j = if (j <? i) || (zlen l0 - i <=? j) then idx l0 (zlen l0 - 1 - j) else idx l0 j) ->
  exists l', reverseFrom n i l = Some l' /\ zlen l' = zlen l0 /\ forall j, 0 <= j < zlen l0 -> idx l' j = idx l0 (zlen l0 - 1 - j).
Proof.
  induction n as [|n IH]; intros i l Hl Hi Hn H; cbn [reverseFrom];
    pose proof (Z.div_mod (zlen l0) 2 ltac:(lia)); pose proof (Z.mod_pos_bound (zlen l0) 2 ltac:(lia)).
  - exists l. repeat split; auto. intros j Hj. rewrite H by lia.
    destruct ((j <? i) || (zlen l0 - i <=? j)) eqn:E; [reflexivity|].
    f_equal. lia.
  - rewrite Hl. assert (B : 2 * i + 1 < zlen l0) by lia.
    destruct (idx_in l i ltac:(lia)) as [a Ea]. destruct (idx_in l (zlen l0 - i - 1) ltac:(lia)) as [b Eb].
    rewrite Ea, Eb.
    destruct (upd_in l i b ltac:(lia)) as [l1 E1]. rewrite E1. pose proof (upd_zlen _ _ _ _ E1) as Z1.
    destruct (upd_in l1 (zlen l0 - i - 1) a ltac:(lia)) as [l2 E2]. rewrite E2. pose proof (upd_zlen _ _ _ _ E2) as Z2.
    apply IH; try lia. intros j Hj.
    rewrite (idx_upd _ _ _ j _ E2), (idx_upd _ _ _ j _ E1).
    rewrite H in Ea, Eb by lia.
    replace ((i <? i) || (zlen l0 - i <=? i)) with false in Ea by lia.
    replace ((zlen l0 - i - 1 <? i) || (zlen l0 - i <=? zlen l0 - i - 1)) with false in Eb by lia.
    destruct (zlen l0 - i - 1 =? j) eqn:J1.
    { replace ((j <? i + 1) || (zlen l0 - (i + 1) <=? j)) with true by lia. rewrite <- Ea. f_equal. lia. }
    destruct (i =? j) eqn:J2.
    { replace ((j <? i + 1) || (zlen l0 - (i + 1) <=? j)) with true by lia. rewrite <- Eb. f_equal. lia. }
    rewrite H by lia. replace ((j <? i + 1) || (zlen l0 - (i + 1) <=? j)) with ((j <? i) || (zlen l0 - i <=? j)) by lia.
    reflexivity.
Qed.
Lemma reverse_spec {A} (l : list A) :
  exists l', reverse l = Some l' /\ zlen l' = zlen l /\ forall j, 0 <= j < zlen l -> idx l' j = idx l (zlen l - 1 - j).
Proof.
  unfold reverse. apply reverseFrom_spec; try lia.
  - rewrite Z2Nat.id, Z.shiftr_div_pow2 by (try apply Z.shiftr_nonneg; unfold zlen; lia). change (2 ^ 1) with 2. lia.
  - intros j Hj. replace ((j <? 0) || (zlen l - 0 <=? j)) with false by lia. reflexivity.
Qed.

(** * Clipping groups of one list *)
Lemma setBy_spec i : forall clip ls, (forall c, In c clip -> 0 <= c < zlen ls) ->
  exists ls', setBy clip i ls = Some ls' /\ zlen ls' = zlen ls /\
    forall k s, idx ls k = Some s ->
      idx ls' k = Some (if existsb (Z.eqb k) clip then Sib (sclip s) (Some i) (sgroup s) else s).
Proof.
  induction clip as [|c clip IH]; intros ls H; cbn [setBy existsb].
  - exists ls. auto.
  - destruct (idx_in ls c (H c (or_introl eq_refl))) as [s Es]. rewrite Es.
    destruct (upd_in ls c (Sib (sclip s) (Some i) (sgroup s)) (H c (or_introl eq_refl))) as [l1 E1]. rewrite E1.
    pose proof (upd_zlen _ _ _ _ E1) as Z1.
    destruct (IH l1) as (ls' & E & Zl & G). { intros c' Hc'. rewrite Z1. apply H. now right. }
    exists ls'. split; [exact E|]. split; [lia|]. intros k s' Hk.
    destruct (Z.eqb_spec k c) as [->|N].
    + rewrite Es in Hk. injection Hk as <-. rewrite (G c (Sib (sclip s) (Some i) (sgroup s))).
      * cbn [orb sclip sgroup sby]. destruct (existsb (Z.eqb c) clip); reflexivity.
      * rewrite (idx_upd _ _ _ c _ E1). now rewrite Z.eqb_refl.
    + cbn [orb]. apply G. rewrite (idx_upd _ _ _ k _ E1). destruct (c =? k) eqn:Eq; [lia|exact Hk].
Qed.

(** What is known of layer [k] once it has been processed *)
Definition sib_ok (flags : list bool) (k : Z) (s : sib) : Prop :=
  (forall j, sby s = Some j <-> base_below flags j k) /\ increasing (sgroup s) /\ (forall c, In c (sgroup s) <-> base_below flags k c).

Lemma base_unique flags j j' k : base_below flags j k -> base_below flags j' k -> j = j'.
Proof.
  intros (H1 & H2 & H3) (G1 & G2 & G3). destruct (Z.lt_trichotomy j j') as [L|[E|L]]; auto.
  - rewrite (H3 j' ltac:(lia)) in G2. discriminate.
  - rewrite (G3 j ltac:(lia)) in H2. discriminate.
Qed.
Lemma idx_In {A} (l : list A) x : In x l <-> exists i, 0 <= i < zlen l /\ idx l i = Some x.
Proof.
  split.
  - intros H. apply In_nth_error in H as [n Hn]. exists (Z.of_nat n).
    assert (n < length l)%nat by (apply nth_error_Some; congruence).
    unfold zlen, idx. replace (Z.of_nat n <? 0) with false by lia. rewrite Nat2Z.id. split; [lia|exact Hn].
  - intros (i & Hi & E). unfold idx in E. destruct (i <? 0); [discriminate|]. now apply nth_error_In in E.
Qed.

Lemma sib_split (P1 Q1 : Z -> Prop) (I : Prop) (P2 Q2 : Z -> Prop) :
  (forall j, P1 j -> Q1 j) -> (forall j, Q1 j -> P1 j) -> I -> (forall c, P2 c -> Q2 c) -> (forall c, Q2 c -> P2 c) ->
  (forall j, P1 j <-> Q1 j) /\ I /\ (forall c, P2 c <-> Q2 c).
Proof. firstorder. Qed.
Lemma registerFrom_spec flags : forall n clip ls m,
  zlen ls = zlen flags ->
  (forall k s, idx ls k = Some s -> idx flags k = Some (sclip s)) ->
  Z.of_nat n <= m <= zlen flags -> zlen clip = m - Z.of_nat n ->
  (forall q, 0 <= q < zlen clip -> idx clip q = Some (m - 1 - q)) ->
  (forall k, Z.of_nat n <= k < m -> idx flags k = Some true) ->
  (m = zlen flags \/ idx flags m = Some false) ->
  (forall k s, idx ls k = Some s -> k < m -> sby s = None /\ sgroup s = []) ->
  (forall k s, idx ls k = Some s -> m <= k -> sib_ok flags k s) ->
  exists ls', registerFrom n clip ls = Some ls' /\ zlen ls' = zlen flags /\
    forall k s, idx ls' k = Some s -> idx flags k = Some (sclip s) /\ sib_ok flags k s.
Proof.
  induction n as [|n IH]; intros clip ls m Hl Hf Hm Hc Hq Ht Hmm Hlo Hhi; cbn [registerFrom].
  - exists ls. split; [reflexivity|]. split; [exact Hl|]. intros k s H. split; [now apply Hf|].
    destruct (Z.lt_ge_cases k m) as [L|L]; [|now apply Hhi].
    destruct (Hlo _ _ H L) as [E1 E2]. pose proof (idx_some_lt _ _ _ H). unfold sib_ok. rewrite E1, E2. apply sib_split.
    + intros ?; discriminate 1.
    + intros ? (B1 & B2 & B3). rewrite Ht in B2 by lia. discriminate.
    + intros i j a b _ I. unfold idx in I. destruct (i <? 0); [discriminate|]. destruct (Z.to_nat i); discriminate.
    + intros ? [].
    + intros ? (B1 & B2 & B3). rewrite Ht in B2 by lia. discriminate.
  - destruct (idx_in ls (Z.of_nat n) ltac:(lia)) as [s Es]. rewrite Es.
    pose proof (Hf _ _ Es) as Fs. destruct (sclip s) eqn:Cs.
    + apply (IH _ _ m); auto; try lia.
      * rewrite zlen_app. unfold zlen at 2; cbn. lia.
      * intros q Hq'. rewrite zlen_app in Hq'. unfold zlen at 2 in Hq'; cbn in Hq'.
        destruct (Z.lt_ge_cases q (zlen clip)) as [L|L].
        -- rewrite idx_app_l by lia. apply Hq. lia.
        -- replace q with (zlen clip) by lia. rewrite idx_app_r by lia. rewrite Z.sub_diag. cbn. f_equal. lia.
      * intros k Hk. destruct (Z.eq_dec k (Z.of_nat n)) as [->|N]; [exact Fs|]. apply Ht. lia.
    + assert (Gn : forall c, base_below flags (Z.of_nat n) c <-> Z.of_nat n < c < m).
      { intros c. split.
        - intros (B1 & B2 & B3). split; [lia|]. destruct (Z.lt_ge_cases c m) as [L|L]; [exact L|exfalso].
          pose proof (B3 m ltac:(lia)) as Bm. destruct Hmm as [->|Hmm].
          + apply idx_some_lt in Bm. lia.
          + congruence.
        - intros Hc'. split; [lia|]. split; [exact Fs|]. intros k Hk. apply Ht. lia. }
      assert (Bn : forall j, ~ base_below flags j (Z.of_nat n)).
      { intros j (B1 & B2 & B3). specialize (B3 (Z.of_nat n) ltac:(lia)). congruence. }
      destruct (0 <? zlen clip) eqn:E0.
      * assert (Hcl : forall c, In c clip <-> Z.of_nat n < c < m).
        { intros c. rewrite idx_In. split.
          - intros (q & Hq1 & Hq2). rewrite Hq in Hq2 by lia. injection Hq2 as <-. lia.
          - intros Hc'. exists (m - 1 - c). split; [lia|]. rewrite Hq by lia. f_equal. lia. }
        destruct (setBy_spec (Z.of_nat n) clip ls) as (l1 & E1 & Z1 & G1).
        { intros c Hc'. apply Hcl in Hc'. lia. }
        rewrite E1. destruct (reverse_spec clip) as (rc & Er & Zr & Gr). rewrite Er.
        assert (S1 : idx l1 (Z.of_nat n) = Some s).
        { rewrite (G1 _ _ Es). destruct (existsb (Z.eqb (Z.of_nat n)) clip) eqn:Ex; [exfalso|reflexivity].
          apply existsb_exists in Ex as (x & Hx & Ex). apply Hcl in Hx. lia. }
        rewrite S1. destruct (upd_in l1 (Z.of_nat n) (Sib (sclip s) (sby s) rc) ltac:(lia)) as [l2 E2]. rewrite E2.
        pose proof (upd_zlen _ _ _ _ E2) as Z2.
        destruct (Hlo _ _ Es ltac:(lia)) as [Sb Sg].
        assert (G2 : forall k s', idx l2 k = Some s' ->
                  k = Z.of_nat n /\ s' = Sib (sclip s) (sby s) rc \/
                  k <> Z.of_nat n /\ exists s0, idx ls k = Some s0 /\ s' = if existsb (Z.eqb k) clip then Sib (sclip s0) (Some (Z.of_nat n)) (sgroup s0) else s0).
        { intros k s' Hk. rewrite (idx_upd _ _ _ k _ E2) in Hk. destruct (Z.of_nat n =? k) eqn:Ek.
          - left. split; [lia|congruence].
          - right. split; [lia|]. destruct (idx_in ls k) as [s0 E0'].
            { apply idx_some_lt in Hk. lia. }
            exists s0. split; [exact E0'|]. rewrite (G1 _ _ E0') in Hk. congruence. }
        assert (Zn : zlen (@nil Z) = 0) by reflexivity.
        apply (IH _ _ (Z.of_nat n)); auto; try lia.
        -- intros k s' Hk. destruct (G2 _ _ Hk) as [[-> ->]|(N & s0 & H0 & ->)].
           ++ cbn. now rewrite Cs.
           ++ rewrite (Hf _ _ H0). now destruct (existsb (Z.eqb k) clip).
        -- intros k s' Hk L. destruct (G2 _ _ Hk) as [[-> ->]|(N & s0 & H0 & ->)]; [lia|].
           destruct (existsb (Z.eqb k) clip) eqn:Ex.
           ++ apply existsb_exists in Ex as (x & Hx & Ex). apply Hcl in Hx. lia.
           ++ apply (Hlo _ _ H0). lia.
        -- intros k s' Hk L. destruct (G2 _ _ Hk) as [[-> ->]|(N & s0 & H0 & ->)].
           ++ unfold sib_ok. cbn [sby sgroup]. rewrite Sb. apply sib_split.
              ** intros ?; discriminate 1.
              ** intros ? B. now apply Bn in B.
              ** intros i j a b Hij Ha Hb. pose proof (idx_some_lt _ _ _ Ha). pose proof (idx_some_lt _ _ _ Hb).
                 rewrite Gr, Hq in Ha by lia. rewrite Gr, Hq in Hb by lia. injection Ha as <-. injection Hb as <-. lia.
              ** intros ? H. apply Gn, Hcl. apply idx_In in H as (q & Hq1 & Hq2). rewrite Gr in Hq2 by lia.
                 apply idx_In. exists (zlen clip - 1 - q). split; [lia|exact Hq2].
              ** intros ? H. apply Gn, Hcl in H. apply idx_In in H as (q & Hq1 & Hq2). apply idx_In.
                 exists (zlen clip - 1 - q). split; [lia|]. rewrite Gr by lia. rewrite <- Hq2. f_equal. lia.
           ++ destruct (existsb (Z.eqb k) clip) eqn:Ex.
              ** apply existsb_exists in Ex as (x & Hx & Ex). apply Z.eqb_eq in Ex. subst x. apply Hcl in Hx.
                 destruct (Hlo _ _ H0 ltac:(lia)) as [Sb0 Sg0]. unfold sib_ok. cbn [sby sgroup]. rewrite Sg0. apply sib_split.
                 --- intros ? [= <-]. apply Gn. lia.
                 --- intros ? B. f_equal. apply (base_unique flags _ _ k); [|exact B]. apply Gn. lia.
                 --- intros i j a b _ I. unfold idx in I. destruct (i <? 0); [discriminate|]. destruct (Z.to_nat i); discriminate.
                 --- intros ? [].
                 --- intros ? (B1 & B2 & _). rewrite Ht in B2 by lia. discriminate.
              ** apply (Hhi _ _ H0). destruct (Z.lt_ge_cases k m) as [L'|L']; [exfalso|exact L'].
                 rewrite <- not_true_iff_false in Ex. apply Ex, existsb_exists. exists k. split; [apply Hcl; lia|lia].
      * assert (zlen clip = 0) by (unfold zlen in *; lia). assert (m = Z.of_nat n + 1) by lia.
        apply (IH _ _ (Z.of_nat n)); auto; try lia.
        -- intros k s' Hk L. apply (Hlo _ _ Hk). lia.
        -- intros k s' Hk L. destruct (Z.eq_dec k (Z.of_nat n)) as [->|N]; [|apply (Hhi _ _ Hk); lia].
           assert (s' = s) by congruence. subst s'. destruct (Hlo _ _ Es ltac:(lia)) as [Sb0 Sg0].
           unfold sib_ok. rewrite Sb0, Sg0. apply sib_split.
           ++ intros ?; discriminate 1.
           ++ intros ? B. now apply Bn in B.
           ++ intros i j a b _ I. unfold idx in I. destruct (i <? 0); [discriminate|]. destruct (Z.to_nat i); discriminate.
           ++ intros ? [].
           ++ intros ? B. apply Gn in B. lia.
Qed.

Lemma idx_map {A B} (f : A -> B) l i : idx (map f l) i = match idx l i with Some a => Some (f a) | None => None end.
Proof. unfold idx. destruct (i <? 0); [reflexivity|]. rewrite nth_error_map. reflexivity. Qed.

Lemma registerList_spec flags :
  exists ls, registerList flags = Some ls /\ zlen ls = zlen flags /\
    forall k s, idx ls k = Some s -> idx flags k = Some (sclip s) /\ sib_ok flags k s.
Proof.
  unfold registerList. assert (Zl : zlen (map (fun f => Sib f None []) flags) = zlen flags) by (unfold zlen; now rewrite map_length).
  apply (registerFrom_spec flags _ _ _ (zlen flags)); auto; try (unfold zlen; cbn; lia).
  - intros k s. rewrite idx_map. destruct (idx flags k); [|discriminate]. intros [= <-]. reflexivity.
  - intros k s. rewrite idx_map. destruct (idx flags k); [|discriminate]. intros [= <-]. auto.
  - intros k s H L. apply idx_some_lt in H. lia.
Qed.

(** * The whole tree *)
Lemma optAll_some {A} (l : list (option A)) r : optAll l = Some r <-> l = map Some r.
Proof.
  revert r. induction l as [|[a|] l IH]; intros r; cbn.
  - split; [intros [= <-]; reflexivity|]. destruct r; [reflexivity|discriminate].
  - destruct (optAll l) as [t|] eqn:E.
    + split.
      * intros [= <-]. cbn. f_equal. now apply IH.
      * destruct r as [|x r]; [discriminate|]. cbn. intros [= -> H]. apply IH in H. congruence.
    + split; [discriminate|]. destruct r as [|x r]; [discriminate|]. cbn. intros [= -> H]. apply IH in H. congruence.
  - split; [discriminate|]. destruct r; discriminate.
Qed.

Definition ftree_rec' (P : ftree -> Prop) (H : forall f cs, Forall P cs -> P (FT f cs)) : forall t, P t :=
  fix F t := match t with FT f cs => H f cs ((fix go cs := match cs return Forall P cs with [] => Forall_nil _ | c :: cs => Forall_cons _ (F c) (go cs) end) cs) end.

Lemma registerSub_some t : exists ss, registerSub t = Some ss /\ length ss = match t with FT _ cs => length cs end.
Proof.
  induction t as [f cs IH] using ftree_rec'. cbn [registerSub].
  destruct (registerList_spec (map fflag cs)) as (ls & E & Zl & _). rewrite E.
  assert (X : exists subs, optAll (map registerSub cs) = Some subs /\ length subs = length cs).
  { clear E Zl. induction IH as [|c cs (s & Hs & _) _ IHl].
    - now exists [].
    - destruct IHl as (subs & Es & Ll). exists (s :: subs). cbn. rewrite Hs, Es. cbn. auto. }
  destruct X as (subs & Es & Ll). rewrite Es. eexists. split; [reflexivity|].
  rewrite map_length, combine_length, Ll. unfold zlen in Zl. rewrite map_length in Zl. lia.
Qed.

Definition sflag (s : stree) : sib := match s with ST s _ => s end.
Lemma register_tree t ss : registerSub t = Some ss ->
  forall p fs, fat t p = Some fs ->
  exists ls, sat ss p = Some ls /\ registerList (map fflag fs) = Some (map sflag ls).
Proof.
  revert ss. induction t as [f cs IH] using ftree_rec'. intros ss. cbn [registerSub].
  destruct (registerList_spec (map fflag cs)) as (ls & E & Zl & _). rewrite E.
  destruct (optAll (map registerSub cs)) as [subs|] eqn:Eo; [|discriminate]. intros [= <-].
  apply optAll_some in Eo.
  assert (Ll : length subs = length cs) by (rewrite <- (map_length Some subs), <- Eo; apply map_length).
  assert (L2 : length ls = length cs) by (unfold zlen in Zl; rewrite map_length in Zl; lia).
  intros p fs. destruct p as [|i p]; cbn [fat sat].
  - intros [= <-]. eexists. split; [reflexivity|]. rewrite E. f_equal. rewrite map_map. cbn [sflag].
    clear -Ll L2. revert ls subs L2 Ll. induction cs; intros [|l ls] [|s subs]; cbn; try discriminate; auto.
    intros [=] [=]. f_equal. auto.
  - destruct (nth_error cs i) as [c|] eqn:Ec; [|discriminate]. intros Hf.
    assert (Hs : nth_error (map registerSub cs) i = Some (registerSub c)) by (rewrite nth_error_map, Ec; reflexivity).
    rewrite Eo, nth_error_map in Hs. destruct (nth_error subs i) as [sub|] eqn:Esub; [|discriminate]. cbn in Hs.
    injection Hs as Hs. destruct (nth_error ls i) as [sl|] eqn:Esl.
    2:{ apply nth_error_None in Esl. assert (nth_error subs i <> None) by congruence. apply nth_error_Some in H. lia. }
    assert (Hn : nth_error (map (fun p => ST (fst p) (snd p)) (combine ls subs)) i = Some (ST sl sub)).
    { rewrite nth_error_map. replace (nth_error (combine ls subs) i) with (Some (sl, sub)); [reflexivity|].
      clear -Esl Esub. revert i subs Esl Esub. induction ls; intros [|i] [|s subs]; cbn; try discriminate; auto. congruence. }
    rewrite Hn. rewrite Forall_forall in IH. apply (IH c); auto. eapply nth_error_In; eauto.
Qed.

Lemma register_tree_correct t : exists ss, registerSub t = Some ss /\
  forall p fs, fat t p = Some fs -> exists ls, sat ss p = Some ls /\ length ls = length fs /\
    forall k s, idx (map sflag ls) k = Some s -> idx (map fflag fs) k = Some (sclip s) /\
      (forall j, sby s = Some j <-> base_below (map fflag fs) j k) /\
      increasing (sgroup s) /\ (forall c, In c (sgroup s) <-> base_below (map fflag fs) k c).
Proof.
  destruct (registerSub_some t) as (ss & E & _). exists ss. split; [exact E|]. intros p fs Hp.
  destruct (register_tree t ss E p fs Hp) as (ls & Hs & Hr). exists ls. split; [exact Hs|].
  destruct (registerList_spec (map fflag fs)) as (ls' & E' & Zl & G). rewrite Hr in E'. injection E' as <-.
  split; [|exact G]. unfold zlen in Zl. rewrite !map_length in Zl. lia.
Qed.
