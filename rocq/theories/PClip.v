(** Clipping groups: proofs. *)
From Verif Require Import Base BaseFacts MRender MPipe SClip.

(** * reverse *)
Lemma nth_upd {A} (v : A) : forall l i j, nth_error (upd_nat l i v) j = if (i =? j)%nat then match nth_error l j with Some _ => Some v | None => None end else nth_error l j.
Proof.
  induction l as [|x l IH]; intros [|i] [|j]; cbn [upd_nat nth_error Nat.eqb]; try reflexivity. - now destruct (i =? j)%nat. - apply IH.
Qed.
Lemma nth_swap ls i j k : (i < length ls)%nat -> (j < length ls)%nat ->
  nth_error (swapAt ls i j) k = if (k =? j)%nat then nth_error ls i else if (k =? i)%nat then nth_error ls j else nth_error ls k.
Proof.
  intros Hi Hj. unfold swapAt. rewrite !nth_upd. rewrite (Nat.eqb_sym j k), (Nat.eqb_sym i k).
  assert (N : forall m, (m < length ls)%nat -> nth_error ls m = Some (nth m ls O)) by (intros; now apply nth_error_nth').
  destruct (Nat.eqb_spec k j) as [E1|E1]; destruct (Nat.eqb_spec k i) as [E2|E2]; try (subst k); try reflexivity; rewrite ?(N i Hi), ?(N j Hj); try reflexivity.
Qed.
Lemma length_swap ls i j : length (swapAt ls i j) = length ls.
Proof. unfold swapAt. now rewrite !upd_nat_length. Qed.
Lemma reverse_upto ls : forall m, (2 * m <= length ls)%nat ->
  let r := fold_left (fun ls i => swapAt ls i (length ls - i - 1)) (seq 0 m) ls in
  length r = length ls /\ forall k, (k < length ls)%nat -> nth_error r k = if ((k <? m) || (length ls - m <=? k))%nat then nth_error ls (length ls - k - 1) else nth_error ls k.
Proof.
  induction m as [|m IH]; intros Hm; [split; [reflexivity|]; intros k Hk; cbn [seq fold_left]; replace (length ls - 0 <=? k)%nat with false; [reflexivity|symmetry; apply Nat.leb_gt; lia]|].
  cbv zeta. rewrite seq_S, fold_left_app. cbn [fold_left Nat.add]. destruct (IH ltac:(lia)) as [L N]. set (r := fold_left _ (seq 0 m) ls) in *.
  split; [now rewrite length_swap|]. intros k Hk. rewrite nth_swap by lia. rewrite L.
  destruct (Nat.eqb_spec k (length ls - m - 1)) as [->|N1].
  - rewrite N by lia. replace ((m <? m) || (length ls - m <=? m))%nat with false by (symmetry; apply orb_false_iff; split; [apply Nat.ltb_ge|apply Nat.leb_gt]; lia).
    replace ((length ls - m - 1 <? S m) || (length ls - S m <=? length ls - m - 1))%nat with true by (symmetry; apply orb_true_iff; right; apply Nat.leb_le; lia).
    f_equal. lia.
  - destruct (Nat.eqb_spec k m) as [->|N2].
    + rewrite N by lia. replace ((length ls - m - 1 <? m) || (length ls - m <=? length ls - m - 1))%nat with false by (symmetry; apply orb_false_iff; split; [apply Nat.ltb_ge|apply Nat.leb_gt]; lia).
      replace (m <? S m)%nat with true by (symmetry; apply Nat.ltb_lt; lia). reflexivity.
    + rewrite N by lia. replace ((k <? S m) || (length ls - S m <=? k))%nat with ((k <? m) || (length ls - m <=? k))%nat; [reflexivity|].
      f_equal; apply eq_true_iff_eq; [rewrite !Nat.ltb_lt|rewrite !Nat.leb_le]; lia.
Qed.
Lemma nth_rev {A} (l : list A) k : (k < length l)%nat -> nth_error (rev l) k = nth_error l (length l - k - 1).
Proof.
  revert k. induction l as [|x l IH]; intros k Hk; [cbn in Hk; lia|]. cbn [rev length] in *. destruct (Nat.eq_dec k (length l)) as [->|N].
  - rewrite nth_error_app2; rewrite rev_length; [|lia]. replace (S (length l) - length l - 1)%nat with 0%nat by lia. now rewrite Nat.sub_diag.
  - rewrite nth_error_app1 by (rewrite rev_length; lia). rewrite IH by lia. replace (S (length l) - k - 1)%nat with (S (length l - k - 1)) by lia. reflexivity.
Qed.
Lemma nth_ext' {A} : forall (a b : list A), length a = length b -> (forall k, (k < length a)%nat -> nth_error a k = nth_error b k) -> a = b.
Proof.
  induction a as [|x a IH]; intros [|y b] L H; cbn [length] in L; try discriminate; [reflexivity|]. pose proof (H 0%nat ltac:(cbn; lia)) as E. injection E as ->.
  f_equal. apply IH; [lia|]. intros k Hk. apply (H (S k)). cbn [length]. lia.
Qed.
Lemma reverse_rev ls : reverse ls = rev ls.
Proof.
  unfold reverse. pose proof (Nat.div2_odd (length ls)) as Ho. assert (H2 : (2 * Nat.div2 (length ls) <= length ls)%nat) by lia.
  destruct (reverse_upto ls _ H2) as [L N]. set (r := fold_left _ _ _) in *. apply nth_ext'; [now rewrite rev_length|]. rewrite L. intros k Hk. rewrite N by lia. rewrite nth_rev by lia.
  destruct (_ || _) eqn:E; [reflexivity|]. apply orb_false_iff in E. destruct E as [E1 E2]. apply Nat.ltb_ge in E1. apply Nat.leb_gt in E2. f_equal. destruct (Nat.odd (length ls)); cbn [Nat.b2n] in Ho; lia.
Qed.

(** * The groups *)
Definition run (cl : list bool) (i n : nat) : Prop := (forall k, (i <= k < i + n)%nat -> nth k cl false = true) /\ nth (i + n) cl false = false.
Lemma run_same cl i n : run cl i n <-> clip_run cl i n.
Proof.
  assert (H : forall k, nth k cl false = true <-> nth_error cl k = Some true).
  { intros k. rewrite <- nth_default_eq. unfold nth_default. destruct (nth_error cl k) as [b|]; [split; congruence|split; discriminate]. }
  unfold run, clip_run. rewrite <- H. split; intros [A B]; (split; [intros k Hk; apply H, A, Hk|]); [now rewrite B|now apply not_true_is_false].
Qed.
Lemma run_unique cl i n m : run cl i n -> run cl i m -> n = m.
Proof.
  intros [A B] [A' B']. destruct (Nat.lt_trichotomy n m) as [H|[H|H]]; [|exact H|].
  - rewrite (A' (i + n)%nat) in B by lia. discriminate.
  - rewrite (A (i + m)%nat) in B' by lia. discriminate.
Qed.
Definition entry (cl : list bool) (j : nat) (g : list nat) : Prop :=
  nth_error cl j = Some false /\ exists m, (0 < m)%nat /\ run cl (S j) m /\ g = seq (S j) m.
Lemma register_in cl : forall i n set, (i <= length cl)%nat -> run cl i n -> forall j g,
  In (j, g) (registerClip cl i (rev (seq i n)) set) <-> In (j, g) set \/ ((j < i)%nat /\ entry cl j g).
Proof.
  induction i as [|i IH]; intros n set Hi HR j g; cbn [registerClip]; [split; [now left|intros [H|[H _]]; [exact H|lia]]|].
  assert (Ne : nth_error cl i = Some (nth i cl false)) by (apply nth_error_nth'; lia).
  assert (Step : (j < S i)%nat /\ entry cl j g <-> (j < i)%nat /\ entry cl j g \/ j = i /\ entry cl i g).
  { split; [intros [H E]; destruct (Nat.eq_dec j i) as [->|]; [right; auto|left; split; [lia|exact E]]|intros [[H E]|[-> E]]; (split; [lia|exact E])]. }
  destruct (nth i cl false) eqn:E.
  - assert (HR' : run cl i (S n)).
    { destruct HR as [A B]. split; [|now replace (i + S n)%nat with (S i + n)%nat by lia]. intros k Hk. destruct (Nat.eq_dec k i) as [->|]; [exact E|apply A; lia]. }
    replace (rev (seq (S i) n) ++ [i]) with (rev (seq i (S n))) by reflexivity. rewrite IH by (lia || assumption). rewrite Step. split; [tauto|].
    intros [H|[H|[_ [H _]]]]; [tauto|tauto|congruence].
  - assert (HR0 : run cl i 0) by (split; [intros k Hk; lia|now rewrite Nat.add_0_r]).
    assert (Ent : forall g, entry cl i g <-> (0 < n)%nat /\ g = seq (S i) n).
    { intros g0. split; [intros (_ & m & Hm & Rm & ->)|intros [Hn ->]]; [pose proof (run_unique _ _ _ _ HR Rm); subst m; auto|split; [exact Ne|now exists n]]. }
    destruct n as [|n]; cbn [seq rev].
    + rewrite (IH 0%nat set) by (lia || assumption). rewrite Step, Ent. split; [tauto|]. intros [H|[H|[_ [H _]]]]; [tauto|tauto|lia].
    + destruct (rev (seq (S (S i)) n) ++ [S i]) as [|c0 clip] eqn:Ec; [now destruct (rev (seq (S (S i)) n))|]. rewrite <- Ec. clear Ec c0 clip.
      replace (rev (seq (S (S i)) n) ++ [S i]) with (rev (seq (S i) (S n))) by reflexivity. rewrite reverse_rev, rev_involutive.
      change (@nil nat) with (rev (seq i 0)). rewrite IH by (lia || assumption). rewrite in_app_iff, Step, Ent. cbn [In]. split.
      * intros [[H|[H|[]]]|H]; [tauto| |tauto]. injection H as <- <-. right. right. split; [reflexivity|]. split; [lia|reflexivity].
      * intros [H|[H|[-> [_ ->]]]]; [tauto|tauto|]. left. right. now left.
Qed.
Lemma groups_in cl j g : In (j, g) (clipGroups cl) <-> entry cl j g.
Proof.
  unfold clipGroups. change (@nil nat) with (rev (seq (length cl) 0)). rewrite register_in; [|lia|split; [intros k Hk; lia|apply nth_overflow; lia]]. cbn [In]. split; [tauto|].
  intros H. right. split; [|exact H]. apply nth_error_Some. destruct H as [-> _]. discriminate.
Qed.
Lemma m_get_In {V} (m : list (nat * V)) k v : m_get Nat.eqb m k = Some v -> In (k, v) m.
Proof. induction m as [|[k' v'] m IH]; cbn [m_get In]; [discriminate|]. destruct (Nat.eqb_spec k k') as [->|]; [intros [= ->]; now left|intros H; right; auto]. Qed.
Lemma m_get_none {V} (m : list (nat * V)) k : m_get Nat.eqb m k = None -> forall v, ~ In (k, v) m.
Proof. induction m as [|[k' v'] m IH]; cbn [m_get In]; [auto|]. destruct (Nat.eqb_spec k k') as [->|N]; [discriminate|]. intros H v [[= -> _]|X]; [congruence|now apply (IH H v)]. Qed.
Lemma run_exists cl : forall d i, (length cl - i <= d)%nat -> exists n, run cl i n.
Proof.
  induction d as [|d IH]; intros i Hd.
  - exists 0%nat. split; [intros k Hk; lia|]. apply nth_overflow. lia.
  - destruct (nth i cl false) eqn:E; [|exists 0%nat; split; [intros k Hk; lia|now rewrite Nat.add_0_r]].
    destruct (IH (S i)) as (n & A & B); [lia|]. exists (S n). split; [|now replace (i + S n)%nat with (S i + n)%nat by lia].
    intros k Hk. destruct (Nat.eq_dec k i) as [->|]; [exact E|apply A; lia].
Qed.

Lemma group_of_base cl i : nth_error cl i = Some false -> exists n, clip_run cl (S i) n /\ groupOf (clipGroups cl) i = seq (S i) n.
Proof.
  intros E. destruct (run_exists cl _ (S i) (le_n _)) as (n & R). exists n. split; [now apply run_same|]. unfold groupOf.
  destruct (m_get Nat.eqb (clipGroups cl) i) as [g|] eqn:G.
  - apply m_get_In, groups_in in G. destruct G as (_ & m & _ & Rm & ->). now rewrite (run_unique _ _ _ _ R Rm).
  - destruct n as [|n]; [reflexivity|]. exfalso. apply (m_get_none _ _ G (seq (S i) (S n))). apply groups_in. split; [exact E|]. exists (S n). auto with arith.
Qed.
Lemma group_of_other cl i : nth_error cl i <> Some false -> groupOf (clipGroups cl) i = [].
Proof.
  intros N. unfold groupOf. destruct (m_get Nat.eqb (clipGroups cl) i) as [g|] eqn:G; [|reflexivity]. apply m_get_In, groups_in in G. destruct G as [G _]. contradiction.
Qed.

Lemma entry_member cl j i g : entry cl i g -> (In j g <-> clipped_to cl j i).
Proof.
  intros (E & m & Hm & R & ->). rewrite in_seq. apply run_same in R. destruct R as [A B]. unfold clipped_to. split.
  - intros Hj. split; [lia|]. split; [exact E|]. intros k Hk. apply A. lia.
  - intros (Hj & _ & H). split; [lia|]. destruct (Nat.lt_ge_cases j (S i + m)) as [L|L]; [exact L|]. exfalso. apply B, H. lia.
Qed.
Lemma clipped_entry cl j i : clipped_to cl j i -> exists g, entry cl i g.
Proof.
  intros (Hj & E & H). destruct (run_exists cl _ (S i) (le_n _)) as (n & R). exists (seq (S i) n). split; [exact E|]. exists n. split; [|auto].
  destruct n as [|n]; [|lia]. apply run_same in R. destruct R as [_ R]. exfalso. apply R. rewrite Nat.add_0_r. apply H. lia.
Qed.
Lemma clipped_unique cl j i i' : clipped_to cl j i -> clipped_to cl j i' -> i = i'.
Proof.
  intros (Hj & E & H) (Hj' & E' & H'). destruct (Nat.lt_trichotomy i i') as [L|[L|L]]; [|exact L|].
  - rewrite H in E' by lia. discriminate.
  - rewrite H' in E by lia. discriminate.
Qed.
Lemma clippedBy_gen cl j : forall gs o, (forall i g, In (i, g) gs -> entry cl i g) -> (forall i, o = Some i -> clipped_to cl j i) ->
  forall i, fold_left (fun o g => if existsb (Nat.eqb j) (snd g) then Some (fst g) else o) gs o = Some i <->
    o = Some i \/ exists g, In (i, g) gs /\ In j g.
Proof.
  induction gs as [|[i0 g0] gs IH]; intros o HE Ho i; cbn [fold_left fst snd].
  - split; [now left|intros [H|(g & [] & _)]; exact H].
  - assert (X : existsb (Nat.eqb j) g0 = true <-> In j g0).
    { rewrite existsb_exists. split; [intros (x & Hx & Ex); apply Nat.eqb_eq in Ex; now subst|intros H; exists j; split; [exact H|apply Nat.eqb_refl]]. }
    pose proof (HE i0 g0 (or_introl eq_refl)) as E0.
    destruct (existsb (Nat.eqb j) g0) eqn:E.
    + apply proj1 in X. specialize (X eq_refl). pose proof (proj1 (entry_member cl j i0 g0 E0) X) as C0.
      rewrite IH; [|intros; apply HE; now right|intros i1 [= <-]; exact C0]. split.
      * intros [[= <-]|(g & H & Hj)]; right; [exists g0; split; [now left|exact X]|exists g; split; [now right|exact Hj]].
      * intros [->|(g & [[= <- <-]|H] & Hj)]; [left; f_equal; eapply clipped_unique; [exact C0|now apply Ho]|now left|right; now exists g].
    + rewrite IH; [|intros; apply HE; now right|exact Ho]. split.
      * intros [H|(g & H & Hj)]; [now left|right; exists g; split; [now right|exact Hj]].
      * intros [H|(g & [[= <- <-]|H] & Hj)]; [now left|apply X in Hj; discriminate|right; now exists g].
Qed.
Lemma clippedBy_spec cl j i : clippedBy (clipGroups cl) j = Some i <-> clipped_to cl j i.
Proof.
  unfold clippedBy. rewrite (clippedBy_gen cl j); [|intros i0 g H; now apply groups_in|discriminate]. split.
  - intros [H|(g & H & Hj)]; [discriminate|]. apply groups_in in H. now apply (entry_member cl j i g H).
  - intros H. right. destruct (clipped_entry _ _ _ H) as [g E]. exists g. split; [now apply groups_in|]. now apply (entry_member cl j i g E).
Qed.

(** * The lists of layers *)
Section lists.
  Variable all : list layer.
  Let flag (k : layer) : bool := lclipping (latt k).
  Let cl := map flag all.
  Let f (i : nat) : list layer := match clippedBy (clipGroups cl) i with Some _ => [] | None =>
    let k := nth i all layer0 in [Lay (latt k) (lkids k) (map (fun j => nth j all layer0) (groupOf (clipGroups cl) i))] end.
  Lemma withGroups_f : withGroups all = flat_map f (seq 0 (length all)).
  Proof. reflexivity. Qed.
  Lemma cl_at pre k ks : all = pre ++ k :: ks -> nth_error cl (length pre) = Some (flag k) /\ nth (length pre) all layer0 = k.
  Proof.
    intros E. unfold cl. rewrite E. rewrite map_app. cbn [map]. rewrite <- (map_length flag pre). split; [|rewrite map_length].
    - rewrite nth_error_app2 by lia. now rewrite Nat.sub_diag.
    - rewrite app_nth2 by lia. now rewrite Nat.sub_diag.
  Qed.
  Lemma cl_range pre cs ks : all = pre ++ cs ++ ks -> Forall (fun c => flag c = true) cs -> forall k, (length pre <= k < length pre + length cs)%nat -> nth_error cl k = Some true.
  Proof.
    intros E H k Hk. unfold cl. rewrite E, !map_app. rewrite nth_error_app2 by (rewrite map_length; lia). rewrite nth_error_app1 by (rewrite !map_length; lia). rewrite map_length, nth_error_map.
    destruct (nth_error cs (k - length pre)) as [c|] eqn:Ec; [|apply nth_error_None in Ec; lia]. apply nth_error_In in Ec. rewrite Forall_forall in H. cbn [option_map]. now rewrite H.
  Qed.
  Lemma split_run : forall ks, exists cs ks', ks = cs ++ ks' /\ Forall (fun c => flag c = true) cs /\ match ks' with k :: _ => flag k = false | [] => True end.
  Proof.
    induction ks as [|k ks (cs & ks' & -> & H & N)]; [exists [], []; auto|]. destruct (flag k) eqn:E; [exists (k :: cs), ks'; auto|exists [], (k :: cs ++ ks'); auto].
  Qed.
  Lemma map_nth_range pre cs ks : all = pre ++ cs ++ ks -> map (fun j => nth j all layer0) (seq (length pre) (length cs)) = cs.
  Proof.
    intros E. revert pre E. induction cs as [|c cs IH]; intros pre E; [reflexivity|]. cbn [length seq map]. f_equal.
    - rewrite E. rewrite app_nth2 by lia. now rewrite Nat.sub_diag.
    - specialize (IH (pre ++ [c])). rewrite app_length in IH. cbn [length] in IH. replace (length pre + 1)%nat with (S (length pre)) in IH by lia. apply IH. rewrite <- app_assoc. exact E.
  Qed.
  Lemma members_gone pre cs ks i : all = pre ++ cs ++ ks -> Forall (fun c => flag c = true) cs -> S i = length pre -> nth_error cl i = Some false -> flat_map f (seq (length pre) (length cs)) = [].
  Proof.
    intros E H Hi Ei.
    assert (G : forall n a, (length pre <= a)%nat -> (a + n <= length pre + length cs)%nat -> flat_map f (seq a n) = []).
    { induction n as [|n IH]; intros a H1 H2; [reflexivity|]. cbn [seq flat_map]. rewrite IH by lia. rewrite app_nil_r. unfold f.
      replace (clippedBy (clipGroups cl) a) with (Some i); [reflexivity|]. symmetry. apply clippedBy_spec. split; [lia|]. split; [exact Ei|].
      intros k Hk. eapply cl_range; eauto. lia. }
    apply G; lia.
  Qed.
  Lemma based_from : forall n ks pre, (length ks <= n)%nat -> all = pre ++ ks -> match ks with k :: _ => flag k = false | [] => True end -> based ks (flat_map f (seq (length pre) (length ks))).
  Proof.
    induction n as [|n IH]; intros [|k ks] pre Hn E Hk; try constructor; [cbn in Hn; lia|].
    destruct (split_run ks) as (cs & ks' & -> & Hcs & Hk'). destruct (cl_at _ _ _ E) as [Ek Nk]. rewrite Hk in Ek. cbn [length] in *. rewrite app_length in *. cbn [seq flat_map].
    rewrite seq_app, flat_map_app.
    assert (E2 : all = (pre ++ [k]) ++ cs ++ ks') by now rewrite <- app_assoc. assert (L2 : length (pre ++ [k]) = S (length pre)) by (rewrite app_length; cbn; lia).
    pose proof (members_gone _ _ _ (length pre) E2 Hcs (eq_sym L2) Ek) as M. rewrite L2 in M. rewrite M. cbn [app].
    unfold f at 1. replace (clippedBy (clipGroups cl) (length pre)) with (@None nat).
    2: { symmetry. destruct (clippedBy (clipGroups cl) (length pre)) as [i|] eqn:B; [|reflexivity]. apply clippedBy_spec in B. destruct B as (Hi & _ & B). rewrite B in Ek by lia. discriminate. }
    destruct (group_of_base cl (length pre) Ek) as (m & Rm & ->). cbv zeta. rewrite Nk.
    assert (m = length cs) as ->.
    { apply run_same in Rm. eapply run_unique; [exact Rm|]. apply run_same. split.
      - intros j Hj. rewrite <- L2 in Hj. eapply cl_range; eauto.
      - destruct ks' as [|k' ks'].
        + rewrite (proj2 (nth_error_None cl _)); [discriminate|]. unfold cl. rewrite map_length, E2, !app_length. cbn. lia.
        + assert (E3 : all = ((pre ++ [k]) ++ cs) ++ k' :: ks') by now rewrite <- app_assoc. destruct (cl_at _ _ _ E3) as [E4 _]. rewrite app_length, L2 in E4. rewrite E4, Hk'. discriminate. }
    pose proof (map_nth_range _ _ _ E2) as Mr. rewrite L2 in Mr. rewrite Mr. cbn [app].
    apply based_cons; [exact Hk|exact Hcs|].
    assert (E3 : all = ((pre ++ [k]) ++ cs) ++ ks') by now rewrite <- app_assoc. pose proof (IH ks' _ ltac:(lia) E3 Hk') as G. rewrite app_length, L2 in G. exact G.
  Qed.
  Lemma first_from ks : forall cs pre, all = pre ++ cs ++ ks -> Forall (fun c => flag c = true) pre -> Forall (fun c => flag c = true) cs -> match ks with k :: _ => flag k = false | [] => True end ->
    grouped (cs ++ ks) (flat_map f (seq (length pre) (length (cs ++ ks)))).
  Proof.
    induction cs as [|c cs IH]; intros pre E Hp Hcs Hk.
    - apply grouped_base. cbn [app] in *. eapply based_from; eauto.
    - pose proof (Forall_inv Hcs) as Hc. pose proof (Forall_inv_tail Hcs) as Hcs'. cbn beta in Hc. destruct (cl_at pre c (cs ++ ks) E) as [Ec Nc]. rewrite Hc in Ec. cbn [app length seq flat_map].
      unfold f at 1. replace (clippedBy (clipGroups cl) (length pre)) with (@None nat).
      2: { symmetry. destruct (clippedBy (clipGroups cl) (length pre)) as [i|] eqn:B; [|reflexivity]. apply clippedBy_spec in B. destruct B as (Hi & B & _).
           assert (E0 : all = [] ++ pre ++ (c :: cs) ++ ks) by exact E. rewrite (cl_range [] pre _ E0 Hp i) in B by (cbn; lia). discriminate. }
      rewrite group_of_other by congruence. cbv zeta. rewrite Nc. cbn [map app]. apply grouped_first; [exact Hc|].
      assert (E2 : all = (pre ++ [c]) ++ cs ++ ks) by (now rewrite <- app_assoc). assert (Hp2 : Forall (fun c => flag c = true) (pre ++ [c])) by (apply Forall_app; auto).
      specialize (IH _ E2 Hp2 Hcs' Hk). rewrite app_length in IH. cbn [length] in IH. now replace (length pre + 1)%nat with (S (length pre)) in IH by lia.
  Qed.
  Lemma withGroups_grouped : grouped all (withGroups all).
  Proof.
    destruct (split_run all) as (cs & ks & E & H & N). rewrite withGroups_f. rewrite E at 1. replace (length all) with (length (cs ++ ks)) by now rewrite <- E.
    change 0%nat with (@length layer []). apply first_from; auto.
  Qed.
End lists.
