(** Proofs about the tree in memory. *)
From Verif Require Import Base BaseFacts MLTree SLTree.

Definition ptree_rec' {A} (P : ptree A -> Prop) (H : forall v cs, Forall P cs -> P (PT v cs)) : forall t, P t :=
  fix F t := match t with PT v cs => H v cs ((fix go cs := match cs return Forall P cs with [] => Forall_nil _ | c :: cs => Forall_cons _ (F c) (go cs) end) cs) end.

Section mem.
  Context {A : Type}.
  Implicit Types (h : heap A) (c : cell A) (a x : addr).

  Definition hext (P : addr -> Prop) h h' : Prop := forall x c, P x -> hget h x = Some c -> hget h' x = Some c.
  (** Blocks keep their number of cells in use *)
  Definition same_len (n : nat) h h' : Prop :=
    forall b cap l, (b < n)%nat -> nth_error h b = Some (cap, l) -> exists l', nth_error h' b = Some (cap, l') /\ length l' = length l.
  Definition slice_wf h (s : option (nat * nat)) : Prop :=
    match s with None => True | Some (b, n) => exists cap l, nth_error h b = Some (cap, l) /\ length l = n end.

  Lemma hset_length h a c : length (hset h a c) = length h.
  Proof. unfold hset. destruct (nth_error h (fst a)) as [[cap l]|]; [apply upd_nat_length|reflexivity]. Qed.
  Lemma hget_hset_same h a c c0 : hget h a = Some c0 -> hget (hset h a c) a = Some c.
  Proof.
    unfold hget, hset. destruct (nth_error h (fst a)) as [[cap l]|] eqn:E; [|discriminate]. intros H.
    rewrite nth_error_upd_nat, Nat.eqb_refl.
    assert (fst a < length h)%nat by (apply nth_error_Some; congruence). assert (snd a < length l)%nat by (apply nth_error_Some; congruence).
    replace (fst a <? length h)%nat with true by lia. rewrite nth_error_upd_nat, Nat.eqb_refl.
    replace (snd a <? length l)%nat with true by lia. reflexivity.
  Qed.
  Lemma hget_hset_other h a c x : x <> a -> hget (hset h a c) x = hget h x.
  Proof.
    intros N. unfold hget, hset. destruct (nth_error h (fst a)) as [[cap l]|] eqn:E; [|reflexivity].
    rewrite nth_error_upd_nat. destruct (Nat.eqb_spec (fst a) (fst x)) as [Ef|]; [|reflexivity].
    assert (fst a < length h)%nat by (apply nth_error_Some; congruence).
    replace (fst a <? length h)%nat with true by lia. rewrite <- Ef, E, nth_error_upd_nat.
    destruct (Nat.eqb_spec (snd a) (snd x)) as [Es|]; [|reflexivity].
    exfalso. apply N. destruct a, x. cbn in *. congruence.
  Qed.
  Lemma hset_same_len n h a c : same_len n h (hset h a c).
  Proof.
    intros b cap l _ H. unfold hset. destruct (nth_error h (fst a)) as [[cap' l']|] eqn:E; [|eauto].
    rewrite nth_error_upd_nat. destruct (Nat.eqb_spec (fst a) b) as [Ef|]; [|eauto].
    assert (fst a < length h)%nat by (apply nth_error_Some; congruence).
    replace (fst a <? length h)%nat with true by lia. subst b. rewrite E in H. injection H as <- <-.
    eexists. split; [reflexivity|]. apply upd_nat_length.
  Qed.
  Lemma hget_lt h a c : hget h a = Some c -> (fst a < length h)%nat.
  Proof. unfold hget. destruct (nth_error h (fst a)) eqn:E; [|discriminate]. intros _. apply nth_error_Some. congruence. Qed.
  Lemma same_len_trans n h1 h2 h3 : same_len n h1 h2 -> same_len n h2 h3 -> same_len n h1 h3.
  Proof.
    intros H1 H2 b cap l Hb E. destruct (H1 _ _ _ Hb E) as (l1 & E1 & L1). destruct (H2 _ _ _ Hb E1) as (l2 & E2 & L2).
    exists l2. split; [exact E2|congruence].
  Qed.
  Lemma same_len_le n n' h h' : (n <= n')%nat -> same_len n' h h' -> same_len n h h'.
  Proof. intros L H b cap l Hb. apply H. lia. Qed.
  Lemma same_len_refl n h : same_len n h h.
  Proof. intros b cap l _ E. eauto. Qed.

  Definition kidcount (s : option (nat * nat)) : nat := match s with None => O | Some (_, n) => n end.

  Lemma happend_spec grow h s c : slice_wf h s ->
    exists h' b' n, happend grow h s c = Some (h', (b', S n)) /\ n = kidcount s /\
      hext (fun _ => True) h h' /\ (length h <= length h')%nat /\
      (b' < length h')%nat /\
      (forall b, s = Some (b, n) -> forall j, (j < n)%nat -> hget h' (b', j) = hget h (b, j)) /\
      hget h' (b', n) = Some c /\ hget h (b', n) = None /\ slice_wf h' (Some (b', S n)) /\
      ((length h <= b')%nat \/ s = Some (b', n)) /\
      (forall N, (N <= b')%nat -> same_len N h h').
  Proof.
    assert (App : forall blk, hext (fun _ => True) h (h ++ [blk])).
    { intros blk [b i] c0 _. unfold hget. cbn [fst snd]. destruct (nth_error h b) as [[cap l]|] eqn:E; [|discriminate].
      rewrite nth_error_app1 by (apply nth_error_Some; congruence). rewrite E. auto. }
    assert (Last : forall cap l, nth_error (h ++ [(cap, l)]) (length h) = Some (cap, l)).
    { intros. rewrite nth_error_app2, Nat.sub_diag by lia. reflexivity. }
    assert (SL : forall blk N, (N <= length h)%nat -> same_len N h (h ++ [blk])).
    { intros blk N HN b cap l Hb E. exists l. split; [|reflexivity]. rewrite nth_error_app1 by lia. exact E. }
    destruct s as [[b n]|]; cbn [happend slice_wf kidcount].
    - intros (cap & l & E & L). rewrite E.
      assert (Hb : (b < length h)%nat) by (apply nth_error_Some; congruence).
      destruct (Nat.ltb_spec n cap) as [Hc|Hc].
      + assert (Sk : firstn n l ++ c :: skipn (S n) l = l ++ [c]).
        { rewrite firstn_all2, skipn_all2 by lia. reflexivity. }
        rewrite Sk. eexists _, b, n. split; [reflexivity|]. split; [reflexivity|].
        assert (G : nth_error (upd_nat h b (cap, l ++ [c])) b = Some (cap, l ++ [c])).
        { rewrite nth_error_upd_nat, Nat.eqb_refl. replace (b <? length h)%nat with true by lia. reflexivity. }
        split; [|split; [|split; [|split; [|split; [|split; [|split; [|split]]]]]]].
        * intros [xb xi] c0 _. unfold hget. cbn [fst snd]. destruct (Nat.eqb_spec b xb) as [<-|Nb].
          -- rewrite E, G. intros H. rewrite nth_error_app1; [exact H|]. apply nth_error_Some. congruence.
          -- rewrite nth_error_upd_nat. replace (b =? xb)%nat with false by lia. auto.
        * rewrite upd_nat_length. lia.
        * rewrite upd_nat_length. lia.
        * intros b0 [= <-] j Hj. unfold hget. cbn [fst snd]. rewrite G, E. rewrite nth_error_app1 by lia. reflexivity.
        * unfold hget. cbn [fst snd]. rewrite G. rewrite nth_error_app2 by lia. replace (n - length l)%nat with O by lia. reflexivity.
        * unfold hget. cbn [fst snd]. rewrite E. apply nth_error_None. lia.
        * cbn. rewrite G. exists cap, (l ++ [c]). split; [reflexivity|]. rewrite app_length. cbn. lia.
        * now right.
        * intros N HN b0 cap0 l0 Hb0 E0. exists l0. split; [|reflexivity]. rewrite nth_error_upd_nat.
          replace (b =? b0)%nat with false by lia. exact E0.
      + eexists _, (length h), n. split; [reflexivity|]. split; [reflexivity|].
        rewrite firstn_all2 by lia.
        split; [|split; [|split; [|split; [|split; [|split; [|split; [|split]]]]]]].
        * apply App.
        * rewrite app_length. lia.
        * rewrite app_length. cbn. lia.
        * intros b0 [= <-] j Hj. unfold hget. cbn [fst snd]. rewrite Last, E. rewrite nth_error_app1 by lia. reflexivity.
        * unfold hget. cbn [fst snd]. rewrite Last. rewrite nth_error_app2 by lia. replace (n - length l)%nat with O by lia. reflexivity.
        * unfold hget. cbn [fst]. replace (nth_error h (length h)) with (@None (nat * list (cell A))); [reflexivity|]. symmetry. apply nth_error_None. lia.
        * cbn [slice_wf]. rewrite Last. eexists _, _. split; [reflexivity|]. rewrite app_length. cbn. lia.
        * left. lia.
        * intros N HN. now apply SL.
    - intros _. eexists _, (length h), O. split; [reflexivity|]. split; [reflexivity|].
      split; [|split; [|split; [|split; [|split; [|split; [|split; [|split]]]]]]].
      + apply App.
      + rewrite app_length. lia.
      + rewrite app_length. cbn. lia.
      + intros; discriminate.
      + unfold hget. cbn [fst snd]. rewrite Last. reflexivity.
      + unfold hget. cbn [fst]. replace (nth_error h (length h)) with (@None (nat * list (cell A))); [reflexivity|]. symmetry. apply nth_error_None. lia.
      + cbn [slice_wf]. rewrite Last. eexists _, _. split; reflexivity.
      + left. lia.
      + intros N HN. now apply SL.
  Qed.

  (** The cell [c] is the root of a finished copy of [t]; all addresses concerned are in [P] *)
  Inductive rep (P : addr -> Prop) h : ptree A -> cell A -> Prop :=
  | Rep v cs c : catt c = Some v -> kidcount (ckids c) = length cs ->
      (forall i ti, nth_error cs i = Some ti -> exists b n ci p cp,
         ckids c = Some (b, n) /\ P (b, i) /\ hget h (b, i) = Some ci /\ cparent ci = Some p /\ P p /\ hget h p = Some cp /\
         catt cp = catt c /\ ckids cp = ckids c /\ rep P h ti ci) -> rep P h (PT v cs) c.

  Lemma rep_inv P h v cs c : rep P h (PT v cs) c -> catt c = Some v /\ kidcount (ckids c) = length cs /\
      (forall i ti, nth_error cs i = Some ti -> exists b n ci p cp,
         ckids c = Some (b, n) /\ P (b, i) /\ hget h (b, i) = Some ci /\ cparent ci = Some p /\ P p /\ hget h p = Some cp /\
         catt cp = catt c /\ ckids cp = ckids c /\ rep P h ti ci).
  Proof. intros H. inversion H. auto. Qed.
  Lemma rep_mono (P P' : addr -> Prop) h h' t : (forall x, P x -> P' x) -> hext P h h' -> forall c, rep P h t c -> rep P' h' t c.
  Proof.
    intros HP Hh. induction t as [v cs IH] using @ptree_rec'. intros c H. inversion H as [v' cs' c' E1 E2 E3]; subst.
    constructor; auto. intros i ti Hi. destruct (E3 _ _ Hi) as (b & n & ci & p & cp & K1 & K2 & K3 & K4 & K5 & K6 & K7 & K8 & K9).
    exists b, n, ci, p, cp. repeat split; auto. rewrite Forall_forall in IH. apply (IH ti); [eapply nth_error_In; eauto|exact K9].
  Qed.

  Variable grow : nat -> nat.
  (** The loop over the children of [a]; [pp]: the parent pointer given to each *)
  Definition kids (a : addr) (pp : option addr) : nat -> list (ptree A) -> heap A -> option (heap A) :=
    fix loop i cs h {struct cs} :=
      match cs with
      | [] => Some h
      | t :: cs =>
          match hget h a with
          | None => None
          | Some l =>
              match happend grow h (ckids l) (Cell None pp None) with
              | None => None
              | Some (h, (b, n)) =>
                  let h := hset h a (Cell (catt l) (cparent l) (Some (b, n))) in
                  if Nat.ltb i n then
                    match buildLayer grow t (b, i) h with Some h => loop (S i) cs h | None => None end
                  else None
              end
          end
      end.
  Lemma kids_cons a pp i t cs h : kids a pp i (t :: cs) h =
          match hget h a with
          | None => None
          | Some l =>
              match happend grow h (ckids l) (Cell None pp None) with
              | None => None
              | Some (h, (b, n)) =>
                  let h := hset h a (Cell (catt l) (cparent l) (Some (b, n))) in
                  if Nat.ltb i n then
                    match buildLayer grow t (b, i) h with Some h => kids a pp (S i) cs h | None => None end
                  else None
              end
          end.
  Proof. reflexivity. Qed.
  Lemma buildLayer_eq v cs a h : buildLayer grow (PT v cs) a h =
    match hget h a with None => None | Some c => kids a (Some a) 0 cs (hset h a (Cell (Some v) (cparent c) (ckids c))) end.
  Proof. reflexivity. Qed.
  Lemma buildRoot_eq ts : forall i h, buildRoot grow i ts h = kids (O, O) None i ts h.
  Proof.
    induction ts as [|t ts IH]; intros i h; [reflexivity|]. rewrite kids_cons. cbn [buildRoot].
    destruct (hget h (O, O)); [|reflexivity]. destruct (happend grow h (ckids c) (Cell None None None)) as [[h1 [b n]]|]; [|reflexivity].
    cbn zeta. destruct (Nat.ltb i n); [|reflexivity]. destruct (buildLayer grow t (b, i) _); [apply IH|reflexivity].
  Qed.

  Definition build_spec (t : ptree A) : Prop := forall a h c0, hget h a = Some c0 -> ckids c0 = None ->
    exists h' c, buildLayer grow t a h = Some h' /\ hget h' a = Some c /\ cparent c = cparent c0 /\
      hext (fun x => x <> a) h h' /\ (length h <= length h')%nat /\ same_len (length h) h h' /\
      rep (fun x => x = a \/ (length h <= fst x)%nat) h' t c.

  Lemma kids_spec (a : addr) pp N cs : Forall build_spec cs -> (fst a < N)%nat ->
    forall pre h ca, hget h a = Some ca -> slice_wf h (ckids ca) -> kidcount (ckids ca) = length pre ->
      (forall b n, ckids ca = Some (b, n) -> (N <= b)%nat) -> (N <= length h)%nat ->
      (forall j t, nth_error pre j = Some t -> exists b n cj, ckids ca = Some (b, n) /\ hget h (b, j) = Some cj /\
          rep (fun x => (N <= fst x)%nat) h t cj /\ cparent cj = pp) ->
      exists h' ca', kids a pp (length pre) cs h = Some h' /\ hget h' a = Some ca' /\ catt ca' = catt ca /\ cparent ca' = cparent ca /\
        kidcount (ckids ca') = length (pre ++ cs) /\ (forall b n, ckids ca' = Some (b, n) -> (N <= b)%nat) /\
        (forall j t, nth_error (pre ++ cs) j = Some t -> exists b n cj, ckids ca' = Some (b, n) /\ hget h' (b, j) = Some cj /\
          rep (fun x => (N <= fst x)%nat) h' t cj /\ cparent cj = pp) /\
        hext (fun x => x <> a) h h' /\ (length h <= length h')%nat /\ same_len N h h'.
  Proof.
    intros Hcs Ha. induction Hcs as [|t cs Ht _ IH]; intros pre h ca Eca Wf Kc Kb HN Pre.
    - exists h, ca. rewrite app_nil_r. repeat split; auto using same_len_refl. intros x c _ E. exact E.
    - rewrite kids_cons, Eca.
      destruct (happend_spec grow h (ckids ca) (Cell None pp None) Wf) as (h1 & b & n & E1 & En & X1 & L1 & Lb & Cp & Nw & Fr & Wf1 & Bk & SL).
      rewrite E1. cbn zeta. rewrite En, Kc in *. clear n En. set (n := length pre) in *.
      assert (NB : (N <= b)%nat). { destruct Bk as [B|B]; [lia|]. now apply Kb in B. }
      assert (Hab : (b, n) <> a). { intros <-. cbn in Ha. lia. }
      set (ca1 := Cell (catt ca) (cparent ca) (Some (b, S n))). set (h2 := hset h1 a ca1).
      replace (Nat.ltb n (S n)) with true by (symmetry; apply Nat.ltb_lt; lia).
      assert (Ea1 : hget h1 a = Some ca) by (apply X1; auto).
      assert (E2n : hget h2 (b, n) = Some (Cell None pp None)) by (unfold h2; rewrite hget_hset_other by exact Hab; exact Nw).
      destruct (Ht (b, n) h2 _ E2n eq_refl) as (h3 & c3 & E3 & G3 & P3 & X3 & L3 & S3 & R3).
      rewrite E3.
      assert (Len2 : length h2 = length h1) by apply hset_length.
      assert (E3a : hget h3 a = Some ca1). { apply X3; [congruence|]. unfold h2. now apply (hget_hset_same _ _ _ ca). }
      assert (X03 : hext (fun x => x <> a) h h3).
      { intros x c Nx Ex. apply X3.
        - intros ->. rewrite Fr in Ex. discriminate.
        - unfold h2. rewrite hget_hset_other by exact Nx. apply X1; auto. }
      specialize (IH (pre ++ [t]) h3 ca1). rewrite app_length in IH. cbn [length] in IH. rewrite Nat.add_1_r in IH. fold n in IH.
      rewrite <- app_assoc in IH. cbn [app] in IH.
      destruct IH as (h' & ca' & I1 & I2 & I3 & I4 & I5 & I6 & I7 & I8 & I9 & I10).
      + exact E3a.
      + cbn [ckids ca1]. destruct Wf1 as (cap & l & W1 & W2).
        destruct (hset_same_len (length h1) h1 a ca1 b cap l Lb W1) as (l2 & W3 & W4).
        destruct (S3 b cap l2 ltac:(rewrite Len2; exact Lb) W3) as (l3 & W5 & W6).
        exists cap, l3. split; [exact W5|lia].
      + reflexivity.
      + cbn. intros b0 n0 [= <- <-]. exact NB.
      + lia.
      + intros j tj Hj. exists b, (S n). cbn [ckids ca1].
        destruct (Nat.lt_ge_cases j n) as [Lj|Lj].
        * rewrite nth_error_app1 in Hj by exact Lj. destruct (Pre j tj Hj) as (b0 & n0 & cj & Q1 & Q2 & Q3 & Q4).
          assert (n0 = n) by (rewrite Q1 in Kc; exact Kc). subst n0.
          exists cj. split; [reflexivity|]. split; [|split; [|exact Q4]].
          -- apply X3.
             ++ intros [= Ej]. lia.
             ++ unfold h2. rewrite hget_hset_other.
                ** rewrite (Cp b0 Q1 j Lj). exact Q2.
                ** intros <-. cbn in Ha. lia.
          -- apply (rep_mono (fun x => (N <= fst x)%nat) _ h); [auto| |exact Q3]. intros x c Px Ex. apply X03; [|exact Ex].
             intros ->. lia.
        * assert (Ej : j = n). { assert (j < length (pre ++ [t]))%nat by (apply nth_error_Some; congruence). rewrite app_length in H. cbn in H. fold n in H. lia. }
          subst j. rewrite nth_error_app2 in Hj by lia. fold n in Hj. rewrite Nat.sub_diag in Hj. injection Hj as <-.
          exists c3. split; [reflexivity|]. split; [exact G3|]. split; [|rewrite P3; reflexivity].
          apply (rep_mono (fun x => x = (b, n) \/ (length h2 <= fst x)%nat) _ h3); [|intros x c _ E; exact E|exact R3].
          intros x [->|Hx]; cbn; lia.
      + exists h', ca'. split; [exact I1|]. split; [exact I2|]. repeat split; auto.
        * intros x c Nx Ex. apply I8; [exact Nx|]. apply X03; auto.
        * lia.
        * apply (same_len_trans _ _ h1); [apply SL; exact NB|]. apply (same_len_trans _ _ h2); [apply hset_same_len|].
          apply (same_len_trans _ _ h3); [|exact I10]. apply (same_len_le _ (length h2)); [lia|exact S3].
  Qed.

  Lemma buildLayer_spec (t : ptree A) : build_spec t.
  Proof.
    induction t as [v cs IH] using @ptree_rec'. intros a h c0 E0 K0. rewrite buildLayer_eq, E0.
    set (h1 := hset h a (Cell (Some v) (cparent c0) (ckids c0))).
    assert (L1 : length h1 = length h) by apply hset_length.
    destruct (kids_spec a (Some a) (length h) cs IH (hget_lt _ _ _ E0) [] h1 (Cell (Some v) (cparent c0) (ckids c0)))
      as (h' & c & I1 & I2 & I3 & I4 & I5 & I6 & I7 & I8 & I9 & I10).
    - now apply (hget_hset_same _ _ _ c0).
    - cbn [ckids]. rewrite K0. exact I.
    - cbn [ckids]. rewrite K0. reflexivity.
    - cbn [ckids]. rewrite K0. discriminate.
    - lia.
    - intros [|j]; discriminate.
    - exists h', c. split; [exact I1|]. split; [exact I2|]. split; [exact I4|]. split; [|split; [lia|split]].
      + intros x cx Nx Ex. apply I8; [exact Nx|]. unfold h1. rewrite hget_hset_other; auto.
      + apply (same_len_trans _ _ h1); [apply hset_same_len|exact I10].
      + constructor; [exact I3|exact I5|]. intros i ti Hi. destruct (I7 i ti Hi) as (b & n & cj & Q1 & Q2 & Q3 & Q4).
        exists b, n, cj, a, c. repeat split; auto.
        * right. cbn. apply (I6 _ _ Q1).
        * apply (rep_mono (fun x => (length h <= fst x)%nat) _ h'); [auto| |exact Q3]. intros x cx _ E. exact E.
  Qed.

  (** * The tree that New returns *)
  Lemma newTree_spec v ts : exists h c, newTree grow v ts = Some h /\ hget h (O, O) = Some c /\ catt c = Some v /\ cparent c = None /\
    kidcount (ckids c) = length ts /\
    forall j t, nth_error ts j = Some t -> exists b n cj, ckids c = Some (b, n) /\ hget h (b, j) = Some cj /\
      rep (fun _ => True) h t cj /\ cparent cj = None.
  Proof.
    unfold newTree. rewrite buildRoot_eq.
    destruct (kids_spec (O, O) None 1 ts) with (pre := @nil (ptree A)) (h := [(1%nat, [Cell (Some v) None None])]) (ca := Cell (Some v) (@None addr) None)
      as (h' & c & I1 & I2 & I3 & I4 & I5 & I6 & I7 & _).
    - apply Forall_forall. intros t _. apply buildLayer_spec.
    - cbn. lia.
    - reflexivity.
    - exact I.
    - reflexivity.
    - discriminate.
    - cbn. lia.
    - intros [|j]; discriminate.
    - exists h', c. split; [exact I1|]. split; [exact I2|]. split; [exact I3|]. split; [exact I4|]. split; [exact I5|].
      intros j t Hj. destruct (I7 j t Hj) as (b & n & cj & Q1 & Q2 & Q3 & Q4). exists b, n, cj. repeat split; auto.
      apply (rep_mono (fun x => (1 <= fst x)%nat) _ h'); [auto| |exact Q3]. intros x cx _ E. exact E.
  Qed.

  Lemma addrOf_app h a p i : addrOf h a (p ++ [i]) = match addrOf h a p with Some x => addrOf h x [i] | None => None end.
  Proof.
    revert a. induction p as [|j p IH]; intros a; [reflexivity|]. cbn [app addrOf].
    destruct (hget h a) as [[v q [[b n]|]]|]; try reflexivity. destruct (Nat.ltb j n); [apply IH|reflexivity].
  Qed.

  (** A layer below the finished cell at [a] *)
  Lemma rep_path h t : forall a c, hget h a = Some c -> rep (fun _ => True) h t c ->
    match t with PT v cs => forall p,
      (addrOf h a p = None <-> (p <> [] /\ pat cs p = None)) /\
      forall q i v' cs', p = q ++ [i] -> pat cs p = Some (PT v' cs') -> exists fa fc ch cc pa pc,
        addrOf h a q = Some fa /\ hget h fa = Some fc /\ addrOf h a p = Some ch /\ hget h ch = Some cc /\ catt cc = Some v' /\ cparent cc = Some pa /\
        hget h pa = Some pc /\ catt pc = catt fc /\ ckids pc = ckids fc end.
  Proof.
    induction t as [v cs IH] using @ptree_rec'. intros a c Ea R. destruct (rep_inv _ _ _ _ _ R) as (E1 & E2 & E3).
    intros p. destruct p as [|i p].
    { split; [split; [discriminate|intros [X _]; congruence]|]. intros q i v' cs' E. destruct q; discriminate. }
    cbn [addrOf]. rewrite Ea. destruct c as [cv cp ck]. cbn [ckids catt] in *.
    destruct (nth_error cs i) as [[v1 cs1]|] eqn:Ei.
    - destruct (E3 _ _ Ei) as (b & n & ci & pa & pc & K1 & K2 & K3 & K4 & K5 & K6 & K7 & K8 & K9).
      rewrite K1 in *. cbn [kidcount] in E2. subst n.
      assert (Li : (i < length cs)%nat) by (apply nth_error_Some; congruence).
      replace (Nat.ltb i (length cs)) with true by (symmetry; now apply Nat.ltb_lt).
      rewrite Forall_forall in IH. specialize (IH _ (nth_error_In _ _ Ei) _ _ K3 K9 p). destruct IH as [IH1 IH2].
      destruct (rep_inv _ _ _ _ _ K9) as (F1 & F2 & F3).
      destruct p as [|j p].
      + cbn [pat addrOf]. rewrite Ei. split; [split; [discriminate|intros [_ X]; discriminate]|].
        intros q i' v' cs' E H. destruct q as [|q0 q]; [|destruct q; discriminate]. injection E as <-. injection H as <- <-.
        exists a, (Cell cv cp (Some (b, length cs))), (b, i), ci, pa, pc. cbn [addrOf catt ckids]. repeat split; auto.
      + assert (Ep : pat cs (i :: j :: p) = pat cs1 (j :: p)) by (cbn [pat]; rewrite Ei; reflexivity).
        rewrite Ep. split.
        * rewrite IH1. split; intros [X Y]; (split; [discriminate|exact Y]).
        * intros q i' v' cs' E H. destruct q as [|q0 q]; [discriminate|]. injection E as -> E.
          destruct (IH2 q i' v' cs' E H) as (fa & fc & ch & cc & pa' & pc' & R1).
          exists fa, fc, ch, cc, pa', pc'. cbn [addrOf]. rewrite Ea.
          replace (Nat.ltb q0 (length cs)) with true by (symmetry; now apply Nat.ltb_lt). exact R1.
    - assert (Li : (length cs <= i)%nat) by (now apply nth_error_None).
      assert (Ep : pat cs (i :: p) = None) by (destruct p; cbn [pat]; rewrite Ei; reflexivity). rewrite Ep. split.
      + split; [intros _; split; [discriminate|reflexivity]|]. intros _. destruct ck as [[b n]|]; [|reflexivity].
        cbn [kidcount] in E2. subst n. replace (Nat.ltb i (length cs)) with false; [reflexivity|]. symmetry. apply Nat.ltb_ge. lia.
      + discriminate.
  Qed.

  Lemma newTree_paths v ts : exists h, newTree grow v ts = Some h /\
    (forall p, addrOf h (O, O) p = None <-> (p <> [] /\ pat ts p = None)) /\
    (forall i v' cs', nth_error ts i = Some (PT v' cs') -> exists a c,
       addrOf h (O, O) [i] = Some a /\ hget h a = Some c /\ catt c = Some v' /\ cparent c = None) /\
    (forall q i v' cs', q <> [] -> pat ts (q ++ [i]) = Some (PT v' cs') -> exists fa fc ch cc pa pc,
       addrOf h (O, O) q = Some fa /\ hget h fa = Some fc /\
       addrOf h (O, O) (q ++ [i]) = Some ch /\ hget h ch = Some cc /\ catt cc = Some v' /\
       cparent cc = Some pa /\ hget h pa = Some pc /\ catt pc = catt fc /\ ckids pc = ckids fc).
  Proof.
    destruct (newTree_spec v ts) as (h & c & E & Er & Ev & Ep & Ek & K). exists h. split; [exact E|].
    assert (Kid : forall i, addrOf h (O, O) [i] = match nth_error ts i with Some _ => match ckids c with Some (b, _) => Some (b, i) | None => None end | None => None end).
    { intros i. cbn [addrOf]. rewrite Er. destruct c as [cv cp ck]. cbn [ckids kidcount] in *. destruct ck as [[b n]|].
      - cbn in Ek. subst n. destruct (nth_error ts i) eqn:Ei.
        + replace (Nat.ltb i (length ts)) with true; [reflexivity|]. symmetry. apply Nat.ltb_lt. apply nth_error_Some. congruence.
        + replace (Nat.ltb i (length ts)) with false; [reflexivity|]. symmetry. apply Nat.ltb_ge. now apply nth_error_None.
      - now destruct (nth_error ts i). }
    assert (Step : forall i t, nth_error ts i = Some t -> exists b cj, hget h (b, i) = Some cj /\ rep (fun _ => True) h t cj /\ cparent cj = None /\
                   forall p, addrOf h (O, O) (i :: p) = addrOf h (b, i) p).
    { intros i t Hi. destruct (K i t Hi) as (b & n & cj & Q1 & Q2 & Q3 & Q4). exists b, cj. repeat split; auto.
      intros p. cbn [addrOf]. rewrite Er. destruct c as [cv cp ck]. cbn [ckids kidcount] in *. subst ck. cbn in Ek. subst n.
      replace (Nat.ltb i (length ts)) with true; [reflexivity|]. symmetry. apply Nat.ltb_lt. apply nth_error_Some. congruence. }
    split; [|split].
    - intros p. destruct p as [|i p]; [split; [discriminate|intros [X _]; congruence]|].
      destruct (nth_error ts i) as [[v1 cs1]|] eqn:Ei.
      + destruct (Step i _ Ei) as (b & cj & S1 & S2 & S3 & S4). rewrite S4. destruct (rep_path h _ _ _ S1 S2 p) as [R1 _]. rewrite R1.
        destruct p as [|j p].
        * cbn. rewrite Ei. split; [intros [X _]; congruence|intros [_ X]; discriminate].
        * assert (Ep' : pat ts (i :: j :: p) = pat cs1 (j :: p)) by (cbn [pat]; rewrite Ei; reflexivity). rewrite Ep'.
          split; intros [X Y]; (split; [discriminate|exact Y]).
      + assert (Ep' : pat ts (i :: p) = None) by (destruct p; cbn [pat]; rewrite Ei; reflexivity). rewrite Ep'.
        assert (Z : addrOf h (O, O) (i :: p) = None).
        { specialize (Kid i). rewrite Ei in Kid. cbn [addrOf] in Kid |- *. destruct (hget h (O, O)) as [[? ? [[b0 n0]|]]|]; auto.
          revert Kid; destruct (Nat.ltb i n0); [discriminate|reflexivity]. }
        rewrite Z. split; [intros _; split; [discriminate|reflexivity]|reflexivity].
    - intros i v' cs' Hi. destruct (Step i _ Hi) as (b & cj & S1 & S2 & S3 & S4). exists (b, i), cj. rewrite S4.
      destruct (rep_inv _ _ _ _ _ S2) as (F1 & _). repeat split; auto.
    - intros q i v' cs' Nq H. destruct q as [|q0 q]; [congruence|]. cbn [app] in *.
      destruct (nth_error ts q0) as [[v1 cs1]|] eqn:Ei.
      2:{ exfalso. destruct (q ++ [i]); cbn [pat] in H; rewrite Ei in H; discriminate. }
      assert (Ep' : pat ts (q0 :: q ++ [i]) = pat cs1 (q ++ [i])).
      { destruct (q ++ [i]) eqn:Eq; [destruct q; discriminate|]. cbn [pat]. rewrite Ei. reflexivity. }
      destruct (Step q0 _ Ei) as (b & cj & S1 & S2 & S3 & S4). rewrite !S4.
      destruct (rep_path h _ _ _ S1 S2 (q ++ [i])) as [_ R]. rewrite Ep' in H. exact (R q i v' cs' eq_refl H).
  Qed.
End mem.
