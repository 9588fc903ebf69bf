From Verif Require Import Base BaseFacts MSched.

Section comm.
  Context {A S : Type} (act : A -> S -> S).
  Definition commute (a b : A) : Prop := forall s, act a (act b s) = act b (act a s).

  Lemma exec_app r1 r2 s : exec act (r1 ++ r2) s = exec act r2 (exec act r1 s).
  Proof. unfold exec. now rewrite fold_left_app. Qed.

  Lemma exec_swap a l : (forall b, In b l -> commute a b) ->
    forall s, exec act l (act a s) = act a (exec act l s).
  Proof.
    induction l as [|b l IH]; intros H s; [reflexivity|].
    cbn. rewrite <- (H b (or_introl eq_refl)). apply IH. intros; apply H; now right.
  Qed.

  Lemma Pairwise_app_inv {B} (R : B -> B -> Prop) l1 x l2 :
    ForallOrdPairs R (l1 ++ x :: l2) -> Forall (fun y => R y x) l1 /\ Forall (R x) l2.
  Proof.
    induction l1; cbn; intros H.
    - inversion H; subst. auto.
    - inversion H as [|? ? Ha Hr]; subst. destruct (IHl1 Hr). split; [|easy].
      constructor; [|easy]. rewrite Forall_forall in Ha. apply Ha. apply in_or_app. right. now left.
  Qed.

  Lemma Pairwise_repl {B} (R : B -> B -> Prop) l1 x y l2 :
    (forall z, R z x -> R z y) -> (forall z, R x z -> R y z) ->
    ForallOrdPairs R (l1 ++ x :: l2) -> ForallOrdPairs R (l1 ++ y :: l2).
  Proof.
    intros H1 H2. induction l1; cbn; intros H.
    - inversion H as [|? ? Ha Hr]; subst. constructor; [|easy]. eapply Forall_impl; [|exact Ha]. auto.
    - inversion H as [|? ? Ha Hr]; subst. constructor; [|auto].
      rewrite Forall_forall in *. intros z Hz. apply in_app_or in Hz. destruct Hz as [Hz|[<-|Hz]].
      + apply Ha. apply in_or_app. now left.
      + apply H1. apply Ha. apply in_or_app. right. now left.
      + apply Ha. apply in_or_app. right. now right.
  Qed.

  (** All interleavings of lists whose actions commute pairwise have the effect
      of running the lists one after the other. *)
  Theorem interleave_exec ls r : interleave ls r ->
    ForallOrdPairs (fun l l' => forall a b, In a l -> In b l' -> commute a b) ls ->
    forall s, exec act r s = exec act (concat ls) s.
  Proof.
    induction 1 as [ls Hnil | l1 a t l2 r Hil IH]; intros Hp s.
    - replace (concat ls) with (@nil A); [reflexivity|].
      clear Hp. induction Hnil; cbn; [easy|]. subst. easy.
    - cbn [exec fold_left]. fold (exec act r (act a s)).
      rewrite IH.
      + rewrite !concat_app, !exec_app. cbn [concat]. rewrite !exec_app. f_equal. change (exec act (a :: t)) with (fun s => exec act t (act a s)). cbn beta. f_equal.
        apply exec_swap. intros b Hb.
        apply Pairwise_app_inv in Hp. destruct Hp as [Hp _].
        apply in_concat in Hb. destruct Hb as (l & Hl & Hb). rewrite Forall_forall in Hp.
        intros s'. symmetry. apply (Hp l Hl b a Hb). now left.
      + eapply Pairwise_repl; [| |exact Hp]; cbn.
        * intros z Hz b c Hb Hc. apply Hz; [easy|now right].
        * intros z Hz b c Hb Hc. apply Hz; [now right|easy].
  Qed.
End comm.

Lemma concat_nils {A} (ls : list (list A)) : Forall (fun l => l = []) ls -> concat ls = [].
Proof. induction 1; cbn; [easy|]. now subst. Qed.

(** Running the lists one after the other is an interleaving. *)
Lemma interleave_concat {A} (ls : list (list A)) : interleave ls (concat ls).
Proof.
  assert (forall l0 ls : list (list A), Forall (fun l => l = []) l0 -> interleave (l0 ++ ls) (concat ls)) as H.
  2:{ apply (H [] ls). constructor. }
  intros l0 ls0; revert l0. induction ls0 as [|l ls' IH]; intros l0 H0.
  - cbn. constructor. now rewrite app_nil_r.
  - induction l as [|a t IHt].
    + cbn. specialize (IH (l0 ++ [[]])). rewrite <- app_assoc in IH. apply IH.
      apply Forall_app. split; [easy|]. repeat constructor.
    + cbn. apply il_step. exact IHt.
Qed.

Lemma upd_nat_comm {V} (m : list V) i j v w : i <> j ->
  upd_nat (upd_nat m i v) j w = upd_nat (upd_nat m j w) i v.
Proof.
  revert i j. induction m; intros [|i] [|j] H; cbn; try easy. f_equal. apply IHm. congruence.
Qed.

Lemma zlen_upd_nat {V} (m : list V) i v : zlen (upd_nat m i v) = zlen m.
Proof. unfold zlen. now rewrite upd_nat_length. Qed.

Lemma store_commute {V} (a b : Z * V) : fst a <> fst b -> commute store a b.
Proof.
  intros H s. unfold store.
  destruct ((0 <=? fst b) && (fst b <? zlen s)) eqn:Eb, ((0 <=? fst a) && (fst a <? zlen s)) eqn:Ea;
    rewrite ?zlen_upd_nat, ?Ea, ?Eb; try reflexivity.
  apply upd_nat_comm. lia.
Qed.

Lemma zlen_store {V} (w : Z * V) m : zlen (store w m) = zlen m.
Proof. unfold store. destruct (_ && _); [apply zlen_upd_nat|reflexivity]. Qed.

Lemma zlen_exec_store {V} (r : list (Z * V)) : forall m, zlen (exec store r m) = zlen m.
Proof. induction r; intros m; cbn; [easy|]. fold (exec store r (store a m)). now rewrite IHr, zlen_store. Qed.

Lemma upd_nat_app {V} (pre : list V) x post v : upd_nat (pre ++ x :: post) (length pre) v = pre ++ v :: post.
Proof. induction pre; cbn; [easy|]. now f_equal. Qed.

Lemma store_at {V} (pre : list V) x post v : store (zlen pre, v) (pre ++ x :: post) = pre ++ v :: post.
Proof.
  unfold store. cbn [fst snd]. rewrite zlen_app, zlen_cons. pose proof (zlen_nonneg pre). pose proof (zlen_nonneg post).
  replace ((0 <=? zlen pre) && _) with true by lia.
  replace (Z.to_nat (zlen pre)) with (length pre) by (unfold zlen; lia). apply upd_nat_app.
Qed.

Lemma exec_seq_stores {V} (vs : list V) : forall pre old post, length old = length vs ->
  exec store (seq_stores (zlen pre) vs) (pre ++ old ++ post) = pre ++ vs ++ post.
Proof.
  induction vs as [|v vs IH]; intros pre [|o old] post H; try discriminate; [reflexivity|].
  cbn [seq_stores exec fold_left app]. rewrite store_at.
  fold (exec store (seq_stores (zlen pre + 1) vs) (pre ++ v :: old ++ post)).
  replace (zlen pre + 1) with (zlen (pre ++ [v])) by (rewrite zlen_app; unfold zlen; cbn; lia).
  replace (pre ++ v :: old ++ post) with ((pre ++ [v]) ++ old ++ post) by (rewrite <- app_assoc; reflexivity).
  rewrite IH by (cbn in H; lia). now rewrite <- app_assoc.
Qed.

Lemma seq_stores_in {V} (vs : list V) : forall pos w, In w (seq_stores pos vs) -> pos <= fst w < pos + zlen vs.
Proof.
  induction vs as [|v vs IH]; intros pos w; [easy|]. cbn [seq_stores In]. rewrite zlen_cons. pose proof (zlen_nonneg vs).
  intros [<-|H1]; [cbn; lia|]. specialize (IH _ _ H1). lia.
Qed.
