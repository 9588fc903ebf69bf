(** Checking a property of finitely many integers by computation. *)
From Verif Require Import Base BaseFacts.

Lemma forall_zseq (n : nat) (P : Z -> bool) : forallb P (zseq n) = true ->
  forall x, 0 <= x < Z.of_nat n -> P x = true.
Proof.
  intros H x Hx. rewrite forallb_forall in H. apply H. unfold zseq. apply in_map_iff.
  exists (Z.to_nat x). split; [lia|]. apply in_seq. lia.
Qed.

(** [lo; lo+1; ...] of length [n], built without large [nat] literals. *)
Definition zrange (lo n : Z) : list Z :=
  fst (Z.iter n (fun '(l, k) => (k :: l, k - 1)) ([], lo + n - 1)).

Lemma zrange_nat (n : nat) : forall hi (l : list Z),
  let r := Nat.iter n (fun '(l, k) => (k :: l, k - 1)) (l, hi) in
  snd r = hi - Z.of_nat n /\ (forall x, (hi - Z.of_nat n < x <= hi \/ In x l) -> In x (fst r)).
Proof.
  induction n as [|n IH]; intros hi l; cbn [Nat.iter].
  - cbn. split; [lia|]. intros x [H|H]; [lia|easy].
  - destruct (IH hi l) as [H1 H2]. cbv zeta in H1, H2.
    unfold Nat.iter in *. cbn [nat_rect] in *. destruct (nat_rect _ (l, hi) _ n) as [l' k']. cbn [fst snd] in *. split; [lia|].
    intros x [H|H]; cbn.
    + destruct (Z.eq_dec x k'); [now left|]. right. apply H2. left. lia.
    + right. apply H2. now right.
Qed.

Lemma forall_zrange lo n (P : Z -> bool) : forallb P (zrange lo n) = true ->
  forall x, lo <= x < lo + n -> P x = true.
Proof.
  intros H x Hx. rewrite forallb_forall in H. apply H. unfold zrange.
  rewrite iter_nat_of_Z by lia.
  destruct (zrange_nat (Z.abs_nat n) (lo + n - 1) []) as [_ H2]. apply H2. left. lia.
Qed.

