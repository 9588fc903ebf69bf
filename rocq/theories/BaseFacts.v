(** Facts about the vocabulary of [Base]. *)
From Verif Require Import Base.

Lemma u8_small x : 0 <= x < 256 -> u8 x = x.
Proof. unfold u8; intros; apply Z.mod_small; lia. Qed.
Lemma u16_small x : 0 <= x < 65536 -> u16 x = x.
Proof. unfold u16; intros; apply Z.mod_small; lia. Qed.
Lemma u32_small x : 0 <= x < 4294967296 -> u32 x = x.
Proof. unfold u32; intros; apply Z.mod_small; lia. Qed.
Lemma u64_small x : 0 <= x < 18446744073709551616 -> u64 x = x.
Proof. unfold u64; intros; apply Z.mod_small; lia. Qed.
Lemma i64_small x : -9223372036854775808 <= x < 9223372036854775808 -> i64 x = x.
Proof. unfold i64; intros; rewrite Z.mod_small; lia. Qed.
Lemma i32_small x : -2147483648 <= x < 2147483648 -> i32 x = x.
Proof. unfold i32; intros; rewrite Z.mod_small; lia. Qed.
Lemma i16_small x : -32768 <= x < 32768 -> i16 x = x.
Proof. unfold i16; intros; rewrite Z.mod_small; lia. Qed.
Lemma u8_range x : 0 <= u8 x < 256.
Proof. unfold u8; apply Z.mod_pos_bound; lia. Qed.
Lemma u16_range x : 0 <= u16 x < 65536.
Proof. unfold u16; apply Z.mod_pos_bound; lia. Qed.
Lemma u32_range x : 0 <= u32 x < 4294967296.
Proof. unfold u32; apply Z.mod_pos_bound; lia. Qed.
Lemma u64_range x : 0 <= u64 x < 18446744073709551616.
Proof. unfold u64; apply Z.mod_pos_bound; lia. Qed.
Lemma i64_range x : -9223372036854775808 <= i64 x < 9223372036854775808.
Proof. unfold i64; assert (H := Z.mod_pos_bound (x + 9223372036854775808) 18446744073709551616 eq_refl); lia. Qed.

Lemma zlen_nonneg {A} (l : list A) : 0 <= zlen l.
Proof. unfold zlen; lia. Qed.
Lemma zlen_app {A} (a b : list A) : zlen (a ++ b) = zlen a + zlen b.
Proof. unfold zlen; rewrite app_length; lia. Qed.
Lemma zlen_cons {A} (x : A) l : zlen (x :: l) = 1 + zlen l.
Proof. unfold zlen; cbn [length]; lia. Qed.
Lemma zlen_nil {A} : zlen (@nil A) = 0.
Proof. reflexivity. Qed.
Lemma zlen_repeat {A} (x : A) n : zlen (repeat x n) = Z.of_nat n.
Proof. unfold zlen; now rewrite repeat_length. Qed.
Lemma zlen_zrepeat {A} (x : A) n : 0 <= n -> zlen (zrepeat x n) = n.
Proof. intros; unfold zrepeat; rewrite zlen_repeat; lia. Qed.
Lemma zlen_map {A B} (f : A -> B) l : zlen (map f l) = zlen l.
Proof. unfold zlen; now rewrite map_length. Qed.
Lemma zlen_firstn {A} (l : list A) n : zlen (firstn n l) = Z.min (Z.of_nat n) (zlen l).
Proof. unfold zlen; rewrite firstn_length; lia. Qed.
Lemma zlen_skipn {A} (l : list A) n : zlen (skipn n l) = Z.max 0 (zlen l - Z.of_nat n).
Proof. unfold zlen; rewrite skipn_length; lia. Qed.
Lemma zlen_0_nil {A} (l : list A) : zlen l = 0 -> l = [].
Proof. destruct l; [easy | unfold zlen; cbn [length]; lia]. Qed.
Lemma zlen_rev {A} (l : list A) : zlen (rev l) = zlen l.
Proof. unfold zlen; now rewrite rev_length. Qed.

Lemma firstn_app_exact {A} (a b : list A) n : n = length a -> firstn n (a ++ b) = a.
Proof. intros ->; rewrite firstn_app, Nat.sub_diag, firstn_all, firstn_O, app_nil_r; reflexivity. Qed.
Lemma skipn_app_exact {A} (a b : list A) n : n = length a -> skipn n (a ++ b) = b.
Proof. intros ->; rewrite skipn_app, Nat.sub_diag, skipn_all; reflexivity. Qed.

Lemma skipn_skipn {A} (l : list A) a b : skipn a (skipn b l) = skipn (b + a) l.
Proof.
  revert l; induction b; intros l; [reflexivity|].
  destruct l; cbn [skipn Nat.add]; [now rewrite skipn_nil | apply IHb].
Qed.

Lemma idx_some_lt {A} (l : list A) i v : idx l i = Some v -> 0 <= i < zlen l.
Proof.
  unfold idx; destruct (i <? 0) eqn:E; [easy|]; intros H.
  assert (Hn : (Z.to_nat i < length l)%nat) by (apply nth_error_Some; congruence).
  unfold zlen; lia.
Qed.
Lemma idx_in {A} (l : list A) i : 0 <= i < zlen l -> exists v, idx l i = Some v.
Proof.
  intros H; unfold idx; replace (i <? 0) with false by lia.
  destruct (nth_error l (Z.to_nat i)) eqn:E; [eauto|].
  apply nth_error_None in E; unfold zlen in H; lia.
Qed.
Lemma idx_none {A} (l : list A) i : idx l i = None <-> (i < 0 \/ zlen l <= i).
Proof.
  unfold idx, zlen; destruct (i <? 0) eqn:E.
  - split; intros; [lia | easy].
  - rewrite nth_error_None; lia.
Qed.
Lemma idx_app_l {A} (a b : list A) i : i < zlen a -> idx (a ++ b) i = idx a i.
Proof.
  intros H; unfold idx; destruct (i <? 0) eqn:E; [easy|].
  apply nth_error_app1; unfold zlen in H; lia.
Qed.
Lemma idx_app_r {A} (a b : list A) i : zlen a <= i -> idx (a ++ b) i = idx b (i - zlen a).
Proof.
  intros H; unfold idx, zlen in *.
  replace (i <? 0) with false by lia.
  replace (i - Z.of_nat (length a) <? 0) with false by lia.
  rewrite nth_error_app2 by lia; f_equal; lia.
Qed.
Lemma idx_cons_0 {A} (x : A) l : idx (x :: l) 0 = Some x.
Proof. reflexivity. Qed.
Lemma idx_cons_S {A} (x : A) l i : 0 < i -> idx (x :: l) i = idx l (i - 1).
Proof.
  intros H; unfold idx.
  replace (i <? 0) with false by lia; replace (i - 1 <? 0) with false by lia.
  replace (Z.to_nat i) with (S (Z.to_nat (i - 1))) by lia; reflexivity.
Qed.
Lemma idx_skipn {A} (l : list A) n i : 0 <= i -> idx (skipn n l) i = idx l (Z.of_nat n + i).
Proof.
  intros H; unfold idx.
  replace (i <? 0) with false by lia; replace (Z.of_nat n + i <? 0) with false by lia.
  replace (Z.to_nat (Z.of_nat n + i)) with (n + Z.to_nat i)%nat by lia.
  revert l; induction n; intros l; [reflexivity|].
  destruct l; cbn; [now destruct (Z.to_nat i) | apply IHn].
Qed.
Lemma nth_error_firstn {A} (l : list A) n i : (i < n)%nat -> nth_error (firstn n l) i = nth_error l i.
Proof.
  revert l i; induction n; intros l i H; [lia|].
  destruct l; [now destruct i|]; destruct i; cbn; [easy | apply IHn; lia].
Qed.
Lemma idx_firstn {A} (l : list A) n i : i < Z.of_nat n -> idx (firstn n l) i = idx l i.
Proof.
  intros H; unfold idx; destruct (i <? 0) eqn:E; [easy|].
  apply nth_error_firstn; lia.
Qed.
Lemma idx_map {A B} (f : A -> B) l i : idx (map f l) i = option_map f (idx l i).
Proof. unfold idx; destruct (i <? 0); [easy | apply nth_error_map]. Qed.

Lemma idx_ext {A} (a b : list A) : (forall i, idx a i = idx b i) -> a = b.
Proof.
  revert b; induction a as [|x a IH]; intros b H.
  - destruct b as [|y b]; [easy|]. specialize (H 0); discriminate.
  - destruct b as [|y b]; [specialize (H 0); discriminate|].
    f_equal.
    + specialize (H 0); cbn in H; congruence.
    + apply IH; intros i; destruct (Z_lt_le_dec i 0) as [L|L].
      * unfold idx; now replace (i <? 0) with true by lia.
      * specialize (H (i + 1)); rewrite !idx_cons_S in H by lia.
        now replace (i + 1 - 1) with i in H by lia.
Qed.
Lemma idx_ext_in {A} (a b : list A) :
  zlen a = zlen b -> (forall i, 0 <= i < zlen a -> idx a i = idx b i) -> a = b.
Proof.
  intros HL H; apply idx_ext; intros i.
  destruct (Z_lt_le_dec i 0); [|destruct (Z_lt_le_dec i (zlen a))].
  - transitivity (@None A); [apply idx_none; lia | symmetry; apply idx_none; lia].
  - apply H; lia.
  - transitivity (@None A); [apply idx_none; lia | symmetry; apply idx_none; lia].
Qed.

Lemma slice_ok {A} (l : list A) lo hi :
  0 <= lo -> lo <= hi -> hi <= zlen l ->
  slice l lo hi = Some (firstn (Z.to_nat (hi - lo)) (skipn (Z.to_nat lo) l)).
Proof. intros; unfold slice; now replace ((0 <=? lo) && (lo <=? hi) && (hi <=? zlen l)) with true by lia. Qed.
Lemma slice_some {A} (l s : list A) lo hi :
  slice l lo hi = Some s ->
  0 <= lo /\ lo <= hi /\ hi <= zlen l /\ s = firstn (Z.to_nat (hi - lo)) (skipn (Z.to_nat lo) l).
Proof.
  unfold slice; destruct ((0 <=? lo) && (lo <=? hi) && (hi <=? zlen l)) eqn:E; [|easy].
  intros [= <-]; repeat split; lia.
Qed.
Lemma slice_zlen {A} (l s : list A) lo hi : slice l lo hi = Some s -> zlen s = hi - lo.
Proof.
  intros H; apply slice_some in H as (? & ? & ? & ->).
  rewrite zlen_firstn, zlen_skipn; lia.
Qed.
Lemma idx_slice {A} (l s : list A) lo hi i :
  slice l lo hi = Some s -> 0 <= i < hi - lo -> idx s i = idx l (lo + i).
Proof.
  intros H Hi; apply slice_some in H as (? & ? & ? & ->).
  rewrite idx_firstn, idx_skipn by lia; f_equal; lia.
Qed.

Lemma upd_nat_length {A} (l : list A) i v : length (upd_nat l i v) = length l.
Proof. revert i; induction l; destruct i; cbn; auto. Qed.
Lemma upd_zlen {A} (l l' : list A) i v : upd l i v = Some l' -> zlen l' = zlen l.
Proof.
  unfold upd; destruct ((0 <=? i) && (i <? zlen l)); [|easy]; intros [= <-].
  unfold zlen; now rewrite upd_nat_length.
Qed.
Lemma nth_error_upd_nat {A} (l : list A) i j v :
  nth_error (upd_nat l i v) j =
  if Nat.eqb i j then (if (i <? length l)%nat then Some v else None) else nth_error l j.
Proof.
  revert i j; induction l as [|x l IH]; intros i j; cbn [upd_nat length].
  - destruct i, j; cbn; try reflexivity.
    destruct (Nat.eqb i j); reflexivity.
  - destruct i, j; cbn [nth_error Nat.eqb]; try reflexivity.
    rewrite IH. destruct (Nat.eqb i j); [|easy].
    reflexivity.
Qed.
Lemma idx_upd {A} (l l' : list A) i j v :
  upd l i v = Some l' -> idx l' j = if i =? j then Some v else idx l j.
Proof.
  unfold upd; destruct ((0 <=? i) && (i <? zlen l)) eqn:E; [|easy]; intros [= <-].
  unfold idx; destruct (j <? 0) eqn:Ej.
  - destruct (i =? j) eqn:Eij; [lia | easy].
  - rewrite nth_error_upd_nat; unfold zlen in E.
    destruct (i =? j) eqn:Eij.
    + replace (Z.to_nat i =? Z.to_nat j)%nat with true by lia.
      replace (Z.to_nat i <? length l)%nat with true by lia; easy.
    + replace (Z.to_nat i =? Z.to_nat j)%nat with false by lia; easy.
Qed.

Lemma list_eqb_eq a b : list_eqb a b = true <-> a = b.
Proof.
  revert b; induction a as [|x a IH]; destruct b as [|y b]; cbn; try easy.
  rewrite andb_true_iff, IH, Z.eqb_eq; split; [intros [-> ->]; easy | intros [= -> ->]; easy].
Qed.
Lemma list_eqb_refl a : list_eqb a a = true.
Proof. now apply list_eqb_eq. Qed.

Section assoc_facts.
  Context {K V : Type} (eqb : K -> K -> bool).
  Context (eqb_eq : forall a b, eqb a b = true <-> a = b).
  Lemma m_get_del (m : list (K * V)) k k' :
    m_get eqb (m_del eqb m k) k' = if eqb k k' then None else m_get eqb m k'.
  Proof using eqb_eq.
    unfold m_del; induction m as [|[a v] m IH]; cbn.
    - now destruct (eqb k k').
    - destruct (eqb k a) eqn:Ea; cbn.
      + rewrite IH. apply eqb_eq in Ea; subst a.
        destruct (eqb k k') eqn:Ek; [easy|].
        destruct (eqb k' k) eqn:Ek'; [|easy].
        apply eqb_eq in Ek'; subst k'.
        assert (eqb k k = true) by (now apply eqb_eq); congruence.
      + rewrite IH. destruct (eqb k k') eqn:Ek; destruct (eqb k' a) eqn:Ek'; try easy.
        apply eqb_eq in Ek; apply eqb_eq in Ek'; subst.
        assert (eqb a a = true) by (now apply eqb_eq); congruence.
  Qed.
  Lemma m_get_set (m : list (K * V)) k v k' :
    m_get eqb (m_set eqb m k v) k' = if eqb k k' then Some v else m_get eqb m k'.
  Proof using eqb_eq.
    unfold m_set; cbn; rewrite m_get_del.
    destruct (eqb k' k) eqn:E.
    - apply eqb_eq in E; subst k'. assert (eqb k k = true) as -> by (now apply eqb_eq); easy.
    - destruct (eqb k k') eqn:E'; [|easy].
      apply eqb_eq in E'; subst k'. assert (eqb k k = true) by (now apply eqb_eq); congruence.
  Qed.
End assoc_facts.

Lemma Forall_bytes_app a b : bytes_ok (a ++ b) <-> bytes_ok a /\ bytes_ok b.
Proof. apply Forall_app. Qed.
Lemma Forall_idx {A} (P : A -> Prop) l i v : Forall P l -> idx l i = Some v -> P v.
Proof.
  intros H; unfold idx; destruct (i <? 0); [easy|]; intros E.
  apply nth_error_In in E; rewrite Forall_forall in H; auto.
Qed.
Lemma Forall_firstn' {A} (P : A -> Prop) n l : Forall P l -> Forall P (firstn n l).
Proof. intros H; revert n; induction H; intros [|n]; cbn; auto. Qed.
Lemma Forall_skipn' {A} (P : A -> Prop) n l : Forall P l -> Forall P (skipn n l).
Proof. intros H; revert n; induction H; intros [|n]; cbn; auto. Qed.

(** [x * 2^n] and a value below [2^n] have disjoint bits. *)
Lemma lor_shift a b n : 0 <= n -> 0 <= b < 2 ^ n -> Z.lor (Z.shiftl a n) b = a * 2 ^ n + b.
Proof.
  intros Hn Hb.
  rewrite <- Z.shiftl_mul_pow2 by lia.
  assert (E : Z.land (Z.shiftl a n) b = 0).
  { apply Z.bits_inj'; intros k Hk; rewrite Z.land_spec, Z.bits_0.
    destruct (Z_lt_le_dec k n).
    - rewrite Z.shiftl_spec_low by lia; easy.
    - rewrite (Z.testbit_eqb b) by lia.
      rewrite Z.div_small; [now rewrite andb_false_r|].
      split; [lia|]. apply Z.lt_le_trans with (2 ^ n); [lia|].
      apply Z.pow_le_mono_r; lia. }
  rewrite Z.add_nocarry_lxor by exact E.
  now rewrite Z.lxor_lor by exact E.
Qed.
