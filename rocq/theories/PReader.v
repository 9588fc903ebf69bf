(** Facts about programs and their interpreters. *)
From Verif Require Import Base BaseFacts MReader.

  (** * Weakest preconditions

      [wp cr p n tr Q]: started with [n] bytes left and callback trace [tr],
      the program never runs out of fuel, panics only if [cr] holds, and
      whenever it returns [a] with [n'] bytes left and trace [tr'], [Q a n' tr'].
      Only the lengths of what the reader delivers are used. *)
  Fixpoint wp {Ev A} (cr : Prop) (p : prog Ev A) (n : Z) (tr : list Ev) (Q : A -> Z -> list Ev -> Prop) : Prop :=
    match p with
    | Ret a => Q a n tr
    | Fail _ => True
    | Crash => cr
    | Starve => False
    | RFull m k =>
        m <= n -> forall b, bytes_ok b -> zlen b = Z.max 0 m -> wp cr (k b) (n - zlen b) tr Q
    | RSome m k =>
        forall b, bytes_ok b -> zlen b <= Z.max 0 m -> zlen b <= n -> (1 <= m -> 1 <= zlen b) ->
        wp cr (k b) (n - zlen b) tr Q
    | RDiscard m k =>
        (m < 0 -> wp cr (k 0) n tr Q) /\ (0 <= m <= n -> wp cr (k m) (n - m) tr Q)
    | RZlib w l k =>
        forall b c, zlen b = w -> 0 <= c <= n -> c <= Z.max 0 l -> wp cr (k b c) (n - c) tr Q
    | Emit ev k => wp cr k n (tr ++ [ev]) Q
    end.

  Lemma wp_mono {Ev A} cr (p : prog Ev A) (Q Q' : A -> Z -> list Ev -> Prop) :
    forall n tr, wp cr p n tr Q -> (forall a n' tr', Q a n' tr' -> Q' a n' tr') -> wp cr p n tr Q'.
  Proof.
    induction p; intros n0 tr Hp HQ; cbn [wp] in *; auto.
    - intuition eauto.
  Qed.

  Lemma wp_cr {Ev A} (cr cr' : Prop) (p : prog Ev A) Q :
    forall n tr, wp cr p n tr Q -> (cr -> cr') -> wp cr' p n tr Q.
  Proof. induction p; intros n0 tr Hp HQ; cbn [wp] in *; auto. intuition eauto. Qed.

  Lemma wp_bind {Ev A B} cr (p : prog Ev A) (f : A -> prog Ev B) Q :
    forall n tr, wp cr p n tr (fun a n' tr' => wp cr (f a) n' tr' Q) -> wp cr (bind p f) n tr Q.
  Proof.
    induction p; intros n0 tr Hp; cbn [wp bind] in *; auto. intuition eauto.
  Qed.

  Lemma bytes_ok_app a b : bytes_ok (a ++ b) <-> bytes_ok a /\ bytes_ok b.
  Proof. apply Forall_app. Qed.

  Lemma ztake_zdrop n (s : bytes) : ztake n s ++ zdrop n s = s.
  Proof.
    unfold ztake, zdrop. destruct (zlen s <=? n); [apply app_nil_r | apply firstn_skipn].
  Qed.
  Lemma ztake_zlen n (s : bytes) : zlen (ztake n s) = Z.min (zlen s) (Z.max 0 n).
  Proof.
    unfold ztake. pose proof (zlen_nonneg s).
    destruct (zlen s <=? n) eqn:E; [lia|].
    unfold zlen in *. rewrite firstn_length. lia.
  Qed.

  (** Rules for the primitives. *)
  Lemma wp_rfull {Ev} cr m n (tr : list Ev) (Q : bytes -> Z -> list Ev -> Prop) :
    0 <= m ->
    (m <= n -> forall b, bytes_ok b -> zlen b = m -> Q b (n - m) tr) -> wp cr (rfull m) n tr Q.
  Proof.
    intros Hm H; cbn. intros H1 b Hb Hl. replace (zlen b) with m by lia. apply H; auto. lia.
  Qed.
  Lemma wp_rsome {Ev} cr m n (tr : list Ev) (Q : bytes -> Z -> list Ev -> Prop) :
    1 <= m ->
    (forall b, bytes_ok b -> 1 <= zlen b <= m -> zlen b <= n -> Q b (n - zlen b) tr) ->
    wp cr (rsome m) n tr Q.
  Proof. intros Hm H; cbn. intros b Hb H1 H2 H3. apply H; auto. lia. Qed.
  Lemma wp_lift {Ev A} (cr : Prop) (x : option A) n (tr : list Ev) (Q : A -> Z -> list Ev -> Prop) :
    (x = None -> cr) -> (forall a, x = Some a -> Q a n tr) -> wp cr (lift x) n tr Q.
  Proof. destruct x; cbn; auto. Qed.
  Lemma wp_rdiscard {Ev} cr m n (tr : list Ev) (Q : Z -> Z -> list Ev -> Prop) :
    (m < 0 -> Q 0 n tr) -> (0 <= m <= n -> Q m (n - m) tr) -> wp cr (rdiscard m) n tr Q.
  Proof. cbn; auto. Qed.
  Lemma wp_make_ok {Ev} (cr : Prop) m n (tr : list Ev) (Q : unit -> Z -> list Ev -> Prop) :
    (m < 0 \/ max_alloc < m -> cr) -> (0 <= m <= max_alloc -> Q tt n tr) -> wp cr (make_ok m) n tr Q.
  Proof.
    intros H1 H2. unfold make_ok. destruct ((m <? 0) || (max_alloc <? m)) eqn:E; cbn; [apply H1|apply H2]; lia.
  Qed.

Section run.
  Variable inflate : bytes -> Z -> option (bytes * Z).
  Notation run := (run inflate).

  Definition run_next {Ev A B} (kind : rkind) (f : A -> prog Ev B)
    (r : outcome (A * bytes) * list Ev) : outcome (B * bytes) * list Ev :=
    match r with
    | (Ok (a, s), evs) => let (r', evs') := run kind (f a) s in (r', evs ++ evs')
    | (Err e, evs) => (Err e, evs)
    | (Panic, evs) => (Panic, evs)
    | (NoFuel, evs) => (NoFuel, evs)
    end.

  Lemma run_bind {Ev A B} kind (p : prog Ev A) (f : A -> prog Ev B) s :
    run kind (bind p f) s = run_next kind f (run kind p s).
  Proof.
    revert s; induction p; intros s; cbn [bind MReader.run]; try reflexivity.
    - cbn. destruct (run kind (f a) s); reflexivity.
    - destruct (zlen s <? n); [reflexivity|]. apply H.
    - destruct s; [reflexivity|]. apply H.
    - destruct (n <? 0); [destruct kind; [apply H|reflexivity]|].
      destruct (zlen s <? n); [reflexivity|]. apply H.
    - destruct (inflate_ok inflate (ztake limit s) want) as [[out c]|]; [|reflexivity]. apply H.
    - rewrite IHp. destruct (run kind p s) as [[[a s']|e| |] evs]; cbn; try reflexivity.
      destruct (run kind (f a) s'); reflexivity.
  Qed.

  (** [parses p enc a]: on input [enc] followed by anything, [p] returns [a],
      consumes exactly [enc], and calls nobody back. *)
  Definition parses {Ev A} (p : prog Ev A) (enc : bytes) (a : A) : Prop :=
    forall kind rest, run kind p (enc ++ rest) = (Ok (a, rest), []).

  Lemma parses_ret {Ev A} (a : A) : parses (Ev := Ev) (Ret a) [] a.
  Proof. intros kind rest; reflexivity. Qed.

  Lemma parses_bind {Ev A B} (p : prog Ev A) (f : A -> prog Ev B) e1 e2 a b :
    parses p e1 a -> parses (f a) e2 b -> parses (bind p f) (e1 ++ e2) b.
  Proof.
    intros H1 H2 kind rest. rewrite run_bind, <- app_assoc, H1. cbn. rewrite H2. reflexivity.
  Qed.

  (** Variant for a first part that consumes nothing. *)
  Lemma parses_bind0 {Ev A B} (p : prog Ev A) (f : A -> prog Ev B) e a b :
    parses p [] a -> parses (f a) e b -> parses (bind p f) e b.
  Proof. intros. change e with ([] ++ e). eapply parses_bind; eauto. Qed.

  Lemma parses_rfull {Ev} n enc : zlen enc = n -> parses (Ev := Ev) (rfull n) enc enc.
  Proof.
    intros <- kind rest. unfold rfull; cbn [MReader.run].
    rewrite zlen_app. pose proof (zlen_nonneg rest).
    replace (zlen enc + zlen rest <? zlen enc) with false by lia.
    rewrite firstn_app_exact, skipn_app_exact by (unfold zlen; lia). reflexivity.
  Qed.

  Lemma ztake_app_exact (enc rest : bytes) : ztake (zlen enc) (enc ++ rest) = enc.
  Proof.
    unfold ztake. rewrite zlen_app. destruct (zlen enc + zlen rest <=? zlen enc) eqn:E.
    - assert (rest = []) as -> by (apply zlen_0_nil; pose proof (zlen_nonneg rest); lia).
      apply app_nil_r.
    - apply firstn_app_exact; unfold zlen; lia.
  Qed.
  Lemma zdrop_app_exact (enc rest : bytes) : zdrop (zlen enc) (enc ++ rest) = rest.
  Proof.
    unfold zdrop. rewrite zlen_app. destruct (zlen enc + zlen rest <=? zlen enc) eqn:E.
    - symmetry; apply zlen_0_nil; pose proof (zlen_nonneg rest); lia.
    - apply skipn_app_exact; unfold zlen; lia.
  Qed.

  Lemma parses_rsome {Ev} n enc : zlen enc = n -> 0 < n -> parses (Ev := Ev) (rsome n) enc enc.
  Proof.
    intros <- Hn kind rest. unfold rsome; cbn [MReader.run].
    destruct (enc ++ rest) as [|x l] eqn:E.
    - apply app_eq_nil in E as [-> _]. subst; unfold zlen in Hn; cbn in Hn; lia.
    - rewrite <- E, ztake_app_exact, zdrop_app_exact. reflexivity.
  Qed.

  Lemma parses_rdiscard {Ev} n enc : zlen enc = n -> parses (Ev := Ev) (rdiscard n) enc n.
  Proof.
    intros <- kind rest. unfold rdiscard; cbn [MReader.run].
    pose proof (zlen_nonneg enc). pose proof (zlen_nonneg rest).
    replace (zlen enc <? 0) with false by lia. rewrite zlen_app.
    replace (zlen enc + zlen rest <? zlen enc) with false by lia.
    rewrite skipn_app_exact by (unfold zlen; lia). reflexivity.
  Qed.

  Lemma parses_lift {Ev A} (x : option A) a : x = Some a -> parses (Ev := Ev) (lift x) [] a.
  Proof. intros -> kind rest; reflexivity. Qed.

  Lemma parses_make_ok {Ev} n : 0 <= n <= max_alloc -> parses (Ev := Ev) (make_ok n) [] tt.
  Proof.
    intros H. unfold make_ok. replace ((n <? 0) || (max_alloc <? n)) with false by lia. apply parses_ret.
  Qed.

  (** Soundness: what [wp] promises holds of every run on bytes. *)
  Lemma wp_run {Ev A} cr kind (p : prog Ev A) (Q : A -> Z -> list Ev -> Prop) :
    forall s tr, bytes_ok s -> wp cr p (zlen s) tr Q ->
    match run kind p s with
    | (Ok (a, s'), evs) => Q a (zlen s') (tr ++ evs) /\ exists pre, s = pre ++ s'
    | (Err _, _) => True
    | (Panic, _) => cr
    | (NoFuel, _) => False
    end.
  Proof.
    induction p; intros s tr Hs Hp; cbn [wp MReader.run] in *; auto.
    - rewrite app_nil_r. split; [easy | exists []; reflexivity].
    - destruct (zlen s <? n) eqn:E; [easy|].
      assert (Hsp : bytes_ok (firstn (Z.to_nat n) s) /\ bytes_ok (skipn (Z.to_nat n) s)).
      { apply bytes_ok_app. now rewrite firstn_skipn. }
      assert (L1 : zlen (firstn (Z.to_nat n) s) = Z.max 0 n).
      { unfold zlen in *. rewrite firstn_length. lia. }
      assert (L2 : zlen (skipn (Z.to_nat n) s) = zlen s - Z.max 0 n).
      { unfold zlen in *. rewrite skipn_length. lia. }
      specialize (Hp ltac:(lia) _ (proj1 Hsp) L1). rewrite L1, <- L2 in Hp.
      specialize (H _ _ tr (proj2 Hsp) Hp).
      destruct (run kind _ _) as [[[a s']|?| |] evs]; auto.
      destruct H as [HQ [pre Hpre]]. split; [easy|].
      exists (firstn (Z.to_nat n) s ++ pre). rewrite <- app_assoc, <- Hpre. now rewrite firstn_skipn.
    - destruct s as [|x s0] eqn:Es; [easy|]. rewrite <- Es in *.
      assert (Hsp : bytes_ok (ztake n s) /\ bytes_ok (zdrop n s)).
      { apply bytes_ok_app. now rewrite ztake_zdrop. }
      pose proof (ztake_zlen n s) as L1.
      assert (L2 : zlen (zdrop n s) = zlen s - zlen (ztake n s)).
      { rewrite <- (ztake_zdrop n s) at 2. rewrite zlen_app. lia. }
      assert (0 < zlen s) by (rewrite Es, zlen_cons; pose proof (zlen_nonneg s0); lia).
      specialize (Hp _ (proj1 Hsp) ltac:(lia) ltac:(lia) ltac:(lia)). rewrite <- L2 in Hp.
      specialize (H _ _ tr (proj2 Hsp) Hp).
      destruct (run kind _ _) as [[[a s']|?| |] evs]; auto.
      destruct H as [HQ [pre Hpre]]. split; [easy|].
      exists (ztake n s ++ pre). rewrite <- app_assoc, <- Hpre. now rewrite ztake_zdrop.
    - destruct Hp as [Hp1 Hp2]. destruct (n <? 0) eqn:En.
      + destruct kind; [|easy]. specialize (H 0 s tr Hs (Hp1 ltac:(lia))). exact H.
      + destruct (zlen s <? n) eqn:E; [easy|].
        assert (L2 : zlen (skipn (Z.to_nat n) s) = zlen s - n).
        { unfold zlen in *. rewrite skipn_length. lia. }
        specialize (Hp2 ltac:(lia)). rewrite <- L2 in Hp2.
        specialize (H n _ tr (Forall_skipn' _ _ _ Hs) Hp2).
        destruct (run kind _ _) as [[[a s']|?| |] evs]; auto.
        destruct H as [HQ [pre Hpre]]. split; [easy|].
        exists (firstn (Z.to_nat n) s ++ pre). rewrite <- app_assoc, <- Hpre. now rewrite firstn_skipn.
    - unfold inflate_ok. destruct (inflate (ztake limit s) want) as [[out c]|]; [|easy].
      destruct ((zlen out =? want) && (0 <=? c) && (c <=? zlen (ztake limit s))) eqn:E; [|easy].
      rewrite ztake_zlen in E.
      specialize (Hp out c ltac:(lia) ltac:(lia) ltac:(lia)).
      assert (L2 : zlen (skipn (Z.to_nat c) s) = zlen s - c).
      { unfold zlen in *. rewrite skipn_length. lia. }
      rewrite <- L2 in Hp.
      specialize (H out c _ tr (Forall_skipn' _ _ _ Hs) Hp).
      destruct (run kind _ _) as [[[a s']|?| |] evs]; auto.
      destruct H as [HQ [pre Hpre]]. split; [easy|].
      exists (firstn (Z.to_nat c) s ++ pre). rewrite <- app_assoc, <- Hpre. now rewrite firstn_skipn.
    - specialize (IHp s (tr ++ [ev]) Hs Hp).
      destruct (run kind p s) as [[[a s']|?| |] evs]; auto.
      rewrite <- app_assoc in IHp. exact IHp.
  Qed.

End run.

(** * Seekable readers *)

(** Programs that do not discard behave alike on all readers. *)
Fixpoint nodisc {Ev A} (p : prog Ev A) : Prop :=
  match p with
  | RDiscard _ _ => False
  | RFull _ k | RSome _ k => forall b, nodisc (k b)
  | RZlib _ _ k => forall b c, nodisc (k b c)
  | Emit _ k => nodisc k
  | _ => True
  end.

Lemma nodisc_bind {Ev A B} (p : prog Ev A) (f : A -> prog Ev B) :
  nodisc p -> (forall a, nodisc (f a)) -> nodisc (bind p f).
Proof. induction p; cbn; auto. Qed.

(** Programs that never return. *)
Fixpoint dead {Ev A} (p : prog Ev A) : Prop :=
  match p with
  | Ret _ => False
  | RFull _ k | RSome _ k => forall b, dead (k b)
  | RDiscard _ k => forall n, dead (k n)
  | RZlib _ _ k => forall b c, dead (k b c)
  | Emit _ k => dead k
  | _ => True
  end.

(** Programs in which a negative discard that discards nothing is never
    followed by success. *)
Fixpoint fwd {Ev A} (p : prog Ev A) : Prop :=
  match p with
  | RDiscard n k => (n < 0 -> dead (k 0)) /\ (0 <= n -> fwd (k n))
  | RFull _ k | RSome _ k => forall b, bytes_ok b -> fwd (k b)
  | RZlib _ _ k => forall b c, fwd (k b c)
  | Emit _ k => fwd k
  | _ => True
  end.

Lemma dead_bind {Ev A B} (p : prog Ev A) (f : A -> prog Ev B) :
  dead p -> dead (bind p f).
Proof. induction p; cbn; auto; tauto. Qed.
Lemma fwd_bind {Ev A B} (p : prog Ev A) (f : A -> prog Ev B) :
  fwd p -> (forall a, fwd (f a)) -> fwd (bind p f).
Proof. induction p; cbn; auto. intuition auto using dead_bind. Qed.
Lemma nodisc_fwd {Ev A} (p : prog Ev A) : nodisc p -> fwd p.
Proof. induction p; cbn; auto; tauto. Qed.

Section seek.
  Variable inflate : bytes -> Z -> option (bytes * Z).

  Lemma zdrop_zdrop a b (s : bytes) : 0 <= a -> 0 <= b -> zdrop a (zdrop b s) = zdrop (b + a) s.
  Proof.
    intros. unfold zdrop. destruct (zlen s <=? b) eqn:E.
    - rewrite zlen_nil. replace (0 <=? a) with true by lia. now replace (zlen s <=? b + a) with true by lia.
    - assert (L : zlen (skipn (Z.to_nat b) s) = zlen s - b) by (unfold zlen in *; rewrite skipn_length; lia).
      rewrite L. destruct (zlen s - b <=? a) eqn:E2.
      + now replace (zlen s <=? b + a) with true by lia.
      + replace (zlen s <=? b + a) with false by lia. rewrite skipn_skipn. f_equal. lia.
  Qed.
  Lemma zdrop_skipn a (s : bytes) : 0 <= a <= zlen s -> zdrop a s = skipn (Z.to_nat a) s.
  Proof.
    intros. unfold zdrop. destruct (zlen s <=? a) eqn:E; [|easy].
    symmetry. apply skipn_all2. unfold zlen in *; lia.
  Qed.
  Lemma zdrop_zlen a (s : bytes) : 0 <= a -> zlen (zdrop a s) = Z.max 0 (zlen s - a).
  Proof.
    intros. unfold zdrop. destruct (zlen s <=? a) eqn:E; [rewrite zlen_nil; lia|].
    unfold zlen in *; rewrite skipn_length; lia.
  Qed.

  Lemma bytes_ok_zdrop n (s : bytes) : bytes_ok s -> bytes_ok (zdrop n s).
  Proof. intros H. unfold zdrop. destruct (_ <=? _); [constructor|now apply Forall_skipn']. Qed.
  Lemma bytes_ok_ztake n (s : bytes) : bytes_ok s -> bytes_ok (ztake n s).
  Proof. intros H. unfold ztake. destruct (_ <=? _); [easy|now apply Forall_firstn']. Qed.

  (** Success on a plain reader carries over to a seekable reader and to a
      discarding one. *)
  Lemma fwd_seek {Ev A} (p : prog Ev A) (data : bytes) : forall pos a s' evs,
    fwd p -> bytes_ok data -> 0 <= pos <= zlen data -> zlen data < 9223372036854775808 ->
    run inflate Plain p (zdrop pos data) = (Ok (a, s'), evs) ->
    exists pos', run_seek inflate p data pos = (Ok (a, pos'), evs) /\
      pos <= pos' <= zlen data /\ s' = zdrop pos' data.
  Proof.
    assert (Dead : forall (q : prog Ev A) kind s a s' evs, dead q -> run inflate kind q s = (Ok (a, s'), evs) -> False).
    { clear. induction q; intros kind s a1 s' evs Hd; cbn [dead run] in *; try easy.
      - destruct (zlen s <? n); [easy|]. eauto.
      - destruct s; [easy|]. eauto.
      - destruct (n <? 0); [destruct kind; [eauto|easy]|]. destruct (zlen s <? n); [easy|]. eauto.
      - destruct (inflate_ok _ _ _) as [[? ?]|]; [|easy]. eauto.
      - destruct (run inflate kind q s) as [[[? ?]|?| |] ?] eqn:E; intros [= <- <- <-]. eauto. }
    induction p; intros pos a1 s' evs Hf Hby Hpos Hlen; cbn [fwd run run_seek] in *; try easy.
    - intros [= <- <- <-]. exists pos. repeat split; lia.
    - rewrite zdrop_zlen by lia. replace (Z.max 0 (zlen data - pos)) with (zlen data - pos) by lia.
      destruct (zlen data - pos <? n) eqn:E; [easy|]. intros R.
      set (b := firstn (Z.to_nat n) (zdrop pos data)) in *.
      assert (Lb : zlen b = Z.max 0 n).
      { pose proof (zdrop_zlen pos data ltac:(lia)). unfold b. unfold zlen in *. rewrite firstn_length. lia. }
      assert (Es : skipn (Z.to_nat n) (zdrop pos data) = zdrop (pos + zlen b) data).
      { rewrite <- zdrop_zdrop by lia. rewrite (zdrop_skipn (zlen b)) by (rewrite zdrop_zlen; lia). f_equal. lia. }
      assert (Hbb : bytes_ok b) by (unfold b; apply Forall_firstn'; now apply bytes_ok_zdrop).
      rewrite Es in R. apply H in R; [|auto|easy|lia|easy].
      destruct R as (pos' & R & Hp & ->). exists pos'. repeat split; auto; lia.
    - destruct (zdrop pos data) as [|x t] eqn:Ez; [easy|]. rewrite <- Ez in *. intros R.
      pose proof (zdrop_zlen pos data ltac:(lia)) as Lz.
      assert (Lt : zlen (ztake n (zdrop pos data)) + zlen (zdrop n (zdrop pos data)) = zlen (zdrop pos data)).
      { rewrite <- zlen_app, ztake_zdrop. reflexivity. }
      assert (Es : zdrop n (zdrop pos data) = zdrop (pos + zlen (ztake n (zdrop pos data))) data).
      { pose proof (zlen_nonneg (ztake n (zdrop pos data))).
        rewrite <- zdrop_zdrop by lia. rewrite ztake_zlen.
        destruct (Z_le_gt_dec (zlen (zdrop pos data)) n).
        - rewrite Z.min_l by lia. unfold zdrop at 1 3.
          now replace (zlen (zdrop pos data) <=? n) with true by lia;
              replace (zlen (zdrop pos data) <=? zlen (zdrop pos data)) with true by lia.
        - rewrite Z.min_r by lia. unfold zdrop at 1 3.
          replace (zlen (zdrop pos data) <=? n) with false by lia.
          replace (zlen (zdrop pos data) <=? Z.max 0 n) with (zlen (zdrop pos data) <=? 0) by lia.
          assert (0 < zlen (zdrop pos data)) by (rewrite Ez, zlen_cons; pose proof (zlen_nonneg t); lia).
          replace (zlen (zdrop pos data) <=? 0) with false by lia. f_equal. lia. }
      assert (Hbb : bytes_ok (ztake n (zdrop pos data))) by (apply bytes_ok_ztake; now apply bytes_ok_zdrop).
      rewrite Es in R. pose proof (zlen_nonneg (ztake n (zdrop pos data))).
      pose proof (zlen_nonneg (zdrop n (zdrop pos data))).
      apply H in R; [|auto|easy|lia|easy].
      destruct R as (pos' & R & Hp & ->). exists pos'. repeat split; auto; lia.
    - destruct Hf as [Hd Hf]. destruct (n <? 0) eqn:En.
      + intros R. exfalso. eapply Dead; [apply Hd; lia | exact R].
      + rewrite zdrop_zlen by lia. destruct (Z.max 0 (zlen data - pos) <? n) eqn:E; [easy|]. intros R.
        rewrite <- (zdrop_skipn n), zdrop_zdrop in R by (rewrite ?zdrop_zlen; lia).
        rewrite i64_small by lia. replace (pos + n <? 0) with false by lia.
        apply H in R; [|auto with zarith|easy|lia|easy].
        destruct R as (pos' & R & Hp & ->). exists pos'. repeat split; auto; lia.
    - destruct (inflate_ok inflate (ztake limit (zdrop pos data)) want) as [[out c]|] eqn:Ei; [|easy].
      intros R. unfold inflate_ok in Ei.
      destruct (inflate (ztake limit (zdrop pos data)) want) as [[o' c']|]; [|easy].
      destruct (_ && _) eqn:Eb in Ei; [|easy]. injection Ei as <- <-.
      rewrite ztake_zlen, zdrop_zlen in Eb by lia.
      rewrite <- (zdrop_skipn c'), zdrop_zdrop in R by (rewrite ?zdrop_zlen; lia).
      apply H in R; [|auto|easy|lia|easy].
      destruct R as (pos' & R & Hp & ->). exists pos'. repeat split; auto; lia.
    - destruct (run inflate Plain p (zdrop pos data)) as [[[a2 s2]|?| |] ?] eqn:E; intros [= <- <- <-].
      apply IHp in E; [|easy|easy|easy|easy]. destruct E as (pos' & -> & Hp & ->). exists pos'. repeat split; auto; lia.
  Qed.

  Lemma fwd_discarder {Ev A} (p : prog Ev A) : forall s a s' evs,
    fwd p -> bytes_ok s ->
    run inflate Plain p s = (Ok (a, s'), evs) -> run inflate Discarder p s = (Ok (a, s'), evs).
  Proof.
    assert (Dead : forall (q : prog Ev A) kind s a s' evs, dead q -> run inflate kind q s = (Ok (a, s'), evs) -> False).
    { clear. induction q; intros kind s a1 s' evs Hd; cbn [dead run] in *; try easy.
      - destruct (zlen s <? n); [easy|]. eauto.
      - destruct s; [easy|]. eauto.
      - destruct (n <? 0); [destruct kind; [eauto|easy]|]. destruct (zlen s <? n); [easy|]. eauto.
      - destruct (inflate_ok _ _ _) as [[? ?]|]; [|easy]. eauto.
      - destruct (run inflate kind q s) as [[[? ?]|?| |] ?] eqn:E; intros [= <- <- <-]. eauto. }
    induction p; intros s a1 s' evs Hf Hs; cbn [fwd run] in *; try easy.
    - destruct (zlen s <? n); [easy|]. apply H; [apply Hf; now apply Forall_firstn'|now apply Forall_skipn'].
    - destruct s as [|x t] eqn:Es; [easy|]. rewrite <- Es in *. apply H; [apply Hf; now apply bytes_ok_ztake|now apply bytes_ok_zdrop].
    - destruct Hf as [Hd Hf]. destruct (n <? 0) eqn:E.
      + intros R. exfalso. eapply Dead; [apply Hd; lia | exact R].
      + destruct (zlen s <? n); [easy|]. apply H; [apply Hf; lia|now apply Forall_skipn'].
    - destruct (inflate_ok _ _ _) as [[? ?]|]; [|easy]. apply H; [apply Hf|now apply Forall_skipn'].
    - destruct (run inflate Plain p s) as [[[a2 s2]|?| |] ?] eqn:E; intros [= <- <- <-].
      apply IHp in E; [|easy|easy]. now rewrite E.
  Qed.

  (** Without discards the two kinds of non-seekable readers agree in
      everything, and so do seekable ones. *)
  Lemma nodisc_kind {Ev A} (p : prog Ev A) : nodisc p -> forall k1 k2 s,
    run inflate k1 p s = run inflate k2 p s.
  Proof.
    induction p; cbn [nodisc run]; intros Hn k1 k2 s; auto; try easy.
    - destruct (zlen s <? n); auto.
    - destruct s; auto.
    - destruct (inflate_ok _ _ _) as [[? ?]|]; auto.
    - now rewrite (IHp Hn k1 k2).
  Qed.

  Definition same_outcome {A} (data : bytes) (x : outcome (A * bytes)) (y : outcome (A * Z)) : Prop :=
    match x, y with
    | Ok (a, s), Ok (b, pos) => a = b /\ 0 <= pos <= zlen data /\ s = zdrop pos data
    | Err e, Err e' => e = e'
    | Panic, Panic | NoFuel, NoFuel => True
    | _, _ => False
    end.

  Lemma nodisc_seek {Ev A} (p : prog Ev A) (data : bytes) : nodisc p -> forall kind pos,
    0 <= pos <= zlen data ->
    same_outcome data (fst (run inflate kind p (zdrop pos data))) (fst (run_seek inflate p data pos)) /\
    snd (run inflate kind p (zdrop pos data)) = snd (run_seek inflate p data pos).
  Proof.
    induction p; cbn [nodisc run run_seek]; intros Hn kind pos Hpos; try easy.
    - rewrite zdrop_zlen by lia. replace (Z.max 0 (zlen data - pos)) with (zlen data - pos) by lia.
      destruct (zlen data - pos <? n) eqn:E; [easy|].
      set (b := firstn (Z.to_nat n) (zdrop pos data)) in *.
      assert (Lb : zlen b = Z.max 0 n).
      { pose proof (zdrop_zlen pos data ltac:(lia)). unfold b. unfold zlen in *. rewrite firstn_length. lia. }
      assert (Es : skipn (Z.to_nat n) (zdrop pos data) = zdrop (pos + zlen b) data).
      { rewrite <- zdrop_zdrop by lia. rewrite (zdrop_skipn (zlen b)) by (rewrite zdrop_zlen; lia). f_equal. lia. }
      rewrite Es. apply H; [easy|lia].
    - destruct (zdrop pos data) as [|x t] eqn:Ez; [easy|]. rewrite <- Ez in *.
      pose proof (zdrop_zlen pos data ltac:(lia)) as Lz.
      assert (Lt : zlen (ztake n (zdrop pos data)) + zlen (zdrop n (zdrop pos data)) = zlen (zdrop pos data)).
      { rewrite <- zlen_app, ztake_zdrop. reflexivity. }
      assert (Es : zdrop n (zdrop pos data) = zdrop (pos + zlen (ztake n (zdrop pos data))) data).
      { pose proof (zlen_nonneg (ztake n (zdrop pos data))).
        rewrite <- zdrop_zdrop by lia. rewrite ztake_zlen.
        destruct (Z_le_gt_dec (zlen (zdrop pos data)) n).
        - rewrite Z.min_l by lia. unfold zdrop at 1 3.
          now replace (zlen (zdrop pos data) <=? n) with true by lia;
              replace (zlen (zdrop pos data) <=? zlen (zdrop pos data)) with true by lia.
        - rewrite Z.min_r by lia. unfold zdrop at 1 3.
          replace (zlen (zdrop pos data) <=? n) with false by lia.
          replace (zlen (zdrop pos data) <=? Z.max 0 n) with (zlen (zdrop pos data) <=? 0) by lia.
          assert (0 < zlen (zdrop pos data)) by (rewrite Ez, zlen_cons; pose proof (zlen_nonneg t); lia).
          replace (zlen (zdrop pos data) <=? 0) with false by lia. f_equal. lia. }
      rewrite Es. pose proof (zlen_nonneg (ztake n (zdrop pos data))).
      pose proof (zlen_nonneg (zdrop n (zdrop pos data))).
      apply H; [easy|lia].
    - destruct (inflate_ok inflate (ztake limit (zdrop pos data)) want) as [[out c]|] eqn:Ei; [|easy].
      unfold inflate_ok in Ei.
      destruct (inflate (ztake limit (zdrop pos data)) want) as [[o' c']|]; [|easy].
      destruct (_ && _) eqn:Eb in Ei; [|easy]. injection Ei as <- <-.
      rewrite ztake_zlen, zdrop_zlen in Eb by lia.
      rewrite <- (zdrop_skipn c'), zdrop_zdrop by (rewrite ?zdrop_zlen; lia).
      apply H; [easy|lia].
    - specialize (IHp Hn kind pos Hpos).
      destruct (run inflate kind p (zdrop pos data)), (run_seek inflate p data pos). cbn [fst snd] in *.
      destruct IHp as [? ->]. easy.
  Qed.
End seek.

(** * Which errors a program can return *)

Definition io_error (e : error) : Prop := e = EEof \/ e = EUnexpectedEof \/ e = ENegative \/ e = EZlib.

Fixpoint fails {Ev A} (E : error -> Prop) (p : prog Ev A) : Prop :=
  match p with
  | Ret _ | Crash | Starve => True
  | Fail e => E e
  | RFull n k => forall b, fails E (k b)
  | RSome n k => forall b, fails E (k b)
  | RDiscard n k => forall l, fails E (k l)
  | RZlib w l k => forall b c, fails E (k b c)
  | Emit ev k => fails E k
  end.

Lemma fails_bind {Ev A B} E (p : prog Ev A) (f : A -> prog Ev B) :
  fails E p -> (forall a, fails E (f a)) -> fails E (bind p f).
Proof. induction p; cbn; auto. Qed.
Lemma fails_lift {Ev A} E (x : option A) : fails (Ev := Ev) E (lift x).
Proof. destruct x; cbn; auto. Qed.

Lemma run_fails inflate {Ev A} kind (p : prog Ev A) s E :
  fails E p ->
  match fst (run inflate kind p s) with Err e => io_error e \/ E e | _ => True end.
Proof.
  revert s. induction p; intros s F; cbn [run fails] in *; try exact I; auto.
  - now right.
  - destruct (zlen s <? n); [|now apply H]. left. unfold io_error, eof_error; destruct s; auto.
  - destruct s; [left; unfold io_error; auto|]. now apply H.
  - destruct (n <? 0).
    + destruct kind; [now apply H|]. left; unfold io_error; auto.
    + destruct (zlen s <? n); [left; unfold io_error; auto|]. now apply H.
  - destruct (inflate_ok _ _ _) as [[out c]|]; [now apply H|]. left; unfold io_error; auto.
  - specialize (IHp s F). destruct (run inflate kind p s) as [[| | |] evs]; cbn [fst] in *; auto.
Qed.
