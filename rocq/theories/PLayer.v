(** Weakest preconditions of the layer section: exact byte counts, callback
    traces, enough fuel. Panics are allowed here ([cr := True]). *)
From Verif Require Import Base BaseFacts MUtil SUtil PUtil MRect MReader PReader MPicker MConfig SConfig PConfig
  MCompress MLayer SLayer.

(** * Loops that carry fuel never run out of it *)

Lemma pb_line_fuel fuel : forall done dest buf ln i, bytes_ok buf -> 0 <= i -> (1 <= fuel)%nat -> zlen buf - i < Z.of_nat fuel ->
  pb_line fuel done dest buf ln i <> NoFuel.
Proof.
  induction fuel as [|fuel IH]; intros done dest buf ln i Hb Hi Hf Hl; [lia|].
  cbn [pb_line]. destruct (i <? ln); [|easy].
  destruct (idx buf i) as [c|] eqn:E; [|easy]. pose proof (bytes_ok_idx _ _ _ Hb E). apply idx_some_lt in E.
  destruct (c <=? 127) eqn:Ec.
  - destruct (_ || _) eqn:Eo; [easy|]. apply IH; auto; lia.
  - destruct (c =? 128); [apply IH; auto; lia|].
    destruct (_ || _) eqn:Eo; [easy|].
    destruct (idx buf (i + 1)) eqn:E2; [|easy]. apply idx_some_lt in E2. apply IH; auto; lia.
Qed.

Lemma bytes_ok_slice b lo hi s : bytes_ok b -> slice b lo hi = Some s -> bytes_ok s.
Proof. intros Hb H. apply slice_some in H as (_ & _ & _ & ->). apply Forall_firstn', Forall_skipn', Hb. Qed.

Lemma pb_lines_fuel lens : forall done dest buf, bytes_ok buf -> pb_lines done dest buf lens <> NoFuel.
Proof.
  induction lens as [|ln lens IH]; intros done dest buf Hb; cbn [pb_lines]; [easy|].
  pose proof (pb_line_fuel (S (length buf)) done dest buf ln 0 Hb ltac:(lia) ltac:(lia) ltac:(unfold zlen; lia)) as H.
  destruct (pb_line _ _ _ _ _ _) as [[d1 d2]|e| |]; cbn [obind]; try easy.
  destruct (slice buf ln (zlen buf)) eqn:E; [|easy]. apply IH. eapply bytes_ok_slice; eauto.
Qed.

Lemma pb_tasks_bytes k : forall dest buf lens offs width step ofs ts, bytes_ok buf ->
  pb_tasks k dest buf lens offs width step ofs = Some ts -> Forall (fun t => bytes_ok (pt_buf t)) ts.
Proof.
  induction k as [|k IH]; intros dest buf lens offs width step ofs ts Hb; cbn [pb_tasks].
  - destruct (slice dest _ _); [|easy]. destruct (idx offs ofs); [|easy]. destruct (slice lens _ _); [|easy].
    destruct (slice buf _ _) eqn:E; [|easy]. intros [= <-]. constructor; [|constructor]. cbn. eapply bytes_ok_slice; eauto.
  - destruct (slice dest _ _); [|easy]. destruct (idx offs ofs); [|easy]. destruct (idx offs (ofs + step)); [|easy].
    destruct (slice lens _ _); [|easy]. destruct (slice buf _ _) eqn:E; [|easy].
    destruct (pb_tasks k _ _ _ _ _ _ _) eqn:Et; cbn [option_map]; [|easy]. intros [= <-].
    constructor; [cbn; eapply bytes_ok_slice; eauto | eapply IH; eauto].
Qed.

Lemma pb_join_fuel rs : Forall (fun r => r <> NoFuel) rs -> pb_join rs <> NoFuel.
Proof.
  induction 1 as [|r rs H _ IH]; cbn; [easy|].
  destruct r; destruct (pb_join rs); easy.
Qed.

Lemma decodePackBits_data_fuel procs dest buf width lines lens : bytes_ok buf ->
  decodePackBits_data procs dest buf width lines lens <> NoFuel.
Proof.
  intros Hb. unfold decodePackBits_data. destruct (_ =? 1)%nat; [now apply pb_lines_fuel|].
  destruct (pb_tasks _ _ _ _ _ _ _ _) as [ts|] eqn:E; [|easy].
  apply pb_tasks_bytes in E; [|easy]. apply pb_join_fuel. apply Forall_map. eapply Forall_impl; [|exact E].
  intros t Ht. now apply pb_lines_fuel.
Qed.

Lemma delta_row16_step w : forall d buf i b j, delta_row16 w d buf i = Some (b, j) ->
  j = i + 2 * Z.of_nat w /\ zlen b = zlen buf.
Proof.
  induction w as [|w IH]; intros d buf i b j; cbn [delta_row16].
  - intros [= <- <-]. lia.
  - destruct (readUint16 buf i); [|easy]. destruct (writeUint16 _ _ _) eqn:E; [|easy].
    intros H. apply IH in H. apply writeUint16_spec in E; [|apply u16_range]. destruct E as [E _]. lia.
Qed.
Lemma delta_row32_step w : forall d buf i b j, delta_row32 w d buf i = Some (b, j) ->
  j = i + 4 * Z.of_nat w /\ zlen b = zlen buf.
Proof.
  induction w as [|w IH]; intros d buf i b j; cbn [delta_row32].
  - intros [= <- <-]. lia.
  - destruct (readUint32 buf i); [|easy]. destruct (writeUint32 _ _ _) eqn:E; [|easy].
    intros H. apply IH in H. apply writeUint32_spec in E; [|apply u32_range]. destruct E as [E _]. lia.
Qed.

Lemma delta_rows_fuel row fuel : forall buf i,
  (forall buf i b j, row buf i = Some (b, j) -> i < j /\ zlen b = zlen buf) ->
  zlen buf - i <= Z.of_nat fuel -> delta_rows row fuel buf i <> NoFuel.
Proof.
  induction fuel as [|fuel IH]; intros buf i Hr Hl; cbn [delta_rows].
  - now replace (i <? zlen buf) with false by lia.
  - destruct (i <? zlen buf); [|easy]. destruct (row buf i) as [[b j]|] eqn:E; [|easy].
    apply Hr in E. apply IH; [exact Hr|lia].
Qed.

Lemma decodeDelta_fuel buf w depth : 0 < w \/ buf = [] -> decodeDelta buf w depth <> NoFuel.
Proof.
  intros H. unfold decodeDelta. destruct H as [H| -> ].
  - destruct (depth =? 16); [|destruct (depth =? 32); [|easy]].
    + apply delta_rows_fuel; [|unfold zlen; lia]. intros b i b' j E. apply delta_row16_step in E. lia.
    + apply delta_rows_fuel; [|unfold zlen; lia]. intros b i b' j E. apply delta_row32_step in E. lia.
  - destruct (depth =? 16); [easy|destruct (depth =? 32); easy].
Qed.

(** The prediction never changes the size. *)
Lemma delta_rows_zlen row fuel : forall buf i d,
  (forall buf i b j, row buf i = Some (b, j) -> zlen b = zlen buf) ->
  delta_rows row fuel buf i = Ok d -> zlen d = zlen buf.
Proof.
  induction fuel as [|fuel IH]; intros buf i d Hr; cbn [delta_rows].
  - destruct (i <? zlen buf); [easy|]. now intros [= <-].
  - destruct (i <? zlen buf); [|now intros [= <-]]. destruct (row buf i) as [[b j]|] eqn:E; [|easy].
    intros H. apply IH in H; [|exact Hr]. apply Hr in E. lia.
Qed.
Lemma decodeDelta_zlen buf w depth d : decodeDelta buf w depth = Ok d -> zlen d = zlen buf.
Proof.
  unfold decodeDelta. destruct (depth =? 16); [|destruct (depth =? 32); [|now intros [= <-]]]; apply delta_rows_zlen.
  - intros b i b' j E. apply delta_row16_step in E. lia.
  - intros b i b' j E. apply delta_row32_step in E. lia.
Qed.

(** * Values a program can return *)

Fixpoint rets {Ev A} (R : A -> Prop) (p : prog Ev A) : Prop :=
  match p with
  | Ret a => R a
  | RFull _ k | RSome _ k => forall b, rets R (k b)
  | RDiscard _ k => forall n, rets R (k n)
  | RZlib _ _ k => forall b c, rets R (k b c)
  | Emit _ k => rets R k
  | _ => True
  end.

Lemma rets_bind {Ev A B} (R : A -> Prop) (S : B -> Prop) (p : prog Ev A) f :
  rets R p -> (forall a, R a -> rets S (f a)) -> rets S (bind p f).
Proof. induction p; cbn; auto. Qed.
Lemma rets_any {Ev A} (p : prog Ev A) : rets (fun _ => True) p.
Proof. induction p; cbn; auto. Qed.
Lemma rets_bind' {Ev A B} (S : B -> Prop) (p : prog Ev A) f :
  (forall a, rets S (f a)) -> rets S (bind p f).
Proof. intros H. eapply rets_bind; [apply rets_any|auto]. Qed.
Lemma rets_mono {Ev A} (R S : A -> Prop) (p : prog Ev A) : rets R p -> (forall a, R a -> S a) -> rets S p.
Proof. induction p; cbn; auto. Qed.
Lemma wp_rets {Ev A} cr (R : A -> Prop) (p : prog Ev A) Q : rets R p -> forall n tr,
  wp cr p n tr Q -> wp cr p n tr (fun a n' tr' => Q a n' tr' /\ R a).
Proof. induction p; cbn [rets wp]; intros HR n0 tr H0; auto. intuition auto. Qed.

(** Rectangles are well formed. *)
Definition rect_wf (r : rect) : Prop := 0 <= rdx r /\ 0 <= rdy r.
Definition mask_wf (m : mask) : Prop := rect_wf (mk_rect m) /\ rect_wf (mk_rrect m).

Lemma rect_wf_mk a b c d : rect_wf (mkRect a b c d).
Proof. unfold rect_wf, rdx, rdy, mkRect. cbn. lia. Qed.
Lemma rect_wf_ZR : rect_wf ZR.
Proof. unfold rect_wf, rdx, rdy, ZR. cbn. lia. Qed.

Lemma rets_rect_signed b : rets rect_wf (read_rect_signed b).
Proof. unfold read_rect_signed. do 4 (apply rets_bind'; intros). apply rect_wf_mk. Qed.
Lemma rets_rect_unsigned b : rets rect_wf (read_rect_unsigned b).
Proof. unfold read_rect_unsigned. do 4 (apply rets_bind'; intros). apply rect_wf_mk. Qed.

Definition mp_wf (x : mask * Z) : Prop := mask_wf (fst x).

Ltac rstep :=
  match goal with
  | |- rets _ (if ?c then _ else _) => destruct c
  | |- rets _ (Ret _) => cbn [rets]
  | |- rets _ (bind _ _) => apply rets_bind'; intros
  | |- rets _ (match ?x with (_, _) => _ end) => destruct x
  | |- rets _ (match ?x with Some _ => _ | None => _ end) => destruct x
  | |- rets _ (Fail _) => exact I
  | |- rets _ Crash => exact I
  | |- rets _ Starve => exact I
  end.

Lemma rets_real_mask ln rm m : mask_wf m -> rets mp_wf (read_real_mask ln rm m).
Proof.
  intros H. unfold read_real_mask. rstep; [exact H|]. rstep. rstep. rstep; [exact H|]. rstep. rstep.
  rstep; [rstep; [rstep|]; exact H|]. rstep.
  eapply rets_bind; [apply rets_rect_unsigned|]. intros r Hr. cbn. split; [apply H|exact Hr].
Qed.
Lemma rets_mask_tail ln rm m : mask_wf m -> rets mp_wf (read_mask_tail ln rm m).
Proof.
  intros H. unfold read_mask_tail. rstep; [rstep; [rstep|]; exact H|]. now apply rets_real_mask.
Qed.
Lemma rets_density pr ln rm m set k : mask_wf m -> (forall m v, mask_wf m -> mask_wf (set m v)) ->
  (forall rm m, mask_wf m -> rets mp_wf (k rm m)) -> rets mp_wf (read_density pr ln rm m set k).
Proof. intros H Hs Hk. unfold read_density. repeat rstep; auto. Qed.
Lemma rets_feather pr ln rm m set k : mask_wf m -> (forall m v, mask_wf m -> mask_wf (set m v)) ->
  (forall rm m, mask_wf m -> rets mp_wf (k rm m)) -> rets mp_wf (read_feather pr ln rm m set k).
Proof. intros H Hs Hk. unfold read_feather. repeat rstep; auto. Qed.

Lemma rets_readLayerMask : rets mp_wf readLayerMask.
Proof.
  pose proof rect_wf_ZR as HZ. unfold readLayerMask. rstep. rstep. rstep; [now split|]. rstep; [rstep; now split|].
  rstep. eapply rets_bind; [apply rets_rect_signed|]. intros r Hr.
  rstep; [now split|]. rstep. rstep. rstep; [now split|]. rstep. rstep. rstep.
  - rstep; [now split|]. rstep. rstep.
    apply rets_density; [now split|easy|]. intros. apply rets_feather; [easy|easy|]. intros.
    apply rets_density; [easy|easy|]. intros. apply rets_feather; [easy|easy|]. intros. now apply rets_mask_tail.
  - apply rets_mask_tail. now split.
Qed.

(** * Exact counts *)

(** [counted p cnt]: [p] calls nobody back and [cnt] of its result is the
    number of bytes it took. *)
Definition counted {A} (p : P A) (cnt : A -> Z) : Prop :=
  forall n tr, 0 <= n -> wp True p n tr (fun a n' tr' => 0 <= n' <= n /\ cnt a = n - n' /\ tr' = tr).

Lemma wp_counted {A} (p : P A) cnt n tr (Q : A -> Z -> list event -> Prop) :
  counted p cnt -> 0 <= n -> (forall a n', 0 <= n' <= n -> cnt a = n - n' -> Q a n' tr) -> wp True p n tr Q.
Proof.
  intros H Hn HQ. eapply wp_mono; [apply H, Hn|]. intros a n' tr' (H1 & H2 & ->). now apply HQ.
Qed.

Lemma counted_if {A} (b : bool) (p q : P A) cnt : counted p cnt -> counted q cnt -> counted (if b then p else q) cnt.
Proof. destruct b; auto. Qed.
Lemma counted_ret {A} (a : A) (cnt : A -> Z) : cnt a = 0 -> counted (Ret a) cnt.
Proof. intros H n tr Hn. cbn. repeat split; lia. Qed.
Lemma counted_lift {A} (x : option A) : counted (lift x) (fun _ => 0).
Proof. intros n tr Hn. apply wp_lift; [exact (fun _ => I)|]. intros. repeat split; lia. Qed.
Lemma counted_rdiscard n : 0 <= n -> counted (rdiscard n) (fun x => x).
Proof. intros H m tr Hm. apply wp_rdiscard; intros; repeat split; lia. Qed.
Lemma counted_rfull n : 0 <= n -> counted (rfull n) (fun x => zlen x).
Proof. intros H m tr Hm. apply wp_rfull; [lia|]. intros; repeat split; lia. Qed.

Lemma wp_of_outcome {A} (x : outcome A) n tr (Q : A -> Z -> list event -> Prop) :
  x <> NoFuel -> (forall a, x = Ok a -> Q a n tr) -> wp True (of_outcome x) n tr Q.
Proof. destruct x; cbn; auto. Qed.

Ltac wl := apply wp_lift; [exact (fun _ => I)|].
Ltac wstep :=
  match goal with
  | |- wp _ (bind _ _) _ _ _ => apply wp_bind
  | |- wp _ (lift _) _ _ _ => wl; intros
  | |- wp _ (byte_of _) _ _ _ => unfold byte_of; wl; intros
  | |- wp _ (rfull _) _ _ _ => apply wp_rfull; [lia|intros]
  | |- wp _ (make_ok _) _ _ _ => apply wp_make_ok; [intros; exact I|intros]
  | |- wp _ (if ?c then _ else _) _ _ _ => destruct c eqn:?
  | |- wp _ (Ret _) _ _ _ => cbn [wp]
  | |- wp _ (Fail _) _ _ _ => exact I
  | |- wp _ Crash _ _ _ => exact I
  | |- wp _ (rdiscard _) _ _ _ => apply wp_rdiscard; intros
  | |- wp _ (match ?x with (_, _) => _ end) _ _ _ => destruct x
  end.

Lemma counted_read_rect_signed b : counted (read_rect_signed b) (fun _ => 0).
Proof. intros n tr Hn. unfold read_rect_signed. repeat wstep. repeat split; cbn beta in *; lia. Qed.
Lemma counted_read_rect_unsigned b : counted (read_rect_unsigned b) (fun _ => 0).
Proof. intros n tr Hn. unfold read_rect_unsigned. repeat wstep. repeat split; cbn beta in *; lia. Qed.

Lemma counted_read_real_mask ln rm m n tr : 0 <= n ->
  wp True (read_real_mask ln rm m) n tr (fun a n' tr' => 0 <= n' <= n /\ snd a - (4 + rm) = n - n' /\ tr' = tr).
Proof.
  intros Hn. unfold read_real_mask. repeat (wstep; cbn [snd]); try (repeat split; cbn beta in *; lia).
  eapply wp_counted; [apply counted_read_rect_unsigned|lia|]. intros r n' ? ?. cbn [wp snd]. repeat split; cbn beta in *; lia.
Qed.

Lemma counted_read_mask_tail ln rm m n tr : 0 <= n ->
  wp True (read_mask_tail ln rm m) n tr (fun a n' tr' => 0 <= n' <= n /\ snd a - (4 + rm) = n - n' /\ tr' = tr).
Proof.
  intros Hn. unfold read_mask_tail. wstep; [wstep|].
  - wstep. apply andb_prop in Heqb0. wstep. wstep. cbn [snd]. repeat split; cbn beta in *; lia.
  - wstep. cbn [snd]. repeat split; cbn beta in *; lia.
  - now apply counted_read_real_mask.
Qed.

Definition mask_post (n rm : Z) (tr : list event) : (mask * Z) -> Z -> list event -> Prop :=
  fun a n' tr' => 0 <= n' <= n /\ snd a - (4 + rm) = n - n' /\ tr' = tr.

Lemma wp_read_density pr ln rm m set k n tr N RM : 0 <= n -> n + rm = N + RM -> n <= N ->
  (forall rm' m' n', 0 <= n' <= n -> n' + rm' = N + RM -> wp True (k rm' m') n' tr (mask_post N RM tr)) ->
  wp True (read_density pr ln rm m set k) n tr (mask_post N RM tr).
Proof.
  intros Hn E HN Hk. unfold read_density. wstep; [wstep|].
  - wstep. unfold mask_post. cbn [snd]. repeat split; cbn beta in *; lia.
  - wstep. wstep. wstep. wstep. apply Hk; lia.
  - apply Hk; lia.
Qed.
Lemma wp_read_feather pr ln rm m set k n tr N RM : 0 <= n -> n + rm = N + RM -> n <= N ->
  (forall rm' m' n', 0 <= n' <= n -> n' + rm' = N + RM -> wp True (k rm' m') n' tr (mask_post N RM tr)) ->
  wp True (read_feather pr ln rm m set k) n tr (mask_post N RM tr).
Proof.
  intros Hn E HN Hk. unfold read_feather. wstep; [wstep|].
  - wstep; [wstep; wstep; wstep|wstep]; unfold mask_post; cbn [snd]; repeat split; cbn beta in *; lia.
  - wstep. wstep. wstep. wstep. apply Hk; lia.
  - apply Hk; lia.
Qed.

Lemma counted_readLayerMask : counted readLayerMask snd.
Proof.
  intros n tr Hn. unfold readLayerMask. wstep. wstep. wstep. wstep. wstep; [wstep; cbn [snd]; repeat split; cbn beta in *; lia|].
  wstep; [wstep; wstep; wstep; cbn [snd]; repeat split; cbn beta in *; lia|].
  wstep. wstep. wstep. eapply wp_counted; [apply counted_read_rect_signed|lia|]. intros r n' ? ?.
  wstep; [wstep; cbn [snd]; repeat split; cbn beta in *; lia|].
  wstep. wstep. wstep. wstep. wstep; [wstep; cbn [snd]; repeat split; cbn beta in *; lia|].
  wstep. wstep. wstep. wstep.
  assert (Fin : forall rm m N, 0 <= N <= n' - 1 - 1 -> N + rm = n' - 1 - 1 + 18 ->
    wp True (read_mask_tail a rm m) N tr (mask_post (n' - 1 - 1) 18 tr)).
  { intros rm m N HN EN. eapply wp_mono; [apply counted_read_mask_tail; lia|]. unfold mask_post.
    intros x n2 tr2 (G1 & G2 & ->). repeat split; cbn beta in *; lia. }
  wstep.
  - wstep; [wstep; cbn [snd]; repeat split; cbn beta in *; lia|]. wstep. wstep. wstep. wstep.
    eapply wp_mono.
    + apply wp_read_density with (N := n' - 1 - 1) (RM := 18); [lia|lia|lia|]. intros.
      apply wp_read_feather; [lia|lia|lia|]. intros.
      apply wp_read_density; [lia|lia|lia|]. intros.
      apply wp_read_feather; [lia|lia|lia|]. intros.
      apply Fin; lia.
    + unfold mask_post. intros x n2 tr2 (G1 & G2 & ->). repeat split; cbn beta in *; lia.
  - eapply wp_mono; [apply Fin; lia|]. unfold mask_post. intros x n2 tr2 (G1 & G2 & ->). repeat split; cbn beta in *; lia.
Qed.

Lemma counted_decodePackBits procs dest width lines large : counted (decodePackBits procs dest width lines large) snd.
Proof.
  intros n tr Hn. unfold decodePackBits.
  repeat wstep; apply wp_of_outcome; [now apply decodePackBits_data_fuel|]. intros out _. wstep. cbn [snd]. repeat split; cbn beta in *; lia.
Qed.

Lemma counted_decodeZLIB d l : counted (decodeZLIB d l) snd.
Proof. intros n tr Hn. unfold decodeZLIB. cbn [wp]. intros b c H1 H2 H3. cbn [snd]. repeat split; cbn beta in *; lia. Qed.

Lemma counted_decompress procs cm n sh r depth chs large : 0 <= n -> (0 < rdx r \/ n = 0) ->
  counted (decompress procs cm n sh r depth chs large) snd.
Proof.
  intros H0 Hr m tr Hm. unfold decompress. wstep; [wstep; wstep; wstep; cbn [snd]; repeat split; cbn beta in *; lia|].
  wstep; [now apply counted_decodePackBits|]. wstep; [now apply counted_decodeZLIB|].
  wstep; [|exact I]. apply wp_bind. unfold decodeZLIB. cbn [wp]. intros b c H1 H2 H3.
  apply wp_bind. apply wp_of_outcome.
  - apply decodeDelta_fuel. destruct Hr as [|Hr]; [now left|]. right. apply zlen_0_nil. lia.
  - intros d _. wstep. cbn [snd]. repeat split; cbn beta in *; lia.
Qed.

Lemma wp_scan_sig fuel : forall infoLen rd n tr (Q : bool * Z -> Z -> list event -> Prop),
  0 <= n < Z.of_nat fuel ->
  (forall f rd' n', 0 <= n' <= n -> rd' - rd = n - n' -> (f = true -> n' < n) -> Q (f, rd') n' tr) ->
  wp True (scan_sig fuel infoLen rd) n tr Q.
Proof.
  induction fuel as [|fuel IH]; intros infoLen rd n tr Q Hn HQ; [lia|]. cbn [scan_sig].
  wstep; [|wstep; apply HQ; lia]. wstep. wstep. wstep. wstep. wstep; [wstep; apply HQ; lia|].
  apply IH; [lia|]. intros f rd' n' ? ? ?. apply HQ; lia.
Qed.

Lemma counted_read_info_data large key : counted (read_info_data large key) snd.
Proof.
  intros n tr Hn. unfold read_info_data.
  assert (0 <= lenSize key large) by (unfold lenSize; destruct (_ && _); lia).
  repeat (wstep; cbn [snd]); repeat split; cbn beta in *; lia.
Qed.

Lemma get4or8_cases large : get4or8 large = 4 \/ get4or8 large = 8.
Proof. destruct large; cbn; lia. Qed.

Section layers.
  Variable procs : nat.
  Variable cfg : config.
  Variable o : options.
  Notation skip := (o_skip_layer o).

  Lemma intSize_cases : intSize cfg = 4 \/ intSize cfg = 8.
  Proof. apply get4or8_cases. Qed.

  Lemma wp_read_chdata k : forall n tr (Q : list chdata -> Z -> list event -> Prop),
    0 <= n ->
    (forall cds n', 0 <= n' <= n -> n - n' = Z.of_nat k * (2 + intSize cfg) -> length cds = k -> Q cds n' tr) ->
    wp True (read_chdata cfg k) n tr Q.
  Proof.
    pose proof intSize_cases.
    induction k as [|k IH]; intros n tr Q Hn HQ; cbn [read_chdata]; [wstep; apply HQ; [lia|lia|easy]|].
    wstep. wstep. wstep. wstep. wstep. wstep. wstep. apply IH; [lia|]. intros cds n' ? ? ?. wstep.
    apply HQ; [lia|lia|cbn; lia].
  Qed.

    Definition rec_wf (l : lrec) : Prop :=
    rect_wf (l_rect l) /\ mask_wf (l_mask l).

  Lemma size_zero r depth : i64 (Z.shiftr (rdx r * depth + 7) 3 * rdy r) = i64 (Z.shiftr (rdx r * depth + 7) 3 * rdy r) ->
    rect_wf r -> 0 < rdx r \/ i64 (Z.shiftr (rdx r * depth + 7) 3 * rdy r) = 0.
  Proof.
    intros _ [H _]. destruct (Z.eq_dec (rdx r) 0) as [->|]; [|lia]. right. reflexivity.
  Qed.

  Lemma counted_read_channel l st chm chs j : rec_wf l ->
    counted (read_channel procs cfg l st chm chs j) snd.
  Proof.
    intros (Hr1 & [Hr2 Hr3]) n tr Hn. unfold read_channel.
    set (r := if cd_index j =? -3 then mk_rrect (l_mask l) else if cd_index j =? -2 then mk_rect (l_mask l) else l_rect l).
    assert (Hr : rect_wf r) by (unfold r; destruct (cd_index j =? -3); [easy|destruct (cd_index j =? -2); easy]).
    set (size := i64 (Z.shiftr (rdx r * cfg_depth cfg + 7) 3 * rdy r)).
    assert (Hs : 0 < rdx r \/ size = 0) by (apply size_zero; auto).
    clearbody r size.
    apply wp_bind. eapply wp_counted with (cnt := fun _ => if 2 <=? cd_len j then 2 else 0); [|exact Hn|].
    { destruct (2 <=? cd_len j); [|now apply counted_ret]. intros m t Hm. apply wp_rfull; [lia|]. intros. repeat split; cbn beta in *; lia. }
    intros st0 n0 Hn0 E0. rewrite E0. cbn zeta.
    do 6 wstep. apply wp_bind. eapply wp_counted with (cnt := snd); [|lia|].
    { apply counted_if; [now apply counted_decompress|now apply counted_ret]. }
    intros [data n1] n1' Hn1 E1. cbn [snd] in E1.
    apply wp_bind. eapply wp_counted with (cnt := fun x => x); [|lia|].
    { destruct (n - n0 + n1 <? cd_len j) eqn:E; [apply counted_rdiscard; lia|now apply counted_ret]. }
    intros n2 n2' Hn2 E2. wstep; [wstep|]. wstep. wstep. wstep.
    eapply wp_counted with (cnt := fun _ => 0); [|lia|].
    { apply counted_if; [apply counted_lift|apply counted_if; now apply counted_ret]. }
    intros chs0 n3 Hn3 E3. wstep. cbn [snd]. repeat split; cbn beta in *; lia.
  Qed.

  Lemma counted_read_channels l js : rec_wf l -> forall st chm chs rd n tr, 0 <= n ->
    wp True (read_channels procs cfg l st chm chs rd js) n tr
      (fun a n' tr' => 0 <= n' <= n /\ snd a - rd = n - n' /\ tr' = tr).
  Proof.
    intros Hl. induction js as [|j js IH]; intros st chm chs rd n tr Hn; cbn [read_channels].
    - wstep. cbn [snd]. repeat split; cbn beta in *; lia.
    - apply wp_bind. eapply wp_counted; [now apply counted_read_channel|lia|].
      intros [[[st' chm'] chs'] c] n' Hn' E. cbn [snd] in E. eapply wp_mono; [apply IH; lia|].
      intros a n2 tr2 (H1 & H2 & ->). repeat split; cbn beta in *; lia.
  Qed.

  Definition same_record (l l' : lrec) : Prop := exists chm pk, l' = with_image l chm (Some pk).

  Lemma wp_readLayerImage total ls : Forall (fun x => rec_wf (fst x)) ls -> forall i st rd n tr, 0 <= n ->
    wp True (readLayerImage procs cfg total i st rd ls) n tr
      (fun a n' tr' => 0 <= n' <= n /\ snd a - rd = n - n' /\ tr' = tr ++ events_from total i (fst a) /\
         Forall2 same_record (map fst ls) (fst a)).
  Proof.
    induction 1 as [|[l js] ls Hl _ IH]; intros i st rd n tr Hn; cbn [readLayerImage].
    - wstep. cbn [fst snd events_from map]. rewrite app_nil_r. repeat split; try lia. constructor.
    - wstep. wstep. apply wp_bind. eapply wp_mono; [now apply counted_read_channels|].
      intros [[[st' chm'] chs'] c] n1 tr1 (H1 & H2 & ->). cbn [snd] in H2.
      wstep. wstep. wstep. wstep. wstep. unfold emit. cbn [wp]. wstep.
      eapply wp_mono; [apply IH; lia|]. intros [ls' rd'] n2 tr2 (HA & HB & -> & HC). wstep.
      cbn [fst snd events_from map] in *. rewrite <- app_assoc. repeat split; try lia.
      constructor; [|easy]. now exists chm', a0.
  Qed.

  Section rec.
    Variable fuel : nat.
    Variable radd : Z -> P (infomap * list lrec * Z).
    (** What is known of the nested reader of additional information. *)
    Definition radd_post (n rd : Z) (ls0 : list lrec) (tr : list event)
      : (infomap * list lrec * Z) -> Z -> list event -> Prop :=
      fun '(info, ls, c) n' tr' =>
        0 <= n' <= n /\ c - rd = n - n' /\
        exists secs, Forall (section_ok skip) secs /\ ls = ls0 ++ concat secs /\
          tr' = tr ++ flat_map (section_events skip) secs.
    Hypothesis radd_wp : forall ln n tr, 0 <= n < Z.of_nat fuel -> wp True (radd ln) n tr (radd_post n 0 [] tr).

    Lemma no_layers_no_events (secs : list (list lrec)) : concat secs = [] -> flat_map (section_events skip) secs = [].
    Proof.
      induction secs as [|sec secs IH]; [reflexivity|]. cbn. intros H. apply app_eq_nil in H as [-> H].
      rewrite IH by easy. unfold section_events. destruct skip; reflexivity.
    Qed.

    Lemma counted_readLayerExtraData n tr : 0 <= n < Z.of_nat fuel ->
      wp True (readLayerExtraData radd) n tr (fun a n' tr' => 0 <= n' <= n /\ snd a = n - n' /\ tr' = tr).
    Proof using radd_wp.
      intros Hn. unfold readLayerExtraData. do 4 wstep. rename a into ln.
      wstep; [wstep; cbn [snd]; repeat split; cbn beta in *; lia|].
      apply wp_bind. eapply wp_counted; [apply counted_readLayerMask|lia|].
      intros [m l] n1 Hn1 E1. cbn [snd] in E1.
      do 4 wstep. apply wp_bind. eapply wp_counted with (cnt := fun x => x); [|lia|].
      { destruct (0 <? a) eqn:E; [apply counted_rdiscard; lia|now apply counted_ret]. }
      intros l2 n2 Hn2 E2.
      apply wp_bind, wp_readPascalString. intros nm _ _ Hnm. pose proof (zlen_nonneg nm).
      apply wp_bind, wp_adjustAlign4. intros pad Hp1 Hp2.
      apply wp_bind.
      set (N := n2 - (zlen nm + 1) - pad) in *.
      set (RD := 4 + l + 4 + l2 + (zlen nm + 1) + pad) in *.
      eapply wp_mono with (Q := fun a n' tr' => 0 <= n' <= N /\ snd a - RD = N - n' /\ tr' = tr).
      - wstep.
        + apply wp_bind. eapply wp_mono; [apply radd_wp; lia|].
          intros [[info ls] c] n3 tr3 (HA & HB & secs & _ & -> & ->). cbn [app].
          wstep; [exact I|]. wstep. cbn [snd].
          rewrite no_layers_no_events, app_nil_r by (apply zlen_0_nil; pose proof (zlen_nonneg (concat secs)); lia).
          repeat split; cbn beta in *; lia.
        + wstep. cbn [snd]. repeat split; cbn beta in *; lia.
      - intros [info rd] n3 tr3 (HA & HB & ->). cbn [snd] in HB. wstep; [exact I|]. wstep. cbn [snd]. repeat split; cbn beta in *; lia.
    Qed.

    Lemma rets_readLayerExtraData : rets (fun a => mask_wf (fst (fst (fst a)))) (readLayerExtraData radd).
    Proof.
      unfold readLayerExtraData. rstep. rstep. rstep; [split; apply rect_wf_ZR|].
      eapply rets_bind; [apply rets_readLayerMask|]. intros [m l] Hm.
      do 6 rstep. rstep. rstep. rstep. rstep. exact Hm.
    Qed.

    Definition fresh (i : Z) (l : lrec) : Prop :=
      l_seq l = i /\ l_picker l = None /\ l_channels l = [] /\ rec_wf l.

    Lemma rets_read_record i : rets (fun a => fresh i (fst (fst a))) (read_record cfg radd i).
    Proof.
      unfold read_record. rstep. eapply rets_bind; [apply rets_rect_signed|]. intros r Hr.
      do 5 rstep; [exact I|]. do 3 rstep. eapply rets_bind; [apply rets_readLayerExtraData|].
      intros [[[m mbcs] info] l] Hm. cbn [fst] in Hm.
      apply rets_bind'. intros [[un nm] inf].
      destruct (match m_get list_eqb inf key_clbl with Some (c :: t) => _ | _ => _ end) as [bce inf'].
      apply rets_bind'. intros [[typ sdb] sub]. cbn. split; [reflexivity|]. split; [reflexivity|]. split; [reflexivity|].
      split; [exact Hr|exact Hm].
    Qed.

    Lemma counted_read_record i n tr : 0 <= n < Z.of_nat fuel ->
      wp True (read_record cfg radd i) n tr (fun a n' tr' =>
        (0 <= n' <= n /\ snd a = n - n' /\ tr' = tr) /\ fresh i (fst (fst a))).
    Proof using radd_wp.
      intros Hn. apply wp_rets; [apply rets_read_record|]. unfold read_record.
      wstep. wstep. wstep. eapply wp_counted; [apply counted_read_rect_signed|lia|]. intros r n1 Hn1 E1. cbn beta in E1.
      do 4 wstep. rename a into nch. match goal with Hx : readUint16 _ _ = Some nch |- _ => apply readUint16_range in Hx; [|easy] end.
      wstep. apply wp_read_chdata; [lia|]. intros cds n2 Hn2 E2 _. rewrite Z2Nat.id in E2 by lia. do 2 wstep. wstep; [exact I|]. do 6 wstep.
      wstep. eapply wp_mono; [apply counted_readLayerExtraData; lia|].
      intros [[[m mbcs] info] l] n3 tr3 (Hn3 & E3 & ->). cbn [snd] in E3.
      wstep. eapply wp_mono with (Q := fun _ n' tr' => n' = n3 /\ tr' = tr).
      { destruct (m_get list_eqb info key_luni) as [[|c t]|]; [wstep; auto| |wstep; auto].
        wstep. wstep. wstep. auto. }
      intros [[un nm] inf] n4 tr4 [-> ->].
      destruct (match m_get list_eqb inf key_clbl with Some (c :: t) => _ | _ => _ end) as [bce inf'].
      wstep. apply wp_of_outcome.
      { unfold readSectionDividerSetting, divider_data.
        assert (D : forall b, obind (chk (readUint32 b 0)) (fun typ =>
            if zlen b <? 12 then Ok (typ, [], 0)
            else if negb (list_eqb (firstn 4 (skipn 4 b)) sig_8BIM) then Err EDividerSignature
            else let bm := firstn 4 (skipn 8 b) in
              if zlen b <? 16 then Ok (typ, bm, 0)
              else obind (chk (readUint32 b 12)) (fun sub => Ok (typ, bm, sub))) <> NoFuel).
        { clear. intros b. destruct (readUint32 b 0); cbn [chk obind]; [|easy]. destruct (zlen b <? 12); [easy|].
          destruct (negb _); [easy|]. cbn zeta. destruct (zlen b <? 16); [easy|]. destruct (readUint32 b 12); easy. }
        destruct (m_get list_eqb inf' key_lsct); [apply D|]. destruct (m_get list_eqb inf' key_lsdk); [apply D|easy]. }
      intros [[typ sdb] sub] _. wstep. cbn [snd]. repeat split; lia.
    Qed.

    Lemma wp_read_records k : forall i n tr, 0 <= n < Z.of_nat fuel ->
      wp True (read_records cfg radd i k) n tr (fun a n' tr' =>
        0 <= n' <= n /\ snd a = n - n' /\ tr' = tr /\
        length (fst a) = k /\ map (fun x => l_seq (fst x)) (fst a) = map (Z.add i) (zseq k) /\
        Forall (fun x => l_picker (fst x) = None /\ l_channels (fst x) = [] /\ rec_wf (fst x)) (fst a)).
    Proof using radd_wp.
      induction k as [|k IH]; intros i n tr Hn; cbn [read_records].
      - wstep. cbn. repeat split; try lia. constructor.
      - wstep. eapply wp_mono; [now apply counted_read_record|].
        intros [[l cds] c] n1 tr1 ((Hn1 & E1 & ->) & F1 & F2 & F3 & F4). cbn [fst snd] in *.
        wstep. eapply wp_mono; [apply IH; lia|].
        intros [rest c'] n2 tr2 (Hn2 & E2 & -> & L & M & F). cbn [fst snd] in *.
        wstep. cbn [fst snd length map]. split; [lia|]. split; [lia|]. split; [reflexivity|]. split; [lia|].
        split; [|constructor; auto]. rewrite M, F1. unfold zseq. cbn [seq map]. f_equal; [lia|].
        rewrite <- seq_shift, !map_map. apply map_ext. intros x. lia.
    Qed.

    Lemma counted_readLayerInfo n tr : 0 <= n < Z.of_nat fuel ->
      wp True (readLayerInfo procs cfg o radd) n tr (fun a n' tr' =>
        0 <= n' <= n /\ snd a = n - n' /\ n' < n /\
        match fst a with
        | None => tr' = tr
        | Some sec => section_ok skip sec /\ tr' = tr ++ section_events skip sec
        end).
    Proof using radd_wp.
      pose proof intSize_cases. intros Hn. unfold readLayerInfo. do 4 wstep.
      wstep; [wstep; cbn [fst snd]; repeat split; lia|].
      do 4 wstep. wstep. eapply wp_mono; [apply wp_read_records; lia|].
      intros [recs c] n1 tr1 (Hn1 & E1 & -> & L & M & F). cbn [fst snd] in *.
      assert (Hseq : map l_seq (map fst recs) = zseq (length recs)).
      { rewrite map_map, M, L. rewrite <- (map_id (zseq _)) at 2. apply map_ext. intros; lia. }
      wstep. set (RD := intSize cfg + 2 + c) in *.
      eapply wp_mono with (Q := fun x n' tr' => 0 <= n' <= n1 /\ snd x - RD = n1 - n' /\
        section_ok skip (fst x) /\ tr' = tr ++ section_events skip (fst x)).
      - destruct skip eqn:Es.
        + wstep. cbn [fst snd]. unfold section_events. rewrite app_nil_r. repeat split; try lia.
          * rewrite map_length. exact Hseq.
          * apply Forall_map. eapply Forall_impl; [|exact F]. intros x (F1 & F2 & _). now split.
        + wstep. eapply wp_mono; [apply wp_readLayerImage; [|lia]|].
          { eapply Forall_impl; [|exact F]. tauto. }
          intros [ls c2] n2 tr2 (HA & HB & -> & HC). cbn [fst snd] in *. wstep. cbn [fst snd].
          assert (Ll : length ls = length recs) by (rewrite <- (map_length fst recs); clear - HC; induction HC; cbn; lia).
          unfold section_events. replace (zlen recs) with (zlen ls) by (unfold zlen; lia).
          split; [lia|]. split; [lia|]. split; [|reflexivity].
          assert (Hs' : map l_seq ls = map l_seq (map fst recs)).
          { clear - HC. induction HC as [|x y l l' [chm [pk ->]] _ IH]; [reflexivity|]. cbn. now rewrite IH. }
          split; [rewrite Hs', Hseq, Ll; reflexivity|].
          clear - HC. induction HC as [|x y l l' [chm [pk ->]] _ IH]; constructor; [|easy]. unfold image_state. eexists; reflexivity.
      - intros [ls rd] n2 tr2 (HA & HB & HC & ->). cbn [fst snd] in *.
        wstep; [wstep; wstep|]; wstep; cbn [fst snd]; repeat split; try apply HC; try lia.
    Qed.
  End rec.

  Lemma wp_readAdditional fuel : forall infoLen rd infos layers n tr, 0 <= n < Z.of_nat fuel ->
    wp True (readAdditional procs cfg o fuel infoLen rd infos layers) n tr (radd_post n rd layers tr).
  Proof.
    induction fuel as [|fuel IH]; intros infoLen rd infos layers n tr Hn; [lia|].
    cbn [readAdditional].
    assert (Fin : forall rd' n', 0 <= n' <= n -> rd' - rd = n - n' ->
      wp True (if negb (infoLen =? rd') then Fail ESizeMismatch else Ret (infos, layers, rd')) n' tr (radd_post n rd layers tr)).
    { intros rd' n' H1 H2. wstep; [exact I|]. wstep. unfold radd_post. repeat split; try lia.
      exists []. cbn. rewrite !app_nil_r. auto. }
    wstep; [|apply Fin; lia].
    wstep. apply wp_scan_sig; [lia|]. intros f rd1 n1 Hn1 E1 F1.
    wstep; [apply Fin; lia|]. specialize (F1 ltac:(now destruct f)).
    do 2 wstep. wstep; [exact I|]. wstep.
    - wstep. eapply wp_mono; [apply counted_readLayerInfo with (fuel := fuel); [|lia]|].
      { intros ln n2 tr2 Hn2. apply IH. exact Hn2. }
      intros [ls l] n2 tr2 (Hn2 & E2 & _ & T2). cbn [fst snd] in *.
      eapply wp_mono; [apply IH; lia|].
      intros [[info' ls'] c] n3 tr3 (Hn3 & E3 & secs & S1 & -> & ->).
      unfold radd_post. repeat split; try lia.
      destruct ls as [sec|].
      + destruct T2 as [T2 ->]. exists (sec :: secs). cbn [concat flat_map]. rewrite <- !app_assoc. auto.
      + subst tr2. exists secs. rewrite app_nil_r. auto.
    - wstep. eapply wp_counted; [apply counted_read_info_data|lia|]. intros [data l] n2 Hn2 E2. cbn [snd] in E2.
      eapply wp_mono; [apply IH; lia|].
      intros [[info' ls'] c] n3 tr3 (Hn3 & E3 & secs & S1 & -> & ->).
      unfold radd_post. repeat split; try lia. exists secs. auto.
  Qed.

  (** The layer and mask section: count, layers and callbacks. *)
  Definition sections_tree (secs : list (list lrec)) (tree : list layer) : Prop :=
    buildTree (concat secs) = Ok tree.

  Lemma wp_readLayerAndMaskInfo fuel n tr : 0 <= n < Z.of_nat fuel ->
    wp True (readLayerAndMaskInfo procs cfg o fuel) n tr (fun a n' tr' =>
      0 <= n' <= n /\ snd a = n - n' /\
      exists secs, Forall (section_ok skip) secs /\ buildTree (concat secs) = Ok (fst (fst a)) /\
        tr' = tr ++ flat_map (section_events skip) secs).
  Proof.
    pose proof intSize_cases. intros Hn. unfold readLayerAndMaskInfo. do 4 wstep.
    wstep; [wstep; cbn [fst snd]; repeat split; try lia; exists []; cbn; rewrite app_nil_r; auto|].
    set (all := i64 (i64 a + intSize cfg)).
    wstep. eapply wp_mono with (Q := fun x n' tr' => 0 <= n' <= n /\ snd x = n - n' /\
       match fst x with None => tr' = tr | Some sec => section_ok skip sec /\ tr' = tr ++ section_events skip sec end).
    { wstep.
      - wstep. eapply wp_mono; [apply counted_readLayerInfo with (fuel := fuel); [|lia]|].
        + intros ln n2 tr2 Hn2. now apply wp_readAdditional.
        + intros [ls l] n2 tr2 (Hn2 & E2 & _ & T2). wstep. cbn [fst snd] in *. repeat split; try lia. exact T2.
      - wstep. cbn [fst snd]. repeat split; lia. }
    intros [ls rd] n1 tr1 (Hn1 & E1 & T1). cbn [fst snd] in *.
    wstep. eapply wp_mono with (Q := fun x n' tr' => 0 <= n' <= n /\ x = n - n' /\ tr' = tr1).
    { wstep; [|wstep; repeat split; lia]. do 4 wstep. wstep; [wstep; wstep; wstep|wstep]; repeat split; lia. }
    intros rd2 n2 tr2 (Hn2 & E2 & ->).
    wstep. eapply wp_mono with (Q := fun x n' tr' => 0 <= n' <= n /\ snd x = n - n' /\
       exists secs, Forall (section_ok skip) secs /\
         concat secs = match snd (fst x) with Some ls => ls | None => [] end /\
         tr' = tr ++ flat_map (section_events skip) secs).
    { wstep.
      - wstep. eapply wp_mono; [apply wp_readAdditional; lia|].
        intros [[info ls2] c] n3 tr3 (Hn3 & E3 & secs & S1 & S2 & ->). cbn [app] in S2. subst ls2.
        destruct ls as [sec|].
        + destruct T1 as [T1 ->]. destruct (concat secs) as [|x t] eqn:Ec; [|exact I]. wstep. cbn [fst snd].
          repeat split; try lia. exists [sec]. cbn. rewrite !app_nil_r. repeat split; auto.
          rewrite no_layers_no_events by easy. now rewrite app_nil_r.
        + subst tr1. destruct (concat secs) as [|x t] eqn:Ec.
          * wstep. cbn [fst snd]. repeat split; try lia. exists secs. auto.
          * wstep. cbn [fst snd]. repeat split; try lia. exists secs. auto.
      - wstep. cbn [fst snd]. repeat split; try lia. destruct ls as [sec|].
        + destruct T1 as [T1 ->]. exists [sec]. cbn. rewrite !app_nil_r. auto.
        + subst tr1. exists []. cbn. rewrite app_nil_r. auto. }
    intros [[info ls'] rd3] n3 tr3 (Hn3 & E3 & secs & S1 & S2 & ->). cbn [fst snd] in *.
    wstep. apply wp_of_outcome.
    { clear. generalize (match ls' with Some ls => ls | None => [] end). intros l. unfold buildTree.
      generalize 0 (@nil (list layer)) (@nil layer). induction l as [|x l IH]; intros i st m; cbn [build]; [easy|].
      destruct (_ || _); [destruct st; [easy|apply IH]|]. destruct (_ =? 3); apply IH. }
    intros tree Ht. rewrite <- S2 in Ht.
    wstep. eapply wp_mono with (Q := fun x n' tr' => 0 <= n' <= n /\ x = n - n' /\ tr' = tr ++ flat_map (section_events skip) secs).
    { wstep; [|wstep; repeat split; lia]. wstep. wstep; wstep; repeat split; lia. }
    intros rd4 n4 tr4 (Hn4 & E4 & ->). wstep; [exact I|]. wstep. cbn [fst snd]. repeat split; try lia. exists secs. auto.
  Qed.
End layers.
