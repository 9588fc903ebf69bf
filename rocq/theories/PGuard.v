(** The checks of SGuard: logic. *)
From Verif Require Import Base BaseFacts MUtil MRect MReader MPicker MConfig MCompress MLayer SGuard PUtil PReader PConfig.

Definition real_error (e : error) : Prop := match e with EGuard _ => False | _ => True end.

(** [q] does what [p] does, but where [p] panics, [q] fails with a check. *)
Fixpoint hard {Ev A} (Q : A -> Prop) (p q : prog Ev A) {struct p} : Prop :=
  match p with
  | Ret a => q = Ret a /\ Q a
  | Fail e => q = Fail e /\ real_error e
  | Crash => exists c, q = Fail (EGuard c)
  | Starve => q = Starve
  | RFull n k => exists k', q = RFull n k' /\ forall b, bytes_ok b -> zlen b = Z.max 0 n -> hard Q (k b) (k' b)
  | RSome n k => exists k', q = RSome n k' /\ forall b, bytes_ok b -> hard Q (k b) (k' b)
  | RDiscard n k => exists k', q = RDiscard n k' /\ forall l, hard Q (k l) (k' l)
  | RZlib w l k => exists k', q = RZlib w l k' /\ forall b c, zlen b = w -> hard Q (k b c) (k' b c)
  | Emit ev k => exists k', q = Emit ev k' /\ hard Q k k'
  end.

Lemma hard_mono {Ev A} (Q Q' : A -> Prop) (p : prog Ev A) : forall q, hard Q p q -> (forall a, Q a -> Q' a) -> hard Q' p q.
Proof.
  induction p; intros q Hpq HQ; cbn [hard] in *; auto.
  - destruct Hpq; auto.
  - destruct Hpq as (k' & -> & H'). exists k'. split; [reflexivity|]. intros. eauto.
  - destruct Hpq as (k' & -> & H'). exists k'. split; [reflexivity|]. intros. eauto.
  - destruct Hpq as (k' & -> & H'). exists k'. split; [reflexivity|]. intros. eauto.
  - destruct Hpq as (k' & -> & H'). exists k'. split; [reflexivity|]. intros. eauto.
  - destruct Hpq as (k' & -> & H'). exists k'. split; [reflexivity|]. eauto.
Qed.
Lemma hard_bind {Ev A B} (R : A -> Prop) (Q : B -> Prop) (p : prog Ev A) f g : forall q, hard R p q -> (forall a, R a -> hard Q (f a) (g a)) -> hard Q (bind p f) (bind q g).
Proof.
  induction p; intros q Hpq HQ; cbn [hard bind] in *.
  - destruct Hpq as [-> Hr]. cbn [bind]. auto.
  - destruct Hpq as [-> Hr]. cbn [bind]. auto.
  - destruct Hpq as [c ->]. cbn [bind]. eauto.
  - subst. reflexivity.
  - destruct Hpq as (k' & -> & H'). cbn [bind]. exists (fun b => bind (k' b) g). split; [reflexivity|]. intros. apply H; auto.
  - destruct Hpq as (k' & -> & H'). cbn [bind]. exists (fun b => bind (k' b) g). split; [reflexivity|]. intros. apply H; auto.
  - destruct Hpq as (k' & -> & H'). cbn [bind]. exists (fun b => bind (k' b) g). split; [reflexivity|]. intros. apply H; auto.
  - destruct Hpq as (k' & -> & H'). cbn [bind]. exists (fun b c => bind (k' b c) g). split; [reflexivity|]. intros. apply H; auto.
  - destruct Hpq as (k' & -> & H'). cbn [bind]. eexists. split; [reflexivity|]. eauto.
Qed.
Lemma hard_ret {Ev A} (Q : A -> Prop) a : Q a -> hard Q (Ret a : prog Ev A) (Ret a).
Proof. cbn. auto. Qed.
Lemma hard_fail {Ev A} (Q : A -> Prop) e : real_error e -> hard Q (Fail e : prog Ev A) (Fail e).
Proof. cbn. auto. Qed.
Lemma hard_rfull {Ev} n : 0 <= n -> hard (fun b => bytes_ok b /\ zlen b = n) (rfull n : prog Ev bytes) (rfull n).
Proof. intros H. cbn. eexists. split; [reflexivity|]. intros. cbn. repeat split; auto. lia. Qed.
Lemma hard_rsome {Ev} n : hard bytes_ok (rsome n : prog Ev bytes) (rsome n).
Proof. cbn. eexists. split; [reflexivity|]. intros. cbn. auto. Qed.
Lemma hard_rdiscard {Ev} n : hard (fun _ => True) (rdiscard n : prog Ev Z) (rdiscard n).
Proof. cbn. eexists. split; [reflexivity|]. intros. cbn. auto. Qed.
Lemma hard_lift {Ev A} (x : option A) : x <> None -> hard (fun a => x = Some a) (lift x : prog Ev A) (lift x).
Proof. destruct x; cbn; [auto|contradiction]. Qed.
Lemma hard_make {Ev} n : 0 <= n <= max_alloc -> hard (fun _ => True) (make_ok n : prog Ev unit) (make_ok n).
Proof. intros H. unfold make_ok. replace ((n <? 0) || (max_alloc <? n)) with false by lia. cbn. auto. Qed.
Lemma hard_if {Ev A} (c : bool) (Q : A -> Prop) (p p' q q' : prog Ev A) : (c = true -> hard Q p q) -> (c = false -> hard Q p' q') -> hard Q (if c then p else p') (if c then q else q').
Proof. destruct c; auto. Qed.
Lemma hard_outcome {Ev A} (x : outcome A) : x <> Panic -> (forall e, x = Err e -> real_error e) -> hard (fun a => x = Ok a) (of_outcome x : prog Ev A) (of_outcome x).
Proof. destruct x; cbn; auto. contradiction. Qed.

(** A check before an operation *)
Lemma hard_guard {Ev A} (ok : bool) c (Q : A -> Prop) (p q : prog Ev A) : (ok = true -> hard Q p q) -> (ok = false -> p = Crash) -> hard Q p (_ <- guard ok c ;; q).
Proof. destruct ok; cbn; intros H1 H2; [auto|]. rewrite H2 by reflexivity. cbn. eauto. Qed.
Lemma guard_make {Ev A} (ok : bool) c n (Q : A -> Prop) (f g : unit -> prog Ev A) : (ok = true -> 0 <= n <= max_alloc /\ hard Q (f tt) (g tt)) -> (ok = false -> n < 0 \/ max_alloc < n) ->
  hard Q (x <- make_ok n ;; f x) (_ <- guard ok c ;; x <- make_ok n ;; g x).
Proof.
  intros H1 H2. apply hard_guard.
  - intros E. destruct (H1 E) as [H H']. eapply hard_bind; [now apply hard_make|]. intros []; auto.
  - intros E. specialize (H2 E). unfold make_ok. replace ((n <? 0) || (max_alloc <? n)) with true by lia. reflexivity.
Qed.
Lemma guard_lift {Ev A B} (ok : bool) c (x : option A) (Q : B -> Prop) (f g : A -> prog Ev B) : (ok = true -> x <> None /\ forall a, x = Some a -> hard Q (f a) (g a)) -> (ok = false -> x = None) ->
  hard Q (a <- lift x ;; f a) (_ <- guard ok c ;; a <- lift x ;; g a).
Proof.
  intros H1 H2. apply hard_guard.
  - intros E. destruct (H1 E) as [H H']. eapply hard_bind; [now apply hard_lift|]. auto.
  - intros E. rewrite (H2 E). reflexivity.
Qed.
Lemma guard_outcome {Ev A B} (ok : bool) c (x : outcome A) (Q : B -> Prop) (f g : A -> prog Ev B) :
  (ok = true -> x <> Panic /\ (forall e, x = Err e -> real_error e) /\ forall a, x = Ok a -> hard Q (f a) (g a)) -> (ok = false -> x = Panic) ->
  hard Q (a <- of_outcome x ;; f a) (_ <- guard ok c ;; a <- of_outcome x ;; g a).
Proof.
  intros H1 H2. apply hard_guard.
  - intros E. destruct (H1 E) as (H & H' & H3). eapply hard_bind; [now apply hard_outcome|]. auto.
  - intros E. rewrite (H2 E). reflexivity.
Qed.

(** * Interpreters *)
Definition verdict {A Ev} (x y : outcome A * list Ev) : Prop :=
  fst x = Panic /\ (exists c, y = (Err (EGuard c), snd x)) \/
  fst x <> Panic /\ (forall c, fst x <> Err (EGuard c)) /\ y = x.

Lemma verdict_real {A Ev} e (evs : list Ev) : real_error e -> verdict (Err e : outcome A, evs) (Err e, evs).
Proof. intros H. right. split; [discriminate|]. split; [|reflexivity]. intros c E. injection E as ->. exact H. Qed.
Lemma verdict_emit {A Ev} (x y : outcome A * list Ev) ev : verdict x y -> verdict (let (r, l) := x in (r, ev :: l)) (let (r, l) := y in (r, ev :: l)).
Proof.
  destruct x as [r l]. cbn [fst snd]. intros [[H (c & ->)]|(H & H' & ->)]; [left|right]; cbn [fst snd] in *; eauto.
Qed.

Lemma bytes_ok_skipn n s : bytes_ok s -> bytes_ok (skipn n s).
Proof. intros H. rewrite <- (firstn_skipn n s) in H. now apply Forall_app in H. Qed.
Lemma bytes_ok_firstn n s : bytes_ok s -> bytes_ok (firstn n s).
Proof. intros H. rewrite <- (firstn_skipn n s) in H. now apply Forall_app in H. Qed.
Lemma bytes_ok_ztake n s : bytes_ok s -> bytes_ok (ztake n s).
Proof. intros H. rewrite <- (ztake_zdrop n s) in H. now apply Forall_app in H. Qed.
Lemma bytes_ok_zdrop n s : bytes_ok s -> bytes_ok (zdrop n s).
Proof. intros H. rewrite <- (ztake_zdrop n s) in H. now apply Forall_app in H. Qed.
Lemma eof_real s : real_error (eof_error s).
Proof. destruct s; exact I. Qed.

Lemma inflate_ok_zlen inflate s w out c : inflate_ok inflate s w = Some (out, c) -> zlen out = w.
Proof.
  unfold inflate_ok. destruct (inflate s w) as [[o' c']|]; [|discriminate]. destruct ((zlen o' =? w) && _ && _) eqn:E; [|discriminate].
  intros H. injection H as -> ->. lia.
Qed.

Lemma hard_run inflate {Ev A} (Q : A -> Prop) kind (p : prog Ev A) : forall q s, bytes_ok s -> hard Q p q -> verdict (run inflate kind p s) (run inflate kind q s).
Proof.
  induction p; intros q s Hs H0; cbn [hard] in H0.
  - destruct H0 as [-> _]. cbn [run]. right. repeat split; discriminate.
  - destruct H0 as [-> R]. cbn [run]. now apply verdict_real.
  - destruct H0 as [c ->]. cbn [run]. left. cbn. eauto.
  - subst. cbn [run]. right. repeat split; discriminate.
  - destruct H0 as (k' & -> & H'). cbn [run]. destruct (zlen s <? n) eqn:E; [apply verdict_real, eof_real|].
    apply H; [now apply bytes_ok_skipn|]. apply H'; [now apply bytes_ok_firstn|]. unfold zlen in *. rewrite firstn_length. lia.
  - destruct H0 as (k' & -> & H'). cbn [run]. destruct s as [|x s]; [now apply verdict_real|].
    apply H; [now apply bytes_ok_zdrop|]. apply H'. now apply bytes_ok_ztake.
  - destruct H0 as (k' & -> & H'). cbn [run]. destruct (n <? 0); [destruct kind; [now apply H|now apply verdict_real]|].
    destruct (zlen s <? n); [now apply verdict_real|]. apply H; [now apply bytes_ok_skipn|]. apply H'.
  - destruct H0 as (k' & -> & H'). cbn [run]. destruct (inflate_ok inflate (ztake limit s) want) as [[out c]|] eqn:E; [|now apply verdict_real].
    apply H; [now apply bytes_ok_skipn|]. apply H'. eapply inflate_ok_zlen, E.
  - destruct H0 as (k' & -> & H'). cbn [run]. apply verdict_emit. now apply IHp.
Qed.

Lemma hard_run_seek inflate {Ev A} (Q : A -> Prop) (p : prog Ev A) : forall q s pos, bytes_ok s -> hard Q p q -> verdict (run_seek inflate p s pos) (run_seek inflate q s pos).
Proof.
  induction p; intros q s pos Hs H0; cbn [hard] in H0.
  - destruct H0 as [-> _]. cbn [run_seek]. right. repeat split; discriminate.
  - destruct H0 as [-> R]. cbn [run_seek]. now apply verdict_real.
  - destruct H0 as [c ->]. cbn [run_seek]. left. cbn. eauto.
  - subst. cbn [run_seek]. right. repeat split; discriminate.
  - destruct H0 as (k' & -> & H'). cbn [run_seek]. cbv zeta. destruct (zlen (zdrop pos s) <? n) eqn:E; [apply verdict_real, eof_real|].
    apply H; [assumption|]. apply H'; [now apply bytes_ok_firstn, bytes_ok_zdrop|]. unfold zlen in *. rewrite firstn_length. lia.
  - destruct H0 as (k' & -> & H'). cbn [run_seek]. cbv zeta. pose proof (bytes_ok_zdrop pos s Hs) as Hz. destruct (zdrop pos s) as [|x t]; [now apply verdict_real|].
    apply H; [assumption|]. apply H'. now apply bytes_ok_ztake.
  - destruct H0 as (k' & -> & H'). cbn [run_seek]. destruct (i64 (pos + n) <? 0); [now apply verdict_real|]. apply H; [assumption|]. apply H'.
  - destruct H0 as (k' & -> & H'). cbn [run_seek]. cbv zeta. destruct (inflate_ok inflate _ want) as [[out c]|] eqn:E; [|now apply verdict_real].
    apply H; [assumption|]. apply H'. eapply inflate_ok_zlen, E.
  - destruct H0 as (k' & -> & H'). cbn [run_seek]. apply verdict_emit. now apply IHp.
Qed.

Lemma ctake_ok n cs b r : ctake n cs = Some (b, r) -> Forall bytes_ok cs -> bytes_ok b /\ Forall bytes_ok r /\ zlen b = Z.max 0 n.
Proof.
  revert n b r. induction cs as [|c t IH]; intros n b r E H; cbn [ctake] in E; destruct (Z.leb_spec n 0) as [L|L].
  - injection E as <- <-. repeat split; [constructor|assumption|]. change (zlen (@nil Z)) with 0. lia.
  - discriminate.
  - injection E as <- <-. repeat split; [constructor|assumption|]. change (zlen (@nil Z)) with 0. lia.
  - inversion H as [|? ? Hc Ht]; subst. destruct (Z.leb_spec (zlen c) n) as [L'|L'].
    + destruct (ctake (n - zlen c) t) as [[b' r']|] eqn:E'; [|discriminate]. injection E as <- <-.
      destruct (IH _ _ _ E' Ht) as (B & R & Z'). repeat split; [apply Forall_app; split; assumption|assumption|]. rewrite zlen_app. pose proof (zlen_nonneg c). lia.
    + injection E as <- <-. repeat split; [now apply bytes_ok_firstn|constructor; [now apply bytes_ok_skipn|assumption]|]. unfold zlen in *. rewrite firstn_length. lia.
Qed.

Lemma hard_run_chunks inflate {Ev A} (Q : A -> Prop) eager (p : prog Ev A) : forall q cs, Forall bytes_ok cs -> hard Q p q -> verdict (run_chunks inflate eager p cs) (run_chunks inflate eager q cs).
Proof.
  induction p; intros q s Hs H0; cbn [hard] in H0.
  - destruct H0 as [-> _]. cbn [run_chunks]. right. repeat split; discriminate.
  - destruct H0 as [-> R]. cbn [run_chunks]. now apply verdict_real.
  - destruct H0 as [c ->]. cbn [run_chunks]. left. cbn. eauto.
  - subst. cbn [run_chunks]. right. repeat split; discriminate.
  - destruct H0 as (k' & -> & H'). cbn [run_chunks]. destruct (ctake n s) as [[b r]|] eqn:E; [|apply verdict_real, eof_real].
    destruct (ctake_ok _ _ _ _ E Hs) as (B & R & Z'). apply H; [assumption|]. now apply H'.
  - destruct H0 as (k' & -> & H'). cbn [run_chunks]. destruct s as [|c t]; [now apply verdict_real|]. cbv zeta. inversion Hs as [|? ? Hc Ht]; subst.
    destruct (eager && _); [now apply verdict_real|]. apply H; [|apply H'; now apply bytes_ok_ztake].
    destruct (zlen c <=? n); [assumption|]. constructor; [now apply bytes_ok_zdrop|assumption].
  - destruct H0 as (k' & -> & H'). cbn [run_chunks]. destruct (n <? 0); [now apply H|].
    destruct (ctake n s) as [[b r]|] eqn:E; [|now apply verdict_real]. destruct (ctake_ok _ _ _ _ E Hs) as (B & R & Z'). apply H; [assumption|]. apply H'.
  - destruct H0 as (k' & -> & H'). cbn [run_chunks]. destruct (inflate_ok inflate _ want) as [[out c]|] eqn:E; [|now apply verdict_real].
    destruct (ctake c s) as [[b r]|] eqn:E2; [|now apply verdict_real]. destruct (ctake_ok _ _ _ _ E2 Hs) as (B & R & Z').
    apply H; [assumption|]. apply H'. eapply inflate_ok_zlen, E.
  - destruct H0 as (k' & -> & H'). cbn [run_chunks]. apply verdict_emit. now apply IHp.
Qed.

(** * Pure parts *)

(** Prediction *)
Lemma upd_total {A} (l : list A) i v : 0 <= i < zlen l -> exists l', upd l i v = Some l' /\ zlen l' = zlen l.
Proof.
  intros H. unfold upd. replace ((0 <=? i) && (i <? zlen l)) with true by lia. eexists. split; [reflexivity|].
  unfold zlen. f_equal. generalize (Z.to_nat i). clear H. induction l as [|x l IH]; intros [|n]; cbn; auto.
Qed.
Lemma row16_fits w : forall d buf i, 0 <= i -> i + 2 * Z.of_nat w <= zlen buf -> exists buf', delta_row16 w d buf i = Some (buf', i + 2 * Z.of_nat w) /\ zlen buf' = zlen buf.
Proof.
  induction w as [|w IH]; intros d buf i Hi Hl; cbn [delta_row16]; [exists buf; split; [f_equal; f_equal; lia|reflexivity]|].
  destruct (readUint16_total buf i) as [v ->]; try lia. unfold writeUint16.
  destruct (upd_total buf i (u8 (Z.shiftr (u16 (d + v)) 8))) as (b1 & -> & L1); [lia|]. destruct (upd_total b1 (i + 1) (u8 (u16 (d + v)))) as (b2 & -> & L2); [lia|].
  destruct (IH (u16 (d + v)) b2 (i + 2)) as (b3 & -> & L3); try lia. exists b3. split; [f_equal; f_equal; lia|lia].
Qed.
Lemma row32_fits w : forall d buf i, 0 <= i -> i + 4 * Z.of_nat w <= zlen buf -> exists buf', delta_row32 w d buf i = Some (buf', i + 4 * Z.of_nat w) /\ zlen buf' = zlen buf.
Proof.
  induction w as [|w IH]; intros d buf i Hi Hl; cbn [delta_row32]; [exists buf; split; [f_equal; f_equal; lia|reflexivity]|].
  destruct (readUint32_total buf i) as [v ->]; try lia. unfold writeUint32.
  destruct (upd_total buf i (u8 (Z.shiftr (u32 (d + v)) 24))) as (b1 & -> & L1); [lia|]. destruct (upd_total b1 (i + 1) (u8 (Z.shiftr (u32 (d + v)) 16))) as (b2 & -> & L2); [lia|].
  destruct (upd_total b2 (i + 2) (u8 (Z.shiftr (u32 (d + v)) 8))) as (b3 & -> & L3); [lia|]. destruct (upd_total b3 (i + 3) (u8 (u32 (d + v)))) as (b4 & -> & L4); [lia|].
  destruct (IH (u32 (d + v)) b4 (i + 4)) as (b5 & -> & L5); try lia. exists b5. split; [f_equal; f_equal; lia|lia].
Qed.
Lemma row16_beyond w : forall d buf i, 0 <= i <= zlen buf -> zlen buf < i + 2 * Z.of_nat w -> delta_row16 w d buf i = None.
Proof.
  induction w as [|w IH]; intros d buf i Hi Hl; [lia|]. cbn [delta_row16].
  destruct (readUint16 buf i) as [v|] eqn:E; [|reflexivity].
  assert (i + 1 < zlen buf). { unfold readUint16 in E. destruct (idx buf i) eqn:E1; [|discriminate]. destruct (idx buf (i + 1)) eqn:E2; [|discriminate]. apply idx_some_lt in E2. lia. }
  unfold writeUint16. destruct (upd_total buf i (u8 (Z.shiftr (u16 (d + v)) 8))) as (b1 & -> & L1); [lia|]. destruct (upd_total b1 (i + 1) (u8 (u16 (d + v)))) as (b2 & -> & L2); [lia|].
  apply IH; lia.
Qed.
Lemma row32_beyond w : forall d buf i, 0 <= i <= zlen buf -> zlen buf < i + 4 * Z.of_nat w -> delta_row32 w d buf i = None.
Proof.
  induction w as [|w IH]; intros d buf i Hi Hl; [lia|]. cbn [delta_row32].
  destruct (readUint32 buf i) as [v|] eqn:E; [|reflexivity].
  assert (i + 3 < zlen buf).
  { unfold readUint32 in E. destruct (idx buf i), (idx buf (i + 1)), (idx buf (i + 2)), (idx buf (i + 3)) eqn:E2; try discriminate. apply idx_some_lt in E2. lia. }
  unfold writeUint32.
  destruct (upd_total buf i (u8 (Z.shiftr (u32 (d + v)) 24))) as (b1 & -> & L1); [lia|]. destruct (upd_total b1 (i + 1) (u8 (Z.shiftr (u32 (d + v)) 16))) as (b2 & -> & L2); [lia|].
  destruct (upd_total b2 (i + 2) (u8 (Z.shiftr (u32 (d + v)) 8))) as (b3 & -> & L3); [lia|]. destruct (upd_total b3 (i + 3) (u8 (u32 (d + v)))) as (b4 & -> & L4); [lia|].
  apply IH; lia.
Qed.

Lemma rows_spec row s : 0 <= s ->
  (forall buf i, 0 <= i -> i + s <= zlen buf -> exists buf', row buf i = Some (buf', i + s) /\ zlen buf' = zlen buf) ->
  (forall buf i, 0 <= i <= zlen buf -> zlen buf < i + s -> row buf i = None) ->
  forall fuel buf i, 0 <= i <= zlen buf -> zlen buf - i <= Z.of_nat fuel ->
    ((zlen buf - i) mod s = 0 -> delta_rows row fuel buf i <> Panic) /\ ((zlen buf - i) mod s <> 0 -> 0 < s -> delta_rows row fuel buf i = Panic) /\
    (forall e, delta_rows row fuel buf i <> Err e).
Proof.
  intros Hs H1 H2. induction fuel as [|fuel IH]; intros buf i Hi Hf; cbn [delta_rows].
  - replace (i <? zlen buf) with false by lia. split; [discriminate|]. split; [|discriminate]. intros C. exfalso. apply C. replace (zlen buf - i) with 0 by lia. apply Zmod_0_l.
  - destruct (Z.ltb_spec i (zlen buf)) as [L|L].
    + destruct (Z.le_gt_cases (i + s) (zlen buf)) as [F|F].
      * destruct (H1 buf i ltac:(lia) F) as (buf' & -> & L'). destruct (Z.eq_dec s 0) as [->|Ns].
        -- rewrite Zmod_0_r. replace (i + 0) with i by lia. clear IH Hf. split; [|split; [lia|]].
           ++ intros Z0. lia.
           ++ intros e. revert buf' L'. induction fuel as [|f IHf]; intros b Lb; cbn [delta_rows]; (destruct (i <? zlen b) eqn:E; [|discriminate]); [discriminate|].
              destruct (H1 b i ltac:(lia) ltac:(lia)) as (b' & -> & L2). replace (i + 0) with i by lia. apply IHf; lia.
        -- destruct (IH buf' (i + s) ltac:(lia) ltac:(lia)) as (I1 & I2 & I3). rewrite L' in I1, I2.
           assert ((zlen buf - (i + s)) mod s = (zlen buf - i) mod s) as M. { replace (zlen buf - (i + s)) with (zlen buf - i + (-1) * s) by lia. apply Z_mod_plus_full. }
           rewrite M in I1, I2. auto.
      * rewrite (H2 buf i ltac:(lia) ltac:(lia)). split; [|split; [reflexivity|discriminate]]. intros Z0. rewrite Z.mod_small in Z0 by lia. lia.
    + split; [discriminate|]. split; [|discriminate]. intros C. exfalso. apply C. replace (zlen buf - i) with 0 by lia. apply Zmod_0_l.
Qed.

Lemma delta_guard buf width depth : 0 <= width -> depth = 1 \/ depth = 8 \/ depth = 16 \/ depth = 32 ->
  let ok := (depth <? 16) || (zlen buf mod (width * (depth / 8)) =? 0) in
  (ok = true -> decodeDelta buf width depth <> Panic) /\ (ok = false -> 0 < width -> decodeDelta buf width depth = Panic) /\ (forall e, decodeDelta buf width depth <> Err e).
Proof.
  intros Hw Hd ok. unfold decodeDelta. assert (0 <= zlen buf) as Hn by apply zlen_nonneg. assert (zlen buf - 0 <= Z.of_nat (length buf)) as Hf by (unfold zlen; lia).
  destruct Hd as [-> | [-> | [-> | ->] ] ]; try (subst ok; cbn; repeat split; discriminate); unfold ok; change (16 <? 16) with false; change (32 <? 16) with false; change (16 / 8) with 2; change (32 / 8) with 4; cbn [orb];
    change (32 =? 16) with false; change (16 =? 16) with true; change (32 =? 32) with true; cbv iota.
  - destruct (rows_spec (delta_row16 (Z.to_nat width) 0) (width * 2) ltac:(lia)) with (fuel := length buf) (buf := buf) (i := 0) as (A & B & C); try lia.
    + intros b i Hi Hl. destruct (row16_fits (Z.to_nat width) 0 b i Hi ltac:(lia)) as (b' & E & L). exists b'. rewrite E. split; [f_equal; f_equal; lia|exact L].
    + intros b i Hi Hl. apply row16_beyond; lia.
    + rewrite Z.sub_0_r in A, B. split; [intros E; apply A; lia|]. split; [intros E Hw'; apply B; lia|exact C].
  - destruct (rows_spec (delta_row32 (Z.to_nat width) 0) (width * 4) ltac:(lia)) with (fuel := length buf) (buf := buf) (i := 0) as (A & B & C); try lia.
    + intros b i Hi Hl. destruct (row32_fits (Z.to_nat width) 0 b i Hi ltac:(lia)) as (b' & E & L). exists b'. rewrite E. split; [f_equal; f_equal; lia|exact L].
    + intros b i Hi Hl. apply row32_beyond; lia.
    + rewrite Z.sub_0_r in A, B. split; [intros E; apply A; lia|]. split; [intros E Hw'; apply B; lia|exact C].
Qed.
