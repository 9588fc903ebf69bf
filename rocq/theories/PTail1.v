(** More fuel, more data: facts about programs. *)
From Verif Require Import Base BaseFacts MUtil SUtil PUtil MRect MReader PReader MPicker MConfig SConfig PConfig
  MCompress MLayer MApi SLayer PLayer PDecode.

(** * Fuel: [q] does what [p] does, unless [p] runs out of fuel *)
Fixpoint le {Ev A} (p q : prog Ev A) {struct p} : Prop :=
  match p with
  | Starve => True
  | Ret a => q = Ret a
  | Fail e => q = Fail e
  | Crash => q = Crash
  | RFull n k => match q with RFull n' k' => n' = n /\ forall b, le (k b) (k' b) | _ => False end
  | RSome n k => match q with RSome n' k' => n' = n /\ forall b, le (k b) (k' b) | _ => False end
  | RDiscard n k => match q with RDiscard n' k' => n' = n /\ forall b, le (k b) (k' b) | _ => False end
  | RZlib w l k => match q with RZlib w' l' k' => w' = w /\ l' = l /\ forall b c, le (k b c) (k' b c) | _ => False end
  | Emit ev k => match q with Emit ev' k' => ev' = ev /\ le k k' | _ => False end
  end.

Lemma le_refl {Ev A} (p : prog Ev A) : le p p.
Proof. induction p; cbn; auto. Qed.
Lemma le_bind {Ev A B} (p : prog Ev A) (f g : A -> prog Ev B) : forall q, le p q -> (forall a, le (f a) (g a)) -> le (bind p f) (bind q g).
Proof.
  induction p; intros q Hpq Hf; cbn [le bind] in *; try (now subst q); auto.
  - subst q. apply Hf.
  - destruct q; try easy. destruct Hpq as [-> Hk]. cbn. auto.
  - destruct q; try easy. destruct Hpq as [-> Hk]. cbn. auto.
  - destruct q; try easy. destruct Hpq as [-> Hk]. cbn. auto.
  - destruct q; try easy. destruct Hpq as (-> & -> & Hk). cbn. auto.
  - destruct q; try easy. destruct Hpq as [-> Hk]. cbn. auto.
Qed.
Lemma le_run inflate {Ev A} kind (p : prog Ev A) : forall q s, le p q -> fst (run inflate kind p s) <> NoFuel -> run inflate kind q s = run inflate kind p s.
Proof.
  induction p; intros q s Hpq Hn; cbn [le] in Hpq; try (now subst q).
  - cbn in Hn. easy.
  - destruct q; try easy. destruct Hpq as [-> Hk]. cbn [run] in *. destruct (zlen s <? n); auto.
  - destruct q; try easy. destruct Hpq as [-> Hk]. cbn [run] in *. destruct s; auto.
  - destruct q; try easy. destruct Hpq as [-> Hk]. cbn [run] in *. destruct (n <? 0); [destruct kind; auto|]. destruct (zlen s <? n); auto.
  - destruct q; try easy. destruct Hpq as (-> & -> & Hk). cbn [run] in *. destruct (inflate_ok _ _ _) as [[? ?]|]; auto.
  - destruct q; try easy. destruct Hpq as [-> Hk]. cbn [run] in *. rewrite (IHp _ s Hk); [reflexivity|].
    destruct (run inflate kind p s). exact Hn.
Qed.
Lemma le_run_seek inflate {Ev A} (p : prog Ev A) : forall q s pos, le p q -> fst (run_seek inflate p s pos) <> NoFuel -> run_seek inflate q s pos = run_seek inflate p s pos.
Proof.
  induction p; intros q s pos Hpq Hn; cbn [le] in Hpq; try (now subst q).
  - cbn in Hn. easy.
  - destruct q; try easy. destruct Hpq as [-> Hk]. cbn [run_seek] in *. destruct (zlen (zdrop pos s) <? n); auto.
  - destruct q; try easy. destruct Hpq as [-> Hk]. cbn [run_seek] in *. destruct (zdrop pos s); auto.
  - destruct q; try easy. destruct Hpq as [-> Hk]. cbn [run_seek] in *. destruct (_ <? 0); auto.
  - destruct q; try easy. destruct Hpq as (-> & -> & Hk). cbn [run_seek] in *. destruct (inflate_ok _ _ _) as [[? ?]|]; auto.
  - destruct q; try easy. destruct Hpq as [-> Hk]. cbn [run_seek] in *. rewrite (IHp _ s pos Hk); [reflexivity|].
    destruct (run_seek inflate p s pos). exact Hn.
Qed.

Ltac lstep :=
  match goal with
  | |- le ?p ?p => apply le_refl
  | |- le (bind _ _) (bind _ _) => apply le_bind; [|intros]
  | |- le (if ?c then _ else _) (if ?c then _ else _) => destruct c
  | |- le (match ?x with (_, _) => _ end) (match ?x with (_, _) => _ end) => destruct x
  end.

Lemma le_resource_loop {Ev} f : forall g ln rd m, (f <= g)%nat -> le (Ev := Ev) (resource_loop f ln rd m) (resource_loop g ln rd m).
Proof.
  induction f as [|f IH]; intros [|g] ln rd m Hfg; cbn [resource_loop]; try lia; try apply le_refl.
  - lstep; [exact I|apply le_refl].
  - repeat lstep. apply IH. lia.
Qed.
Lemma le_config {Ev} f g : (f <= g)%nat -> le (Ev := Ev) (decodeConfig_prog f) (decodeConfig_prog g).
Proof.
  intros H. unfold decodeConfig_prog, readImageResource. repeat lstep. apply le_resource_loop, H.
Qed.
Lemma le_scan f : forall g n rd, (f <= g)%nat -> le (scan_sig f n rd) (scan_sig g n rd).
Proof.
  induction f as [|f IH]; intros [|g] n rd Hfg; cbn [scan_sig]; try lia; try apply le_refl.
  - lstep; [exact I|apply le_refl].
  - repeat lstep. apply IH. lia.
Qed.
Section layers.
  Variable procs : nat.
  Variable cfg : config.
  Variable o : options.
  Lemma le_info r r' : (forall n, le (r n) (r' n)) -> le (readLayerInfo procs cfg o r) (readLayerInfo procs cfg o r').
  Proof.
    intros Hr.
    assert (forall k i, le (read_records cfg r i k) (read_records cfg r' i k)) as K.
    { induction k as [|k IH]; intros i; cbn [read_records]; [apply le_refl|]. lstep; [|repeat lstep; apply IH].
      unfold read_record, readLayerExtraData. repeat lstep. apply Hr. }
    unfold readLayerInfo. repeat (apply K || lstep).
  Qed.
  Lemma le_additional f : forall g n rd infos layers, (f <= g)%nat ->
    le (readAdditional procs cfg o f n rd infos layers) (readAdditional procs cfg o g n rd infos layers).
  Proof.
    induction f as [|f IH]; intros [|g] n rd infos layers Hfg; try lia; try exact I. cbn [readAdditional].
    lstep; [|apply le_refl]. lstep; [apply le_scan; lia|]. repeat lstep.
    - apply le_info. intros. apply IH. lia.
    - apply IH. lia.
    - apply IH. lia.
  Qed.
  Lemma le_section f g : (f <= g)%nat -> le (readLayerAndMaskInfo procs cfg o f) (readLayerAndMaskInfo procs cfg o g).
  Proof.
    intros H. unfold readLayerAndMaskInfo. repeat lstep.
    - apply le_info. intros. apply le_additional, H.
    - apply le_additional, H.
  Qed.
End layers.
Lemma le_decode f g procs o : (f <= g)%nat -> le (decode_prog f procs o) (decode_prog g procs o).
Proof. intros H. unfold decode_prog. lstep; [apply le_config, H|]. lstep. lstep; [apply le_refl|]. lstep; [apply le_section, H|]. apply le_refl. Qed.

(** * More data *)

(** A successful run needs at least [m] bytes. *)
Definition claims inflate {Ev A} (m : Z) (p : prog Ev A) : Prop :=
  forall kind s a rest evs, run inflate kind p s = (Ok (a, rest), evs) -> m <= zlen s.
(** Whatever the zlib reader leaves of its limit is read afterwards. *)
Fixpoint zl inflate {Ev A} (p : prog Ev A) : Prop :=
  match p with
  | RFull _ k | RSome _ k => forall b, zl inflate (k b)
  | RDiscard _ k => forall n, zl inflate (k n)
  | RZlib _ l k => forall b c, zl inflate (k b c) /\ claims inflate (l - c) (k b c)
  | Emit _ k => zl inflate k
  | _ => True
  end.
Lemma claims_bind inflate {Ev A B} m (p : prog Ev A) (f : A -> prog Ev B) : claims inflate m p -> claims inflate m (bind p f).
Proof.
  intros H kind s a rest evs E. rewrite run_bind in E. destruct (run inflate kind p s) as [[[a0 s0]|e| |] ev0] eqn:E0; cbn in E; try discriminate.
  eapply H. exact E0.
Qed.
Lemma zl_bind inflate {Ev A B} (p : prog Ev A) (f : A -> prog Ev B) : zl inflate p -> (forall a, zl inflate (f a)) -> zl inflate (bind p f).
Proof.
  induction p; cbn [zl bind]; intros Hp Hf; auto. intros b c. destruct (Hp b c). split; [auto|now apply claims_bind].
Qed.
Lemma zl_lift inflate {Ev A} (x : option A) : zl inflate (lift x : prog Ev A).
Proof. destruct x; exact I. Qed.
Lemma zl_outcome inflate {Ev A} (x : outcome A) : zl inflate (of_outcome x : prog Ev A).
Proof. destruct x; exact I. Qed.
Lemma zl_make inflate {Ev} n : zl inflate (make_ok n : prog Ev unit).
Proof. unfold make_ok. destruct (_ || _); exact I. Qed.

Lemma ztake_app n (s t : bytes) : n <= zlen s -> ztake n (s ++ t) = ztake n s.
Proof.
  intros H. unfold ztake. rewrite zlen_app. pose proof (zlen_nonneg t). destruct (zlen s <=? n) eqn:E1.
  - assert (n = zlen s) as -> by lia. destruct (zlen s + zlen t <=? zlen s) eqn:E2.
    + assert (t = []) as -> by (apply zlen_0_nil; lia). apply app_nil_r.
    + rewrite firstn_app. replace (Z.to_nat (zlen s) - length s)%nat with 0%nat by (unfold zlen; lia). rewrite firstn_all2 by (unfold zlen; lia). cbn. apply app_nil_r.
  - replace (zlen s + zlen t <=? n) with false by lia. rewrite firstn_app. replace (Z.to_nat n - length s)%nat with 0%nat by (unfold zlen in *; lia). cbn. apply app_nil_r.
Qed.
Lemma zdrop_app n (s t : bytes) : n <= zlen s -> zdrop n (s ++ t) = zdrop n s ++ t.
Proof.
  intros H. unfold zdrop. rewrite zlen_app. pose proof (zlen_nonneg t). destruct (zlen s <=? n) eqn:E1.
  - assert (n = zlen s) as -> by lia. destruct (zlen s + zlen t <=? zlen s) eqn:E2.
    + assert (t = []) as -> by (apply zlen_0_nil; lia). reflexivity.
    + rewrite skipn_app. replace (Z.to_nat (zlen s) - length s)%nat with 0%nat by (unfold zlen; lia). rewrite skipn_all2 by (unfold zlen; lia). reflexivity.
  - replace (zlen s + zlen t <=? n) with false by lia. rewrite skipn_app. replace (Z.to_nat n - length s)%nat with 0%nat by (unfold zlen in *; lia). reflexivity.
Qed.
Lemma take_app n (s t : bytes) : n <= zlen s -> firstn (Z.to_nat n) (s ++ t) = firstn (Z.to_nat n) s /\ skipn (Z.to_nat n) (s ++ t) = skipn (Z.to_nat n) s ++ t.
Proof.
  intros H. rewrite firstn_app, skipn_app. replace (Z.to_nat n - length s)%nat with 0%nat by (unfold zlen in *; lia). cbn. now rewrite app_nil_r.
Qed.

Lemma run_more inflate {Ev A} kind (p : prog Ev A) t : zl inflate p -> forall s a rest evs,
  run inflate kind p s = (Ok (a, rest), evs) -> rest <> [] -> run inflate kind p (s ++ t) = (Ok (a, rest ++ t), evs).
Proof.
  induction p; cbn [zl run]; intros Hz s a1 rest evs E Hr; try discriminate.
  - injection E as <- <- <-. reflexivity.
  - destruct (zlen s <? n) eqn:El; [discriminate|]. rewrite zlen_app. pose proof (zlen_nonneg t). replace (zlen s + zlen t <? n) with false by lia.
    destruct (take_app n s t ltac:(lia)) as [-> ->]. now apply H.
  - destruct s as [|x s'] eqn:Es; [discriminate|]. rewrite <- Es in *.
    assert (n <= zlen s) as Hn.
    { destruct (Z_lt_le_dec (zlen s) n); [|lia]. exfalso. unfold zdrop in E. replace (zlen s <=? n) with true in E by lia.
      apply run_suffix in E as [pre E]. destruct pre; [|discriminate]. cbn in E. apply Hr. now symmetry. }
    rewrite Es at 1. cbn [app]. rewrite ztake_app, zdrop_app by exact Hn. now apply H.
  - destruct (n <? 0); [destruct kind; [now apply H|discriminate]|].
    destruct (zlen s <? n) eqn:El; [discriminate|]. rewrite zlen_app. pose proof (zlen_nonneg t). replace (zlen s + zlen t <? n) with false by lia.
    destruct (take_app n s t ltac:(lia)) as [_ ->]. now apply H.
  - destruct (inflate_ok inflate (ztake limit s) want) as [[out c]|] eqn:Ei; [|discriminate].
    destruct (Hz out c) as [H1 H2]. pose proof (H2 _ _ _ _ _ E) as L. rewrite zlen_skipn in L.
    assert (0 <= c <= zlen (ztake limit s)) as Hc.
    { unfold inflate_ok in Ei. destruct (inflate _ _) as [[o2 c2]|]; [|discriminate]. destruct (_ && _ && _) eqn:E3; [|discriminate]. injection Ei as -> ->. lia. }
    rewrite ztake_zlen in Hc. rewrite ztake_app by lia. rewrite Ei. destruct (take_app c s t ltac:(lia)) as [_ ->]. now apply H.
  - destruct (run inflate kind p s) as [[[a2 s2]|?| |] ev2] eqn:E2; try discriminate. injection E as -> -> <-.
    now rewrite (IHp Hz _ _ _ _ E2 Hr).
Qed.

Ltac zstep :=
  match goal with
  | |- zl _ (Ret _) => exact I
  | |- zl _ (Fail _) => exact I
  | |- zl _ Crash => exact I
  | |- zl _ Starve => exact I
  | |- zl _ (rfull _) => intros ?; exact I
  | |- zl _ (rsome _) => intros ?; exact I
  | |- zl _ (rdiscard _) => intros ?; exact I
  | |- zl _ (emit _) => exact I
  | |- zl _ (lift _) => apply zl_lift
  | |- zl _ (byte_of _) => apply zl_lift
  | |- zl _ (of_outcome _) => apply zl_outcome
  | |- zl _ (make_ok _) => apply zl_make
  | |- zl _ (bind _ _) => apply zl_bind; [|intros]
  | |- zl _ (if ?c then _ else _) => destruct c eqn:?
  | |- zl _ (match ?x with (_, _) => _ end) => destruct x
  | |- zl _ (match ?x with Some _ => _ | None => _ end) => destruct x
  | |- zl _ (match ?x with [] => _ | _ :: _ => _ end) => destruct x
  end.

Section zl.
  Variable inflate : bytes -> Z -> option (bytes * Z).
  Lemma zl_resource_loop {Ev} f : forall ln rd m, zl (Ev := Ev) inflate (resource_loop f ln rd m).
  Proof.
    induction f as [|f IH]; intros ln rd m; cbn [resource_loop]; zstep; try exact I.
    unfold readPascalString, adjustAlign2. repeat (apply IH || zstep).
  Qed.
  Lemma zl_config {Ev} f : zl (Ev := Ev) inflate (decodeConfig_prog f).
  Proof. unfold decodeConfig_prog, readImageResource. repeat (apply zl_resource_loop || zstep). Qed.
  Lemma zl_scan f : forall n rd, zl inflate (scan_sig f n rd).
  Proof. induction f; intros n rd; cbn [scan_sig]; repeat (apply IHf || zstep). Qed.
  Lemma zl_rect_signed b : zl inflate (read_rect_signed b).
  Proof. unfold read_rect_signed. repeat zstep. Qed.
  Lemma zl_rect_unsigned b : zl inflate (read_rect_unsigned b).
  Proof. unfold read_rect_unsigned. repeat zstep. Qed.
  Lemma zl_mask_tail ln rm m : zl inflate (read_mask_tail ln rm m).
  Proof. unfold read_mask_tail, read_real_mask. repeat (apply zl_rect_unsigned || zstep). Qed.
  Lemma zl_density pr ln rm m set k : (forall rm m, zl inflate (k rm m)) -> zl inflate (read_density pr ln rm m set k).
  Proof. intros H. unfold read_density. repeat (apply H || zstep). Qed.
  Lemma zl_feather pr ln rm m set k : (forall rm m, zl inflate (k rm m)) -> zl inflate (read_feather pr ln rm m set k).
  Proof. intros H. unfold read_feather. repeat (apply H || zstep). Qed.
  Lemma zl_readLayerMask : zl inflate readLayerMask.
  Proof.
    unfold readLayerMask. cbv zeta. repeat (apply zl_rect_signed || (apply zl_density; intros) || (apply zl_feather; intros) || apply zl_mask_tail || zstep).
  Qed.
  Lemma zl_packbits procs dest w lines large : zl inflate (decodePackBits procs dest w lines large).
  Proof. unfold decodePackBits. repeat zstep. Qed.
  (** What follows has to claim what the zlib reader leaves. *)
  Lemma zl_decompress procs cm n hint r d c large {B} (f : bytes * Z -> P B) : hint <> 0 -> (forall x, zl inflate (f x)) ->
    (forall data n1, claims inflate (hint - n1) (f (data, n1))) -> zl inflate (bind (decompress procs cm n hint r d c large) f).
  Proof.
    intros Hh Hz Hc. unfold decompress. destruct (cm =? 0); [repeat (apply Hz || zstep)|].
    destruct (cm =? 1); [zstep; [apply zl_packbits|apply Hz]|].
    assert (zlib_limit hint = hint) as E by (unfold zlib_limit; now replace (hint =? 0) with false by lia).
    destruct (cm =? 2).
    { unfold decodeZLIB. cbn [bind zl]. rewrite E. intros b c0. split; [apply Hz|apply Hc]. }
    destruct (cm =? 3); [|exact I]. unfold decodeZLIB. cbn [bind zl]. rewrite E. intros b c0.
    destruct (decodeDelta b (rdx r) d); cbn [of_outcome bind zl]; (split; [try exact I|]); try (apply Hz); try (apply Hc); intros kind s a rest evs E1; discriminate.
  Qed.
End zl.
