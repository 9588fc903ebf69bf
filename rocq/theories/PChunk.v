(** Readers that deliver their data in chunks (C19), proofs. *)
From Verif Require Import Base BaseFacts MUtil PUtil MRect MReader PReader MPicker MConfig
  MCompress MLayer MApi SLayer PLayer PDecode SChunk.

Notation ne := (Forall (fun c : bytes => c <> [])).

(** * Programs whose single reads ask for one byte; without single reads if not [c] *)

Fixpoint one {Ev A} (c : bool) (p : prog Ev A) : Prop :=
  match p with
  | RFull _ k => forall b, one c (k b)
  | RSome n k => c = true /\ n = 1 /\ forall b, one c (k b)
  | RDiscard _ k => forall n, one c (k n)
  | RZlib _ _ k => forall b n, one c (k b n)
  | Emit _ k => one c k
  | _ => True
  end.
Lemma one_bind {c} {Ev A B} (p : prog Ev A) (f : A -> prog Ev B) : one c p -> (forall a, one c (f a)) -> one c (bind p f).
Proof. induction p; cbn; auto; intros Hp Hf; try (intros; apply H; auto; fail). destruct Hp as (H1 & H2 & H3). auto. Qed.
Lemma one_lift {c Ev A} (x : option A) : one (Ev := Ev) c (lift x).
Proof. destruct x; exact I. Qed.
Lemma one_outcome {c} {Ev A} (x : outcome A) : one (Ev := Ev) c (of_outcome x).
Proof. destruct x; exact I. Qed.
Lemma one_make_ok {c} {Ev} n : one (Ev := Ev) c (make_ok n).
Proof. unfold make_ok. destruct (_ || _); exact I. Qed.

Ltac ostep :=
  match goal with
  | |- one _ (Ret _) => exact I
  | |- one _ (Fail _) => exact I
  | |- one _ Crash => exact I
  | |- one _ Starve => exact I
  | |- one _ (rfull _) => intros ?; exact I
  | |- one _ (rsome 1) => split; [reflexivity|split; [reflexivity|intros ?; exact I]]
  | |- one _ (rdiscard _) => intros ?; exact I
  | |- one _ (emit _) => exact I
  | |- one _ (lift _) => apply one_lift
  | |- one _ (byte_of _) => apply one_lift
  | |- one _ (of_outcome _) => apply one_outcome
  | |- one _ (make_ok _) => apply one_make_ok
  | |- one _ (bind _ _) => apply one_bind; [|intros]
  | |- one _ (if ?c then _ else _) => destruct c
  | |- one _ (match ?x with (_, _) => _ end) => destruct x
  | |- one _ (match ?x with Some _ => _ | None => _ end) => destruct x
  | |- one _ (match ?x with [] => _ | _ :: _ => _ end) => destruct x
  end.

Lemma one_rect_signed {c} b : one c (read_rect_signed b).
Proof. unfold read_rect_signed. repeat ostep. Qed.
Lemma one_rect_unsigned {c} b : one c (read_rect_unsigned b).
Proof. unfold read_rect_unsigned. repeat ostep. Qed.
Lemma one_real_mask {c} ln rm m : one c (read_real_mask ln rm m).
Proof. unfold read_real_mask. repeat (apply one_rect_unsigned || ostep). Qed.
Lemma one_mask_tail {c} ln rm m : one c (read_mask_tail ln rm m).
Proof. unfold read_mask_tail. repeat (apply one_real_mask || ostep). Qed.
Lemma one_density {c} pr ln rm m set k : (forall rm m, one c (k rm m)) -> one c (read_density pr ln rm m set k).
Proof. intros H. unfold read_density. repeat (apply H || ostep). Qed.
Lemma one_feather {c} pr ln rm m set k : (forall rm m, one c (k rm m)) -> one c (read_feather pr ln rm m set k).
Proof. intros H. unfold read_feather. repeat (apply H || ostep). Qed.
Lemma one_readLayerMask {c} : one c readLayerMask.
Proof.
  unfold readLayerMask.
  repeat (apply one_rect_signed || apply one_mask_tail || apply one_density || apply one_feather || ostep || intros).
Qed.
Lemma one_decodePackBits {c} procs dest w lines large : one c (decodePackBits procs dest w lines large).
Proof. unfold decodePackBits. repeat ostep. Qed.
Lemma one_decodeZLIB {c} d l : one c (decodeZLIB d l).
Proof. cbn. auto. Qed.
Lemma one_decompress {c} procs cm n sh r d ch large : one c (decompress procs cm n sh r d ch large).
Proof.
  unfold decompress. ostep; [repeat ostep|]. ostep; [apply one_decodePackBits|]. ostep; [apply one_decodeZLIB|].
  ostep; [|exact I]. apply one_bind; [apply one_decodeZLIB|]. intros [b c0]. repeat ostep.
Qed.
Lemma one_readPascalString {c} {Ev} : one (Ev := Ev) c readPascalString.
Proof. unfold readPascalString. repeat ostep. Qed.
Lemma one_adjustAlign2 {Ev} l : one (Ev := Ev) true (adjustAlign2 l).
Proof. unfold adjustAlign2. repeat ostep. Qed.
Lemma one_resource_loop {Ev} fuel : forall ln rd m, one (Ev := Ev) true (resource_loop fuel ln rd m).
Proof.
  induction fuel as [|fuel IH]; intros ln rd m; cbn [resource_loop]; [repeat ostep|].
  repeat (apply IH || apply one_readPascalString || apply one_adjustAlign2 || ostep).
Qed.
Lemma one_decodeConfig {Ev} fuel : one (Ev := Ev) true (decodeConfig_prog fuel).
Proof. unfold decodeConfig_prog, readImageResource. repeat (apply one_resource_loop || ostep). Qed.
Lemma one_chdata {c} cfg k : one c (read_chdata cfg k).
Proof. induction k; cbn [read_chdata]; [exact I|]. repeat (apply IHk || ostep). Qed.
Lemma one_merged {c} procs cfg : one c (decode_merged procs cfg).
Proof. unfold decode_merged. repeat (ostep || apply one_decompress). Qed.
Lemma one_scan_sig {c} fuel : forall infoLen rd, one c (scan_sig fuel infoLen rd).
Proof. induction fuel as [|fuel IH]; intros infoLen rd; cbn [scan_sig]; repeat (apply IH || ostep). Qed.
Lemma one_info_data {c} large key : one c (read_info_data large key).
Proof. unfold read_info_data. repeat ostep. Qed.
Lemma one_channel {c} procs cfg l st chm chs j : one c (read_channel procs cfg l st chm chs j).
Proof. unfold read_channel. repeat (apply one_decompress || ostep). Qed.
Lemma one_channels {c} procs cfg l js : forall st chm chs rd, one c (read_channels procs cfg l st chm chs rd js).
Proof. induction js as [|j js IH]; intros; cbn [read_channels]; repeat (apply IH || apply one_channel || ostep). Qed.
Lemma one_image {c} procs cfg total ls : forall i st rd, one c (readLayerImage procs cfg total i st rd ls).
Proof.
  induction ls as [|[l js] ls IH]; intros; cbn [readLayerImage]; repeat (apply IH || apply one_channels || ostep).
Qed.

(** * Running on chunks *)

Section chunks.
  Variable inflate : bytes -> Z -> option (bytes * Z).
  Variable eager : bool.
  Notation run := (run inflate Plain).
  Notation pads := (pads inflate).

  (** [run_chunks] with the remaining chunks *)
  Fixpoint runc {Ev A} (p : prog Ev A) (cs : list bytes) : outcome (A * list bytes) * list Ev :=
    match p with
    | Ret a => (Ok (a, cs), [])
    | Fail e => (Err e, [])
    | Crash => (Panic, [])
    | Starve => (NoFuel, [])
    | RFull n k =>
        match ctake n cs with
        | None => (Err (eof_error (concat cs)), [])
        | Some (b, cs') => runc (k b) cs'
        end
    | RSome n k =>
        match cs with
        | [] => (Err EEof, [])
        | c :: t =>
            let rest := if zlen c <=? n then t else zdrop n c :: t in
            if eager && match concat rest with [] => true | _ => false end
            then (Err EEof, [])
            else runc (k (ztake n c)) rest
        end
    | RDiscard n k =>
        if n <? 0 then runc (k 0) cs
        else match ctake n cs with
             | None => (Err EEof, [])
             | Some (_, cs') => runc (k n) cs'
             end
    | RZlib want limit k =>
        match inflate_ok inflate (ztake limit (concat cs)) want with
        | None => (Err EZlib, [])
        | Some (out, c) =>
            match ctake c cs with
            | None => (Err EZlib, [])
            | Some (_, cs') => runc (k out c) cs'
            end
        end
    | Emit ev k => let (r, evs) := runc k cs in (r, ev :: evs)
    end.

  Lemma runc_chunks {Ev A} (p : prog Ev A) : forall cs a cs' evs, runc p cs = (Ok (a, cs'), evs) ->
    run_chunks inflate eager p cs = (Ok (a, concat cs'), evs).
  Proof.
    induction p; intros cs a0 cs' evs; cbn [runc run_chunks]; try easy.
    - intros [= <- <- <-]. reflexivity.
    - destruct (ctake n cs) as [[b r]|]; [apply H|easy].
    - destruct cs as [|c t]; [easy|]. cbv zeta. destruct (eager && _); [easy|apply H].
    - destruct (_ <? _); [apply H|]. destruct (ctake n cs) as [[b r]|]; [apply H|easy].
    - destruct (inflate_ok _ _ _) as [[out c]|]; [|easy]. destruct (ctake c cs) as [[b r]|]; [apply H|easy].
    - destruct (runc p cs) as [r e] eqn:E. intros [= -> <-]. now rewrite (IHp _ _ _ _ E).
  Qed.

  Definition runc_next {Ev A B} (f : A -> prog Ev B) (r : outcome (A * list bytes) * list Ev) : outcome (B * list bytes) * list Ev :=
    match r with
    | (Ok (a, s), evs) => let (r', evs') := runc (f a) s in (r', evs ++ evs')
    | (Err e, evs) => (Err e, evs)
    | (Panic, evs) => (Panic, evs)
    | (NoFuel, evs) => (NoFuel, evs)
    end.
  Lemma runc_bind {Ev A B} (p : prog Ev A) (f : A -> prog Ev B) : forall cs, runc (bind p f) cs = runc_next f (runc p cs).
  Proof.
    induction p; intros cs; cbn [bind runc]; try reflexivity.
    - cbn. destruct (runc (f a) cs); reflexivity.
    - destruct (ctake n cs) as [[b r]|]; [apply H|reflexivity].
    - destruct cs as [|c t]; [reflexivity|]. cbv zeta. destruct (eager && _); [reflexivity|apply H].
    - destruct (_ <? _); [apply H|]. destruct (ctake n cs) as [[b r]|]; [apply H|reflexivity].
    - destruct (inflate_ok _ _ _) as [[out c]|]; [|reflexivity]. destruct (ctake c cs) as [[b r]|]; [apply H|reflexivity].
    - rewrite IHp. destruct (runc p cs) as [[[a s]| | |] evs]; cbn [runc_next]; try reflexivity.
      destruct (runc (f a) s); reflexivity.
  Qed.

  Lemma ctake_spec cs : ne cs -> forall n, n <= zlen (concat cs) ->
    exists cs', ctake n cs = Some (firstn (Z.to_nat n) (concat cs), cs') /\ concat cs' = skipn (Z.to_nat n) (concat cs) /\ ne cs'.
  Proof.
    induction cs as [|c cs IH]; intros Hne n Hn; cbn [ctake concat] in *.
    - destruct (n <=? 0) eqn:E; [|unfold zlen in Hn; cbn in Hn; lia].
      replace (Z.to_nat n) with O by lia. exists []. cbn. auto.
    - inversion Hne as [|? ? Hc Hcs]; subst. rewrite zlen_app in Hn.
      destruct (n <=? 0) eqn:E.
      { replace (Z.to_nat n) with O by lia. exists (c :: cs). cbn. auto. }
      destruct (zlen c <=? n) eqn:E1.
      + destruct (IH Hcs (n - zlen c) ltac:(lia)) as (cs' & H1 & H2 & H3). exists cs'. rewrite H1. split; [|split; [|exact H3]].
        * rewrite firstn_app, (firstn_all2 c) by (unfold zlen in *; lia). do 4 f_equal. unfold zlen in *. lia.
        * rewrite H2, skipn_app. rewrite (skipn_all2 c) by (unfold zlen in *; lia). cbn [app]. f_equal. unfold zlen in *. lia.
      + exists (skipn (Z.to_nat n) c :: cs). split; [|split].
        * rewrite firstn_app. replace (Z.to_nat n - length c)%nat with O by (unfold zlen in *; lia).
          cbn [firstn]. now rewrite app_nil_r.
        * cbn [concat]. rewrite skipn_app. replace (Z.to_nat n - length c)%nat with O by (unfold zlen in *; lia). reflexivity.
        * constructor; [|assumption]. intros E2. apply (f_equal (@length Z)) in E2. rewrite skipn_length in E2. cbn in E2. unfold zlen in *. lia.
  Qed.

  Lemma run_suffix {Ev A} (p : prog Ev A) : forall s a rest evs, run p s = (Ok (a, rest), evs) -> exists pre, s = pre ++ rest.
  Proof.
    induction p; intros s a0 rest evs; cbn [MReader.run]; try easy.
    - intros [= <- <- <-]. now exists [].
    - destruct (_ <? _); [easy|]. intros E. apply H in E as [pre E]. exists (firstn (Z.to_nat n) s ++ pre).
      rewrite <- app_assoc, <- E. symmetry. apply firstn_skipn.
    - destruct s as [|x s]; [easy|]. intros E. apply H in E as [pre E]. exists (ztake n (x :: s) ++ pre).
      rewrite <- app_assoc, <- E. symmetry. apply ztake_zdrop.
    - destruct (_ <? _); [apply H|]. destruct (_ <? _); [easy|]. intros E. apply H in E as [pre E]. exists (firstn (Z.to_nat n) s ++ pre).
      rewrite <- app_assoc, <- E. symmetry. apply firstn_skipn.
    - destruct (inflate_ok _ _ _) as [[out c]|]; [|easy]. intros E. apply H in E as [pre E]. exists (firstn (Z.to_nat c) s ++ pre).
      rewrite <- app_assoc, <- E. symmetry. apply firstn_skipn.
    - destruct (run p s) as [r e] eqn:E. intros [= -> <-]. now apply IHp in E.
  Qed.
  Lemma run_len {Ev A} (p : prog Ev A) s a rest evs : run p s = (Ok (a, rest), evs) -> zlen rest <= zlen s.
  Proof. intros E. apply run_suffix in E as [pre ->]. rewrite zlen_app. pose proof (zlen_nonneg pre). lia. Qed.
  Lemma run_rest {Ev A} (p : prog Ev A) s a rest evs : run p s = (Ok (a, rest), evs) -> rest <> [] -> s <> [].
  Proof. intros E. apply run_suffix in E as [pre ->]. destruct pre; [auto|discriminate]. Qed.

  Lemma pads_bind {Ev A B} (p : prog Ev A) (f : A -> prog Ev B) : forall s a rest evs, run p s = (Ok (a, rest), evs) ->
    pads (bind p f) s = pads p s ++ pads (f a) rest.
  Proof.
    induction p; intros s a0 rest evs; cbn [MReader.run bind SChunk.pads]; try easy.
    - intros [= <- <- <-]. reflexivity.
    - destruct (_ <? _); [easy|]. apply H.
    - destruct s as [|x s]; [easy|]. intros E. cbn [app]. f_equal. eapply H, E.
    - destruct (_ <? _); [apply H|]. destruct (_ <? _); [easy|]. apply H.
    - destruct (inflate_ok _ _ _) as [[out c]|]; [|easy]. apply H.
    - destruct (run p s) as [r e] eqn:E. intros [= -> <-]. eapply IHp, E.
  Qed.

  (** Success on one buffer of at most [M] bytes carries over to all chunks. *)
  Definition ci {Ev A} (c : bool) (M : Z) (p : prog Ev A) : Prop :=
    forall cs a rest evs, ne cs -> zlen (concat cs) <= M -> run p (concat cs) = (Ok (a, rest), evs) ->
    Forall no8 (pads p (concat cs)) -> (c = true -> eager = true -> rest <> []) ->
    exists cs', runc p cs = (Ok (a, cs'), evs) /\ concat cs' = rest /\ ne cs'.

  Lemma ci_mono {Ev A} c M M' (p : prog Ev A) : ci c M' p -> M <= M' -> ci c M p.
  Proof. intros H HM cs a rest evs H1 H2. apply H; [assumption|lia]. Qed.

  Lemma ci_bind {Ev A B} c M (p : prog Ev A) (f : A -> prog Ev B) : ci c M p -> (forall a, ci c M (f a)) -> ci c M (bind p f).
  Proof.
    intros Hp Hf cs b rest evs Hne HM E Hpads He. rewrite run_bind in E. unfold run_next in E.
    destruct (run p (concat cs)) as [[[a s1]|e| |] ev1] eqn:E1; try easy.
    destruct (run (f a) s1) as [r2 ev2] eqn:E2. injection E as -> <-.
    rewrite (pads_bind _ _ _ _ _ _ E1) in Hpads. apply Forall_app in Hpads as [Hp1 Hp2].
    destruct (Hp cs a s1 ev1 Hne HM E1 Hp1) as (cs1 & R1 & <- & Hne1).
    { intros Hc He'. eapply run_rest; [exact E2|auto]. }
    destruct (Hf a cs1 b rest ev2 Hne1) as (cs2 & R2 & R3 & R4); try assumption.
    { apply run_len in E1. lia. }
    exists cs2. rewrite runc_bind, R1. cbn [runc_next]. rewrite R2. auto.
  Qed.

  (** The end of the data does not matter if something is read after [p]. *)
  Lemma ci_then {Ev A B} M (p : prog Ev A) (f : A -> prog Ev B) : ci true M p -> (forall a, ci false M (f a)) ->
    (forall a b rest evs, run (f a) [] <> (Ok (b, rest), evs)) -> ci false M (bind p f).
  Proof.
    intros Hp Hf Hn cs b rest evs Hne HM E Hpads He. rewrite run_bind in E. unfold run_next in E.
    destruct (run p (concat cs)) as [[[a s1]|e| |] ev1] eqn:E1; try easy.
    destruct (run (f a) s1) as [r2 ev2] eqn:E2. injection E as -> <-.
    rewrite (pads_bind _ _ _ _ _ _ E1) in Hpads. apply Forall_app in Hpads as [Hp1 Hp2].
    destruct (Hp cs a s1 ev1 Hne HM E1 Hp1) as (cs1 & R1 & <- & Hne1).
    { intros _ _ X. rewrite X in E2. now apply Hn in E2. }
    destruct (Hf a cs1 b rest ev2 Hne1) as (cs2 & R2 & R3 & R4); try assumption.
    { apply run_len in E1. lia. }
    exists cs2. rewrite runc_bind, R1. cbn [runc_next]. rewrite R2. auto.
  Qed.

  Lemma ci_ret {Ev A} c M (a : A) : ci (Ev := Ev) c M (Ret a).
  Proof. intros cs b rest evs Hne HM [= <- <- <-] _ _. exists cs. auto. Qed.
  Lemma ci_fail {Ev A} c M e : ci (Ev := Ev) (A := A) c M (Fail e).
  Proof. intros cs b rest evs Hne HM [=]. Qed.
  Lemma ci_starve {Ev A} c M : ci (Ev := Ev) (A := A) c M Starve.
  Proof. intros cs b rest evs Hne HM [=]. Qed.

  (** A read of [n] bytes leaves less to read. *)
  Lemma ci_full {Ev A} c M n (k : bytes -> prog Ev A) : (forall b, ci c (M - Z.max 0 n) (k b)) -> ci c M (RFull n k).
  Proof.
    intros H cs a rest evs Hne HM. cbn [MReader.run SChunk.pads runc]. destruct (_ <? _) eqn:E; [easy|]. intros E1 Hp He.
    destruct (ctake_spec cs Hne n ltac:(lia)) as (cs' & R1 & R2 & R3). rewrite R1.
    apply H; try assumption; rewrite R2; try assumption.
    unfold zlen in *. rewrite skipn_length. lia.
  Qed.

  Lemma ci_one {Ev A} c0 M (p : prog Ev A) : one c0 p -> ci c0 M p.
  Proof.
    induction p; cbn [one]; intros Ho.
    - apply ci_ret.
    - apply ci_fail.
    - intros cs b rest evs Hne HM [=].
    - apply ci_starve.
    - apply ci_full. intros b. eapply ci_mono; [apply H, Ho|lia].
    - destruct Ho as (-> & -> & Ho). intros cs a rest evs Hne HM. cbn [MReader.run SChunk.pads runc].
      destruct cs as [|c cs]; [easy|]. cbn [concat] in *. inversion Hne as [|? ? Hc Hcs]; subst.
      destruct c as [|x c]; [contradiction|]. cbn [app].
      pose proof (zlen_nonneg c) as L0. pose proof (zlen_nonneg (c ++ concat cs)) as L1.
      assert (T : forall l, 0 <= zlen l -> ztake 1 (x :: l) = [x]).
      { intros l L. unfold ztake. rewrite zlen_cons. destruct (_ <=? _) eqn:E; [|reflexivity]. f_equal. apply zlen_0_nil. lia. }
      assert (D : forall l, 0 <= zlen l -> zdrop 1 (x :: l) = l).
      { intros l L. unfold zdrop. rewrite zlen_cons. destruct (_ <=? _) eqn:E; [|reflexivity]. symmetry. apply zlen_0_nil. lia. }
      rewrite !T, !D by assumption. intros E Hp He. inversion Hp as [|? ? _ Hp']; subst. cbv zeta.
      match goal with |- context [concat (if ?b then ?u else ?v)] => set (rs := if b then u else v) end.
      assert (R : concat rs = c ++ concat cs).
      { unfold rs. destruct (zlen (x :: c) <=? 1) eqn:E1; rewrite zlen_cons in E1; [|reflexivity]. assert (c = []) as -> by (apply zlen_0_nil; lia). reflexivity. }
      assert (HR : ne rs).
      { unfold rs. destruct (zlen (x :: c) <=? 1) eqn:E1; rewrite zlen_cons in E1; [assumption|]. constructor; [|assumption]. intros ->. cbn in E1. discriminate E1. }
      assert (eager && match concat rs with [] => true | _ => false end = false) as ->.
      { destruct eager; [|reflexivity]. rewrite R. apply run_rest in E; [|now apply He]. destruct (c ++ concat cs); [contradiction|reflexivity]. }
      rewrite <- R in *. eapply H; try eassumption; [apply Ho|]. cbn [app] in HM. rewrite zlen_cons in HM. rewrite R. lia.
    - intros cs a rest evs Hne HM. cbn [MReader.run SChunk.pads runc]. destruct (n <? 0) eqn:En; [now apply H|].
      destruct (zlen _ <? n) eqn:E; [easy|]. intros E1 Hp He.
      destruct (ctake_spec cs Hne n ltac:(lia)) as (cs' & R1 & R2 & R3). rewrite R1.
      apply (H n (Ho n)); try assumption; rewrite R2; try assumption. unfold zlen in *. rewrite skipn_length. lia.
    - intros cs a rest evs Hne HM. cbn [MReader.run SChunk.pads runc].
      destruct (inflate_ok _ _ _) as [[out c]|] eqn:Ei; [|easy]. intros E1 Hp He.
      assert (Hc : 0 <= c <= zlen (concat cs)).
      { unfold inflate_ok in Ei. destruct (inflate _ _) as [[o' c']|]; [|easy].
        destruct ((zlen o' =? want) && (0 <=? c') && (c' <=? zlen (ztake limit (concat cs)))) eqn:Ec; [|easy]. injection Ei as -> ->.
        rewrite ztake_zlen in Ec. lia. }
      destruct (ctake_spec cs Hne c ltac:(lia)) as (cs' & R1 & R2 & R3). rewrite R1.
      apply (H out c (Ho out c)); try assumption; rewrite R2; try assumption. unfold zlen in *. rewrite skipn_length. lia.
    - intros cs a rest evs Hne HM. cbn [MReader.run SChunk.pads runc]. destruct (run p (concat cs)) as [r e] eqn:E. intros [= -> <-] Hp He.
      destruct (IHp Ho cs a rest e Hne HM E Hp He) as (cs' & R1 & R2 & R3). exists cs'. now rewrite R1.
  Qed.

  (** * Skipping padding in front of the additional information *)

  (** Programs with the same reads and related results *)
  Fixpoint rel {Ev A B} (R : A -> B -> Prop) (p : prog Ev A) (q : prog Ev B) : Prop :=
    match p, q with
    | Ret a, Ret b => R a b
    | Fail e, Fail e' => e = e'
    | Crash, Crash => True
    | Starve, Starve => True
    | RFull n k, RFull n' k' => n = n' /\ forall b, rel R (k b) (k' b)
    | RSome n k, RSome n' k' => n = n' /\ forall b, rel R (k b) (k' b)
    | RDiscard n k, RDiscard n' k' => n = n' /\ forall b, rel R (k b) (k' b)
    | RZlib w l k, RZlib w' l' k' => w = w' /\ l = l' /\ forall b c, rel R (k b c) (k' b c)
    | Emit ev k, Emit ev' k' => ev = ev' /\ rel R k k'
    | _, _ => False
    end.
  Lemma rel_refl {Ev A} (p : prog Ev A) : rel eq p p.
  Proof. induction p; cbn; auto. Qed.
  Lemma rel_bind {Ev A B C D} (R : A -> B -> Prop) (S : C -> D -> Prop) (p : prog Ev A) : forall (q : prog Ev B) (f : A -> prog Ev C) (g : B -> prog Ev D),
    rel R p q -> (forall a b, R a b -> rel S (f a) (g b)) -> rel S (bind p f) (bind q g).
  Proof.
    induction p; intros q f g; destruct q; cbn [rel bind]; try easy; intros Hp Hf.
    - auto.
    - destruct Hp as [-> Hp]. split; [reflexivity|]. intros x. eapply H; eauto.
    - destruct Hp as [-> Hp]. split; [reflexivity|]. intros x. eapply H; eauto.
    - destruct Hp as [-> Hp]. split; [reflexivity|]. intros x. eapply H; eauto.
    - destruct Hp as (-> & -> & Hp). split; [reflexivity|]. split; [reflexivity|]. intros x y. eapply H; eauto.
    - destruct Hp as [-> Hp]. split; [reflexivity|]. eapply IHp; eauto.
  Qed.
  Lemma rel_same {Ev A C D} (S : C -> D -> Prop) (p : prog Ev A) (f : A -> prog Ev C) (g : A -> prog Ev D) :
    (forall a, rel S (f a) (g a)) -> rel S (bind p f) (bind p g).
  Proof. intros H. eapply rel_bind; [apply rel_refl|]. intros a ? <-. apply H. Qed.
  Lemma rel_run {Ev A B} (R : A -> B -> Prop) (p : prog Ev A) : forall (q : prog Ev B) s a rest evs, rel R p q ->
    run p s = (Ok (a, rest), evs) -> exists b, run q s = (Ok (b, rest), evs) /\ R a b /\ pads q s = pads p s.
  Proof.
    induction p; intros q s a0 rest evs; destruct q; cbn [rel]; try easy; intros Hr; cbn [MReader.run SChunk.pads]; try easy.
    - intros [= <- <- <-]. eauto.
    - destruct Hr as [<- Hr]. destruct (_ <? _); [easy|]. intros E. eapply H; eauto.
    - destruct Hr as [<- Hr]. destruct s as [|x s]; [easy|]. intros E. destruct (H _ _ _ _ _ _ (Hr _) E) as (b & E1 & E2 & E3).
      exists b. rewrite E3. auto.
    - destruct Hr as [<- Hr]. destruct (_ <? _); [intros E; eapply H; eauto|]. destruct (_ <? _); [easy|]. intros E. eapply H; eauto.
    - destruct Hr as (<- & <- & Hr). destruct (inflate_ok _ _ _) as [[out c]|]; [|easy]. intros E. eapply H; eauto.
    - destruct Hr as [<- Hr]. destruct (run p s) as [r e] eqn:E. intros [= -> <-].
      destruct (IHp _ _ _ _ _ Hr E) as (b & E1 & E2 & E3). exists b. now rewrite E1.
  Qed.

  Definition shifted (d : Z) (x y : bool * Z) : Prop := fst y = fst x /\ snd y = snd x + d.
  Lemma scan_shift d fuel : forall N r, rel (shifted d) (scan_sig fuel N r) (scan_sig fuel (N + d) (r + d)).
  Proof.
    induction fuel as [|fuel IH]; intros N r; cbn [scan_sig]; replace (r + d <? N + d) with (r <? N) by lia;
      destruct (r <? N); try (split; reflexivity).
    apply rel_same. intros b. apply rel_same. intros c. destruct (c =? 56); [split; cbn; [reflexivity|lia]|].
    replace (r + d + 1) with (r + 1 + d) by lia. apply IH.
  Qed.
  Lemma scan_fuel fuel : forall f N r s a rest evs, zlen s <= Z.of_nat f ->
    run (scan_sig fuel N r) s = (Ok (a, rest), evs) -> run (scan_sig f N r) s = (Ok (a, rest), evs).
  Proof.
    induction fuel as [|fuel IH]; intros f N r s a rest evs Hf; cbn [scan_sig]; destruct (r <? N) eqn:E.
    - easy.
    - destruct f; cbn [scan_sig]; rewrite E; auto.
    - unfold rfull, byte_of. cbn [bind]. destruct f as [|f].
      + cbn [MReader.run]. replace (zlen s <? 1) with true by lia. easy.
      + cbn [scan_sig]. rewrite E. unfold rfull, byte_of. cbn [bind MReader.run]. destruct (zlen s <? 1) eqn:E1; [easy|].
        destruct s as [|x s]; [cbn in E1; discriminate E1|]. change (Z.to_nat 1) with 1%nat. cbn [firstn skipn].
        change (idx [x] 0) with (Some x). cbn [lift bind]. destruct (x =? 56); [auto|]. apply IH. rewrite zlen_cons in Hf. lia.
    - destruct f; cbn [scan_sig]; rewrite E; auto.
  Qed.
  Lemma scan_pads fuel : forall N r s, pads (scan_sig fuel N r) s = [].
  Proof.
    induction fuel as [|fuel IH]; intros N r s; cbn [scan_sig]; destruct (r <? N) eqn:E; try reflexivity.
    unfold rfull, byte_of. cbn [bind SChunk.pads]. destruct (zlen s <? 1); [reflexivity|].
    destruct (idx _ 0) as [x|]; [|reflexivity]. cbn [lift bind]. destruct (x =? 56); [reflexivity|apply IH].
  Qed.
  Lemma scan_skip b : no8 b -> forall f N r s, r + zlen b <= N ->
    run (scan_sig (length b + f) N r) (b ++ s) = run (scan_sig f N (r + zlen b)) s.
  Proof.
    induction b as [|x b IH]; intros Hb f N r s HN; cbn [length app Nat.add].
    - now rewrite zlen_nil, Z.add_0_r.
    - rewrite zlen_cons in *. pose proof (zlen_nonneg b). cbn [scan_sig]. replace (r <? N) with true by lia.
      unfold rfull, byte_of. cbn [bind MReader.run]. rewrite zlen_cons. pose proof (zlen_nonneg (b ++ s)).
      replace (1 + zlen (b ++ s) <? 1) with false by lia. change (Z.to_nat 1) with 1%nat. cbn [firstn skipn].
      change (idx [x] 0) with (Some x). cbn [lift bind]. destruct (x =? 56) eqn:E.
      + destruct Hb. left. lia.
      + rewrite IH by (try lia; intros Hi; apply Hb; now right). f_equal. f_equal. lia.
  Qed.

  Section layers.
    Variable procs : nat.
    Variable cfg : config.
    Variable o : options.

    (** The part of a round of [readAdditional] after the search *)
    Definition addK (fuel : nat) (N : Z) (infos : infomap) (layers : list lrec) (found : bool) (rd : Z) : P (infomap * list lrec * Z) :=
      if negb found then if negb (N =? rd) then Fail ESizeMismatch else Ret (infos, layers, rd)
      else
        b <- rfull 7 ;;
        let sg := 56 :: firstn 3 b in
        if negb (list_eqb sg sig_8BIM) && negb (list_eqb sg sig_8B64) then Fail EInfoSignature else
        let rd := rd + 7 in
        let key := skipn 3 b in
        if is_layer_key key then
          ' (ls, l) <- readLayerInfo procs cfg o (fun n => readAdditional procs cfg o fuel n 0 [] []) ;;
          readAdditional procs cfg o fuel N (rd + l) infos (layers ++ match ls with Some ls => ls | None => [] end)
        else
          ' (data, l) <- read_info_data (psb cfg) key ;;
          readAdditional procs cfg o fuel N (rd + l) (m_set list_eqb infos key data) layers.
    Lemma add_unfold fuel N rd infos layers :
      readAdditional procs cfg o (S fuel) N rd infos layers =
      if rd <? N then bind (scan_sig (S fuel) N rd) (fun x => match x with (found, rd) => addK fuel N infos layers found rd end)
      else if negb (N =? rd) then Fail ESizeMismatch else Ret (infos, layers, rd).
    Proof. reflexivity. Qed.

    Definition shifted3 (d : Z) (x y : infomap * list lrec * Z) : Prop := fst y = fst x /\ snd y = snd x + d.
    Lemma addK_shift d fuel :
      (forall N r i l, rel (shifted3 d) (readAdditional procs cfg o fuel N r i l) (readAdditional procs cfg o fuel (N + d) (r + d) i l)) ->
      forall N i l found rd, rel (shifted3 d) (addK fuel N i l found rd) (addK fuel (N + d) i l found (rd + d)).
    Proof.
      intros IH N i l found rd. unfold addK. destruct (negb found).
      - replace (N + d =? rd + d) with (N =? rd) by lia. destruct (negb _); [reflexivity|split; reflexivity].
      - apply rel_same. intros b. cbv zeta. destruct (_ && _); [reflexivity|]. destruct (is_layer_key _); apply rel_same; intros [x n];
          replace (rd + d + 7 + n) with (rd + 7 + n + d) by lia; apply IH.
    Qed.
    Lemma add_shift d fuel : forall N r i l,
      rel (shifted3 d) (readAdditional procs cfg o fuel N r i l) (readAdditional procs cfg o fuel (N + d) (r + d) i l).
    Proof.
      induction fuel as [|fuel IH]; intros N r i l; [exact I|]. rewrite !add_unfold.
      replace (r + d <? N + d) with (r <? N) by lia. destruct (r <? N).
      - eapply rel_bind; [apply scan_shift|]. intros [f1 n1] [f2 n2] [H1 H2]. cbn [fst snd] in *. subst. now apply addK_shift.
      - replace (N + d =? r + d) with (N =? r) by lia. destruct (negb _); [reflexivity|split; reflexivity].
    Qed.

    Lemma add_skip fuel N b rest i l x rest' evs : 0 <= N -> no8 b -> zlen b + zlen rest <= Z.of_nat (S fuel) ->
      run (readAdditional procs cfg o (S fuel) N 0 [] []) rest = (Ok ((i, l, x), rest'), evs) ->
      run (readAdditional procs cfg o (S fuel) (N + zlen b) 0 [] []) (b ++ rest) = (Ok ((i, l, x + zlen b), rest'), evs) /\
      pads (readAdditional procs cfg o (S fuel) (N + zlen b) 0 [] []) (b ++ rest) = pads (readAdditional procs cfg o (S fuel) N 0 [] []) rest.
    Proof.
      intros HN Hb HM E. set (d := zlen b). pose proof (zlen_nonneg b) as Ld. pose proof (zlen_nonneg rest) as Lr. fold d in Ld, HM.
      destruct (Z.eq_dec d 0) as [D0|D0].
      { assert (b = []) as -> by (now apply zlen_0_nil). rewrite D0, !Z.add_0_r. auto. }
      rewrite !add_unfold in *. replace (0 <? N + d) with true by lia.
      assert (SK : forall f, (length b + f = S fuel)%nat -> run (scan_sig (S fuel) (N + d) 0) (b ++ rest) = run (scan_sig f (N + d) (0 + d)) rest).
      { intros f <-. apply scan_skip; [assumption|]. fold d. lia. }
      specialize (SK (S fuel - length b)%nat ltac:(unfold zlen in *; lia)).
      destruct (0 <? N) eqn:E0.
      - rewrite run_bind in E |- *. unfold run_next in E |- *.
        destruct (run (scan_sig (S fuel) N 0) rest) as [[[[found rd] s1]|e| |] ev1] eqn:E1; try easy.
        assert (E2 := E1). apply (scan_fuel _ (S fuel - length b)) in E2; [|unfold zlen in *; lia].
        destruct (rel_run _ _ _ _ _ _ _ (scan_shift d _ N 0) E2) as ([f2 rd2] & E3 & [H1 H2] & _). cbn [fst snd] in *. subst f2 rd2.
        rewrite SK, E3. rewrite (pads_bind _ _ _ _ _ _ E1), scan_pads.
        rewrite (pads_bind _ _ _ (found, rd + d) s1 ev1) by (rewrite SK; exact E3). rewrite scan_pads. cbn [app].
        destruct (run (addK fuel N [] [] found rd) s1) as [r4 ev4] eqn:E4. injection E as -> <-.
        destruct (rel_run _ _ _ _ _ _ _ (addK_shift d fuel (add_shift d fuel) N [] [] found rd) E4) as ([[i5 l5] x5] & E5 & [H1 H2] & H3).
        cbn [fst snd] in *. injection H1 as -> ->. subst x5. rewrite E5. auto.
      - assert (N = 0) by lia. subst N. cbn [Z.eqb negb MReader.run] in E. injection E as <- <- <- <- <-.
        assert (SC : run (scan_sig (S fuel) (0 + d) 0) (b ++ rest) = (Ok ((false, d), rest), [])).
        { rewrite SK. rewrite Z.add_0_l. destruct (S fuel - length b)%nat; cbn [scan_sig]; rewrite Z.ltb_irrefl; reflexivity. }
        rewrite (pads_bind _ _ _ _ _ _ SC), scan_pads. rewrite run_bind, SC. unfold run_next, addK. cbn [negb].
        rewrite Z.add_0_l, Z.eqb_refl. split; reflexivity.
    Qed.

    Section rec.
      Variable M : Z.
      Variable radd : Z -> P (infomap * list lrec * Z).
      Hypothesis Hci : forall n, ci true M (radd n).
      Hypothesis Hskip : forall N b rest i l x rest' evs, 0 <= N -> no8 b -> zlen b + zlen rest <= M ->
        run (radd N) rest = (Ok ((i, l, x), rest'), evs) ->
        run (radd (N + zlen b)) (b ++ rest) = (Ok ((i, l, x + zlen b), rest'), evs) /\ pads (radd (N + zlen b)) (b ++ rest) = pads (radd N) rest.
      Hypothesis Hzero : forall s, run (radd 0) s = (Ok (([], [], 0), s), []) /\ pads (radd 0) s = [].

      (** [readLayerExtraData] after the padding *)
      Definition extraK (m : mask) (name : bytes) (ln rd : Z) : P (mask * bytes * infomap * Z) :=
        ' (info, rd) <-
          (if rd <? ln + 4 then
             ' (info, layers, l) <- radd (ln + 4 - rd) ;;
             if 0 <? zlen layers then Fail ELayerStructure else Ret (info, rd + l)
           else Ret ([], rd)) ;;
        if negb (ln + 4 =? rd) then Fail ESizeMismatch else
        Ret (m, name, info, rd).

      Ltac co := apply ci_one; repeat ostep.
      Lemma ci_extraK m name ln rd : ci true M (extraK m name ln rd).
      Proof.
        unfold extraK. apply ci_bind.
        - destruct (_ <? _); [|apply ci_ret]. apply ci_bind; [apply Hci|]. intros [[i l] x]. co.
        - intros [i x]. co.
      Qed.

      Lemma extraK_ok m name ln rd s a rest evs : run (extraK m name ln rd) s = (Ok (a, rest), evs) ->
        exists i x, run (radd (ln + 4 - rd)) s = (Ok ((i, [], x), rest), evs) /\ rd <= ln + 4 /\ rd + x = ln + 4 /\ a = (m, name, i, ln + 4) /\
          pads (extraK m name ln rd) s = pads (radd (ln + 4 - rd)) s.
      Proof.
        unfold extraK. rewrite run_bind. unfold run_next. destruct (rd <? ln + 4) eqn:E.
        - rewrite run_bind. unfold run_next. destruct (run (radd (ln + 4 - rd)) s) as [[[[[i l] x] s1]|e| |] ev1] eqn:E1; try easy.
          destruct (0 <? zlen l) eqn:El; [easy|]. cbn [MReader.run]. destruct (negb (ln + 4 =? rd + x)) eqn:En; [easy|].
          cbn [MReader.run]. intros [= <- <- <-]. rewrite !app_nil_r.
          assert (l = []) as -> by (apply zlen_0_nil; pose proof (zlen_nonneg l); lia).
          exists i, x. split; [reflexivity|]. split; [lia|]. split; [lia|]. split; [f_equal; lia|].
          rewrite (pads_bind _ _ s (i, rd + x) s1 ev1).
          + rewrite (pads_bind _ _ _ _ _ _ E1). cbn [SChunk.pads]. change (0 <? zlen (@nil lrec)) with false. cbn [SChunk.pads]. rewrite En. cbn [SChunk.pads]. now rewrite !app_nil_r.
          + rewrite run_bind, E1. cbn [run_next MReader.run]. change (0 <? zlen (@nil lrec)) with false. cbn [MReader.run]. now rewrite app_nil_r.
        - cbn [MReader.run]. destruct (negb (ln + 4 =? rd)) eqn:En; [easy|]. cbn [MReader.run]. intros [= <- <- <-].
          replace (ln + 4 - rd) with 0 by lia. exists [], 0. destruct (Hzero s) as [Z1 Z2]. rewrite Z1, Z2.
          split; [reflexivity|]. split; [lia|]. split; [lia|]. split; [f_equal; lia|].
          cbn [bind SChunk.pads]. rewrite En. reflexivity.
      Qed.

      Lemma ci_pad m name ln rd l : ci true M (pad <- adjustAlign4 l ;; extraK m name ln (rd + l + pad)).
      Proof.
        unfold adjustAlign4. cbv zeta. destruct (0 <? Z.land l 3) eqn:Eg; [|cbn [bind]; apply ci_extraK].
        assert (G : 0 <= Z.land l 3 <= 3).
        { pose proof (Z.land_ones l 2 ltac:(lia)) as G. change (Z.ones 2) with 3 in G. change (2 ^ 2) with 4 in G. pose proof (Z.mod_pos_bound l 4). lia. }
        set (n := 4 - Z.land l 3). assert (Hn : 1 <= n) by lia. clearbody n. clear G Eg.
        intros cs a rest evs Hne HM. unfold rsome. cbn [bind MReader.run SChunk.pads runc].
        destruct cs as [|c t]; [easy|]. cbn [concat] in *. inversion Hne as [|? ? Hc Ht]; subst.
        destruct c as [|x c']; [contradiction|]. cbn [app]. cbv zeta. remember (x :: c') as c eqn:Ec.
        replace (x :: c' ++ concat t) with (c ++ concat t) by (subst c; reflexivity).
        intros E Hp He. inversion Hp as [|? ? Hb Hp']; subst.
        set (s := (x :: c') ++ concat t) in *. remember (x :: c') as c eqn:Ec.
        match goal with |- context [concat (if ?b then ?u else ?v)] => set (rs := if b then u else v) end.
        assert (Hrs : ne rs).
        { unfold rs. destruct (zlen c <=? n) eqn:E1; [assumption|]. constructor; [|assumption].
          intros E2. apply (f_equal zlen) in E2. rewrite (zdrop_zlen inflate n c) in E2 by exact (Z.le_trans _ _ _ Z.le_0_1 Hn). change (zlen (@nil Z)) with 0 in E2. lia. }
        assert (Hs : exists b2, ztake n s = ztake n c ++ b2 /\ concat rs = b2 ++ zdrop n s).
        { unfold rs, s, ztake, zdrop. rewrite zlen_app. pose proof (zlen_nonneg (concat t)). destruct (zlen c <=? n) eqn:E1.
          - destruct (zlen c + zlen (concat t) <=? n) eqn:E2.
            + exists (concat t). now rewrite app_nil_r.
            + exists (firstn (Z.to_nat n - length c) (concat t)). rewrite firstn_app, skipn_app, firstn_all2, (skipn_all2 c) by (unfold zlen in *; lia).
              split; [reflexivity|]. cbn [app]. symmetry. apply firstn_skipn.
          - replace (zlen c + zlen (concat t) <=? n) with false by lia. exists []. rewrite app_nil_r. cbn [app concat].
            rewrite firstn_app, skipn_app. replace (Z.to_nat n - length c)%nat with O by (unfold zlen in *; lia). cbn [firstn skipn]. now rewrite app_nil_r. }
        destruct Hs as (b2 & Hb2 & Hr).
        assert (eager && match concat rs with [] => true | _ => false end = false) as ->.
        { destruct eager; [|reflexivity]. apply run_rest in E; [|now apply He]. rewrite Hr. destruct (b2 ++ zdrop n s) eqn:E3; [|reflexivity].
          apply app_eq_nil in E3 as [_ E3]. contradiction. }
        assert (L : zlen (ztake n s) = zlen (ztake n c) + zlen b2) by (rewrite Hb2; apply zlen_app).
        assert (N2 : no8 b2) by (intros Hi; apply Hb; rewrite Hb2; apply in_or_app; now right).
        destruct (extraK_ok _ _ _ _ _ _ _ _ E) as (i & x1 & R1 & R2 & R3 & -> & R4).
        set (rp := rd + l + zlen (ztake n c)). rewrite R4 in Hp'.
        assert (M2 : zlen b2 + zlen (zdrop n s) <= M).
        { assert (zlen (ztake n c) + (zlen b2 + zlen (zdrop n s)) = zlen s).
          { pose proof (f_equal zlen (ztake_zdrop n s)) as X. rewrite Hb2, !zlen_app in X. lia. }
          pose proof (zlen_nonneg (ztake n c)). unfold s in *. lia. }
        destruct (Hskip (ln + 4 - (rd + l + zlen (ztake n s))) b2 _ _ _ _ _ _ ltac:(lia) N2 M2 R1) as [S1 S2].
        replace (ln + 4 - (rd + l + zlen (ztake n s)) + zlen b2) with (ln + 4 - rp) in S1, S2 by (unfold rp; lia).
        rewrite <- Hr in S1, S2. rewrite <- S2 in Hp'. pose proof (zlen_nonneg b2) as Lb.
        assert (EK : run (extraK m name ln rp) (concat rs) = (Ok ((m, name, i, ln + 4), rest), evs) /\
          pads (extraK m name ln rp) (concat rs) = pads (radd (ln + 4 - rp)) (concat rs)).
        { assert (X : run (extraK m name ln rp) (concat rs) = (Ok ((m, name, i, ln + 4), rest), evs)).
          { unfold extraK. rewrite run_bind. unfold run_next. destruct (rp <? ln + 4) eqn:E5.
            - rewrite run_bind, S1. cbn [run_next]. change (0 <? zlen (@nil lrec)) with false. cbn [MReader.run].
              replace (rp + (x1 + zlen b2)) with (ln + 4) by (unfold rp; lia). rewrite Z.eqb_refl. cbn [negb MReader.run]. now rewrite !app_nil_r.
            - assert (ln + 4 = rp) by (unfold rp in *; lia). replace (ln + 4 - rp) with 0 in S1 by lia. destruct (Hzero (concat rs)) as [Z1 _].
              rewrite Z1 in S1. injection S1 as <- _ <- <-. cbn [MReader.run]. replace (ln + 4 =? rp) with true by lia. cbn [negb MReader.run app]. congruence. }
          split; [exact X|]. destruct (extraK_ok _ _ _ _ _ _ _ _ X) as (? & ? & _ & _ & _ & _ & X2). exact X2. }
        destruct EK as [EK1 EK2]. eapply ci_extraK; try eassumption.
        - rewrite Hr, zlen_app. exact M2.
        - rewrite EK2. exact Hp'.
      Qed.

      Lemma ci_extra : ci true M (readLayerExtraData radd).
      Proof.
        unfold readLayerExtraData. apply ci_bind; [co|]. intros b. apply ci_bind; [co|]. intros ln.
        destruct (ln =? 0); [apply ci_ret|]. apply ci_bind; [apply ci_one, one_readLayerMask|]. intros [m l].
        apply ci_bind; [co|]. intros b'. apply ci_bind; [co|]. intros br. apply ci_bind; [co|]. intros l'.
        apply ci_bind; [apply ci_one, one_readPascalString|]. intros [name l2]. apply (ci_pad m name ln (4 + l + 4 + l') l2).
      Qed.
      Lemma ci_record i : ci true M (read_record cfg radd i).
      Proof.
        unfold read_record. apply ci_bind; [co|]. intros b. apply ci_bind; [apply ci_one, one_rect_signed|]. intros r.
        apply ci_bind; [co|]. intros b'. apply ci_bind; [co|]. intros nch. apply ci_bind; [apply ci_one, one_chdata|]. intros cds.
        apply ci_bind; [co|]. intros b2. destruct (negb _); [apply ci_fail|].
        apply ci_bind; [co|]. intros op. apply ci_bind; [co|]. intros cl. apply ci_bind; [co|]. intros fl.
        apply ci_bind; [apply ci_extra|]. intros [[[m mb] inf] l]. co.
      Qed.
      Lemma ci_records k : forall i, ci true M (read_records cfg radd i k).
      Proof.
        induction k as [|k IH]; intros i; cbn [read_records]; [apply ci_ret|].
        apply ci_bind; [apply ci_record|]. intros [[l cds] c]. apply ci_bind; [apply IH|]. intros [rest c']. apply ci_ret.
      Qed.
      Lemma ci_layer_info : ci true M (readLayerInfo procs cfg o radd).
      Proof.
        unfold readLayerInfo. apply ci_bind; [co|]. intros b. apply ci_bind; [co|]. intros v. cbv zeta.
        destruct (_ =? 0); [apply ci_ret|]. apply ci_bind; [co|]. intros b'. apply ci_bind; [co|]. intros v'.
        apply ci_bind; [apply ci_records|]. intros [recs c]. apply ci_bind; [|intros [ls rd]; co].
        destruct (o_skip_layer o); [apply ci_ret|]. apply ci_bind; [apply ci_one, one_image|]. intros [ls c']. apply ci_ret.
      Qed.
    End rec.

    Lemma ci_neg {Ev A} c M (p : prog Ev A) : M < 0 -> ci c M p.
    Proof. intros HM cs a rest evs _ H. pose proof (zlen_nonneg (concat cs)). lia. Qed.

    Lemma add_zero fuel s : run (readAdditional procs cfg o (S fuel) 0 0 [] []) s = (Ok (([], [], 0), s), []) /\
      pads (readAdditional procs cfg o (S fuel) 0 0 [] []) s = [].
    Proof. split; reflexivity. Qed.

    Lemma ci_add fuel : forall N r i l, ci true (Z.of_nat fuel) (readAdditional procs cfg o fuel N r i l).
    Proof.
      induction fuel as [|fuel IH]; intros N r i l; [apply ci_starve|]. rewrite add_unfold.
      destruct (_ <? _); [|apply ci_one; repeat ostep].
      apply ci_bind; [apply ci_one, one_scan_sig|]. intros [found rd]. unfold addK.
      destruct (negb found); [apply ci_one; repeat ostep|]. unfold rfull. cbn [bind].
      apply ci_full. intros b. cbv zeta. destruct (_ && _); [apply ci_fail|].
      destruct fuel as [|fuel]; [apply ci_neg; lia|]. apply ci_mono with (M' := Z.of_nat (S fuel)); [|lia].
      destruct (is_layer_key _).
      - apply ci_bind; [|intros [ls n]; apply IH]. apply ci_layer_info.
        + intros n. apply IH.
        + intros. now apply add_skip.
        + intros s. apply add_zero.
      - apply ci_bind; [apply ci_one, one_info_data|]. intros [data n]. apply IH.
    Qed.

    Lemma ci_section fuel : ci true (Z.of_nat (S fuel)) (readLayerAndMaskInfo procs cfg o (S fuel)).
    Proof.
      unfold readLayerAndMaskInfo. apply ci_bind; [apply ci_one; repeat ostep|]. intros b.
      apply ci_bind; [apply ci_one; repeat ostep|]. intros v. cbv zeta. destruct (_ =? 0); [apply ci_ret|].
      apply ci_bind.
      { destruct (_ <? _); [|apply ci_ret]. apply ci_bind; [|intros [ls n]; apply ci_ret]. apply ci_layer_info.
        - intros n. apply ci_add.
        - intros. now apply add_skip.
        - intros s. apply add_zero. }
      intros [ls rd]. apply ci_bind; [apply ci_one; repeat ostep|]. intros rd2. apply ci_bind.
      { destruct (_ <=? _); [|apply ci_ret]. apply ci_bind; [apply ci_add|]. intros [[i l2] n]. apply ci_one. repeat ostep. }
      intros [[i l2] n]. apply ci_one. repeat ostep.
    Qed.
  End layers.

  Lemma ci_decode fuel procs o : ci (o_skip_merged o) (Z.of_nat (S fuel)) (decode_prog (S fuel) procs o).
  Proof.
    unfold decode_prog. destruct (o_skip_merged o).
    - apply ci_bind; [apply ci_one, one_decodeConfig|]. intros [cfg l]. destruct (o_config_loaded o cfg); [apply ci_fail|].
      apply ci_bind; [apply ci_section|]. intros [[tree info] l2]. apply ci_ret.
    - apply ci_then; [apply ci_one, one_decodeConfig| |].
      + intros [cfg l]. destruct (o_config_loaded o cfg); [apply ci_fail|].
        apply ci_then; [apply ci_section| |].
        * intros [[tree info] l2]. apply ci_bind; [apply ci_one, one_merged|]. intros [[[d chm] pk] l3]. apply ci_ret.
        * intros [[tree info] l2] b rest evs. unfold decode_merged. rewrite !run_bind. unfold make_ok. destruct (_ || _); [easy|].
          cbn [bind MReader.run run_next]. destruct (findGrayPicker _) as [gk|]; [|easy]. cbn [lift bind MReader.run].
          destruct (makePicker cfg) as [k|e| |]; try easy. cbn [of_outcome bind MReader.run].
          destruct (setSource _ _ _) as [pk|]; [|easy]. cbn [lift bind MReader.run run_next rfull]. easy.
      + intros [cfg l] b rest evs. destruct (o_config_loaded o cfg); [easy|]. unfold readLayerAndMaskInfo, rfull, intSize, get4or8.
        destruct (psb cfg); cbn [bind MReader.run]; easy.
  Qed.

  (** Programs that only read single bytes do not notice the chunks. *)
  Lemma one_chunks {Ev A} c (p : prog Ev A) : one c p -> forall cs, ne cs -> run_chunks inflate false p cs = run p (concat cs).
  Proof.
    assert (CT : forall n cs, ne cs -> zlen (concat cs) < n -> ctake n cs = None).
    { intros n cs Hne. revert n. induction Hne as [|c0 cs Hc Hcs IH]; intros n Hn; cbn [ctake concat] in *.
      - unfold zlen in Hn; cbn in Hn. now replace (n <=? 0) with false by lia.
      - rewrite zlen_app in Hn. pose proof (zlen_nonneg c0). pose proof (zlen_nonneg (concat cs)).
        replace (n <=? 0) with false by lia. replace (zlen c0 <=? n) with true by lia. now rewrite IH by lia. }
    induction p; cbn [one]; intros Ho cs Hne; cbn [run_chunks MReader.run]; try reflexivity.
    - destruct (zlen (concat cs) <? n) eqn:E; [rewrite CT by (assumption || lia); reflexivity|].
      destruct (ctake_spec cs Hne n ltac:(lia)) as (cs' & R1 & R2 & R3). rewrite R1, <- R2. auto.
    - destruct Ho as (_ & -> & Ho). destruct cs as [|c0 cs]; [reflexivity|]. inversion Hne as [|? ? Hc Hcs]; subst. cbn [andb concat]. cbv zeta.
      destruct c0 as [|x c0]; [contradiction|]. cbn [app].
      pose proof (zlen_nonneg c0) as L0. pose proof (zlen_nonneg (c0 ++ concat cs)) as L1.
      assert (T : forall l, 0 <= zlen l -> ztake 1 (x :: l) = [x]).
      { intros l L. unfold ztake. rewrite zlen_cons. destruct (_ <=? _) eqn:E; [|reflexivity]. f_equal. apply zlen_0_nil. lia. }
      assert (D : forall l, 0 <= zlen l -> zdrop 1 (x :: l) = l).
      { intros l L. unfold zdrop. rewrite zlen_cons. destruct (_ <=? _) eqn:E; [|reflexivity]. symmetry. apply zlen_0_nil. lia. }
      rewrite !T, !D by assumption. rewrite H; [|apply Ho|].
      + f_equal. destruct (zlen (x :: c0) <=? 1) eqn:E1; [|reflexivity]. rewrite zlen_cons in E1.
        assert (c0 = []) as -> by (apply zlen_0_nil; lia). reflexivity.
      + destruct (zlen (x :: c0) <=? 1) eqn:E1; [assumption|]. constructor; [|assumption]. intros ->. discriminate E1.
    - destruct (n <? 0) eqn:En; [auto|]. destruct (zlen (concat cs) <? n) eqn:E; [rewrite CT by (assumption || lia); reflexivity|].
      destruct (ctake_spec cs Hne n ltac:(lia)) as (cs' & R1 & R2 & R3). rewrite R1, <- R2. auto.
    - destruct (inflate_ok _ _ _) as [[out m]|] eqn:Ei; [|reflexivity].
      assert (Hc : 0 <= m <= zlen (concat cs)).
      { unfold inflate_ok in Ei. destruct (inflate _ _) as [[o' c']|]; [|easy].
        destruct ((zlen o' =? want) && (0 <=? c') && (c' <=? zlen (ztake limit (concat cs)))) eqn:Ec; [|easy]. injection Ei as -> ->.
        rewrite ztake_zlen in Ec. lia. }
      destruct (ctake_spec cs Hne m ltac:(lia)) as (cs' & R1 & R2 & R3). rewrite R1, <- R2. auto.
    - now rewrite IHp.
  Qed.
End chunks.

Lemma decode_chunks inflate eager procs o s cs f n rest evs : splits cs s ->
  Decode inflate Plain procs o s = (Ok (f, n, rest), evs) ->
  Forall no8 (pads inflate (decode_prog (fuel_for s) procs o) s) ->
  (eager = true -> o_skip_merged o = true -> rest <> []) ->
  Decode_chunks inflate eager procs o cs = (Ok (f, n, rest), evs).
Proof.
  intros [<- Hne] E Hp He. unfold Decode, Decode_chunks, fuel_for in *.
  destruct (ci_decode inflate eager (length (concat cs)) procs o cs (f, n) rest evs Hne) as (cs' & R1 & R2 & R3); auto.
  { unfold zlen. lia. }
  rewrite (runc_chunks _ _ _ _ _ _ _ R1). now rewrite R2.
Qed.

Lemma config_chunks inflate s cs : splits cs s ->
  fst (run_chunks (Ev := Empty_set) inflate false (decodeConfig_prog (fuel_for s)) cs) = DecodeConfig inflate Plain s.
Proof.
  intros [<- Hne]. unfold DecodeConfig. now rewrite (one_chunks inflate true _ (one_decodeConfig _) cs Hne).
Qed.
