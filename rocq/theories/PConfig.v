From Verif Require Import Base BaseFacts MUtil SUtil PUtil MRect MReader PReader MPicker MConfig SConfig.

(** * Tactics for weakest preconditions *)

Lemma readUint16_no_none b o (cr : Prop) : 0 <= o -> o + 1 < zlen b -> readUint16 b o = None -> cr.
Proof. intros. destruct (readUint16_total b o) as [v E]; congruence || lia. Qed.
Lemma readUint32_no_none b o (cr : Prop) : 0 <= o -> o + 3 < zlen b -> readUint32 b o = None -> cr.
Proof. intros. destruct (readUint32_total b o) as [v E]; congruence || lia. Qed.
Lemma idx_no_none (b : bytes) o (cr : Prop) : 0 <= o < zlen b -> idx b o = None -> cr.
Proof. intros. destruct (idx_in b o) as [v E]; congruence || lia. Qed.

Ltac no_none :=
  solve [ apply readUint16_no_none; lia | apply readUint32_no_none; lia | apply idx_no_none; lia ].

Ltac wpif E := match goal with |- wp _ (if ?c then _ else _) _ _ _ => destruct c eqn:E end.

Lemma i16_range x : -32768 <= i16 x < 32768.
Proof. unfold i16. pose proof (Z.mod_pos_bound (x + 32768) 65536). lia. Qed.

Section config.
  Context {Ev : Type}.
  Notation P := (prog Ev).
  Implicit Types tr : list Ev.

  Lemma wp_adjustAlign2 cr l n tr (Q : Z -> Z -> list Ev -> Prop) :
    (forall c, 0 <= c <= 1 -> c <= n \/ c = 0 -> Q c (n - c) tr) -> wp cr (adjustAlign2 l) n tr Q.
  Proof.
    intros H. unfold adjustAlign2. destruct (Z.land l 1 =? 0).
    - cbn. replace n with (n - 0) by lia. apply H; lia.
    - apply wp_bind. apply wp_rsome; [lia|]. intros b Hb H1 H2. cbn. apply H; lia.
  Qed.

  Lemma wp_adjustAlign4 cr l n tr (Q : Z -> Z -> list Ev -> Prop) :
    (forall c, 0 <= c <= 3 -> c <= n \/ c = 0 -> Q c (n - c) tr) -> wp cr (adjustAlign4 l) n tr Q.
  Proof.
    intros H. unfold adjustAlign4.
    assert (0 <= Z.land l 3 < 4).
    { change 3 with (Z.ones 2). rewrite Z.land_ones by lia. apply Z.mod_pos_bound; lia. }
    destruct (0 <? Z.land l 3) eqn:E.
    - apply wp_bind. apply wp_rsome; [lia|]. intros b Hb H1 H2. cbn. apply H; lia.
    - cbn. replace n with (n - 0) by lia. apply H; lia.
  Qed.

  Lemma wp_readPascalString cr n tr (Q : bytes * Z -> Z -> list Ev -> Prop) :
    (forall s, bytes_ok s -> zlen s <= 255 -> zlen s + 1 <= n -> Q (s, zlen s + 1) (n - (zlen s + 1)) tr) ->
    wp cr readPascalString n tr Q.
  Proof.
    intros H. unfold readPascalString. apply wp_bind, wp_rfull; [lia|]. intros Hn b Hb Hl.
    apply wp_bind, wp_lift; [no_none|]. intros v Hv.
    pose proof (bytes_ok_idx _ _ _ Hb Hv).
    destruct (v =? 0) eqn:E.
    - cbn. specialize (H [] (Forall_nil _)). rewrite zlen_nil in H.
      apply H; lia.
    - apply wp_bind, wp_rfull; [lia|]. intros Hn' s Hs Hls. cbn. rewrite Hls.
      replace (n - 1 - v) with (n - (zlen s + 1)) by lia. rewrite <- Hls. apply H; [easy|lia|lia].
  Qed.

  (** The resource loop: no panic, no lack of fuel, exact count. *)
  Lemma wp_resource_loop cr fuel : forall ln rd m n tr (Q : resmap * Z -> Z -> list Ev -> Prop),
    0 <= n < 11 * Z.of_nat fuel + 11 ->
    (forall m' rd' n', 0 <= n' -> rd' - rd = n - n' -> rd <= rd' -> Q (m', rd') n' tr) ->
    wp cr (resource_loop (S fuel) ln rd m) n tr Q.
  Proof.
    induction fuel as [|fuel IH]; intros ln rd m n tr Q Hn HQ; cbn [resource_loop].
    all: destruct (rd <? ln) eqn:E; [|cbn; apply HQ; lia].
    all: apply wp_bind, wp_rfull; [lia|]; intros H6 b Hb Hl.
    all: destruct (negb (res_sig_ok (firstn 4 b))); [exact I|].
    all: apply wp_bind, wp_lift; [no_none|]; intros id Hid.
    all: apply wp_bind, wp_readPascalString; intros nm Hnm Hnml Hnmn.
    all: pose proof (zlen_nonneg nm).
    all: apply wp_bind, wp_adjustAlign2; intros c Hc Hc'.
    all: apply wp_bind, wp_rfull; [lia|]; intros H4 b2 Hb2 Hl2.
    all: apply wp_bind, wp_lift; [no_none|]; intros ln2 Hln2; apply readUint32_range in Hln2; [|easy].
    all: apply wp_bind, wp_rfull; [lia|]; intros Hd d Hbd Hld.
    all: apply wp_bind, wp_adjustAlign2; intros c2 Hc2 Hc2'.
    - exfalso; lia.
    - apply IH; [lia|]. intros m' rd' n' H1 H2 H3. apply HQ; lia.
  Qed.

  Lemma wp_readImageResource cr fuel n tr (Q : resmap * Z -> Z -> list Ev -> Prop) :
    0 <= n < Z.of_nat fuel ->
    (forall m' rd' n', 0 <= n' -> rd' = n - n' -> Q (m', rd') n' tr) ->
    wp cr (readImageResource fuel) n tr Q.
  Proof.
    intros Hn HQ. unfold readImageResource. apply wp_bind, wp_rfull; [lia|]; intros H4 b Hb Hl.
    apply wp_bind, wp_lift; [no_none|]; intros ln Hln.
    destruct (ln =? 0); [cbn; apply HQ; lia|].
    destruct fuel; [lia|]. apply wp_resource_loop; [lia|].
    intros m' rd' n' H1 H2 H3. apply HQ; lia.
  Qed.

  Definition config_ok (c : config) : Prop :=
    exists w h, cfg_rect c = Rct 0 0 w h /\ (cfg_version c = 1 \/ cfg_version c = 2) /\
      1 <= cfg_channels c <= 56 /\
      1 <= w <= dim_limit (cfg_version c) /\ 1 <= h <= dim_limit (cfg_version c) /\
      (cfg_depth c = 1 \/ cfg_depth c = 8 \/ cfg_depth c = 16 \/ cfg_depth c = 32) /\
      -32768 <= cfg_mode c < 32768 /\ bytes_ok (cfg_cmd c).

  Lemma wp_decodeConfig cr fuel n tr (Q : config * Z -> Z -> list Ev -> Prop) :
    0 <= n < Z.of_nat fuel ->
    (forall c rd n', config_ok c -> 0 <= n' -> rd = n - n' -> Q (c, rd) n' tr) ->
    wp cr (decodeConfig_prog fuel) n tr Q.
  Proof.
    intros Hn HQ. unfold decodeConfig_prog.
    apply wp_bind, wp_rfull; [lia|]; intros H30 b Hb Hl.
    destruct (negb (list_eqb (firstn 4 b) sig_8BPS)); [exact I|].
    apply wp_bind, wp_lift; [no_none|]; intros ver Hver.
    destruct (negb (ver =? 1) && negb (ver =? 2)) eqn:Ever; [exact I|].
    apply wp_bind, wp_lift; [no_none|]; intros chs Hchs.
    destruct ((chs <? 1) || (56 <? chs)) eqn:Echs; [exact I|].
    apply wp_bind, wp_lift; [no_none|]; intros w Hw.
    apply wp_bind, wp_lift; [no_none|]; intros h Hh.
    wpif Eh; [exact I|].
    wpif Ew; [exact I|].
    apply wp_bind, wp_lift; [no_none|]; intros d Hd.
    wpif Ed; [exact I|].
    apply wp_bind, wp_lift; [no_none|]; intros md Hmd.
    apply wp_bind, wp_lift; [no_none|]; intros ln Hln.
    apply readUint32_range in Hln; [|easy].
    assert (forall cmd n', bytes_ok cmd -> 0 <= n' -> n' = n - 30 - zlen cmd ->
      wp cr (' (res, l) <- readImageResource fuel ;;
        Ret (Cfg ver (mkRect 0 0 w h) chs d (i16 md) cmd res, 30 + zlen cmd + l)) n' tr Q) as K.
    { intros cmd n' Hcmd Hn' En'. apply wp_bind. pose proof (zlen_nonneg cmd).
      apply wp_readImageResource; [lia|].
      intros m' rd' n2 H1 H2. cbn. apply HQ; [|lia|lia].
      exists w, h. cbn. unfold mkRect, dim_limit.
      rewrite !Z.min_l, !Z.max_r by lia.
      destruct (ver =? 1) eqn:V; repeat split; try lia; try easy; apply i16_range. }
    apply wp_bind. destruct (0 <? ln) eqn:Eln.
    - apply wp_rfull; [lia|]. intros Hln2 cmd Hcmd Hlc. apply K; [easy|lia|lia].
    - cbn [wp]. apply K; [constructor|lia|]. rewrite zlen_nil; lia.
  Qed.
End config.
