(** Round trip of header, colour mode data and image resources. *)
From Verif Require Import Base BaseFacts MUtil SUtil PUtil MRect MReader PReader MPicker MConfig MLayer MApi SConfig PConfig.

Lemma land1_even l : Z.land l 1 = if Z.even l then 0 else 1.
Proof.
  change 1 with (Z.ones 1) at 1. rewrite Z.land_ones by lia. change (2 ^ 1) with 2.
  rewrite Zmod_even. reflexivity.
Qed.

Lemma readUint16_be0 v post : 0 <= v < 65536 -> readUint16 (be 2 v ++ post) 0 = Some v.
Proof. intros. apply (readUint16_be [] post v 0); auto. Qed.
Lemma readUint32_be0 v post : 0 <= v < 4294967296 -> readUint32 (be 4 v ++ post) 0 = Some v.
Proof. intros. apply (readUint32_be [] post v 0); auto. Qed.
Lemma readUint32_be_nil v : 0 <= v < 4294967296 -> readUint32 (be 4 v) 0 = Some v.
Proof. intros. rewrite <- (app_nil_r (be 4 v)). apply readUint32_be0; auto. Qed.

Section config.
  Variable inflate : bytes -> Z -> option (bytes * Z).
  Context {Ev : Type}.
  Notation parses := (@parses inflate Ev _).

  Lemma parses_adjustAlign2 l pad : parses (adjustAlign2 l) (pad_even l pad) (zlen (pad_even l pad)).
  Proof.
    unfold adjustAlign2, pad_even. rewrite land1_even. destruct (Z.even l).
    - apply parses_ret.
    - replace (1 =? 0) with false by lia.
      replace [pad] with ([pad] ++ []) at 1 by reflexivity.
      eapply parses_bind; [apply parses_rsome; [reflexivity|lia]|]. apply parses_ret.
  Qed.

  Lemma parses_pascal s : zlen s <= 255 -> parses readPascalString (zlen s :: s) (s, zlen s + 1).
  Proof.
    intros Hs. unfold readPascalString. change (zlen s :: s) with ([zlen s] ++ s).
    eapply parses_bind; [apply parses_rfull; reflexivity|].
    eapply parses_bind0; [apply parses_lift; reflexivity|].
    pose proof (zlen_nonneg s).
    destruct (zlen s =? 0) eqn:E.
    - assert (s = []) as -> by (apply zlen_0_nil; lia). apply parses_ret.
    - replace s with (s ++ []) at 2 by apply app_nil_r.
      eapply parses_bind; [apply parses_rfull; reflexivity|]. apply parses_ret.
  Qed.

  Lemma known_sig_ok s : known_sig s -> zlen s = 4 /\ res_sig_ok s = true.
  Proof. unfold known_sig. cbn [In]. intros [<-|[<-|[<-|[<-|[<-|[]]]]]]; split; reflexivity. Qed.

  Lemma enc_rblock_zlen b : rblock_valid b ->
    zlen (enc_rblock b) = 6 + (zlen (rb_name b) + 1) + zlen (pad_even (zlen (rb_name b) + 1) (rb_npad b)) + 4 +
      zlen (rb_data b) + zlen (pad_even (zlen (rb_data b)) (rb_dpad b)).
  Proof.
    intros (Hs & _). apply known_sig_ok in Hs as [Hs _].
    unfold enc_rblock. rewrite !zlen_app, !zlen_be, zlen_cons, Hs. lia.
  Qed.
  Lemma pad_even_zlen n p : zlen (pad_even n p) = n mod 2.
  Proof. unfold pad_even. rewrite Zmod_even. destruct (Z.even n); reflexivity. Qed.

  Lemma enc_rblock_min b : rblock_valid b -> 12 <= zlen (enc_rblock b).
  Proof.
    intros H. rewrite enc_rblock_zlen by easy. rewrite !pad_even_zlen.
    pose proof (zlen_nonneg (rb_name b)). pose proof (zlen_nonneg (rb_data b)).
    assert (1 <= zlen (rb_name b) + (zlen (rb_name b) + 1) mod 2) by lia.
    assert (0 <= zlen (rb_data b) mod 2) by lia. lia.
  Qed.

  Lemma parses_if_false {A} (c : bool) (p q : prog Ev A) e a :
    c = false -> parses q e a -> parses (if c then p else q) e a.
  Proof. intros ->; auto. Qed.
  Lemma parses_if_true {A} (c : bool) (p q : prog Ev A) e a :
    c = true -> parses p e a -> parses (if c then p else q) e a.
  Proof. intros ->; auto. Qed.

  (** The map after the loop. *)
  Definition add_block (m : resmap) (b : rblock) : resmap :=
    m_set Z.eqb m (rb_id b) (Res (rb_name b) (rb_data b)).

  Lemma parses_resource_loop bs : forall fuel ln rd m,
    Forall rblock_valid bs -> (length bs <= fuel)%nat ->
    (bs <> [] -> rd < ln + 4) -> rd + zlen (enc_rblocks bs) = ln + 4 -> 4 <= rd ->
    parses (resource_loop fuel ln rd m) (enc_rblocks bs) (fold_left add_block bs m, ln + 4).
  Proof.
    induction bs as [|b bs IH]; intros fuel ln rd m Hv Hf Hne Hrd H4.
    - cbn [enc_rblocks flat_map fold_left] in *. rewrite zlen_nil in Hrd.
      destruct fuel; cbn [resource_loop]; replace (rd <? ln) with false by lia;
        replace rd with (ln + 4) by lia; apply parses_ret.
    - inversion Hv as [|? ? Hb Hbs]; subst.
      destruct fuel as [|fuel]; [cbn in Hf; lia|].
      cbn [enc_rblocks flat_map fold_left length] in *. fold (enc_rblocks bs) in *.
      rewrite zlen_app in Hrd.
      pose proof (enc_rblock_min b Hb) as H12. pose proof (enc_rblock_zlen b Hb) as Lb.
      pose proof (zlen_nonneg (enc_rblocks bs)).
      cbn [resource_loop]. apply parses_if_true; [lia|].
      pose proof Hb as (Hs & Hid & Hn & Hd). apply known_sig_ok in Hs as [Hs4 Hs].
      unfold enc_rblock at 1. rewrite !app_assoc. rewrite <- !app_assoc.
      rewrite (app_assoc (rb_sig b)).
      eapply parses_bind; [apply parses_rfull; rewrite zlen_app, zlen_be; lia|].
      apply parses_if_false.
      { rewrite firstn_app_exact by (unfold zlen in *; lia). now rewrite Hs. }
      eapply parses_bind0.
      { apply parses_lift. rewrite <- (app_nil_r (be 2 (rb_id b))). apply readUint16_be; lia. }
      eapply parses_bind; [apply parses_pascal; lia|]. cbn beta iota.
      eapply parses_bind; [apply parses_adjustAlign2|].
      eapply parses_bind; [apply parses_rfull; apply zlen_be|].
      pose proof (zlen_nonneg (rb_data b)).
      eapply parses_bind0; [apply parses_lift, readUint32_be_nil; lia|].
      eapply parses_bind; [apply parses_rfull; reflexivity|].
      eapply parses_bind; [apply parses_adjustAlign2|].
      assert (bs <> [] \/ bs = []) as Hc by (destruct bs; [right|left]; congruence).
      apply IH; [easy | lia | | lia | rewrite !pad_even_zlen in *; pose proof (zlen_nonneg (rb_name b)); lia].
      intros Hc'. destruct bs as [|b2 bs2]; [congruence|].
      inversion Hbs; subst. cbn [enc_rblocks flat_map] in *.
      pose proof (enc_rblock_min b2 ltac:(easy)).
      rewrite zlen_app in Hrd. fold (enc_rblocks bs2) in Hrd. pose proof (zlen_nonneg (enc_rblocks bs2)).
      lia.
  Qed.

  Lemma fold_add_block bs : forall m id,
    m_get Z.eqb (fold_left add_block bs m) id =
    match last_res bs id with Some r => Some r | None => m_get Z.eqb m id end.
  Proof.
    induction bs as [|b bs IH]; intros m id; [reflexivity|].
    cbn [fold_left last_res]. rewrite IH. destruct (last_res bs id); [reflexivity|].
    unfold add_block. rewrite m_get_set by (intros; apply Z.eqb_eq).
    destruct (rb_id b =? id); reflexivity.
  Qed.
End config.

(** * The whole configuration *)

Section whole.
  Variable inflate : bytes -> Z -> option (bytes * Z).
  Context {Ev : Type}.
  Notation parses := (@parses inflate Ev _).

  Lemma signed16_i16 v : 0 <= v < 65536 -> i16 v = signed16 v.
  Proof.
    intros. unfold i16, signed16. destruct (v <? 32768) eqn:E.
    - rewrite Z.mod_small; lia.
    - replace (v + 32768) with (v - 32768 + 1 * 65536) by lia.
      rewrite Z.mod_add by lia. rewrite Z.mod_small; lia.
  Qed.

  Lemma enc_header_zlen h r : zlen r = 6 -> zlen (enc_header h r) = 26.
  Proof. intros. unfold enc_header. rewrite !zlen_app, !zlen_be. unfold zlen at 1. cbn [length]. lia. Qed.

  Definition config_of (h : header) (cmd : bytes) (bs : list rblock) : config :=
    Cfg (h_version h) (Rct 0 0 (h_width h) (h_height h)) (h_channels h) (h_depth h)
        (signed16 (h_mode h)) cmd (fold_left add_block bs []).

  Lemma enc_rblocks_length bs : Forall rblock_valid bs -> 12 * zlen bs <= zlen (enc_rblocks bs).
  Proof.
    induction 1 as [|b bs Hb Hbs IH]; [unfold zlen; cbn; lia|].
    cbn [enc_rblocks flat_map]. rewrite zlen_app, zlen_cons. fold (enc_rblocks bs).
    pose proof (enc_rblock_min inflate b Hb). lia.
  Qed.

  Lemma parses_readImageResource fuel bs :
    Forall rblock_valid bs -> zlen (enc_rblocks bs) < 4294967296 -> (length bs <= fuel)%nat ->
    parses (readImageResource fuel) (enc_resources bs)
      (fold_left add_block bs [], zlen (enc_resources bs)).
  Proof.
    intros Hv Hl Hf. unfold readImageResource, enc_resources, enc_block.
    pose proof (zlen_nonneg (enc_rblocks bs)).
    eapply parses_bind; [apply parses_rfull, zlen_be|].
    eapply parses_bind0; [apply parses_lift, readUint32_be_nil; lia|].
    rewrite zlen_app, zlen_be.
    destruct (zlen (enc_rblocks bs) =? 0) eqn:E.
    - pose proof (enc_rblocks_length bs Hv). pose proof (zlen_nonneg bs).
      assert (bs = []) as -> by (apply zlen_0_nil; lia). cbn. apply parses_ret.
    - replace (Z.of_nat 4 + zlen (enc_rblocks bs)) with (zlen (enc_rblocks bs) + 4) by lia.
      apply parses_resource_loop; auto; try lia.
  Qed.

  Lemma header_fields h rsv ln : header_valid h -> zlen rsv = 6 -> 0 <= ln < 4294967296 ->
    let b := enc_header h rsv ++ be 4 ln in
    firstn 4 b = sig_8BPS /\ readUint16 b 4 = Some (h_version h) /\ readUint16 b 12 = Some (h_channels h) /\
    readUint32 b 14 = Some (h_height h) /\ readUint32 b 18 = Some (h_width h) /\
    readUint16 b 22 = Some (h_depth h) /\ readUint16 b 24 = Some (h_mode h) /\ readUint32 b 26 = Some ln.
  Proof.
    intros (Hver & Hch & Hw & Hh & Hd & Hm) Hr Hl b.
    assert (Hdim : dim_limit (h_version h) <= 300000) by (unfold dim_limit; destruct (h_version h =? 1); lia).
    assert (Hb4 : firstn 4 b = sig_8BPS) by reflexivity.
    assert (Ev1 : readUint16 b 4 = Some (h_version h)).
    { unfold b, enc_header. rewrite <- !app_assoc.
      apply (readUint16_be [56; 66; 80; 83]); [reflexivity|lia]. }
    assert (Ev2 : readUint16 b 12 = Some (h_channels h)).
    { unfold b, enc_header. rewrite <- !app_assoc. rewrite (app_assoc (be 2 (h_version h))), (app_assoc [56;66;80;83]).
      apply readUint16_be; [rewrite !zlen_app, zlen_be, Hr; reflexivity|lia]. }
    assert (Ev3 : readUint32 b 14 = Some (h_height h)).
    { unfold b, enc_header. rewrite <- !app_assoc.
      rewrite (app_assoc rsv), (app_assoc (be 2 (h_version h))), (app_assoc [56;66;80;83]).
      apply readUint32_be; [rewrite !zlen_app, !zlen_be, Hr; reflexivity|lia]. }
    assert (Ev4 : readUint32 b 18 = Some (h_width h)).
    { unfold b, enc_header. rewrite <- !app_assoc.
      rewrite (app_assoc (be 2 (h_channels h))), (app_assoc rsv), (app_assoc (be 2 (h_version h))), (app_assoc [56;66;80;83]).
      apply readUint32_be; [rewrite !zlen_app, !zlen_be, Hr; reflexivity|lia]. }
    assert (Ev5 : readUint16 b 22 = Some (h_depth h)).
    { unfold b, enc_header. rewrite <- !app_assoc.
      rewrite (app_assoc (be 4 (h_height h))), (app_assoc (be 2 (h_channels h))), (app_assoc rsv), (app_assoc (be 2 (h_version h))), (app_assoc [56;66;80;83]).
      apply readUint16_be; [rewrite !zlen_app, !zlen_be, Hr; reflexivity|lia]. }
    assert (Ev6 : readUint16 b 24 = Some (h_mode h)).
    { unfold b, enc_header. rewrite <- !app_assoc.
      rewrite (app_assoc (be 4 (h_width h))), (app_assoc (be 4 (h_height h))), (app_assoc (be 2 (h_channels h))), (app_assoc rsv), (app_assoc (be 2 (h_version h))), (app_assoc [56;66;80;83]).
      apply readUint16_be; [rewrite !zlen_app, !zlen_be, Hr; reflexivity|lia]. }
    assert (Ev7 : readUint32 b 26 = Some ln).
    { unfold b. rewrite <- (app_nil_r (be 4 ln)).
      apply readUint32_be; [now rewrite enc_header_zlen|lia]. }
    repeat apply conj; assumption.
  Qed.

  Lemma parses_decodeConfig fuel h rsv cmd bs :
    header_valid h -> zlen rsv = 6 -> zlen cmd < 4294967296 ->
    Forall rblock_valid bs -> zlen (enc_rblocks bs) < 4294967296 -> (length bs <= fuel)%nat ->
    parses (decodeConfig_prog fuel) (enc_config h rsv cmd bs)
      (config_of h cmd bs, zlen (enc_config h rsv cmd bs)).
  Proof.
    intros Hhv Hr Hc Hbs Hbl Hf. pose proof Hhv as (Hver & Hch & Hw & Hh & Hd & Hm).
    unfold decodeConfig_prog, enc_config, enc_block.
    pose proof (zlen_nonneg cmd).
    rewrite <- app_assoc, app_assoc.
    eapply parses_bind; [apply parses_rfull; rewrite zlen_app, zlen_be, enc_header_zlen by easy; lia|].
    set (b := enc_header h rsv ++ be 4 (zlen cmd)).
    assert (Hdim : dim_limit (h_version h) <= 300000) by (unfold dim_limit; destruct (h_version h =? 1); lia).
    destruct (header_fields h rsv (zlen cmd)) as (Hb4 & Ev1 & Ev2 & Ev3 & Ev4 & Ev5 & Ev6 & Ev7); auto.
    fold b in Hb4, Ev1, Ev2, Ev3, Ev4, Ev5, Ev6, Ev7.
    rewrite Hb4. apply parses_if_false; [reflexivity|].
    eapply parses_bind0; [apply parses_lift; exact Ev1|].
    apply parses_if_false; [lia|].
    eapply parses_bind0; [apply parses_lift; exact Ev2|].
    apply parses_if_false; [lia|].
    eapply parses_bind0; [apply parses_lift; exact Ev4|].
    eapply parses_bind0; [apply parses_lift; exact Ev3|].
    unfold dim_limit in Hw, Hh.
    apply parses_if_false; [destruct (h_version h =? 1) eqn:?; lia|].
    apply parses_if_false; [destruct (h_version h =? 1) eqn:?; lia|].
    eapply parses_bind0; [apply parses_lift; exact Ev5|].
    apply parses_if_false; [lia|].
    eapply parses_bind0; [apply parses_lift; exact Ev6|].
    eapply parses_bind0; [apply parses_lift; exact Ev7|].
    eapply parses_bind.
    { instantiate (1 := cmd). destruct (0 <? zlen cmd) eqn:E.
      - apply parses_rfull; reflexivity.
      - assert (cmd = []) as -> by (apply zlen_0_nil; lia). apply parses_ret. }
    replace (enc_resources bs) with (enc_resources bs ++ []) at 1 by apply app_nil_r.
    eapply parses_bind; [apply parses_readImageResource; auto|]. cbn beta iota.
    replace (Cfg _ _ _ _ _ _ _, _) with
      (config_of h cmd bs, zlen (b ++ cmd ++ enc_resources bs)); [apply parses_ret|].
    unfold config_of, mkRect. rewrite !Z.min_l, !Z.max_r, signed16_i16 by (try lia; destruct (h_version h =? 1); lia).
    f_equal. unfold b. rewrite !zlen_app, zlen_be, enc_header_zlen by easy. lia.
  Qed.

  Lemma config_of_res h cmd bs id :
    m_get Z.eqb (cfg_res (config_of h cmd bs)) id = last_res bs id.
  Proof. cbn. rewrite fold_add_block. now destruct (last_res bs id). Qed.
End whole.

(** * Soundness of the header checks *)

Lemma be2_eq x y : is_byte x -> is_byte y -> be 2 (x * 256 + y) = [x; y].
Proof.
  unfold is_byte; intros. cbn [be]. change (256 ^ Z.of_nat 1) with 256. change (256 ^ Z.of_nat 0) with 1.
  f_equal; [|f_equal]; lia.
Qed.
Lemma be4_eq x y z w : is_byte x -> is_byte y -> is_byte z -> is_byte w ->
  be 4 (((x * 256 + y) * 256 + z) * 256 + w) = [x; y; z; w].
Proof.
  unfold is_byte; intros. cbn [be].
  change (256 ^ Z.of_nat 3) with 16777216. change (256 ^ Z.of_nat 2) with 65536.
  change (256 ^ Z.of_nat 1) with 256. change (256 ^ Z.of_nat 0) with 1.
  f_equal; [|f_equal; [|f_equal; [|f_equal]]]; lia.
Qed.

Lemma run_lift inflate {Ev A B} kind (x : option A) (f : A -> prog Ev B) s :
  run inflate kind (bind (lift x) f) s =
  match x with Some a => run inflate kind (f a) s | None => (Panic, []) end.
Proof. destruct x; reflexivity. Qed.

Ltac eval_idx :=
  repeat match goal with
  | |- context [idx ?l ?i] => let v := eval vm_compute in (idx l i) in change (idx l i) with v
  end; cbn beta iota.

Lemma header_sound inflate {Ev} kind fuel s c n s' (evs : list Ev) :
  bytes_ok s ->
  run inflate kind (decodeConfig_prog fuel) s = (Ok ((c, n), s'), evs) ->
  exists h rsv rest, header_valid h /\ zlen rsv = 6 /\ s = enc_header h rsv ++ rest /\
    cfg_version c = h_version h /\ cfg_channels c = h_channels h /\
    cfg_rect c = Rct 0 0 (h_width h) (h_height h) /\ cfg_depth c = h_depth h /\
    cfg_mode c = signed16 (h_mode h).
Proof.
  intros Hs. unfold decodeConfig_prog, rfull. cbn [bind run].
  destruct (zlen s <? 30) eqn:L; [easy|].
  do 30 (destruct s as [|? s]; [discriminate|]).
  change (Z.to_nat 30) with 30%nat. cbn [firstn skipn].
  unfold bytes_ok in Hs.
  repeat match goal with H : Forall is_byte (_ :: _) |- _ =>
    let H1 := fresh "B" in let H2 := fresh "Hs" in inversion H as [|? ? H1 H2]; clear H; subst end.
  destruct (negb (list_eqb _ sig_8BPS)) eqn:Esig; [easy|].
  unfold sig_8BPS in Esig. cbn [list_eqb] in Esig.
  unfold readUint16, readUint32. eval_idx.
  rewrite !lor3 by easy. rewrite !lor_shift by (try lia; easy). change (2 ^ 8) with 256.
  cbn [lift bind].
  match goal with |- context [if ?c then _ else _] => destruct c eqn:Ever; [easy|] end.
  match goal with |- context [if ?c then _ else _] => destruct c eqn:Ech; [easy|] end.
  match goal with |- context [if ?c then _ else _] => destruct c eqn:Eh; [easy|] end.
  match goal with |- context [if ?c then _ else _] => destruct c eqn:Ew; [easy|] end.
  match goal with |- context [if ?c then _ else _] => destruct c eqn:Ed; [easy|] end.
  rewrite run_bind.
  match goal with |- context [run_next _ _ _ ?x] => destruct x as [[[cmd s1]|?| |] ev1] end; cbn [run_next]; try easy.
  rewrite run_bind.
  match goal with |- context [run_next _ _ _ ?x] => destruct x as [[[[res l1] s2]|?| |] ev2] end; cbn [run_next]; try easy.
  cbn [run]. intros R. injection R as <- <- <- <-.
  match goal with |- context [Cfg ?v (mkRect 0 0 ?w ?h) ?ch ?d (i16 ?m) _ _] =>
    exists (Header v ch w h d m) end.
  exists [z5; z6; z7; z8; z9; z10], (z25 :: z26 :: z27 :: z28 :: s).
  cbn [cfg_version cfg_channels cfg_rect cfg_depth cfg_mode h_version h_channels h_width h_height h_depth h_mode].
  clear L. set (ver := z3 * 256 + z4) in *. set (ch := z11 * 256 + z12) in *.
  set (w := ((z17 * 256 + z18) * 256 + z19) * 256 + z20) in *.
  set (h := ((z13 * 256 + z14) * 256 + z15) * 256 + z16) in *.
  set (d := z21 * 256 + z22) in *. set (md := z23 * 256 + z24) in *.
  assert (Hm : 0 <= md < 65536) by (unfold md, is_byte in *; lia).
  split; [|repeat apply conj].
  - clearbody ver ch w h d md.
    unfold header_valid; repeat apply conj; cbn [h_version h_channels h_width h_height h_depth h_mode]; unfold dim_limit;
      try destruct (ver =? 1) eqn:?; lia.
  - reflexivity.
  - unfold enc_header. cbn [h_version h_channels h_width h_height h_depth h_mode].
    unfold ver, ch, w, h, d, md. rewrite !be2_eq, !be4_eq by easy. cbn [app].
    assert (z = 56 /\ z0 = 66 /\ z1 = 80 /\ z2 = 83) as (-> & -> & -> & ->) by lia. reflexivity.
  - reflexivity.
  - reflexivity.
  - clearbody ver w h. unfold mkRect. rewrite !Z.min_l, !Z.max_r by lia. reflexivity.
  - reflexivity.
  - apply signed16_i16; easy.
Qed.

(** * Runs of DecodeConfig *)

Section api.
  Variable inflate : bytes -> Z -> option (bytes * Z).

  Lemma nodisc_adjustAlign2 {Ev} l : nodisc (Ev := Ev) (adjustAlign2 l).
  Proof. unfold adjustAlign2. destruct (Z.land l 1 =? 0); cbn; auto. Qed.
  Lemma nodisc_lift {Ev A} (x : option A) : nodisc (Ev := Ev) (lift x).
  Proof. destruct x; cbn; auto. Qed.
  Lemma nodisc_pascal {Ev} : nodisc (Ev := Ev) readPascalString.
  Proof.
    unfold readPascalString. cbn. intros b. apply nodisc_bind; [apply nodisc_lift|].
    intros v. destruct (v =? 0); cbn; auto.
  Qed.
  Lemma nodisc_resource_loop {Ev} fuel : forall ln rd m, nodisc (Ev := Ev) (resource_loop fuel ln rd m).
  Proof.
    induction fuel as [|fuel IH]; intros ln rd m; cbn [resource_loop]; destruct (rd <? ln); try exact I.
    cbn [rfull bind nodisc]. intros b. destruct (negb (res_sig_ok (firstn 4 b))); [exact I|].
    apply nodisc_bind; [apply nodisc_lift|]. intros id.
    apply nodisc_bind; [apply nodisc_pascal|]. intros [nm l1].
    apply nodisc_bind; [apply nodisc_adjustAlign2|]. intros l2.
    cbn [rfull bind nodisc]. intros b2. apply nodisc_bind; [apply nodisc_lift|]. intros n. cbn [bind nodisc]. intros d.
    apply nodisc_bind; [apply nodisc_adjustAlign2|]. intros l3. apply IH.
  Qed.
  Lemma nodisc_readImageResource {Ev} fuel : nodisc (Ev := Ev) (readImageResource fuel).
  Proof.
    unfold readImageResource; cbn [rfull bind nodisc]. intros b. apply nodisc_bind; [apply nodisc_lift|]. intros ln.
    destruct (ln =? 0); [exact I|]. apply nodisc_resource_loop.
  Qed.
  Lemma nodisc_decodeConfig {Ev} fuel : nodisc (Ev := Ev) (decodeConfig_prog fuel).
  Proof.
    unfold decodeConfig_prog; cbn [rfull bind nodisc]. intros b.
    destruct (negb (list_eqb (firstn 4 b) sig_8BPS)); [exact I|].
    apply nodisc_bind; [apply nodisc_lift|]. intros ver.
    match goal with |- nodisc (if ?c then _ else _) => destruct c; [exact I|] end.
    apply nodisc_bind; [apply nodisc_lift|]. intros ch.
    match goal with |- nodisc (if ?c then _ else _) => destruct c; [exact I|] end.
    apply nodisc_bind; [apply nodisc_lift|]. intros w.
    apply nodisc_bind; [apply nodisc_lift|]. intros h.
    match goal with |- nodisc (if ?c then _ else _) => destruct c; [exact I|] end.
    match goal with |- nodisc (if ?c then _ else _) => destruct c; [exact I|] end.
    apply nodisc_bind; [apply nodisc_lift|]. intros d.
    match goal with |- nodisc (if ?c then _ else _) => destruct c; [exact I|] end.
    apply nodisc_bind; [apply nodisc_lift|]. intros md.
    apply nodisc_bind; [apply nodisc_lift|]. intros ln.
    apply nodisc_bind; [destruct (0 <? ln); cbn; auto|]. intros cmd.
    apply nodisc_bind; [apply nodisc_readImageResource|]. intros [res l]. exact I.
  Qed.

  Lemma fails_resource_loop {Ev} fuel : forall ln rd m,
    fails (Ev := Ev) (fun e => e = EResSignature) (resource_loop fuel ln rd m).
  Proof.
    induction fuel as [|fuel IH]; intros ln rd m; cbn [resource_loop]; destruct (rd <? ln); try exact I.
    cbn [rfull bind fails]. intros b. destruct (negb (res_sig_ok (firstn 4 b))); [reflexivity|].
    apply fails_bind; [apply fails_lift|]. intros id.
    apply fails_bind; [|intros [nm l1]].
    { unfold readPascalString. cbn. intros c. apply fails_bind; [apply fails_lift|].
      intros v. destruct (v =? 0); cbn; auto. }
    apply fails_bind; [unfold adjustAlign2; destruct (Z.land l1 1 =? 0); cbn; auto|]. intros l2.
    cbn [rfull bind fails]. intros b2. apply fails_bind; [apply fails_lift|]. intros n. cbn [rfull bind fails]. intros d.
    apply fails_bind; [unfold adjustAlign2; destruct (Z.land _ 1 =? 0); cbn; auto|]. intros l3. apply IH.
  Qed.
  Lemma fails_readImageResource {Ev} fuel :
    fails (Ev := Ev) (fun e => e = EResSignature) (readImageResource fuel).
  Proof.
    unfold readImageResource; cbn [rfull bind fails]. intros b. apply fails_bind; [apply fails_lift|]. intros ln.
    destruct (ln =? 0); [exact I|]. apply fails_resource_loop.
  Qed.

  (** C01. *)
  Lemma decodeConfig_total kind s : bytes_ok s ->
    match DecodeConfig inflate kind s with
    | Ok (c, n, rest) => exists pre, s = pre ++ rest /\ n = zlen pre
    | Err _ => True
    | Panic | NoFuel => False
    end.
  Proof.
    intros Hs. unfold DecodeConfig.
    pose proof (wp_run inflate (Ev := Empty_set) False kind (decodeConfig_prog (fuel_for s))
      (fun x n' _ => snd x = zlen s - n') s [] Hs) as W.
    assert (wp (Ev := Empty_set) False (decodeConfig_prog (fuel_for s)) (zlen s) []
      (fun x n' _ => snd x = zlen s - n')) as W0.
    { apply wp_decodeConfig; [unfold fuel_for, zlen; lia|]. intros c rd n' _ _ H. exact H. }
    specialize (W W0).
    destruct (run inflate kind _ s) as [[[[c n] rest]|e| |] evs]; cbn [fst]; auto.
    destruct W as [H [pre ->]]. exists pre. split; [easy|]. cbn in H. rewrite zlen_app in H. lia.
  Qed.

  Lemma decodeConfig_readers kind kind' s :
    DecodeConfig inflate kind s = DecodeConfig inflate kind' s /\
    same_outcome s (DecodeConfig inflate kind s) (DecodeConfig_seek inflate s).
  Proof.
    unfold DecodeConfig, DecodeConfig_seek. split.
    - now rewrite (nodisc_kind inflate _ (nodisc_decodeConfig _) kind kind').
    - destruct (nodisc_seek inflate (decodeConfig_prog (Ev := Empty_set) (fuel_for s)) s
        (nodisc_decodeConfig _) kind 0) as [H _].
      { pose proof (zlen_nonneg s); lia. }
      replace (zdrop 0 s) with s in H; [exact H|].
      unfold zdrop. destruct (zlen s <=? 0) eqn:E; [|reflexivity].
      apply zlen_0_nil. pose proof (zlen_nonneg s); lia.
  Qed.

  Lemma decodeConfig_readers_full kind kind' s :
    DecodeConfig inflate kind s = DecodeConfig inflate kind' s /\
    match DecodeConfig inflate kind s, DecodeConfig_seek inflate s with
    | Ok (c, n, rest), Ok (c', n', pos) => c' = c /\ n' = n /\ 0 <= pos <= zlen s /\ rest = zdrop pos s
    | Err e, Err e' => e' = e
    | Panic, Panic => True
    | NoFuel, NoFuel => True
    | _, _ => False
    end.
  Proof.
    destruct (decodeConfig_readers kind kind' s) as [H1 H2]. split; [exact H1|].
    unfold same_outcome in H2.
    destruct (DecodeConfig inflate kind s) as [[[c n] rest]| | |], (DecodeConfig_seek inflate s) as [[[c' n'] pos]| | |]; auto.
    destruct H2 as (H2 & H3 & H4). injection H2 as -> ->. auto.
  Qed.

  (** C02. *)
  Lemma decodeConfig_sound kind s c n rest : bytes_ok s ->
    DecodeConfig inflate kind s = Ok (c, n, rest) ->
    exists h rsv rest', header_valid h /\ zlen rsv = 6 /\ s = enc_header h rsv ++ rest' /\
      cfg_version c = h_version h /\ cfg_channels c = h_channels h /\
      cfg_rect c = Rct 0 0 (h_width h) (h_height h) /\ cfg_depth c = h_depth h /\
      cfg_mode c = signed16 (h_mode h).
  Proof.
    intros Hs H. unfold DecodeConfig in H.
    destruct (run inflate kind _ s) as [r evs] eqn:R. cbn [fst] in H. subst r.
    eapply header_sound; eauto.
  Qed.

  (** A valid header is never refused. *)
  Lemma decodeConfig_accepts kind h rsv ln rest :
    header_valid h -> zlen rsv = 6 -> 0 <= ln < 4294967296 ->
    match DecodeConfig inflate kind (enc_header h rsv ++ be 4 ln ++ rest) with
    | Err e => io_error e \/ e = EResSignature
    | Panic | NoFuel => True
    | Ok (c, _, _) =>
      cfg_version c = h_version h /\ cfg_channels c = h_channels h /\
      cfg_rect c = Rct 0 0 (h_width h) (h_height h) /\ cfg_depth c = h_depth h /\
      cfg_mode c = signed16 (h_mode h)
    end.
  Proof.
    intros Hh Hr Hl. pose proof Hh as (Hver & Hch & Hw & Hhh & Hd & Hm).
    unfold DecodeConfig. set (fuel := fuel_for _). clearbody fuel.
    unfold decodeConfig_prog, rfull. cbn [bind run].
    assert (L : zlen (enc_header h rsv ++ be 4 ln) = 30) by (rewrite zlen_app, zlen_be, enc_header_zlen by easy; reflexivity).
    rewrite app_assoc. rewrite zlen_app, L. pose proof (zlen_nonneg rest).
    replace (30 + zlen rest <? 30) with false by lia.
    rewrite firstn_app_exact, skipn_app_exact by (unfold zlen in L; lia).
    destruct (header_fields inflate h rsv ln) as (Hb4 & Ev1 & Ev2 & Ev3 & Ev4 & Ev5 & Ev6 & Ev7); auto.
    set (b := enc_header h rsv ++ be 4 ln) in *. clearbody b.
    rewrite Hb4, Ev1, Ev2, Ev3, Ev4, Ev5, Ev6, Ev7. cbn [lift bind].
    assert (Hdim : dim_limit (h_version h) <= 300000) by (unfold dim_limit; destruct (h_version h =? 1); lia).
    unfold dim_limit in Hw, Hhh.
    change (negb (list_eqb sig_8BPS sig_8BPS)) with false. cbn iota.
    replace (negb (h_version h =? 1) && negb (h_version h =? 2)) with false by lia.
    replace ((h_channels h <? 1) || (56 <? h_channels h)) with false by lia.
    replace ((h_height h <? 1) || _ || _) with false by (destruct (h_version h =? 1) eqn:?; lia).
    replace ((h_width h <? 1) || _ || _) with false by (destruct (h_version h =? 1) eqn:?; lia).
    replace (negb (h_depth h =? 1) && _ && _ && _) with false by lia.
    rewrite run_bind.
    match goal with |- context [run inflate kind ?p rest] => pose proof (run_fails inflate kind p rest (fun e => e = EResSignature)) as F end.
    match goal with |- context [run_next _ _ _ ?x] => destruct x as [[[cmd s1]|?| |] ev1] end; cbn [run_next fst]; try easy.
    2:{ destruct F as [F|F]; auto. destruct (0 <? ln); cbn; auto. }
    clear F. rewrite run_bind.
    match goal with |- context [run inflate kind ?p s1] => pose proof (run_fails inflate kind p s1 (fun e => e = EResSignature)) as F end.
    match goal with |- context [run_next _ _ _ ?x] => destruct x as [[[[res l1] s2]|?| |] ev2] end; cbn [run_next fst]; try easy.
    2:{ destruct F as [F|F]; auto. apply fails_readImageResource. }
    cbn [run fst]. cbn [cfg_version cfg_channels cfg_rect cfg_depth cfg_mode].
    repeat apply conj; auto.
    - unfold mkRect. rewrite !Z.min_l, !Z.max_r by (destruct (h_version h =? 1); lia). reflexivity.
    - now apply signed16_i16.
  Qed.

  (** C03. *)
  Lemma decodeConfig_roundtrip kind h rsv cmd bs rest :
    header_valid h -> zlen rsv = 6 -> zlen cmd < 4294967296 ->
    Forall rblock_valid bs -> zlen (enc_rblocks bs) < 4294967296 ->
    exists c, DecodeConfig inflate kind (enc_config h rsv cmd bs ++ rest) =
        Ok (c, zlen (enc_config h rsv cmd bs), rest) /\
      cfg_version c = h_version h /\ cfg_rect c = Rct 0 0 (h_width h) (h_height h) /\
      cfg_channels c = h_channels h /\ cfg_depth c = h_depth h /\
      cfg_mode c = signed16 (h_mode h) /\ cfg_cmd c = cmd /\
      forall id, m_get Z.eqb (cfg_res c) id = last_res bs id.
  Proof.
    intros Hh Hr Hc Hb Hl. exists (config_of h cmd bs). split.
    - unfold DecodeConfig. rewrite parses_decodeConfig; auto.
      pose proof (enc_rblocks_length inflate bs Hb). unfold fuel_for, enc_config, enc_resources, enc_block.
      rewrite !app_length. unfold zlen in *. lia.
    - repeat (split; [reflexivity|]). apply config_of_res.
  Qed.

  (** C04. *)
  Lemma readImageResource_exact (Ev : Type) kind bs rest :
    Forall rblock_valid bs -> zlen (enc_rblocks bs) < 4294967296 ->
    exists m, run (Ev := Ev) inflate kind (readImageResource (fuel_for (enc_resources bs ++ rest)))
      (enc_resources bs ++ rest) = (Ok ((m, 4 + zlen (enc_rblocks bs)), rest), []) /\
      forall id, m_get Z.eqb m id = last_res bs id.
  Proof.
    intros Hb Hl. eexists. split; [|intros; exact (config_of_res (Header 0 0 0 0 0 0) [] bs id)].
    cbn [cfg_res config_of]. rewrite parses_readImageResource; auto.
    - unfold enc_resources at 1, enc_block. rewrite zlen_app, zlen_be. reflexivity.
    - pose proof (enc_rblocks_length inflate bs Hb). unfold fuel_for, enc_resources, enc_block.
      rewrite !app_length. unfold zlen in *. lia.
  Qed.
End api.
