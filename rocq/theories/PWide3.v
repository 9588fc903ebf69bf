(** The Add mode of the fallback for arbitrary images saturates. *)
From Verif Require Import Base BaseFacts MBlend SBlend PBlend PBlend2 PLum PWide PWide2.
Open Scope Z_scope.

Lemma u64_small x : 0 <= x < 18446744073709551616 -> u64 x = x.
Proof. intros H. unfold u64. apply Z.mod_small. exact H. Qed.

(** A channel of the result: the sum of the colours, saturated, times alpha. *)
Definition outAdd (a1 a2 a3 sc dc : Z) : Z :=
  let a := a1 + a2 + a3 in Z.min 65535 ((sc * a2 + dc * a3) / 65535 + (sc + dc) * a1 / a) * a / 65535.

Lemma blendF_add ma s d : 0 <= ma <= 65535 -> premul_ok 65535 s -> premul_ok 65535 d ->
  let t := pa s * ma / 65535 in let da := pa d in
  let a1 := w1 65535 t da in let a2 := w2 65535 t da in let a3 := w3 65535 t da in
  let out c := outAdd a1 a2 a3 (unm true (pa s) (c s)) (unm true (pa d) (c d)) in
  let p := Px (out pr) (out pg) (out pb) (wa 65535 t da) in
  let o := if (ma =? 0) || (wa 65535 t da =? 0) then None else Some p in
  blendF machine Add ma s d = Some o /\ blendF ideal Add ma s d = Some o /\ (forall q, o = Some q -> premul_ok 65535 q).
Proof.
  intros Hma Hs Hd t da' a1 a2 a3 out p o.
  pose proof (unm3_inF s Hs) as S3. pose proof (unm3_inF d Hd) as D3. cbn [unm3 triple_in] in S3, D3.
  unfold premul_ok in Hs, Hd.
  destruct (unmul3_eq true (pa s) (pr s) (pg s) (pb s)) as (S1 & S2 & _); [lia|lia|].
  destruct (unmul3_eq true (pa d) (pr d) (pg d) (pb d)) as (D1 & D2 & _); [lia|lia|]. unfold unm3 in S1, S2, D1, D2.
  assert (0 <= pa s * ma <= 4294836225) as Pt by nia.
  assert (0 <= t <= 65535) as Ht by (unfold t; lia).
  assert (forall ar, ar = machine \/ ar = ideal -> mul ar (pa s) ma / 65535 = t) as T.
  { intros ar [-> | ->]; unfold t; openar; [rewrite !u32_small by lia|]; reflexivity. }
  assert (0 <= da' <= 65535) as Hda by (unfold da'; lia).
  destruct (weights_range 65535 t da') as (W1 & W2 & W3 & WA); try lia.
  change (wa 65535 t da') with (a1 + a2 + a3) in *. fold a1 a2 a3 in W1, W2, W3.
  assert (O : forall sc dc, 0 <= sc <= 65535 -> 0 <= dc <= 65535 -> a1 + a2 + a3 <> 0 ->
    0 <= outAdd a1 a2 a3 sc dc <= a1 + a2 + a3 /\
    forall ar, ar = machine \/ ar = ideal ->
      (let? q := udiv (w64 ar (add ar sc dc * a1)) (a1 + a2 + a3) in
       let v := w64 ar (add ar (mul ar sc a2) (mul ar dc a3) / 65535 + q) in
       Some (w16 ar (mul ar (if v <? 65535 then w32 ar v else 65535) (a1 + a2 + a3) / 65535))) = Some (outAdd a1 a2 a3 sc dc)).
  { clearbody a1 a2 a3. intros sc dc Hsc Hdc Hn. unfold outAdd.
    assert (0 <= sc * a2 <= 65535 * a2) by nia. assert (0 <= dc * a3 <= 65535 * a3) by nia.
    assert (0 <= (sc + dc) * a1 <= 131070 * 65535) by nia.
    set (x := (sc * a2 + dc * a3) / 65535). assert (0 <= x <= 65535) as Hx by (unfold x; lia).
    set (q := (sc + dc) * a1 / (a1 + a2 + a3)).
    assert (0 <= q <= 131070) as Hq. { unfold q. split; [apply Z.div_pos; lia|]. apply Z.div_le_upper_bound; [lia|]. nia. }
    assert (0 <= Z.min 65535 (x + q) * (a1 + a2 + a3) <= 65535 * (a1 + a2 + a3)) as Hm.
    { assert (0 <= Z.min 65535 (x + q) <= 65535) as Hz by lia. split; [apply Z.mul_nonneg_nonneg; lia|]. apply Z.mul_le_mono_nonneg_r; lia. }
    set (mm := Z.min 65535 (x + q)) in *.
    split; [clearbody mm x q; split; [apply Z.div_pos; lia|apply Z.div_le_upper_bound; lia]|].
    assert (E : (if x + q <? 65535 then x + q else 65535) = mm) by (unfold mm; destruct (Z.ltb_spec (x + q) 65535); lia).
    intros ar [-> | ->]; unfold add, mul; cbn [w32 w64 w16 machine ideal]; rewrite udiv_pos by lia; cbv beta iota.
    - rewrite (u32_small (sc + dc)) by lia. rewrite (u64_small ((sc + dc) * a1)) by lia. fold q.
      rewrite (u32_small (sc * a2)), (u32_small (dc * a3)) by lia. rewrite (u32_small (sc * a2 + dc * a3)) by lia. fold x.
      rewrite (u64_small (x + q)) by lia. rewrite (u32_small (x + q)) by lia. rewrite E. clearbody q x.
      rewrite u32_small by lia. rewrite u16_small by lia. reflexivity.
    - fold q x. rewrite E. reflexivity. }
  assert (forall ar, ar = machine \/ ar = ideal -> blendF ar Add ma s d = Some o) as G.
  { intros ar A. unfold blendF. rewrite (T ar A). fold da'.
    destruct (weights16 t da' Ht Hda ar A) as (-> & -> & -> & ->). fold a1 a2 a3.
    change (wa 65535 t da') with (a1 + a2 + a3).
    unfold o. destruct (Z.eqb_spec ma 0); [reflexivity|]. cbn [orb]. destruct (Z.eqb_spec (a1 + a2 + a3) 0) as [|Hn]; [reflexivity|].
    match goal with |- match ?u with _ => _ end = _ => replace u with (Some (unm true (pa s) (pr s), unm true (pa s) (pg s), unm true (pa s) (pb s))) by (destruct A as [-> | ->]; symmetry; assumption) end.
    match goal with |- match ?u with _ => _ end = _ => replace u with (Some (unm true (pa d) (pr d), unm true (pa d) (pg d), unm true (pa d) (pb d))) by (destruct A as [-> | ->]; symmetry; assumption) end.
    cbn [mix chan overmax]. cbv beta iota zeta.
    destruct (O (unm true (pa s) (pr s)) (unm true (pa d) (pr d))) as [_ O1]; try lia.
    destruct (O (unm true (pa s) (pg s)) (unm true (pa d) (pg d))) as [_ O2]; try lia.
    destruct (O (unm true (pa s) (pb s)) (unm true (pa d) (pb d))) as [_ O3]; try lia.
    specialize (O1 ar A). specialize (O2 ar A). specialize (O3 ar A). cbv zeta in O1, O2, O3. rewrite O1, O2, O3.
    unfold p, out. change (wa 65535 t da') with (a1 + a2 + a3). do 2 f_equal. f_equal.
    clearbody a1 a2 a3. destruct A as [-> | ->]; cbn [w16 machine ideal]; [|reflexivity]. apply u16_small. lia. }
  split; [apply G; auto|]. split; [apply G; auto|].
  unfold o, p, out. change (wa 65535 t da') with (a1 + a2 + a3).
  destruct (ma =? 0); cbn [orb]; [discriminate|]. destruct (Z.eqb_spec (a1 + a2 + a3) 0) as [|Hn]; [discriminate|]. intros q E. injection E as <-.
  unfold premul_ok. cbn [pr pg pb pa].
  destruct S3 as (S3 & S4 & S5), D3 as (D3 & D4 & D5).
  pose proof (proj1 (O _ _ S3 D3 Hn)) as O1. pose proof (proj1 (O _ _ S4 D4 Hn)) as O2. pose proof (proj1 (O _ _ S5 D5 Hn)) as O3.
  clear O. clearbody a1 a2 a3. split; [exact O1|]. split; [exact O2|]. split; [exact O3|]. lia.
Qed.

Lemma blendF_add_range ma s d : 0 <= ma <= 65535 -> premul_ok 65535 s -> premul_ok 65535 d ->
  exists o, blendF machine Add ma s d = Some o /\ blendF ideal Add ma s d = Some o /\ forall p, o = Some p -> premul_ok 65535 p.
Proof.
  intros Hma Hs Hd. destruct (blendF_add ma s d Hma Hs Hd) as (E1 & E2 & H). eexists. split; [exact E1|]. split; [exact E2|].
  exact H.
Qed.

(** Opaque colours: the saturated sum. *)
Lemma blendF_add_opaque s d : premul_ok 65535 s -> premul_ok 65535 d -> pa s = 65535 -> pa d = 65535 ->
  blendF machine Add 65535 s d = Some (Some (Px (Z.min 65535 (pr s + pr d)) (Z.min 65535 (pg s + pg d)) (Z.min 65535 (pb s + pb d)) 65535)).
Proof.
  intros Hs Hd Es Ed. destruct (blendF_add 65535 s d ltac:(lia) Hs Hd) as (E1 & _ & _). rewrite Es, Ed in E1.
  change (65535 * 65535 / 65535) with 65535 in E1.
  change (w1 65535 65535 65535) with 65535 in E1. change (w2 65535 65535 65535) with 0 in E1. change (w3 65535 65535 65535) with 0 in E1.
  change (wa 65535 65535 65535) with 65535 in E1. cbn [Z.eqb Pos.eqb orb] in E1. rewrite E1. unfold premul_ok in Hs, Hd.
  assert (O : forall x y, outAdd 65535 0 0 (unm true 65535 x) (unm true 65535 y) = Z.min 65535 (x + y)).
  { intros x y. unfold outAdd, unm. change (65535 =? 0) with false. cbv iota. change (65535 + 0 + 0) with 65535.
    rewrite !Z.div_mul by lia. rewrite !Z.mul_0_r. change ((0 + 0) / 65535) with 0. rewrite Z.add_0_l. reflexivity. }
  rewrite !O. reflexivity.
Qed.
