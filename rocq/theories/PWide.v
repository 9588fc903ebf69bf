(** Proofs about the paths that compute with 16 bits. *)
From Verif Require Import Base BaseFacts MBlend PBlend PLum SBlend PBlend2.
Open Scope Z_scope.

(** The colour that the blend code sees: un-premultiplied when asked for. *)
Definition unm (doit : bool) (a c : Z) : Z := if doit then (if a =? 0 then 0 else c * 65535 / a) else c.
Definition unm3 (doit : bool) (a r g b : Z) : Z * Z * Z := (unm doit a r, unm doit a g, unm doit a b).

Lemma unmul_eq a c : 0 <= c <= a -> a <= 65535 -> unmul machine a c = Some (unm true a c) /\ unmul ideal a c = Some (unm true a c) /\ 0 <= unm true a c <= 65535.
Proof.
  intros Hc Ha. unfold unmul, unm. destruct (Z.eqb_spec a 0); [split; [reflexivity|split; [reflexivity|lia]]|].
  assert (0 <= c * 65535 / a <= 65535). { split; [apply Z.div_pos; lia|apply Z.div_le_upper_bound; lia]. }
  destruct (Z.ltb_spec a 65535).
  - rewrite !udiv_pos by lia. openar. unwrap1 lia. auto.
  - assert (a = 65535) as -> by lia. rewrite Z.div_mul by lia. split; [reflexivity|]. split; [reflexivity|lia].
Qed.

Lemma unmul3_eq (doit : bool) a r g b : 0 <= a <= 65535 -> (if doit then 0 <= r <= a /\ 0 <= g <= a /\ 0 <= b <= a else triple_in 65535 (r, g, b)) ->
  unmul3 machine doit a r g b = Some (unm3 doit a r g b) /\ unmul3 ideal doit a r g b = Some (unm3 doit a r g b) /\ triple_in 65535 (unm3 doit a r g b).
Proof.
  intros Ha H. unfold unmul3, unm3. destruct doit; [|auto]. destruct H as (H1 & H2 & H3).
  destruct (unmul_eq a r H1) as (-> & -> & R1); [lia|]. destruct (unmul_eq a g H2) as (-> & -> & R2); [lia|].
  destruct (unmul_eq a b H3) as (-> & -> & R3); [lia|]. cbn [triple_in]. auto.
Qed.

Definition mix_fits (m : mode) (s d : Z * Z * Z) : Prop :=
  exists c, mix machine W16 m s d = Some c /\ mix ideal W16 m s d = Some c /\ triple_in 65535 c.

Definition narrow (m : mode) : bool := match m with Add | Hue | Saturation | Color | Luminosity => false | _ => true end.
Lemma narrow_fits m s d : narrow m = true -> triple_in 65535 s -> triple_in 65535 d -> mix_fits m s d.
Proof.
  intros Hm Hs Hd. unfold mix_fits. destruct (separable m) eqn:E.
  - destruct (mix_sep W16 m s d E Hs Hd) as (c & H1 & H2 & H3). exists c. split; [exact H1|]. split; [exact H2|].
    destruct m; try discriminate Hm; exact H3.
  - destruct m; try discriminate Hm; try discriminate E; cbn [mix]; eexists; split; [reflexivity| |reflexivity|]; (split; [reflexivity|]); now apply triple_if.
Qed.
Lemma add_fits sr sg sb dr dg db : triple_in 65535 (sr, sg, sb) -> triple_in 65535 (dr, dg, db) ->
  triple_in 65535 (sr + dr, sg + dg, sb + db) -> mix_fits Add (sr, sg, sb) (dr, dg, db).
Proof.
  cbn [triple_in]. intros. exists (sr + dr, sg + dg, sb + db). cbn [mix chan]. openar. rewrite !u32_small by lia. cbn [triple_in]. auto.
Qed.

(** Weights in machine arithmetic. *)
Lemma weights16 t da : 0 <= t <= 65535 -> 0 <= da <= 65535 ->
  forall ar, ar = machine \/ ar = ideal ->
  mul ar t da / 65535 = w1 65535 t da /\ mul ar t (sub ar 65535 da) / 65535 = w2 65535 t da /\
  mul ar (sub ar 65535 t) da / 65535 = w3 65535 t da /\
  add ar (add ar (w1 65535 t da) (w2 65535 t da)) (w3 65535 t da) = wa 65535 t da.
Proof.
  intros Ht Hd ar A. destruct (weights_range 65535 t da) as (W1 & W2 & W3 & WA); try lia.
  assert (0 <= t * da <= 4294836225 /\ 0 <= t * (65535 - da) <= 4294836225 /\ 0 <= (65535 - t) * da <= 4294836225) as (P1 & P2 & P3) by nia.
  unfold w1, w2, w3 in *. unfold wa in *. fold (w1 65535 t da) (w2 65535 t da) (w3 65535 t da) in *.
  destruct A as [-> | ->].
  - split; [openar; unwrap1 lia; reflexivity|]. split; [openar; unwrap1 lia; unwrap1 lia; reflexivity|]. split; [openar; unwrap1 lia; unwrap1 lia; reflexivity|].
    generalize dependent (w1 65535 t da). generalize dependent (w2 65535 t da). generalize dependent (w3 65535 t da). intros. openar. unwrap1 lia. unwrap1 lia. reflexivity.
  - split; [reflexivity|]. split; [reflexivity|]. split; reflexivity.
Qed.

Lemma wsum16 a1 a2 a3 c sc dc : 0 <= a1 -> 0 <= a2 -> 0 <= a3 -> a1 + a2 + a3 <= 65535 ->
  0 <= c <= 65535 -> 0 <= sc <= 65535 -> 0 <= dc <= 65535 ->
  forall ar, ar = machine \/ ar = ideal ->
  wsum ar a1 a2 a3 c sc dc = c * a1 + sc * a2 + dc * a3 /\ 0 <= c * a1 + sc * a2 + dc * a3 <= 65535 * (a1 + a2 + a3).
Proof.
  intros. assert (0 <= c * a1 /\ 0 <= sc * a2 /\ 0 <= dc * a3) as (P1 & P2 & P3) by nia.
  assert (c * a1 <= 65535 * a1 /\ sc * a2 <= 65535 * a2 /\ dc * a3 <= 65535 * a3) as (Q1 & Q2 & Q3) by nia.
  split; [|lia]. unfold wsum. destruct H6 as [-> | ->]; [|reflexivity]. openar. repeat unwrap1 lia. reflexivity.
Qed.

Definition outW (dp : bool) (a1 a2 a3 c sc dc : Z) : Z :=
  (c * a1 + sc * a2 + dc * a3) / (if dp then 65535 else a1 + a2 + a3) / 256.

(** The byte paths in closed form. *)
Lemma blendW_eq m sp dp al s d : byte al -> pixel_ok s -> pixel_ok d ->
  (sp = true -> premul_ok 255 s) -> (dp = true -> premul_ok 255 d) ->
  let S := unm3 sp (pa s * 257) (pr s * 257) (pg s * 257) (pb s * 257) in
  let D := unm3 dp (pa d * 257) (pr d * 257) (pg d * 257) (pb d * 257) in
  let t := pa s * al * 257 / 255 in let da := pa d * 257 in
  let a1 := w1 65535 t da in let a2 := w2 65535 t da in let a3 := w3 65535 t da in
  mix_fits m S D ->
  triple_in 65535 S /\ triple_in 65535 D /\
  0 <= t <= 65535 /\
  exists r g b, mix machine W16 m S D = Some (r, g, b) /\ triple_in 65535 (r, g, b) /\
    let '(sr, sg, sb) := S in let '(dr, dg, db) := D in
    let p := if (t =? 0) || (wa 65535 t da =? 0) then d
             else Px (outW dp a1 a2 a3 r sr dr) (outW dp a1 a2 a3 g sg dg)
                     (outW dp a1 a2 a3 b sb db) (wa 65535 t da / 256) in
    blendW machine m sp dp al s d = Some p /\ blendW ideal m sp dp al s d = Some p /\ pixel_ok p /\ (dp = true -> premul_ok 255 p).
Proof.
  intros Hal Hs Hd Hsp Hdp S D t da' a1 a2 a3 (c0 & M1 & M2 & M3). destruct s as [sr sg sb sa], d as [dr dg db da].
  unfold pixel_ok, premul_ok in *. cbn [pr pg pb pa] in *. unfold byte in *.
  destruct (unmul3_eq sp (sa * 257) (sr * 257) (sg * 257) (sb * 257)) as (S1 & S2 & S3); [lia|destruct sp; [specialize (Hsp eq_refl)|cbn [triple_in]]; lia|].
  destruct (unmul3_eq dp (da * 257) (dr * 257) (dg * 257) (db * 257)) as (D1 & D2 & D3); [lia|destruct dp; [specialize (Hdp eq_refl)|cbn [triple_in]]; lia|].
  fold S in S1, S2, S3. fold D in D1, D2, D3. split; [exact S3|]. split; [exact D3|].
  assert (0 <= sa * al <= 65025) as Pt by nia.
  assert (0 <= t <= 65535) as Ht by (unfold t; lia). split; [exact Ht|].
  destruct c0 as [[r g] b]. exists r, g, b. split; [exact M1|]. split; [exact M3|].
  destruct S as [[sr' sg'] sb'] eqn:ES. destruct D as [[dr' dg'] db'] eqn:ED.
  assert (forall ar, ar = machine \/ ar = ideal -> mul ar (mul ar sa 257) (mul ar al 257) / 65535 = t) as T.
  { intros ar [-> | ->]; unfold t; openar; [rewrite (u32_small (sa * 257)), (u32_small (al * 257)) by lia|]; (replace (sa * 257 * (al * 257)) with (sa * al * 66049) by lia); [rewrite u32_small by lia|]; lia. }
  assert (forall ar, ar = machine \/ ar = ideal -> forall x, 0 <= x <= 255 -> mul ar x 257 = x * 257) as X.
  { intros ar [-> | ->] x Hx; openar; [unwrap1 lia|]; reflexivity. }
  assert (0 <= da' <= 65535) as Hda by (unfold da'; lia).
  destruct (weights_range 65535 t da') as (W1 & W2 & W3 & WA); try lia.
  match goal with |- blendW _ _ _ _ _ _ _ = Some ?q /\ _ => set (p := q) end.
  assert (forall ar, ar = machine \/ ar = ideal -> mix ar W16 m S D = Some (r, g, b) ->
    blendW ar m sp dp al {| pr := sr; pg := sg; pb := sb; pa := sa |} {| pr := dr; pg := dg; pb := db; pa := da |} = Some p) as G.
  { intros ar A M. unfold blendW. cbn [pr pg pb pa]. rewrite (T ar A), !(X ar A) by lia. fold da'.
    destruct (weights16 t da' Ht Hda ar A) as (-> & -> & -> & ->). fold a1 a2 a3.
    unfold p. destruct (Z.eqb_spec t 0); [reflexivity|]. cbn [orb]. destruct (Z.eqb_spec (wa 65535 t da') 0); [reflexivity|].
    assert (unmul3 ar sp (sa * 257) (sr * 257) (sg * 257) (sb * 257) = Some (sr', sg', sb')) as -> by (destruct A as [-> | ->]; assumption).
    assert (unmul3 ar dp da' (dr * 257) (dg * 257) (db * 257) = Some (dr', dg', db')) as -> by (destruct A as [-> | ->]; assumption).
    rewrite ES, ED in M. rewrite M.
    assert (wa 65535 t da' = a1 + a2 + a3) as Ea by reflexivity. rewrite Ea in *.
    fold a1 a2 a3 in W1, W2, W3. clearbody a1 a2 a3. cbn [triple_in] in M3, S3, D3.
    assert (O : forall c sc dc, 0 <= c <= 65535 -> 0 <= sc <= 65535 -> 0 <= dc <= 65535 ->
      (let? q := udiv (wsum ar a1 a2 a3 c sc dc) (if dp then 65535 else a1 + a2 + a3) in
       Some (w8 ar (Z.shiftr (if overmax m then clip W16 q else q) 8))) = Some (outW dp a1 a2 a3 c sc dc)).
    { intros c sc dc Hc Hsc Hdc. destruct (wsum16 a1 a2 a3 c sc dc W1 W2 W3 WA Hc Hsc Hdc ar A) as [-> B].
      rewrite udiv_pos by (destruct dp; lia). cbv beta iota. unfold outW.
      assert (0 <= (c * a1 + sc * a2 + dc * a3) / (if dp then 65535 else a1 + a2 + a3) <= 65535) as Q.
      { split; [apply Z.div_pos; [lia|destruct dp; lia]|]. apply Z.div_le_upper_bound; destruct dp; lia. }
      set (q := _ / (if dp then _ else _)) in *. clearbody q.
      assert ((if overmax m then clip W16 q else q) = q) as ->. { unfold clip. cbn [maxv]. destruct (overmax m), (Z.ltb_spec q 65535); lia. }
      rewrite Z.shiftr_div_pow2 by lia. change (2 ^ 8) with 256.
      f_equal. destruct A as [-> | ->]; cbn [w8 machine ideal]; [|reflexivity]. apply u8_small. lia. }
    rewrite !O by lia. do 2 f_equal. rewrite Z.shiftr_div_pow2 by lia. change (2 ^ 8) with 256.
    destruct A as [-> | ->]; cbn [w8 machine ideal]; [|reflexivity]. apply u8_small. lia. }
  split; [apply G; auto; now rewrite ES, ED|]. split; [apply G; auto; now rewrite ES, ED|].
  clear G X T. assert (forall c sc dc, 0 <= c <= 65535 -> 0 <= sc <= 65535 -> 0 <= dc <= 65535 -> wa 65535 t da' <> 0 ->
     0 <= outW dp a1 a2 a3 c sc dc <= 255 /\ (dp = true -> outW dp a1 a2 a3 c sc dc <= wa 65535 t da' / 256)) as O.
  { intros c sc dc Hc Hsc Hdc Hn. destruct (wsum16 a1 a2 a3 c sc dc W1 W2 W3 WA Hc Hsc Hdc machine (or_introl eq_refl)) as [_ B].
    change (wa 65535 t da') with (a1 + a2 + a3) in *. fold a1 a2 a3 in W1, W2, W3. unfold outW. clearbody a1 a2 a3.
    set (S0 := c * a1 + sc * a2 + dc * a3) in *. clearbody S0. destruct dp.
    - assert (0 <= S0 / 65535 <= a1 + a2 + a3) by lia. split; [lia|]. intros _. apply Z.div_le_mono; lia.
    - assert (0 <= S0 / (a1 + a2 + a3) <= 65535). { split; [apply Z.div_pos; lia|apply Z.div_le_upper_bound; lia]. } split; [|discriminate].
      set (q := S0 / _) in *. clearbody q. lia. }
  unfold p. cbn [triple_in] in M3, S3, D3.
  destruct (Z.eqb_spec t 0); cbn [orb pr pg pb pa]; [split; [lia|exact Hdp]|].
  destruct (Z.eqb_spec (wa 65535 t da') 0) as [E0|E0]; cbn [pr pg pb pa]; [split; [lia|exact Hdp]|].
  destruct (O r sr' dr') as [O1 O2]; try lia. destruct (O g sg' dg') as [O3 O4]; try lia. destruct (O b sb' db') as [O5 O6]; try lia.
  assert (0 <= wa 65535 t da' / 256 <= 255). { change (wa 65535 t da') with (a1 + a2 + a3) in *. fold a1 a2 a3 in W1, W2, W3. clearbody a1 a2 a3. lia. }
  clearbody a1 a2 a3. split; [lia|]. intros E. specialize (O2 E). specialize (O4 E). specialize (O6 E). lia.
Qed.

(** The fallback for arbitrary images: [RGBA()] returns valid premultiplied
    16 bit values. *)
Definition outF (a1 a2 a3 c sc dc : Z) : Z := (c * a1 + sc * a2 + dc * a3) / 65535.
Lemma blendF_eq m ma s d : overmax m = false -> 0 <= ma <= 65535 -> premul_ok 65535 s -> premul_ok 65535 d ->
  let S := unm3 true (pa s) (pr s) (pg s) (pb s) in
  let D := unm3 true (pa d) (pr d) (pg d) (pb d) in
  let t := pa s * ma / 65535 in let da := pa d in
  let a1 := w1 65535 t da in let a2 := w2 65535 t da in let a3 := w3 65535 t da in
  mix_fits m S D ->
  triple_in 65535 S /\ triple_in 65535 D /\
  0 <= t <= 65535 /\
  exists r g b, mix machine W16 m S D = Some (r, g, b) /\ triple_in 65535 (r, g, b) /\
    let '(sr, sg, sb) := S in let '(dr, dg, db) := D in
    let p := Px (outF a1 a2 a3 r sr dr) (outF a1 a2 a3 g sg dg) (outF a1 a2 a3 b sb db) (wa 65535 t da) in
    let o := if (ma =? 0) || (wa 65535 t da =? 0) then None else Some p in
    blendF machine m ma s d = Some o /\ blendF ideal m ma s d = Some o /\ premul_ok 65535 p.
Proof.
  intros Hom Hma Hs Hd S D t da' a1 a2 a3 (c0 & M1 & M2 & M3). destruct s as [sr sg sb sa], d as [dr dg db da].
  unfold premul_ok in *. cbn [pr pg pb pa] in *.
  destruct (unmul3_eq true sa sr sg sb) as (S1 & S2 & S3); [lia|lia|].
  destruct (unmul3_eq true da dr dg db) as (D1 & D2 & D3); [lia|lia|].
  fold S in S1, S2, S3. fold D in D1, D2, D3. split; [exact S3|]. split; [exact D3|].
  assert (0 <= sa * ma <= 4294836225) as Pt by nia.
  assert (0 <= t <= 65535) as Ht by (unfold t; lia). split; [exact Ht|].
  destruct c0 as [[r g] b]. exists r, g, b. split; [exact M1|]. split; [exact M3|].
  destruct S as [[sr' sg'] sb'] eqn:ES. destruct D as [[dr' dg'] db'] eqn:ED.
  assert (forall ar, ar = machine \/ ar = ideal -> mul ar sa ma / 65535 = t) as T.
  { intros ar [-> | ->]; unfold t; openar; [rewrite !u32_small by lia|]; reflexivity. }
  assert (0 <= da' <= 65535) as Hda by (unfold da'; lia).
  destruct (weights_range 65535 t da') as (W1 & W2 & W3 & WA); try lia.
  match goal with |- blendF _ _ _ _ _ = Some ?q /\ _ => set (o := q) end. cbn [triple_in] in M3, S3, D3.
  assert (O : forall c sc dc, 0 <= c <= 65535 -> 0 <= sc <= 65535 -> 0 <= dc <= 65535 ->
    0 <= outF a1 a2 a3 c sc dc <= wa 65535 t da' /\
    forall ar, ar = machine \/ ar = ideal -> wsum ar a1 a2 a3 c sc dc / 65535 = outF a1 a2 a3 c sc dc).
  { intros c sc dc Hc Hsc Hdc. change (wa 65535 t da') with (a1 + a2 + a3) in *. fold a1 a2 a3 in W1, W2, W3. unfold outF. clearbody a1 a2 a3.
    split.
    - destruct (wsum16 a1 a2 a3 c sc dc W1 W2 W3 WA Hc Hsc Hdc machine (or_introl eq_refl)) as [_ B].
      set (S0 := c * a1 + sc * a2 + dc * a3) in *. clearbody S0. lia.
    - intros ar A. destruct (wsum16 a1 a2 a3 c sc dc W1 W2 W3 WA Hc Hsc Hdc ar A) as [-> _]. reflexivity. }
  destruct (O r sr' dr') as [O1 O2]; try lia. destruct (O g sg' dg') as [O3 O4]; try lia. destruct (O b sb' db') as [O5 O6]; try lia.
  assert (forall ar, ar = machine \/ ar = ideal -> mix ar W16 m S D = Some (r, g, b) ->
    blendF ar m ma {| pr := sr; pg := sg; pb := sb; pa := sa |} {| pr := dr; pg := dg; pb := db; pa := da |} = Some o) as G.
  { intros ar A M. unfold blendF. cbn [pr pg pb pa]. rewrite (T ar A). fold da'. rewrite Hom.
    destruct (weights16 t da' Ht Hda ar A) as (-> & -> & -> & ->). fold a1 a2 a3.
    unfold o. destruct (Z.eqb_spec ma 0); [reflexivity|]. cbn [orb]. destruct (Z.eqb_spec (wa 65535 t da') 0); [reflexivity|].
    assert (unmul3 ar true sa sr sg sb = Some (sr', sg', sb')) as -> by (destruct A as [-> | ->]; assumption).
    assert (unmul3 ar true da' dr dg db = Some (dr', dg', db')) as -> by (destruct A as [-> | ->]; assumption).
    rewrite ES, ED in M. rewrite M. rewrite (O2 ar A), (O4 ar A), (O6 ar A). do 2 f_equal.
    clearbody a1 a2 a3. destruct A as [-> | ->]; cbn [w16 machine ideal]; [|reflexivity].
    rewrite !u16_small by lia. reflexivity. }
  split; [apply G; auto; now rewrite ES, ED|]. split; [apply G; auto; now rewrite ES, ED|].
  cbn [pr pg pb pa]. lia.
Qed.
