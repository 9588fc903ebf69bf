(** Proofs: one layer over an opaque backdrop, against exact numbers. *)
From Coq Require Import QArith Qround Lqa.
From Verif Require Import Base BaseFacts MBlend SBlend SOver SStack.
Open Scope Q_scope.

Ltac qcase := match goal with |- context [Qle_bool ?a ?b] =>
  lazymatch a with context [Qle_bool _ _] => fail | _ => idtac end; lazymatch b with context [Qle_bool _ _] => fail | _ => idtac end; let E := fresh "E" in destruct (Qle_bool a b) eqn:E;
  [apply Qle_bool_iff in E|assert (b < a) by (apply Qnot_le_lt; let G := fresh in intros G; apply Qle_bool_iff in G; congruence); clear E] end.
Ltac modes := unfold doc, doc_hard, doc_screen, qmin, qmax, qlt; repeat (qcase; cbn [negb] in * ).

Lemma prods s b : 0 <= s <= 1 -> 0 <= b <= 1 -> 0 <= s * b /\ 0 <= s * (1 - b) /\ 0 <= (1 - s) * b /\ 0 <= (1 - s) * (1 - b).
Proof. intros. repeat split; nra. Qed.

Lemma doc_range m s b : gentle m = true -> 0 <= s <= 1 -> 0 <= b <= 1 -> 0 <= doc root255 m s b /\ doc root255 m s b - b <= 1.
Proof.
  intros G Hs Hb. pose proof (prods s b Hs Hb) as (P1 & P2 & P3 & P4). destruct m; try discriminate G; modes; try (split; lra).
Qed.
(** A change of the backdrop *)
Lemma doc_lip m s b b' w : gentle m = true -> 0 <= s <= 1 -> 0 <= b <= 1 -> 0 <= b' <= 1 -> 0 <= w ->
  - w <= b - b' <= w -> doc root255 m s b - doc root255 m s b' <= w.
Proof.
  intros G Hs Hb Hb' P W.
  assert (forall x, 0 <= x <= 1 -> x * b - x * b' <= w /\ x * b' - x * b <= w) as L by (intros x Hx; split; nra).
  pose proof (L s Hs) as L1. pose proof (L (1 - s) ltac:(lra)) as L2. destruct m; try discriminate G; modes; try lra.
  - pose proof (L (2 * s) ltac:(lra)). lra.
  - pose proof (L (2 - 2 * s) ltac:(lra)). lra.
  - assert ((1 - 2 * s) * (b - b') <= w) by nra; lra.
Qed.
(** A change of the source *)
Definition pace (m : mode) : Q := match rounding_of m with Some Exact => 1 | _ => 2 end.
Lemma doc_src m s s' b w : gentle m = true -> 0 <= s <= 1 -> 0 <= s' <= 1 -> 0 <= b <= 1 -> 0 <= w ->
  - w <= s - s' <= w -> doc root255 m s b - doc root255 m s' b <= pace m * w.
Proof.
  intros G Hs Hs' Hb P W. assert (forall x, 0 <= x <= 1 -> x * s - x * s' <= w /\ x * s' - x * s <= w) as L by (intros x Hx; split; nra).
  pose proof (L b Hb) as L1. pose proof (L (1 - b) ltac:(lra)) as L2. pose proof (prods s b Hs Hb). pose proof (prods s' b Hs' Hb).
  destruct m; try discriminate G; unfold pace; cbn [rounding_of]; modes; try lra; try nra.
Qed.

(** What the code may be off the formula *)
Definition slack (m : mode) : Q := match rounding_of m with Some Exact => 0 | _ => 1 end.
Lemma err_of lo hi c v : err_between lo hi c v = true -> lo <= inject_Z c - 255 * v <= hi.
Proof. unfold err_between. rewrite andb_true_iff, !Qle_bool_iff. intros [H1 H2]. split; [exact H1|exact H2]. Qed.
Lemma formula_err m s d c : gentle m = true -> within_formula m s d c = true ->
  - slack m <= inject_Z c - 255 * doc root255 m (SBlend.unit s) (SBlend.unit d) <= slack m.
Proof.
  unfold within_formula, slack. intros G H. destruct m; try discriminate G; cbn [rounding_of rounds] in *;
    try (apply err_of in H; lra).
  - apply Z.eqb_eq in H. set (v := 255 * _) in *. change (255 # 1) with 255 in H. fold v in H. subst c. pose proof (Qfloor_le v). pose proof (Qlt_floor v). rewrite inject_Z_plus in *. change (inject_Z 1) with 1 in *. lra.
  - apply Z.eqb_eq in H. set (v := 255 * _) in *. change (255 # 1) with 255 in H. fold v in H. subst c. pose proof (Qle_ceiling v). pose proof (Qceiling_lt v). unfold Z.sub in *. rewrite inject_Z_plus in *. change (inject_Z (-(1))) with (-1) in *. lra.
Qed.

Lemma unit_range c : (0 <= c <= 255)%Z -> 0 <= SBlend.unit c <= 1.
Proof. intros H. unfold SBlend.unit, Qle. cbn. lia. Qed.
Lemma unit_q c : inject_Z c == 255 * SBlend.unit c.
Proof. unfold SBlend.unit, Qeq. cbn. lia. Qed.

Lemma qmin_spec a b : (a < b /\ qmin a b = a) \/ (b <= a /\ qmin a b = b).
Proof.
  unfold qmin, qlt. destruct (Qle_bool b a) eqn:E; cbn [negb].
  - right. split; [now apply Qle_bool_iff|reflexivity].
  - left. split; [|reflexivity]. apply Qnot_le_lt. intros G. apply Qle_bool_iff in G. congruence.
Qed.
Lemma exact_range m t s e : gentle m = true -> 0 <= t <= 1 -> (0 <= s <= 255)%Z -> 0 <= e <= 255 -> 0 <= exact_over m t s e <= 255.
Proof.
  intros G Ht Hs He. unfold exact_over. assert (0 <= e / 255 <= 1) as Hb by (split; [apply Qle_shift_div_l|apply Qle_shift_div_r]; lra).
  pose proof (doc_range m (SBlend.unit s) (e / 255) G (unit_range s Hs) Hb) as D. change (255 # 1) with 255. set (v := doc _ _ _ _) in *. clearbody v.
  destruct (qmin_spec 255 ((1 - t) * e + t * (255 * v))) as [[H ->]|[H ->]]; split; try lra; nra.
Qed.

Lemma floor_div n : - 1 < inject_Z (n / 255) - (n # 255) <= 0.
Proof.
  pose proof (Z.div_mod n 255 ltac:(lia)). pose proof (Z.mod_pos_bound n 255 ltac:(lia)).
  assert (inject_Z n == inject_Z (255 * (n / 255) + n mod 255)) as E by (rewrite <- H; reflexivity). rewrite inject_Z_plus, inject_Z_mult in E. change (inject_Z 255) with 255 in E.
  assert (0 <= inject_Z (n mod 255) <= 254) as M by (split; [change 0 with (inject_Z 0)|change 254 with (inject_Z 254)]; rewrite <- Zle_Qle; lia).
  assert (inject_Z n == 255 * (n # 255)) as E2 by (unfold Qeq; cbn; lia). lra.
Qed.

(** The combination in exact numbers. [T]: the exact alpha, [t]: that of the code *)
Lemma combine T t d e b Bd Be k k1 q sl : 0 <= T <= 1 -> 0 <= t <= T -> T <= t + (1 # 255) -> -255 <= Bd - d <= 255 ->
  - k <= d - e <= k -> - k1 <= Bd - Be <= k1 -> - sl <= b - Bd <= sl -> 0 <= sl -> 0 <= k -> k <= k1 -> T * (sl + k1 - k) <= q ->
  - (1 + q + k) <= (d + t * (b - d)) - ((1 - T) * e + T * Be) <= 1 + q + k.
Proof.
  intros HT Ht HTt HB Hk Hk1 Hs Ps Pk Kk Hq.
  assert (- ((1 - T) * k) <= (1 - T) * (d - e) <= (1 - T) * k) as A1 by (split; nra).
  assert (- (T * k1) <= T * (Bd - Be) <= T * k1) as A2 by (split; nra).
  assert (- 1 <= (T - t) * (Bd - d) <= 1) as A3 by (split; nra).
  assert (- (T * sl) <= t * (b - Bd) <= T * sl) as A4 by (split; nra).
  setoid_replace (d + t * (b - d) - ((1 - T) * e + T * Be)) with ((1 - T) * (d - e) + T * (Bd - Be) - (T - t) * (Bd - d) + t * (b - Bd)) by ring. lra.
Qed.

Lemma channel_close m T A o s s' d b e k : T == SBlend.unit A * SBlend.unit o -> gentle m = true -> (0 <= A <= 255)%Z -> (0 <= o <= 255)%Z -> (0 <= s <= 255)%Z -> (0 <= s' <= 255)%Z ->
  (s - 1 <= s' <= s)%Z -> (128 <= A -> s' = s)%Z -> (0 <= d <= 255)%Z -> 0 <= e <= 255 -> close k d e -> within_formula m s' d b = true ->
  close (cost m + k) (between (A * o / 255) d b) (exact_over m T s e).
Proof.
  intros HTe G HA Ho Hs Hs' Hss Hbig Hd He Hk Hf. unfold close in *. assert (0 <= k) as Pk by lra.
  set (t := SBlend.unit (A * o / 255)).
  pose proof (unit_range A HA) as UA. pose proof (unit_range o Ho) as Uo. pose proof (unit_range s Hs) as Us. pose proof (unit_range s' Hs') as Us'. pose proof (unit_range d Hd) as Ud.
  assert (0 <= T <= 1) as HT by (rewrite HTe; split; nra).
  assert (0 <= A * o / 255 <= 255)%Z as Hz by (split; [apply Z.div_pos; nia|apply Z.div_le_upper_bound; nia]). pose proof (unit_range _ Hz) as Ut. fold t in Ut.
  assert (t <= T /\ T <= t + (1 # 255)) as [Ht1 Ht2].
  { pose proof (floor_div (A * o)) as F. rewrite unit_q in F. fold t in F. assert ((A * o # 255) == 255 * T) as E by (rewrite HTe; unfold SBlend.unit, Qeq; cbn; lia). rewrite E in F. split; lra. }
  assert (0 <= e / 255 <= 1) as He1 by (split; [apply Qle_shift_div_l|apply Qle_shift_div_r]; lra).
  assert (e == 255 * (e / 255)) as Ee by (field; lra). pose proof (unit_q d) as Ed. pose proof (unit_q s) as Es. pose proof (unit_q s') as Es'.
  set (e1 := e / 255) in *.
  (* the formula for the code's colours and for the exact ones *)
  pose proof (formula_err m s' d b G Hf) as Fe. pose proof (doc_range m _ _ G Us' Ud) as Rd.
  assert (- (k / 255) <= SBlend.unit d - e1 <= k / 255) as Hk1.
  { assert (k == 255 * (k / 255)) by (field; lra). lra. }
  assert (0 <= k / 255) as Pk1 by (apply Qle_shift_div_l; lra).
  pose proof (doc_lip m (SBlend.unit s') (SBlend.unit d) e1 (k / 255) G Us' Ud He1 Pk1 Hk1) as L1.
  pose proof (doc_lip m (SBlend.unit s') e1 (SBlend.unit d) (k / 255) G Us' He1 Ud Pk1 ltac:(lra)) as L2.
  set (w := SBlend.unit s - SBlend.unit s').
  assert (0 <= w /\ w <= (1 # 255)) as [W0 W1]. { unfold w, SBlend.unit. split; unfold Qle; cbn; lia. }
  pose proof (doc_src m (SBlend.unit s') (SBlend.unit s) e1 w G Us' Us He1 W0 ltac:(unfold w in *; lra)) as M1.
  pose proof (doc_src m (SBlend.unit s) (SBlend.unit s') e1 w G Us Us' He1 W0 ltac:(unfold w in *; lra)) as M2.
  assert (0 <= pace m * w) as Pw by (unfold pace; destruct (rounding_of m) as [[]|]; lra).
  assert (cost m == 5 # 2 /\ slack m == 0 /\ pace m == 1 \/ cost m == 7 # 2 /\ slack m == 1 /\ pace m == 2) as Cs by (unfold cost, slack, pace; destruct (rounding_of m) as [[]|]; (left; repeat split; reflexivity) || (right; repeat split; reflexivity)).
  assert (T * (slack m + 255 * (pace m * w)) <= cost m - 2) as HTw.
  { destruct (Z.le_gt_cases 128 A) as [B|B].
    - assert (w == 0) as ->. { unfold w. rewrite (Hbig B). ring. } destruct Cs as [(-> & -> & ->)|(-> & -> & ->)]; lra.
    - assert (T <= 1 # 2) as HT2. { assert (SBlend.unit A <= 1 # 2) by (unfold SBlend.unit, Qle; cbn; lia). rewrite HTe. nra. }
      destruct Cs as [(-> & -> & ->)|(-> & -> & ->)]; nra. }
  assert (0 <= slack m) as Psl by (destruct Cs as [(_ & -> & _)|(_ & -> & _)]; lra).
  set (X := doc root255 m (SBlend.unit s') (SBlend.unit d)) in *. set (Y := doc root255 m (SBlend.unit s') e1) in *.
  unfold exact_over. change (e / (255 # 1)) with e1. change (255 # 1) with 255.
  assert (k == 255 * (k / 255)) as Ek by (field; lra). set (k2 := k / 255) in *. clearbody k2.
  set (Z0 := doc root255 m (SBlend.unit s) e1) in *.
  assert (0 <= inject_Z d <= 255) as Hd' by lra.
  pose proof (combine T t (inject_Z d) e (inject_Z b) (255 * X) (255 * Z0) k (k + 255 * (pace m * w)) (cost m - 2) (slack m)
    HT ltac:(lra) Ht2 ltac:(lra) Hk ltac:(lra) Fe Psl Pk ltac:(lra) ltac:(lra)) as K.
  (* the quotient *)
  unfold between. set (n := (A * o / 255 * b + (255 - A * o / 255) * d)%Z).
  pose proof (floor_div n) as F. assert ((n # 255) == inject_Z d + t * (inject_Z b - inject_Z d)) as En.
  { assert (inject_Z n == 255 * (n # 255)) as E1 by (unfold Qeq; cbn; lia). pose proof (unit_q (A * o / 255)) as E2. fold t in E2.
    set (z := (A * o / 255)%Z) in *. unfold n in E1 at 1. unfold Z.sub in E1. rewrite inject_Z_plus, !inject_Z_mult, inject_Z_plus, inject_Z_opp, E2 in E1.
    change (inject_Z 255) with 255 in E1. lra. }
  rewrite En in F. set (y := (1 - T) * e + T * (255 * Z0)) in *. clearbody y.
  assert (0 <= cost m) by (destruct Cs as [(-> & _)|(-> & _)]; lra).
  destruct (Z.min_spec 255 (n / 255)) as [[Lt ->]|[Le ->]].
  - assert (255 < inject_Z (n / 255)) as F2 by (change 255 with (inject_Z 255); rewrite <- Zlt_Qlt; exact Lt). change (inject_Z 255) with 255.
    destruct (qmin_spec 255 y) as [[Hy ->]|[Hy ->]]; split; lra.
  - assert (inject_Z (n / 255) <= 255) as F2 by (change 255 with (inject_Z 255); rewrite <- Zle_Qle; exact Le).
    destruct (qmin_spec 255 y) as [[Hy ->]|[Hy ->]]; split; lra.
Qed.

(** ** Behind a mask *)
Lemma combine_masked T t d e b Bd Be k k1 q sl : 0 <= T <= 1 -> 0 <= t <= 1 -> - (1 # 255) <= T - t <= 2 # 255 -> -255 <= Bd - d <= 255 ->
  - k <= d - e <= k -> - k1 <= Bd - Be <= k1 -> - sl <= b - Bd <= sl -> 0 <= sl -> 0 <= k -> k <= k1 -> T * (k1 - k) <= q ->
  - (2 + q + sl + k) <= (d + t * (b - d)) - ((1 - T) * e + T * Be) <= 2 + q + sl + k.
Proof.
  intros HT Ht HTt HB Hk Hk1 Hs Ps Pk Kk Hq.
  assert (- ((1 - T) * k) <= (1 - T) * (d - e) <= (1 - T) * k) as A1 by (split; nra).
  assert (- (T * k1) <= T * (Bd - Be) <= T * k1) as A2 by (split; nra).
  assert (- 2 <= (T - t) * (Bd - d) <= 2) as A3 by (split; nra).
  assert (- sl <= t * (b - Bd) <= sl) as A4 by (split; nra).
  setoid_replace (d + t * (b - d) - ((1 - T) * e + T * Be)) with ((1 - T) * (d - e) + T * (Bd - Be) - (T - t) * (Bd - d) + t * (b - Bd)) by ring. lra.
Qed.

(** [A] is the alpha that the mask has left of [X / 255]. *)
Lemma channel_masked m T A X o s s' d b e k : T == (X # 65025) * SBlend.unit o -> gentle m = true -> (0 <= A <= 255)%Z -> (0 <= X <= 65025)%Z -> (0 <= o <= 255)%Z ->
  (0 <= s <= 255)%Z -> (0 <= s' <= 255)%Z -> (- 254 <= 255 * A - X <= 254)%Z -> (Z.abs (s - s') * X <= 65531)%Z -> (0 <= d <= 255)%Z -> 0 <= e <= 255 -> close k d e ->
  within_formula m s' d b = true -> close (cost m + 3 + k) (between (A * o / 255) d b) (exact_over m T s e).
Proof.
  intros HTe G HA HX Ho Hs Hs' HAX Hss Hd He Hk Hf. unfold close in *. assert (0 <= k) as Pk by lra.
  set (t := SBlend.unit (A * o / 255)).
  pose proof (unit_range A HA) as UA. pose proof (unit_range o Ho) as Uo. pose proof (unit_range s Hs) as Us. pose proof (unit_range s' Hs') as Us'. pose proof (unit_range d Hd) as Ud.
  assert (0 <= (X # 65025) <= 1) as HX1 by (split; unfold Qle; cbn; lia).
  assert (0 <= T <= 1) as HT by (rewrite HTe; split; nra).
  assert (0 <= A * o / 255 <= 255)%Z as Hz by (split; [apply Z.div_pos; nia|apply Z.div_le_upper_bound; nia]). pose proof (unit_range _ Hz) as Ut. fold t in Ut.
  assert (- (1 # 255) <= T - t <= 2 # 255) as HTt.
  { pose proof (floor_div (A * o)) as F. rewrite unit_q in F. fold t in F.
    assert ((A * o # 255) == 255 * (SBlend.unit A * SBlend.unit o)) as E by (unfold SBlend.unit, Qeq; cbn; lia). rewrite E in F.
    assert (- (1 # 255) <= SBlend.unit A - (X # 65025) <= 1 # 255) as E2 by (split; unfold SBlend.unit, Qle; cbn; lia).
    assert (- (1 # 255) <= SBlend.unit A * SBlend.unit o - T <= 1 # 255) as E3 by (rewrite HTe; split; nra). lra. }
  assert (0 <= e / 255 <= 1) as He1 by (split; [apply Qle_shift_div_l|apply Qle_shift_div_r]; lra).
  assert (e == 255 * (e / 255)) as Ee by (field; lra). pose proof (unit_q d) as Ed. pose proof (unit_q s) as Es. pose proof (unit_q s') as Es'.
  set (e1 := e / 255) in *.
  pose proof (formula_err m s' d b G Hf) as Fe. pose proof (doc_range m _ _ G Us' Ud) as Rd.
  assert (- (k / 255) <= SBlend.unit d - e1 <= k / 255) as Hk1.
  { assert (k == 255 * (k / 255)) by (field; lra). lra. }
  assert (0 <= k / 255) as Pk1 by (apply Qle_shift_div_l; lra).
  pose proof (doc_lip m (SBlend.unit s') (SBlend.unit d) e1 (k / 255) G Us' Ud He1 Pk1 Hk1) as L1.
  pose proof (doc_lip m (SBlend.unit s') e1 (SBlend.unit d) (k / 255) G Us' He1 Ud Pk1 ltac:(lra)) as L2.
  set (w := SBlend.unit (Z.abs (s - s'))).
  assert (0 <= w) as W0. { unfold w, SBlend.unit, Qle. cbn. lia. }
  assert (- w <= SBlend.unit s - SBlend.unit s' <= w) as W1. { unfold w, SBlend.unit. split; unfold Qle; cbn; lia. }
  pose proof (doc_src m (SBlend.unit s') (SBlend.unit s) e1 w G Us' Us He1 W0 ltac:(lra)) as M1.
  pose proof (doc_src m (SBlend.unit s) (SBlend.unit s') e1 w G Us Us' He1 W0 ltac:(lra)) as M2.
  assert (0 <= pace m * w) as Pw by (unfold pace; destruct (rounding_of m) as [[]|]; lra).
  assert (cost m == 5 # 2 /\ slack m == 0 /\ pace m == 1 \/ cost m == 7 # 2 /\ slack m == 1 /\ pace m == 2) as Cs by (unfold cost, slack, pace; destruct (rounding_of m) as [[]|]; (left; repeat split; reflexivity) || (right; repeat split; reflexivity)).
  assert (T * (255 * w) <= 101 # 100) as HTw.
  { assert ((X # 65025) * (255 * w) <= 101 # 100) as H1 by (unfold w, SBlend.unit, Qle; cbn; lia). rewrite HTe. nra. }
  assert (0 <= slack m) as Psl by (destruct Cs as [(_ & -> & _)|(_ & -> & _)]; lra).
  set (X0 := doc root255 m (SBlend.unit s') (SBlend.unit d)) in *. set (Y := doc root255 m (SBlend.unit s') e1) in *.
  unfold exact_over. change (e / (255 # 1)) with e1. change (255 # 1) with 255.
  assert (k == 255 * (k / 255)) as Ek by (field; lra). set (k2 := k / 255) in *. clearbody k2.
  set (Z0 := doc root255 m (SBlend.unit s) e1) in *.
  assert (0 <= inject_Z d <= 255) as Hd' by lra.
  pose proof (combine_masked T t (inject_Z d) e (inject_Z b) (255 * X0) (255 * Z0) k (k + 255 * (pace m * w)) (pace m * (101 # 100)) (slack m)
    HT Ut HTt ltac:(lra) Hk ltac:(lra) Fe Psl Pk ltac:(lra) ltac:(destruct Cs as [(_ & _ & ->)|(_ & _ & ->)]; lra)) as K.
  (* the quotient *)
  unfold between. set (n := (A * o / 255 * b + (255 - A * o / 255) * d)%Z).
  pose proof (floor_div n) as F. assert ((n # 255) == inject_Z d + t * (inject_Z b - inject_Z d)) as En.
  { assert (inject_Z n == 255 * (n # 255)) as E1 by (unfold Qeq; cbn; lia). pose proof (unit_q (A * o / 255)) as E2. fold t in E2.
    set (z := (A * o / 255)%Z) in *. unfold n in E1 at 1. unfold Z.sub in E1. rewrite inject_Z_plus, !inject_Z_mult, inject_Z_plus, inject_Z_opp, E2 in E1.
    change (inject_Z 255) with 255 in E1. lra. }
  rewrite En in F. set (y := (1 - T) * e + T * (255 * Z0)) in *. clearbody y.
  assert (1 + (2 + pace m * (101 # 100) + slack m) <= cost m + 3) as Ct by (destruct Cs as [(-> & -> & ->)|(-> & -> & ->)]; lra).
  destruct (Z.min_spec 255 (n / 255)) as [[Lt ->]|[Le ->]].
  - assert (255 < inject_Z (n / 255)) as F2 by (change 255 with (inject_Z 255); rewrite <- Zlt_Qlt; exact Lt). change (inject_Z 255) with 255.
    destruct (qmin_spec 255 y) as [[Hy ->]|[Hy ->]]; split; lra.
  - assert (inject_Z (n / 255) <= 255) as F2 by (change 255 with (inject_Z 255); rewrite <- Zle_Qle; exact Le).
    destruct (qmin_spec 255 y) as [[Hy ->]|[Hy ->]]; split; lra.
Qed.
