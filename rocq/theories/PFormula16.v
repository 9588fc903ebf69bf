(** The formulas of the separable blend modes: how far the 16 bit code is from the
    rational formula. *)
From Coq Require Import QArith Qcanon.
Close Scope Qc_scope.
From Verif Require Import Base BaseFacts MBlend PEnum PSoft PSoft16 PBlend SBlend SWide.
Open Scope Z_scope.
Local Arguments Pos.mul : simpl never.

Ltac qo := unfold unit16, Qle_bool, Qeq_bool, Qeq, Qminus, Qplus, Qmult, Qopp, Qinv, Qdiv, Zeq_bool in *; cbn [Qnum Qden] in *.

(** [Qle_bool] and the roundings as statements about integers. *)
Lemma qle_frac n k m j : Qle_bool (n # k) (m # j) = (n * Zpos j <=? m * Zpos k).
Proof. reflexivity. Qed.
Lemma err_frac lo hi c n k : lo * Zpos k <= c * Zpos k - 65535 * n <= hi * Zpos k -> err16 (lo # 1) (hi # 1) c (n # k) = true.
Proof. intros. unfold err16. qo. lia. Qed.
Lemma err_Qeq lo hi c v w : v == w -> err16 lo hi c v = err16 lo hi c w.
Proof. intros H. unfold err16. now rewrite H. Qed.
Lemma floor_frac c n k : c * Zpos k <= 65535 * n < c * Zpos k + Zpos k -> (c =? Qround.Qfloor ((65535 # 1) * (n # k))) = true.
Proof.
  intros. unfold Qround.Qfloor. qo. apply Z.eqb_eq. apply Z.div_unique_pos with (r := 65535 * n - c * Zpos k); lia.
Qed.
Lemma ceil_frac c n k : c * Zpos k - Zpos k < 65535 * n <= c * Zpos k -> (c =? Qround.Qceiling ((65535 # 1) * (n # k))) = true.
Proof.
  intros. unfold Qround.Qceiling, Qround.Qfloor. qo. apply Z.eqb_eq. 
  change (1 * k)%positive with k. assert (- (65535 * n) / Zpos k = - c); [|lia]. symmetry. apply Z.div_unique_pos with (r := c * Zpos k - 65535 * n); lia.
Qed.
Lemma floor_Qeq c v w : v == w -> (c =? Qround.Qfloor ((65535 # 1) * v)) = (c =? Qround.Qfloor ((65535 # 1) * w)).
Proof. intros H. now rewrite H. Qed.
Lemma ceil_Qeq c v w : v == w -> (c =? Qround.Qceiling ((65535 # 1) * v)) = (c =? Qround.Qceiling ((65535 # 1) * w)).
Proof. intros H. now rewrite H. Qed.

(** Division of bytes. *)
Lemma u16_eq1 c : Qeq_bool (unit16 c) 1 = (c =? 65535).
Proof. qo. destruct (Z.compare_spec (c * 1) (1 * 65535)), (Z.eqb_spec c 65535); lia || reflexivity. Qed.
Lemma u16_eq0 c : Qeq_bool (unit16 c) 0 = (c =? 0).
Proof. qo. destruct (Z.compare_spec (c * 1) (0 * 65535)), (Z.eqb_spec c 0); lia || reflexivity. Qed.

(** [65535 * dodge] and [65535 - 65535 * burn] are [min 65535 (65535 * x / y)]. *)
Lemma dodge_frac x p : 0 <= x ->
  qmin 1 ((x # 65535) / (Zpos p # 65535)) == (if x <? Zpos p then x # p else 1)%Q.
Proof.
  intros. unfold qmin, qlt, Qdiv, Qinv. cbn [Qnum]. unfold Qmult. cbn [Qnum Qden]. unfold Qle_bool. cbn [Qnum Qden].
  destruct (Z.ltb_spec x (Zpos p)), (Z.leb_spec (x * 65535 * Zpos 1) (1 * Zpos (65535 * p))); cbn [negb]; unfold Qeq; cbn [Qnum Qden]; lia.
Qed.

Ltac qz := unfold doc_burn, doc_dodge, doc_screen, doc_hard, qmin, qmax, qlt, err16 in *; qo.
Ltac bcase := repeat (match goal with
  | |- context [negb (?a <=? ?b)] => lazymatch a with context [negb _] => fail | _ => lazymatch b with context [negb _] => fail | _ => destruct (Z.leb_spec a b) end end
  | |- context [if ?a <? ?b then _ else _] => destruct (Z.ltb_spec a b)
  | |- context [if ?a <=? ?b then _ else _] => destruct (Z.leb_spec a b)
  | |- context [if ?a =? ?b then _ else _] => destruct (Z.eqb_spec a b)
  end; cbn [negb Qnum Qden]); qo; try lia.

Definition formula16_ok (m : mode) (s d : Z) : Prop :=
  match chan ideal W16 m s d with None => False | Some c => within_formula16 m s d c = true end.

  (** Quotients. *)
  Lemma quot_frac x p : 0 <= x <= 65535 -> clip W16 (x * 65535 / Zpos p) * Zpos p <= 65535 * Z.min x (Zpos p) < clip W16 (x * 65535 / Zpos p) * Zpos p + Zpos p.
  Proof.
    intros. unfold clip. cbn [maxv]. pose proof (Z.div_mod (x * 65535) (Zpos p) ltac:(lia)) as E. pose proof (Z.mod_pos_bound (x * 65535) (Zpos p) ltac:(lia)).
    set (q := x * 65535 / Zpos p) in *. clearbody q. set (r := (x * 65535) mod Zpos p) in *. clearbody r.
    destruct (Z.ltb_spec q 65535); destruct (Z.leb_spec x (Zpos p)); rewrite ?Z.min_l, ?Z.min_r by lia; nia.
  Qed.
  Lemma qmin_comp v w : v == w -> qmin 1 v == qmin 1 w.
  Proof. intros H. unfold qmin, qlt. rewrite H. destruct (negb _); [reflexivity|exact H]. Qed.
  Lemma qmin_frac v w x p : v == (x # 65535) -> w == (Zpos p # 65535) -> 0 <= x -> qmin 1 (v / w) == (Z.min x (Zpos p) # p).
  Proof.
    intros Hv Hw H. rewrite qmin_comp with (w := ((x # 65535) / (Zpos p # 65535))%Q) by (now rewrite Hv, Hw).
    rewrite dodge_frac by lia. destruct (Z.ltb_spec x (Zpos p)); unfold Qeq; cbn [Qnum Qden]; lia.
  Qed.

Section formulas.
  Variables s d : Z.
  Hypothesis Hs : 0 <= s <= 65535.
  Hypothesis Hd : 0 <= d <= 65535.

  Ltac start := unfold formula16_ok, within_formula16; cbn [doc chan maxv halfv quarterv]; cbv zeta.

  Lemma f_normal : formula16_ok Normal s d.
  Proof. start. qz. lia. Qed.
  Lemma f_darken : formula16_ok Darken s d.
  Proof. start. qz. bcase. Qed.
  Lemma f_lighten : formula16_ok Lighten s d.
  Proof. start. qz. bcase. Qed.
  Lemma f_linearburn : formula16_ok LinearBurn s d.
  Proof. start. openar. qz. bcase. Qed.
  Lemma f_lineardodge : formula16_ok LinearDodge s d.
  Proof. start. openar. unfold clip. cbn [maxv]. qz. bcase. Qed.
  Lemma f_add : formula16_ok Add s d.
  Proof. start. openar. qz. lia. Qed.
  Lemma f_difference : formula16_ok Difference s d.
  Proof. start. openar. qz. bcase. Qed.
  Lemma f_subtract : formula16_ok Subtract s d.
  Proof. start. openar. qz. bcase. Qed.
  Lemma f_multiply : formula16_ok Multiply s d.
  Proof.
    start. destruct (mulmax_eq W16 s d) as [_ ->]; [split; cbn; lia|split; cbn; lia|]. cbn [maxv].
    rewrite floor_Qeq with (w := (s * d) # 4294836225) by (qo; lia).
    apply floor_frac. set (p := s * d). clearbody p. lia.
  Qed.
  Lemma f_screen : formula16_ok Screen s d.
  Proof.
    start. destruct (mulmax_eq W16 s d) as [_ ->]; [split; cbn; lia|split; cbn; lia|]. cbn [maxv]. openar. unfold doc_screen.
    erewrite ceil_Qeq with (w := (65535 * s + 65535 * d - s * d) # 4294836225); [|qo; lia].
    apply ceil_frac. set (p := s * d). clearbody p. lia.
  Qed.
  Lemma f_exclusion : formula16_ok Exclusion s d.
  Proof.
    start. destruct (mulhalf_eq W16 d s) as [_ ->]; [split; cbn; lia|split; cbn; lia|]. cbn [maxv half_exact]. openar.
    erewrite err_Qeq with (w := (65535 * s + 65535 * d - 2 * (d * s)) # 4294836225); [|qo; lia].
    apply err_frac. assert (0 <= d * s <= 4294836225) by nia. set (p := d * s) in *. clearbody p. lia.
  Qed.
  Lemma hard_frac x y : 0 <= x <= 65535 -> 0 <= y <= 65535 ->
    doc_hard (unit16 x) (unit16 y) == (if x <? 32768 then (2 * (x * y)) # 4294836225 else (65535 * (2 * x - 65535) + 65535 * y - (2 * x - 65535) * y) # 4294836225).
  Proof.
    intros. unfold doc_hard. replace (Qle_bool (unit16 x) (1 # 2)) with (x <? 32768) by (qo; lia).
    destruct (x <? 32768); unfold doc_screen; qo; lia.
  Qed.
  Lemma f_hardlight : formula16_ok HardLight s d.
  Proof.
    start. pose proof (hard_frac s d Hs Hd) as E. revert E. destruct (Z.ltb_spec s 32768); intros E; rewrite (err_Qeq _ _ _ _ _ E).
    - destruct (mulhalf_eq W16 d s) as [_ ->]; [split; cbn; lia|split; cbn; lia|]. cbn [half_exact].
      apply err_frac. assert (0 <= s * d <= 32767 * 65535) by nia. rewrite (Z.mul_comm d s). set (p := s * d) in *. clearbody p. lia.
    - openar. destruct (mulmax_eq W16 d (s * 2 - 65535)) as [_ ->]; [split; cbn; lia|split; cbn; lia|]. cbn [maxv].
      apply err_frac. replace (d * (s * 2 - 65535)) with ((2 * s - 65535) * d) by lia. set (p := (2 * s - 65535) * d) in *. clearbody p. lia.
  Qed.
  Lemma f_overlay : formula16_ok Overlay s d.
  Proof.
    start. pose proof (hard_frac d s Hd Hs) as E. revert E. destruct (Z.ltb_spec d 32768); intros E; rewrite (err_Qeq _ _ _ _ _ E).
    - destruct (mulhalf_eq W16 s d) as [_ ->]; [split; cbn; lia|split; cbn; lia|]. cbn [half_exact].
      apply err_frac. assert (0 <= d * s <= 32767 * 65535) by nia. rewrite (Z.mul_comm s d). set (p := d * s) in *. clearbody p. lia.
    - openar. destruct (mulmax_eq W16 (65535 - (d - 32768) * 2) (65535 - s)) as [_ ->]; [split; cbn; lia|split; cbn; lia|]. cbn [maxv].
      apply err_frac. assert (0 <= (65535 - (d - 32768) * 2) * (65535 - s)) by nia.
      replace ((65535 - (d - 32768) * 2) * (65535 - s)) with ((2 * d - 65535) * s + 8589737985 - 131071 * s - 131070 * d + 65535 * s) by lia.
      assert (0 <= (2 * d - 65535) * s <= 4294836225) by nia. set (p := (2 * d - 65535) * s) in *. clearbody p. lia.
  Qed.
  Lemma f_pinlight : formula16_ok PinLight s d.
  Proof. start. openar. qz. bcase. Qed.
  Lemma f_linearlight : formula16_ok LinearLight s d.
  Proof.
    start. openar. destruct (Z.ltb_spec s 32768).
    - destruct (Z.ltb_spec (d + s * 2 - 65535) 0).
      + destruct (clip0_neg (d + s * 2 - 65535)) as [-> _]; [lia|]. qz. bcase.
      + rewrite clip0_pos by lia. qz. bcase.
    - unfold clip. cbn [maxv]. qz. bcase.
  Qed.

  Lemma f_colordodge : formula16_ok ColorDodge s d.
  Proof.
    start. unfold doc_dodge. rewrite u16_eq0, u16_eq1. openar. destruct (Z.eqb_spec d 0); [reflexivity|]. destruct (Z.eqb_spec s 65535); [reflexivity|].
    destruct (65535 - s) as [|p|p] eqn:Ep; try lia. rewrite udiv_pos by lia.
    rewrite floor_Qeq with (w := Z.min d (Zpos p) # p).
    - apply floor_frac. apply quot_frac. lia.
    - apply qmin_frac; [reflexivity|qo; lia|lia].
  Qed.
  Lemma f_divide : formula16_ok Divide s d.
  Proof.
    start. rewrite !u16_eq0. openar. destruct (Z.eqb_spec d 0); [reflexivity|]. destruct (Z.eqb_spec s 0); [reflexivity|].
    destruct s as [|p|p]; try lia. rewrite udiv_pos by lia.
    rewrite floor_Qeq with (w := Z.min d (Zpos p) # p).
    - apply floor_frac. apply quot_frac. lia.
    - apply qmin_frac; [reflexivity|qo; lia|lia].
  Qed.
  Lemma f_colorburn : formula16_ok ColorBurn s d.
  Proof.
    start. unfold doc_burn. rewrite u16_eq0, u16_eq1. openar. destruct (Z.eqb_spec d 65535); [reflexivity|]. destruct (Z.eqb_spec s 0); [reflexivity|].
    destruct s as [|p|p]; try lia. rewrite udiv_pos by lia.
    rewrite ceil_Qeq with (w := (Zpos p - Z.min (65535 - d) (Zpos p)) # p).
    - apply ceil_frac. pose proof (quot_frac (65535 - d) p ltac:(lia)). lia.
    - rewrite qmin_frac with (x := 65535 - d) (p := p); [qo; lia|qo; lia|qo; lia|lia].
  Qed.
  Lemma f_vividlight : formula16_ok VividLight s d.
  Proof.
    start. replace (Qle_bool (unit16 s) (1 # 2)) with (s <? 32768) by (qo; lia). openar. destruct (Z.ltb_spec s 32768).
    - unfold doc_burn. rewrite u16_eq1. replace (Qeq_bool (2 * unit16 s) 0) with (s =? 0) by (qo; destruct (Z.eqb_spec s 0), (Z.compare_spec (2 * s * 1) (0 * Zpos (1 * 65535))); lia || reflexivity).
      destruct (Z.eqb_spec s 0) as [->|Hz].
      + cbn [Z.eqb Z.mul]. destruct (Z.eqb_spec d 65535); reflexivity.
      + destruct (Z.eqb_spec (s * 2) 0); [lia|]. destruct (s * 2) as [|p|p] eqn:Ep; try lia. rewrite udiv_pos by lia.
        cbn [andb orb]. apply orb_true_intro. right. pose proof (quot_frac (65535 - d) p ltac:(lia)). destruct (Z.eqb_spec d 65535) as [->|Hm].
        * apply err_frac. set (k := clip W16 _) in *. clearbody k. nia.
        * rewrite err_Qeq with (w := (Zpos p - Z.min (65535 - d) (Zpos p)) # p); [apply err_frac; lia|].
          rewrite qmin_frac with (x := 65535 - d) (p := p); [qo; lia|qo; lia|qo; lia|lia].
    - unfold doc_dodge. rewrite u16_eq0. replace (Qeq_bool (2 * unit16 s - 1) 1) with (s =? 65535)
        by (qo; match goal with |- context [?x ?= ?y] => destruct (Z.eqb_spec s 65535), (Z.compare_spec x y) end; lia || reflexivity).
      destruct (Z.eqb_spec s 65535) as [->|Hz].
      + change (65535 * 2 - 65535 =? 65535) with true. cbn [Z.eqb Pos.eqb andb orb]. destruct (Z.eqb_spec d 0); reflexivity.
      + destruct (Z.eqb_spec (s * 2 - 65535) 65535); [lia|]. destruct (65535 - (s * 2 - 65535)) as [|p|p] eqn:Ep; try lia. rewrite udiv_pos by lia.
        cbn [andb orb]. apply orb_true_intro. right. pose proof (quot_frac d p ltac:(lia)). destruct (Z.eqb_spec d 0) as [->|Hm].
        * apply err_frac. set (k := clip W16 _) in *. clearbody k. nia.
        * rewrite err_Qeq with (w := Z.min d (Zpos p) # p); [apply err_frac; lia|].
          apply qmin_frac; [reflexivity|qo; lia|lia].
  Qed.
  Lemma f_hardmix : formula16_ok HardMix s d.
  Proof.
    start. replace (Qle_bool 1 (unit16 s + unit16 d)) with (65535 <=? s + d) by (qo; lia). openar. unfold clip. cbn [maxv].
    destruct (Z.ltb_spec s 32768).
    - destruct (Z.eqb_spec d 65535); [destruct (Z.leb_spec 65535 (s + d)); [apply orb_true_r|lia]|].
      destruct (Z.eqb_spec (s * 2) 0). { destruct (Z.leb_spec 65535 (s + d)); [lia|]. apply orb_true_r. }
      rewrite udiv_pos by lia. assert (0 < s) by lia.
      pose proof (Z.div_mod ((65535 - d) * 65535) (s * 2) ltac:(lia)) as E. pose proof (Z.mod_pos_bound ((65535 - d) * 65535) (s * 2) ltac:(lia)).
      set (q := (65535 - d) * 65535 / (s * 2)) in *. clearbody q. set (r := ((65535 - d) * 65535) mod (s * 2)) in *. clearbody r.
      destruct (Z.eqb_spec (s + d) 65535); [reflexivity|]. destruct (Z.eqb_spec (s + d) 65536); [reflexivity|]. cbn [orb].
      destruct (Z.leb_spec 65535 (s + d)).
      + assert (q < 32767) by nia. destruct (Z.ltb_spec q 65535); [|lia]. destruct (Z.leb_spec (65535 - q) 32768); [lia|reflexivity].
      + assert (32767 <= q) by nia. destruct (Z.ltb_spec q 65535); [destruct (Z.leb_spec (65535 - q) 32768); [reflexivity|lia]|reflexivity].
    - destruct (Z.eqb_spec d 0). { destruct (Z.leb_spec 65535 (s + d)); [|apply orb_true_r]. replace (s + d =? 65535) with true by lia. reflexivity. }
      destruct (Z.eqb_spec ((s - 32768) * 2) 65535); [lia|].
      rewrite udiv_pos by lia. set (k := 65535 - (s - 32768) * 2) in *. assert (Hk : k = 131071 - 2 * s) by lia. clearbody k. assert (0 < k) by lia.
      pose proof (Z.div_mod (d * 65535) k ltac:(lia)) as E. pose proof (Z.mod_pos_bound (d * 65535) k ltac:(lia)).
      set (q := d * 65535 / k) in *. clearbody q. set (r := (d * 65535) mod k) in *. clearbody r.
      destruct (Z.eqb_spec (s + d) 65535); [reflexivity|]. destruct (Z.eqb_spec (s + d) 65536); [reflexivity|]. cbn [orb].
      destruct (Z.leb_spec 65535 (s + d)).
      + assert (32769 <= q) by nia. destruct (Z.ltb_spec q 65535); [destruct (Z.leb_spec q 32768); [lia|reflexivity]|reflexivity].
      + assert (q < 32769) by nia. destruct (Z.ltb_spec q 65535); [|lia]. destruct (Z.leb_spec q 32768); [reflexivity|lia].
  Qed.

  (** SoftLight *)
  Lemma f_soft_dark : s < 32768 -> formula16_ok SoftLight s d.
  Proof.
    intros H. start. unfold doc_soft. replace (Qle_bool (unit16 s) (1 # 2)) with (s <? 32768) by (qo; lia). openar.
    destruct (Z.ltb_spec s 32768); [|lia]. destruct (mulmax_eq W16 (65535 - s * 2) d) as [_ ->]; [split; cbn; lia|split; cbn; lia|]. cbn [maxv].
    pose proof (div_max W16 (65535 - s * 2) d ltac:(split; cbn; lia) ltac:(split; cbn; lia)) as R. cbn [maxv] in R.
    assert (0 <= (65535 - s * 2) * d - 65535 * ((65535 - s * 2) * d / 65535) < 65535) as T. { set (p := (65535 - s * 2) * d). clearbody p. lia. }
    set (t := (65535 - s * 2) * d / 65535) in *. clearbody t.
    destruct (mulmax_eq W16 t (65535 - d)) as [_ ->]; [split; cbn; lia|split; cbn; lia|]. cbn [maxv].
    assert (0 <= t * (65535 - d) - 65535 * (t * (65535 - d) / 65535) < 65535) as T2. { set (p := t * (65535 - d)). clearbody p. lia. }
    set (u := t * (65535 - d) / 65535) in *. clearbody u.
    set (w := (4294836225 * d - (65535 - s * 2) * d * (65535 - d)) # 281462092005375).
    rewrite (err_Qeq (-2 # 1) (2304 # 1) _ _ (w)), (err_Qeq (-2 # 1) (2 # 1) _ _ (w)) by (subst w; qo; lia). subst w.
    assert (0 <= (65535 - s * 2) * d * (65535 - d) - 4294836225 * u < 65535 * 131070) as B.
    { assert (0 <= ((65535 - s * 2) * d - 65535 * t) * (65535 - d) <= 65535 * 65534) by nia. nia. }
    cbn [andb orb]. set (b := (65535 - s * 2) * d * (65535 - d)) in *. clearbody b.
    assert (err16 (-2 # 1) (2 # 1) (d - u) (4294836225 * d - b # 281462092005375) = true) as -> by (apply err_frac; lia).
    assert (err16 (-2 # 1) (2304 # 1) (d - u) (4294836225 * d - b # 281462092005375) = true) as -> by (apply err_frac; lia).
    apply orb_true_r.
  Qed.
End formulas.

Lemma root16_eq d : 0 <= d -> (root16 (unit16 d) == (Z.sqrt (d * 65535) # 65535))%Q.
Proof.
  intros H. unfold root16. assert (Qred (unit16 d * (65535 # 1)) = (d # 1)%Q) as ->; [|reflexivity].
  rewrite (Qred_complete _ (d # 1)) by (qo; lia). apply Qred_identity. cbn [Qnum Qden]. apply Z.gcd_1_r.
Qed.

Lemma f_soft_bright s d : 32768 <= s <= 65535 -> 0 <= d <= 65535 -> formula16_ok SoftLight s d.
Proof.
  intros Hs Hd. unfold formula16_ok, within_formula16. cbn [doc chan maxv halfv quarterv]; cbv zeta.
  unfold doc_soft. replace (Qle_bool (unit16 s) (1 # 2)) with false by (qo; lia). replace (s <? 32768) with false by lia.
  replace (Qle_bool (unit16 d) (1 # 4)) with (d <? 16384) by (qo; lia). cbv zeta. openar.
  destruct (Z.ltb_spec d 16384) as [L|L].
  - pose proof (poly16_eq d ltac:(lia)) as P. cbv zeta in P.
    destruct (poly_range W16 d ltac:(cbn; lia)) as [R _]. cbn [maxv] in R.
    set (t := softPoly ideal W16 d) in *. clearbody t.
    destruct (mulmax_eq W16 (s * 2 - 65535) (t - d)) as [_ ->]; [split; cbn; lia|split; cbn; lia|]. cbn [maxv].
    set (pp := 16 * d * d * d - 12 * 65535 * d * d + 4 * 65535 * 65535 * d) in *.
    set (n := 65535 * 65535 * 65535 * d + (2 * s - 65535) * (pp - 4294836225 * d)).
    rewrite (err_Qeq (-2 # 1) (2304 # 1) _ _ (n # 18445618199572250625)), (err_Qeq (-2 # 1) (2 # 1) _ _ (n # 18445618199572250625)) by (subst n pp; qo; lia).
    assert (0 <= (s * 2 - 65535) * (t - d) - 65535 * ((s * 2 - 65535) * (t - d) / 65535) < 65535) as T. { set (p := (s * 2 - 65535) * (t - d)). clearbody p. lia. }
    set (u := (s * 2 - 65535) * (t - d) / 65535) in *. clearbody u.
    replace (32767 <? s) with true by lia. cbn [andb orb]. rewrite andb_true_r. apply err_frac. clearbody pp.
    assert (N : n = 281462092005375 * d + (s * 2 - 65535) * (4294836225 * (t - d)) - (s * 2 - 65535) * (4294836225 * t - pp)) by (unfold n; ring).
    clearbody n. set (k := s * 2 - 65535) in *. assert (Hk : 0 < k <= 65535) by lia. clearbody k.
    assert (- 65535 * 4294836225 <= k * (4294836225 * t - pp) <= 65535 * (2304 * 4294836225)) as A by nia.
    set (aa := k * (4294836225 * t - pp)) in *. clearbody aa.
    replace (k * (4294836225 * (t - d))) with (4294836225 * (k * (t - d))) in N by ring.
    set (bb := k * (t - d)) in *. clearbody bb. lia.
  - rewrite (sqrt16_eq d) by lia.
    destruct (sqrt_range W16 d ltac:(cbn; lia)) as [R _]. rewrite (sqrt16_eq d) in R by lia. cbn [maxv] in R.
    pose proof (root16_eq d ltac:(lia)) as Eq.
    set (t := Z.sqrt (d * 65535)) in *. clearbody t.
    destruct (mulmax_eq W16 (s * 2 - 65535) (t - d)) as [_ ->]; [split; cbn; lia|split; cbn; lia|]. cbn [maxv].
    set (n := 65535 * d + (2 * s - 65535) * (t - d)).
    rewrite (err_Qeq (-2 # 1) (2304 # 1) _ _ (n # 4294836225)), (err_Qeq (-2 # 1) (2 # 1) _ _ (n # 4294836225)) by (subst n; rewrite Eq; qo; lia).
    assert (0 <= (s * 2 - 65535) * (t - d) - 65535 * ((s * 2 - 65535) * (t - d) / 65535) < 65535) as T. { set (p := (s * 2 - 65535) * (t - d)). clearbody p. lia. }
    set (u := (s * 2 - 65535) * (t - d) / 65535) in *. clearbody u.
    assert (err16 (-2 # 1) (2 # 1) (d + u) (n # 4294836225) = true) as -> by (apply err_frac; subst n; lia).
    assert (err16 (-2 # 1) (2304 # 1) (d + u) (n # 4294836225) = true) as -> by (apply err_frac; subst n; lia).
    apply orb_true_r.
Qed.
Lemma f_softlight s d : 0 <= s <= 65535 -> 0 <= d <= 65535 -> formula16_ok SoftLight s d.
Proof. intros. destruct (Z.ltb_spec s 32768); [now apply f_soft_dark|apply f_soft_bright; lia]. Qed.

Lemma formulas16_ok m s d : is_separable m = true -> 0 <= s <= 65535 -> 0 <= d <= 65535 -> formula16_ok m s d.
Proof.
  intros Hm Hs Hd. destruct m; try discriminate Hm.
  - now apply f_normal.
  - now apply f_darken.
  - now apply f_multiply.
  - now apply f_colorburn.
  - now apply f_linearburn.
  - now apply f_lighten.
  - now apply f_screen.
  - now apply f_colordodge.
  - now apply f_lineardodge.
  - now apply f_add.
  - now apply f_overlay.
  - now apply f_softlight.
  - now apply f_hardlight.
  - now apply f_linearlight.
  - now apply f_vividlight.
  - now apply f_pinlight.
  - now apply f_hardmix.
  - now apply f_difference.
  - now apply f_exclusion.
  - now apply f_subtract.
  - now apply f_divide.
Qed.
