(** The formulas of the separable blend modes: how far the 8 bit code is from the
    rational formula. *)
From Coq Require Import QArith.
From Verif Require Import Base BaseFacts MBlend PEnum PSoft PBlend SBlend.
Open Scope Z_scope.
Local Arguments Pos.mul : simpl never.

Ltac qo := unfold unit, Qle_bool, Qeq_bool, Qeq, Qminus, Qplus, Qmult, Qopp, Qinv, Qdiv, Zeq_bool in *; cbn [Qnum Qden] in *.

(** [Qle_bool] and the roundings as statements about integers. *)
Lemma qle_frac n k m j : Qle_bool (n # k) (m # j) = (n * Zpos j <=? m * Zpos k).
Proof. reflexivity. Qed.
Lemma err_frac lo hi c n k : lo * Zpos k <= c * Zpos k - 255 * n <= hi * Zpos k -> err_between (lo # 1) (hi # 1) c (n # k) = true.
Proof. intros. unfold err_between. qo. lia. Qed.
Lemma err_Qeq lo hi c v w : v == w -> err_between lo hi c v = err_between lo hi c w.
Proof. intros H. unfold err_between. now rewrite H. Qed.
Lemma floor_frac c n k : c * Zpos k <= 255 * n < c * Zpos k + Zpos k -> (c =? Qround.Qfloor ((255 # 1) * (n # k))) = true.
Proof.
  intros. unfold Qround.Qfloor. qo. apply Z.eqb_eq. apply Z.div_unique_pos with (r := 255 * n - c * Zpos k); lia.
Qed.
Lemma ceil_frac c n k : c * Zpos k - Zpos k < 255 * n <= c * Zpos k -> (c =? Qround.Qceiling ((255 # 1) * (n # k))) = true.
Proof.
  intros. unfold Qround.Qceiling, Qround.Qfloor. qo. apply Z.eqb_eq. 
  change (1 * k)%positive with k. assert (- (255 * n) / Zpos k = - c); [|lia]. symmetry. apply Z.div_unique_pos with (r := c * Zpos k - 255 * n); lia.
Qed.
Lemma floor_Qeq c v w : v == w -> (c =? Qround.Qfloor ((255 # 1) * v)) = (c =? Qround.Qfloor ((255 # 1) * w)).
Proof. intros H. now rewrite H. Qed.
Lemma ceil_Qeq c v w : v == w -> (c =? Qround.Qceiling ((255 # 1) * v)) = (c =? Qround.Qceiling ((255 # 1) * w)).
Proof. intros H. now rewrite H. Qed.

(** Division of bytes. *)
Lemma unit_eq1 c : Qeq_bool (unit c) 1 = (c =? 255).
Proof. qo. destruct (Z.compare_spec (c * 1) (1 * 255)), (Z.eqb_spec c 255); lia || reflexivity. Qed.
Lemma unit_eq0 c : Qeq_bool (unit c) 0 = (c =? 0).
Proof. qo. destruct (Z.compare_spec (c * 1) (0 * 255)), (Z.eqb_spec c 0); lia || reflexivity. Qed.

(** [255 * dodge] and [255 - 255 * burn] are [min 255 (255 * x / y)]. *)
Lemma dodge_frac x p : 0 <= x ->
  qmin 1 ((x # 255) / (Zpos p # 255)) == (if x <? Zpos p then x # p else 1)%Q.
Proof.
  intros. unfold qmin, qlt, Qdiv, Qinv. cbn [Qnum]. unfold Qmult. cbn [Qnum Qden]. unfold Qle_bool. cbn [Qnum Qden].
  destruct (Z.ltb_spec x (Zpos p)), (Z.leb_spec (x * 255 * Zpos 1) (1 * Zpos (255 * p))); cbn [negb]; unfold Qeq; cbn [Qnum Qden]; lia.
Qed.

Ltac qz := unfold doc_burn, doc_dodge, doc_screen, doc_hard, qmin, qmax, qlt, err_between in *; qo.
Ltac bcase := repeat (match goal with
  | |- context [negb (?a <=? ?b)] => lazymatch a with context [negb _] => fail | _ => lazymatch b with context [negb _] => fail | _ => destruct (Z.leb_spec a b) end end
  | |- context [if ?a <? ?b then _ else _] => destruct (Z.ltb_spec a b)
  | |- context [if ?a <=? ?b then _ else _] => destruct (Z.leb_spec a b)
  | |- context [if ?a =? ?b then _ else _] => destruct (Z.eqb_spec a b)
  end; cbn [negb Qnum Qden]); qo; try lia.

Definition formula_ok (m : mode) (s d : Z) : Prop :=
  match chan ideal W8 m s d with None => False | Some c => within_formula m s d c = true end.

  (** Quotients. *)
  Lemma quot_frac x p : 0 <= x <= 255 -> clip W8 (x * 255 / Zpos p) * Zpos p <= 255 * Z.min x (Zpos p) < clip W8 (x * 255 / Zpos p) * Zpos p + Zpos p.
  Proof.
    intros. unfold clip. cbn [maxv]. pose proof (Z.div_mod (x * 255) (Zpos p) ltac:(lia)) as E. pose proof (Z.mod_pos_bound (x * 255) (Zpos p) ltac:(lia)).
    set (q := x * 255 / Zpos p) in *. clearbody q. set (r := (x * 255) mod Zpos p) in *. clearbody r.
    destruct (Z.ltb_spec q 255); destruct (Z.leb_spec x (Zpos p)); rewrite ?Z.min_l, ?Z.min_r by lia; nia.
  Qed.
  Lemma qmin_comp v w : v == w -> qmin 1 v == qmin 1 w.
  Proof. intros H. unfold qmin, qlt. rewrite H. destruct (negb _); [reflexivity|exact H]. Qed.
  Lemma qmin_frac v w x p : v == (x # 255) -> w == (Zpos p # 255) -> 0 <= x -> qmin 1 (v / w) == (Z.min x (Zpos p) # p).
  Proof.
    intros Hv Hw H. rewrite qmin_comp with (w := ((x # 255) / (Zpos p # 255))%Q) by (now rewrite Hv, Hw).
    rewrite dodge_frac by lia. destruct (Z.ltb_spec x (Zpos p)); unfold Qeq; cbn [Qnum Qden]; lia.
  Qed.

Section formulas.
  Variables s d : Z.
  Hypothesis Hs : 0 <= s <= 255.
  Hypothesis Hd : 0 <= d <= 255.

  Ltac start := unfold formula_ok, within_formula; cbn [rounding_of doc chan rounds maxv halfv quarterv]; cbv zeta.

  Lemma f_normal : formula_ok Normal s d.
  Proof. start. qz. lia. Qed.
  Lemma f_darken : formula_ok Darken s d.
  Proof. start. qz. bcase. Qed.
  Lemma f_lighten : formula_ok Lighten s d.
  Proof. start. qz. bcase. Qed.
  Lemma f_linearburn : formula_ok LinearBurn s d.
  Proof. start. openar. qz. bcase. Qed.
  Lemma f_lineardodge : formula_ok LinearDodge s d.
  Proof. start. openar. unfold clip. cbn [maxv]. qz. bcase. Qed.
  Lemma f_add : formula_ok Add s d.
  Proof. start. openar. qz. lia. Qed.
  Lemma f_difference : formula_ok Difference s d.
  Proof. start. openar. qz. bcase. Qed.
  Lemma f_subtract : formula_ok Subtract s d.
  Proof. start. openar. qz. bcase. Qed.
  Lemma f_multiply : formula_ok Multiply s d.
  Proof.
    start. destruct (mulmax_eq W8 s d) as [_ ->]; [split; cbn; lia|split; cbn; lia|]. cbn [maxv].
    rewrite floor_Qeq with (w := (s * d) # 65025) by (qo; lia).
    apply floor_frac. set (p := s * d). clearbody p. lia.
  Qed.
  Lemma f_screen : formula_ok Screen s d.
  Proof.
    start. destruct (mulmax_eq W8 s d) as [_ ->]; [split; cbn; lia|split; cbn; lia|]. cbn [maxv]. openar. unfold doc_screen.
    erewrite ceil_Qeq with (w := (255 * s + 255 * d - s * d) # 65025); [|qo; lia].
    apply ceil_frac. set (p := s * d). clearbody p. lia.
  Qed.
  Lemma f_exclusion : formula_ok Exclusion s d.
  Proof.
    start. destruct (mulhalf_eq W8 d s) as [_ ->]; [split; cbn; lia|split; cbn; lia|]. cbn [maxv half_exact]. openar.
    erewrite err_Qeq with (w := (255 * s + 255 * d - 2 * (d * s)) # 65025); [|qo; lia].
    apply err_frac. assert (0 <= d * s <= 65025) by nia. set (p := d * s) in *. clearbody p. lia.
  Qed.
  Lemma hard_frac x y : 0 <= x <= 255 -> 0 <= y <= 255 ->
    doc_hard (unit x) (unit y) == (if x <? 128 then (2 * (x * y)) # 65025 else (255 * (2 * x - 255) + 255 * y - (2 * x - 255) * y) # 65025).
  Proof.
    intros. unfold doc_hard. replace (Qle_bool (unit x) (1 # 2)) with (x <? 128) by (qo; lia).
    destruct (x <? 128); unfold doc_screen; qo; lia.
  Qed.
  Lemma f_hardlight : formula_ok HardLight s d.
  Proof.
    start. pose proof (hard_frac s d Hs Hd) as E. revert E. destruct (Z.ltb_spec s 128); intros E; rewrite (err_Qeq _ _ _ _ _ E).
    - destruct (mulhalf_eq W8 d s) as [_ ->]; [split; cbn; lia|split; cbn; lia|]. cbn [half_exact].
      apply err_frac. assert (0 <= s * d <= 65025) by nia. rewrite (Z.mul_comm d s). set (p := s * d) in *. clearbody p. lia.
    - openar. destruct (mulmax_eq W8 d (s * 2 - 255)) as [_ ->]; [split; cbn; lia|split; cbn; lia|]. cbn [maxv].
      apply err_frac. replace (d * (s * 2 - 255)) with ((2 * s - 255) * d) by lia. set (p := (2 * s - 255) * d) in *. clearbody p. lia.
  Qed.
  Lemma f_overlay : formula_ok Overlay s d.
  Proof.
    start. pose proof (hard_frac d s Hd Hs) as E. revert E. destruct (Z.ltb_spec d 128); intros E; rewrite (err_Qeq _ _ _ _ _ E).
    - destruct (mulhalf_eq W8 s d) as [_ ->]; [split; cbn; lia|split; cbn; lia|]. cbn [half_exact].
      apply err_frac. assert (0 <= d * s <= 65025) by nia. rewrite (Z.mul_comm s d). set (p := d * s) in *. clearbody p. lia.
    - openar. destruct (mulmax_eq W8 (255 - (d - 128) * 2) (255 - s)) as [_ ->]; [split; cbn; lia|split; cbn; lia|]. cbn [maxv].
      apply err_frac. assert (0 <= (255 - (d - 128) * 2) * (255 - s)) by nia.
      replace ((255 - (d - 128) * 2) * (255 - s)) with ((2 * d - 255) * s + 130305 - 511 * s - 510 * d + 255 * s) by lia.
      assert (0 <= (2 * d - 255) * s <= 65025) by nia. set (p := (2 * d - 255) * s) in *. clearbody p. lia.
  Qed.
  Lemma f_pinlight : formula_ok PinLight s d.
  Proof. start. openar. qz. bcase. Qed.
  Lemma f_linearlight : formula_ok LinearLight s d.
  Proof.
    start. openar. destruct (Z.ltb_spec s 128).
    - destruct (Z.ltb_spec (d + s * 2 - 255) 0).
      + destruct (clip0_neg (d + s * 2 - 255)) as [-> _]; [lia|]. qz. bcase.
      + rewrite clip0_pos by lia. qz. bcase.
    - unfold clip. cbn [maxv]. qz. bcase.
  Qed.

  Lemma f_colordodge : formula_ok ColorDodge s d.
  Proof.
    start. unfold doc_dodge. rewrite unit_eq0, unit_eq1. openar. destruct (Z.eqb_spec d 0); [reflexivity|]. destruct (Z.eqb_spec s 255); [reflexivity|].
    destruct (255 - s) as [|p|p] eqn:Ep; try lia. rewrite udiv_pos by lia.
    rewrite floor_Qeq with (w := Z.min d (Zpos p) # p).
    - apply floor_frac. apply quot_frac. lia.
    - apply qmin_frac; [reflexivity|qo; lia|lia].
  Qed.
  Lemma f_divide : formula_ok Divide s d.
  Proof.
    start. rewrite !unit_eq0. openar. destruct (Z.eqb_spec d 0); [reflexivity|]. destruct (Z.eqb_spec s 0); [reflexivity|].
    destruct s as [|p|p]; try lia. rewrite udiv_pos by lia.
    rewrite floor_Qeq with (w := Z.min d (Zpos p) # p).
    - apply floor_frac. apply quot_frac. lia.
    - apply qmin_frac; [reflexivity|qo; lia|lia].
  Qed.
  Lemma f_colorburn : formula_ok ColorBurn s d.
  Proof.
    start. unfold doc_burn. rewrite unit_eq0, unit_eq1. openar. destruct (Z.eqb_spec d 255); [reflexivity|]. destruct (Z.eqb_spec s 0); [reflexivity|].
    destruct s as [|p|p]; try lia. rewrite udiv_pos by lia.
    rewrite ceil_Qeq with (w := (Zpos p - Z.min (255 - d) (Zpos p)) # p).
    - apply ceil_frac. pose proof (quot_frac (255 - d) p ltac:(lia)). lia.
    - rewrite qmin_frac with (x := 255 - d) (p := p); [qo; lia|qo; lia|qo; lia|lia].
  Qed.
  Lemma f_vividlight : formula_ok VividLight s d.
  Proof.
    start. replace (Qle_bool (unit s) (1 # 2)) with (s <? 128) by (qo; lia). openar. destruct (Z.ltb_spec s 128).
    - unfold doc_burn. rewrite unit_eq1. replace (Qeq_bool (2 * unit s) 0) with (s =? 0) by (qo; destruct (Z.eqb_spec s 0), (Z.compare_spec (2 * s * 1) (0 * Zpos (1 * 255))); lia || reflexivity).
      destruct (Z.eqb_spec s 0) as [->|Hz].
      + cbn [Z.eqb Z.mul]. destruct (Z.eqb_spec d 255); reflexivity.
      + destruct (Z.eqb_spec (s * 2) 0); [lia|]. destruct (s * 2) as [|p|p] eqn:Ep; try lia. rewrite udiv_pos by lia.
        cbn [andb orb]. apply orb_true_intro. right. pose proof (quot_frac (255 - d) p ltac:(lia)). destruct (Z.eqb_spec d 255) as [->|Hm].
        * apply err_frac. set (k := clip W8 _) in *. clearbody k. nia.
        * rewrite err_Qeq with (w := (Zpos p - Z.min (255 - d) (Zpos p)) # p); [apply err_frac; lia|].
          rewrite qmin_frac with (x := 255 - d) (p := p); [qo; lia|qo; lia|qo; lia|lia].
    - unfold doc_dodge. rewrite unit_eq0. replace (Qeq_bool (2 * unit s - 1) 1) with (s =? 255)
        by (qo; match goal with |- context [?x ?= ?y] => destruct (Z.eqb_spec s 255), (Z.compare_spec x y) end; lia || reflexivity).
      destruct (Z.eqb_spec s 255) as [->|Hz].
      + change (255 * 2 - 255 =? 255) with true. cbn [Z.eqb Pos.eqb andb orb]. destruct (Z.eqb_spec d 0); reflexivity.
      + destruct (Z.eqb_spec (s * 2 - 255) 255); [lia|]. destruct (255 - (s * 2 - 255)) as [|p|p] eqn:Ep; try lia. rewrite udiv_pos by lia.
        cbn [andb orb]. apply orb_true_intro. right. pose proof (quot_frac d p ltac:(lia)). destruct (Z.eqb_spec d 0) as [->|Hm].
        * apply err_frac. set (k := clip W8 _) in *. clearbody k. nia.
        * rewrite err_Qeq with (w := Z.min d (Zpos p) # p); [apply err_frac; lia|].
          apply qmin_frac; [reflexivity|qo; lia|lia].
  Qed.
  Lemma f_hardmix : formula_ok HardMix s d.
  Proof.
    start. replace (Qle_bool 1 (unit s + unit d)) with (255 <=? s + d) by (qo; lia). openar. unfold clip. cbn [maxv].
    destruct (Z.ltb_spec s 128).
    - destruct (Z.eqb_spec d 255); [destruct (Z.leb_spec 255 (s + d)); [apply orb_true_r|lia]|].
      destruct (Z.eqb_spec (s * 2) 0). { destruct (Z.leb_spec 255 (s + d)); [lia|]. apply orb_true_r. }
      rewrite udiv_pos by lia. assert (0 < s) by lia.
      pose proof (Z.div_mod ((255 - d) * 255) (s * 2) ltac:(lia)) as E. pose proof (Z.mod_pos_bound ((255 - d) * 255) (s * 2) ltac:(lia)).
      set (q := (255 - d) * 255 / (s * 2)) in *. clearbody q. set (r := ((255 - d) * 255) mod (s * 2)) in *. clearbody r.
      destruct (Z.eqb_spec (s + d) 255); [reflexivity|]. destruct (Z.eqb_spec (s + d) 256); [reflexivity|]. cbn [orb].
      destruct (Z.leb_spec 255 (s + d)).
      + assert (q < 127) by nia. destruct (Z.ltb_spec q 255); [|lia]. destruct (Z.leb_spec (255 - q) 128); [lia|reflexivity].
      + assert (127 <= q) by nia. destruct (Z.ltb_spec q 255); [destruct (Z.leb_spec (255 - q) 128); [reflexivity|lia]|reflexivity].
    - destruct (Z.eqb_spec d 0). { destruct (Z.leb_spec 255 (s + d)); [|apply orb_true_r]. replace (s + d =? 255) with true by lia. reflexivity. }
      destruct (Z.eqb_spec ((s - 128) * 2) 255); [lia|].
      rewrite udiv_pos by lia. set (k := 255 - (s - 128) * 2) in *. assert (Hk : k = 511 - 2 * s) by lia. clearbody k. assert (0 < k) by lia.
      pose proof (Z.div_mod (d * 255) k ltac:(lia)) as E. pose proof (Z.mod_pos_bound (d * 255) k ltac:(lia)).
      set (q := d * 255 / k) in *. clearbody q. set (r := (d * 255) mod k) in *. clearbody r.
      destruct (Z.eqb_spec (s + d) 255); [reflexivity|]. destruct (Z.eqb_spec (s + d) 256); [reflexivity|]. cbn [orb].
      destruct (Z.leb_spec 255 (s + d)).
      + assert (129 <= q) by nia. destruct (Z.ltb_spec q 255); [destruct (Z.leb_spec q 128); [lia|reflexivity]|reflexivity].
      + assert (q < 129) by nia. destruct (Z.ltb_spec q 255); [|lia]. destruct (Z.leb_spec q 128); [reflexivity|lia].
  Qed.

  (** SoftLight *)
  Lemma f_soft_dark : s < 128 -> formula_ok SoftLight s d.
  Proof.
    intros H. start. unfold doc_soft. replace (Qle_bool (unit s) (1 # 2)) with (s <? 128) by (qo; lia). openar.
    destruct (Z.ltb_spec s 128); [|lia]. destruct (mulmax_eq W8 (255 - s * 2) d) as [_ ->]; [split; cbn; lia|split; cbn; lia|]. cbn [maxv].
    pose proof (div_max W8 (255 - s * 2) d ltac:(split; cbn; lia) ltac:(split; cbn; lia)) as R. cbn [maxv] in R.
    assert (0 <= (255 - s * 2) * d - 255 * ((255 - s * 2) * d / 255) < 255) as T. { set (p := (255 - s * 2) * d). clearbody p. lia. }
    set (t := (255 - s * 2) * d / 255) in *. clearbody t.
    destruct (mulmax_eq W8 t (255 - d)) as [_ ->]; [split; cbn; lia|split; cbn; lia|]. cbn [maxv].
    assert (0 <= t * (255 - d) - 255 * (t * (255 - d) / 255) < 255) as T2. { set (p := t * (255 - d)). clearbody p. lia. }
    set (u := t * (255 - d) / 255) in *. clearbody u.
    set (w := (65025 * d - (255 - s * 2) * d * (255 - d)) # 16581375).
    rewrite (err_Qeq (-17 # 1) _ _ _ (w)), (err_Qeq (-2 # 1) _ _ _ (w)) by (subst w; qo; lia). subst w.
    assert (0 <= (255 - s * 2) * d * (255 - d) - 65025 * u < 255 * 510) as B.
    { assert (0 <= ((255 - s * 2) * d - 255 * t) * (255 - d) <= 255 * 254) by nia. nia. }
    cbn [andb orb]. set (b := (255 - s * 2) * d * (255 - d)) in *. clearbody b.
    assert (err_between (-2 # 1) (2 # 1) (d - u) (65025 * d - b # 16581375) = true) as -> by (apply err_frac; lia).
    assert (err_between (-17 # 1) (2 # 1) (d - u) (65025 * d - b # 16581375) = true) as -> by (apply err_frac; lia).
    apply orb_true_r.
  Qed.
End formulas.

(** The 64 dark backdrops: the polynomial, for every bright source. *)
Definition soft_low (s d : Z) : bool :=
  let t := softPoly ideal W8 d in
  let c := d + (s * 2 - 255) * (t - d) / 255 in
  let n := 16581375 * d + (2 * s - 255) * (((16 * d - 3060) * d + 260100) * d - 65025 * d) in
  (-17 * 16581375 * 255 <=? c * (16581375 * 255) - 255 * n) && (c * (16581375 * 255) - 255 * n <=? 2 * 16581375 * 255).
Lemma soft_low_all : forallb (fun d => forallb (fun s => soft_low s d) (zrange 128 128)) (zrange 0 64) = true.
Proof. vm_compute. reflexivity. Qed.
(** The other backdrops: the square root is the integer square root. *)
Lemma soft_root_all : forallb (fun d => (sqrtw ideal W8 d =? Z.sqrt (d * 255)) && (Qnum (root255 (unit d)) =? Z.sqrt (d * 255))) (zrange 64 192) = true.
Proof. vm_compute. reflexivity. Qed.

Lemma f_soft_bright s d : 128 <= s <= 255 -> 0 <= d <= 255 -> formula_ok SoftLight s d.
Proof.
  intros Hs Hd. unfold formula_ok, within_formula. cbn [rounding_of doc chan maxv halfv quarterv]; cbv zeta.
  unfold doc_soft. replace (Qle_bool (unit s) (1 # 2)) with false by (qo; lia). replace (s <? 128) with false by lia.
  replace (Qle_bool (unit d) (1 # 4)) with (d <? 64) by (qo; lia). cbv zeta. openar.
  destruct (Z.ltb_spec d 64) as [L|L].
  - pose proof (forall_zrange _ _ _ soft_low_all d ltac:(lia)) as H. cbv beta in H.
    pose proof (forall_zrange _ _ _ H s ltac:(lia)) as H1. cbv beta in H1. clear H. unfold soft_low in H1.
    destruct (poly_range W8 d ltac:(cbn; lia)) as [R _]. cbn [maxv] in R.
    set (t := softPoly ideal W8 d) in *. clearbody t.
    destruct (mulmax_eq W8 (s * 2 - 255) (t - d)) as [_ ->]; [split; cbn; lia|split; cbn; lia|]. cbn [maxv].
    set (n := 16581375 * d + _) in H1.
    rewrite (err_Qeq (-17 # 1) _ _ _ (n # 4228250625)), (err_Qeq (-2 # 1) _ _ _ (n # 4228250625)) by (subst n; qo; lia). clearbody n.
    set (c := d + _) in *. clearbody c. replace (127 <? s) with true by lia. cbn [andb orb]. rewrite andb_true_r. apply err_frac. lia.
  - pose proof (forall_zrange _ _ _ soft_root_all d ltac:(lia)) as H. cbv beta in H. apply andb_prop in H. destruct H as [H1 H2].
    apply Z.eqb_eq in H1, H2. rewrite H1.
    destruct (sqrt_range W8 d ltac:(cbn; lia)) as [R _]. rewrite H1 in R. cbn [maxv] in R.
    set (t := Z.sqrt (d * 255)) in *. clearbody t.
    destruct (mulmax_eq W8 (s * 2 - 255) (t - d)) as [_ ->]; [split; cbn; lia|split; cbn; lia|]. cbn [maxv].
    set (n := 255 * d + (2 * s - 255) * (t - d)).
    assert (Eq : root255 (unit d) == (t # 255)) by (rewrite <- H2; reflexivity).
    rewrite (err_Qeq (-17 # 1) _ _ _ (n # 65025)), (err_Qeq (-2 # 1) _ _ _ (n # 65025)) by (subst n; rewrite Eq; qo; lia).
    assert (0 <= (s * 2 - 255) * (t - d) - 255 * ((s * 2 - 255) * (t - d) / 255) < 255) as T. { set (p := (s * 2 - 255) * (t - d)). clearbody p. lia. }
    set (u := (s * 2 - 255) * (t - d) / 255) in *. clearbody u.
    assert (err_between (-2 # 1) (2 # 1) (d + u) (n # 65025) = true) as -> by (apply err_frac; subst n; lia).
    assert (err_between (-17 # 1) (2 # 1) (d + u) (n # 65025) = true) as -> by (apply err_frac; subst n; lia).
    apply orb_true_r.
Qed.
Lemma f_softlight s d : 0 <= s <= 255 -> 0 <= d <= 255 -> formula_ok SoftLight s d.
Proof. intros. destruct (Z.ltb_spec s 128); [now apply f_soft_dark|apply f_soft_bright; lia]. Qed.

Lemma formulas_ok m s d : is_separable m = true -> 0 <= s <= 255 -> 0 <= d <= 255 -> formula_ok m s d.
Proof.
  intros Hm Hs Hd. destruct m; try discriminate Hm.
  - now apply f_normal.
  - now apply f_darken.
  - now apply f_multiply.
  - now apply f_colorburn.
  - now apply f_linearburn.
  - now apply f_lighten.
  - now apply f_screen.
  - now apply f_colordodge.
  - now apply f_lineardodge.
  - now apply f_add.
  - now apply f_overlay.
  - now apply f_softlight.
  - now apply f_hardlight.
  - now apply f_linearlight.
  - now apply f_vividlight.
  - now apply f_pinlight.
  - now apply f_hardmix.
  - now apply f_difference.
  - now apply f_exclusion.
  - now apply f_subtract.
  - now apply f_divide.
Qed.
