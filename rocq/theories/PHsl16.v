(** The 16 bit luminosity code follows the W3C formulas. *)
From Coq Require Import QArith Qabs SpecFloat Lqa.
From Verif Require Import Base BaseFacts MBlend SWide SHsl PBlend PLum PRound PBlend2 PLum16 PFloatQ.
Open Scope Z_scope.

(** [x] is exactly [n] 65536ths. *)
Definition exf (x : spec_float) (n : Z) : Prop := nf 70 x /\ (val x == inject_Z n * (1 # 65536))%Q /\ Z.abs n < 2 ^ 40.

Lemma pw16 : (pw (-16) == 1 # 65536)%Q.
Proof. reflexivity. Qed.
Lemma inject_abs n : (Qabs (inject_Z n) == inject_Z (Z.abs n))%Q.
Proof. unfold inject_Z, Qabs. reflexivity. Qed.
Lemma inject_pos c : 0 < c -> (0 < inject_Z c)%Q.
Proof. intros H. change 0%Q with (inject_Z 0). rewrite <- Zlt_Qlt. exact H. Qed.
Lemma signed_abs s q : (Qabs (signed s q) == Qabs q)%Q.
Proof. destruct s; cbn [signed]; [apply Qabs_opp|reflexivity]. Qed.

Lemma pw_lt_inv a b : (pw a < pw b)%Q -> a < b.
Proof.
  intros H. destruct (Z.lt_ge_cases a b) as [|G]; [assumption|]. exfalso. replace a with (b + (a - b)) in H by lia. rewrite pw_add, (pw_Z (a - b)) in H by lia.
  pose proof (pw_pos b) as P. assert (1 <= 2 ^ (a - b)) as L by (change 1 with (2 ^ 0); apply Z.pow_le_mono_r; lia). apply inject_le in L. change (inject_Z 1) with 1%Q in L.
  assert (pw b * 1 <= pw b * inject_Z (2 ^ (a - b)))%Q by (rewrite (Qmult_comm _ 1), (Qmult_comm _ (inject_Z _)); apply Qmult_le_compat_r; lra). lra.
Qed.

Lemma nf_tight B x n : nf B x -> (val x == inject_Z n * (1 # 65536))%Q -> Z.abs n < 2 ^ 40 -> exf x n.
Proof.
  intros N V H. split; [|split; assumption]. destruct x as [s|s| |s m e]; cbn [nf] in *; try contradiction; [exact I|].
  destruct N as [M _]. split; [exact M|]. cbn [val] in V.
  assert (mag m e == inject_Z (Z.abs n) * pw (-16))%Q as A.
  { rewrite pw16. pose proof (mag_pos m e) as P. assert (Qabs (signed s (mag m e)) == Qabs (inject_Z n * (1 # 65536)))%Q as G by (rewrite V; reflexivity).
    rewrite signed_abs, Qabs_Qmult, inject_abs in G. rewrite (Qabs_pos (mag m e)) in G by lra. exact G. }
  unfold mag in A. pose proof (pw_pos e) as Pe. pose proof (pw_pos (-16)) as P16.
  assert (Z.abs n <> 0) as Nz. { intros Z0. rewrite Z0 in A. change (inject_Z 0) with 0%Q in A. assert (0 < inject_Z (Zpos m) * pw e)%Q by (apply Qmult_lt_0_compat; [reflexivity|exact Pe]). lra. }
  assert (52 + e < 40 + -16).
  { apply pw_lt_inv. rewrite !pw_add, !(pw_Z 52), (pw_Z 40) by lia.
    apply Qle_lt_trans with (inject_Z (Zpos m) * pw e)%Q; [apply Qmult_le_compat_r; [rewrite <- Zle_Qle; lia|lra]|]. rewrite A. apply Qmult_lt_r; [exact P16|]. rewrite <- Zlt_Qlt. exact H. }
  assert (0 + -16 < 53 + e).
  { apply pw_lt_inv. rewrite !pw_add, !(pw_Z 53) by lia. change (pw 0) with 1%Q.
    apply Qle_lt_trans with (inject_Z (Z.abs n) * pw (-16))%Q; [apply Qmult_le_compat_r; [change 1%Q with (inject_Z 1); rewrite <- Zle_Qle; lia|lra]|].
    rewrite <- A. apply Qmult_lt_r; [exact Pe|]. rewrite <- Zlt_Qlt. lia. }
  lia.
Qed.

Lemma fits16 n : Z.abs n < 2 ^ 53 -> fits (inject_Z n * (1 # 65536)).
Proof. intros H. exists n, (-16). split; [rewrite pw16; reflexivity|exact H]. Qed.

Lemma exf_add x y a b : exf x a -> exf y b -> Z.abs (a + b) < 2 ^ 40 -> exf (fadd x y) (a + b).
Proof.
  intros (Nx & Vx & _) (Ny & Vy & _) H. destruct (fadd_both 70 x y Nx Ny ltac:(lia)) as (N & _ & F).
  assert (val x + val y == inject_Z (a + b) * (1 # 65536))%Q as V by (rewrite Vx, Vy, inject_Z_plus; ring).
  eapply nf_tight; [exact N| |exact H]. rewrite F; [exact V|]. eapply fits_eq; [symmetry; exact V|]. apply fits16. change (2 ^ 40) with 1099511627776 in H. change (2 ^ 53) with 9007199254740992. lia.
Qed.
Lemma exf_sub x y a b : exf x a -> exf y b -> Z.abs (a - b) < 2 ^ 40 -> exf (fsub x y) (a - b).
Proof.
  intros (Nx & Vx & _) (Ny & Vy & _) H. destruct (fsub_both 70 x y Nx Ny ltac:(lia)) as (N & _ & F).
  assert (val x - val y == inject_Z (a - b) * (1 # 65536))%Q as V by (rewrite Vx, Vy; unfold Z.sub; rewrite inject_Z_plus, inject_Z_opp; ring).
  eapply nf_tight; [exact N| |exact H]. rewrite F; [exact V|]. eapply fits_eq; [symmetry; exact V|]. apply fits16. change (2 ^ 40) with 1099511627776 in H. change (2 ^ 53) with 9007199254740992. lia.
Qed.
Lemma exf_ofZ z : Z.abs z < 2 ^ 20 -> exf (fofZ z) (65536 * z).
Proof.
  change (2 ^ 20) with 1048576. intros H. destruct (fofZ_val z) as [N V]; [change (2 ^ 53) with 9007199254740992; lia|].
  eapply nf_tight; [exact N| |change (2 ^ 40) with 1099511627776; lia]. rewrite V, inject_Z_mult. change (inject_Z 65536) with (65536 # 1)%Q. field.
Qed.
Lemma exf_lt x y a b : exf x a -> exf y b -> fltb x y = (a <? b).
Proof.
  intros (Nx & Vx & _) (Ny & Vy & _). pose proof (fltb_val 70 x y Nx Ny) as K. pose proof (fltb_not 70 x y Nx Ny) as K'. rewrite Vx, Vy in K, K'.
  destruct (Z.ltb_spec a b) as [L|L].
  - apply K. apply Qmult_lt_r; [reflexivity|]. rewrite <- Zlt_Qlt. exact L.
  - apply K'. apply Qmult_le_compat_r; [|discriminate]. rewrite <- Zle_Qle. exact L.
Qed.
Lemma exf_min x y a b : exf x a -> exf y b -> exf (minf x y) (Z.min a b).
Proof. intros Hx Hy. unfold minf. rewrite (exf_lt x y a b Hx Hy). destruct (Z.ltb_spec a b); [rewrite Z.min_l by lia|rewrite Z.min_r by lia]; assumption. Qed.
Lemma exf_max x y a b : exf x a -> exf y b -> exf (maxf x y) (Z.max a b).
Proof. intros Hx Hy. unfold maxf. rewrite (exf_lt y x b a Hy Hx). destruct (Z.ltb_spec b a); [rewrite Z.max_l by lia|rewrite Z.max_r by lia]; assumption. Qed.

(** The luminosity of exact numbers is exact. *)
Lemma exf_lum r g b R G B L : exf r R -> exf g G -> exf b B -> Z.abs R < 2 ^ 34 -> Z.abs G < 2 ^ 34 -> Z.abs B < 2 ^ 34 ->
  19661 * R + 38666 * G + 7209 * B = 65536 * L -> exf (lum16f r g b) L.
Proof.
  change (2 ^ 34) with 17179869184. intros (Nr & Vr & _) (Ng & Vg & _) (Nb & Vb & _) HR HG HB E.
  assert (forall x X k, nf 70 x -> (val x == inject_Z X * (1 # 65536))%Q -> Z.abs X < 17179869184 -> 0 <= k < 65536 ->
    nf 184 (fmul64 x (fofZ k)) /\ (val (fmul64 x (fofZ k)) == inject_Z (X * k) * (1 # 65536))%Q) as M.
  { intros x X k Nx Vx HX Hk. destruct (fofZ_val k) as [Nk Vk]; [change (2 ^ 53) with 9007199254740992; lia|].
    destruct (fmul_both 70 60 x (fofZ k) Nx Nk ltac:(lia) ltac:(lia) ltac:(lia)) as (N & _ & F). split; [exact N|].
    assert (val x * val (fofZ k) == inject_Z (X * k) * (1 # 65536))%Q as V by (rewrite Vx, Vk, inject_Z_mult; ring).
    rewrite F; [exact V|]. eapply fits_eq; [symmetry; exact V|]. apply fits16. rewrite Z.abs_mul. change (2 ^ 53) with 9007199254740992. nia. }
  assert (forall x y X Y b, nf b x -> nf b y -> 0 <= b <= 400 -> (val x == inject_Z X * (1 # 65536))%Q -> (val y == inject_Z Y * (1 # 65536))%Q -> Z.abs (X + Y) < 2 ^ 53 ->
    nf (b + 53) (fadd x y) /\ (val (fadd x y) == inject_Z (X + Y) * (1 # 65536))%Q) as A.
  { intros x y X Y b0 Nx Ny Hb Vx Vy H. destruct (fadd_both b0 x y Nx Ny ltac:(lia)) as (N & _ & F). split; [exact N|].
    assert (val x + val y == inject_Z (X + Y) * (1 # 65536))%Q as V by (rewrite Vx, Vy, inject_Z_plus; ring).
    rewrite F; [exact V|]. eapply fits_eq; [symmetry; exact V|]. now apply fits16. }
  destruct (M r R 19661 Nr Vr HR ltac:(lia)) as [N1 V1]. destruct (M g G 38666 Ng Vg HG ltac:(lia)) as [N2 V2]. destruct (M b B 7209 Nb Vb HB ltac:(lia)) as [N3 V3].
  destruct (A _ _ _ _ 184 N1 N2 ltac:(lia) V1 V2) as [N4 V4]; [change (2 ^ 53) with 9007199254740992; lia|].
  destruct (A _ _ _ _ 237 N4 (nf_mono _ 237 _ N3 ltac:(lia)) ltac:(lia) V4 V3) as [N5 V5]; [change (2 ^ 53) with 9007199254740992; lia|].
  destruct (fdiv_65536 290 _ N5 ltac:(lia)) as [N6 V6]. unfold lum16f. eapply nf_tight; [exact N6| |change (2 ^ 40) with 1099511627776; lia].
  rewrite V6, V5. replace (R * 19661 + G * 38666 + B * 7209) with (65536 * L) by lia. rewrite inject_Z_mult. change (inject_Z 65536) with (65536 # 1)%Q. field.
Qed.

(** The scaling step *)
Lemma mulb (a b A B : Q) : (- A <= a <= A -> - B <= b <= B -> - (A * B) <= a * b <= A * B)%Q.
Proof. intros [? ?] [? ?]. split; nra. Qed.
Lemma three (a b c : Q) : (- u52 <= a <= u52 -> - u52 <= b <= u52 -> - u52 <= c <= u52 ->
  exists h, - (4 * u52) <= h <= 4 * u52 /\ (1 + a) * (1 + b) * (1 + c) == 1 + h)%Q.
Proof.
  intros Ha Hb Hc. exists ((1 + a) * (1 + b) * (1 + c) - 1)%Q. split; [|ring].
  assert (- (1 # 1000) <= a * b / u52 <= 1 # 1000)%Q as AB. { pose proof (mulb a b u52 u52 Ha Hb) as [L U]. unfold u52 in *. split; [apply Qle_shift_div_l|apply Qle_shift_div_r]; try reflexivity; lra. }
  pose proof (mulb a b u52 u52 Ha Hb) as X1. pose proof (mulb a c u52 u52 Ha Hc) as X2. pose proof (mulb b c u52 u52 Hb Hc) as X3. pose proof (mulb (a * b) c (u52 * u52) u52 X1 Hc) as X4.
  setoid_replace ((1 + a) * (1 + b) * (1 + c) - 1)%Q with (a + b + c + a * b + a * c + b * c + a * b * c)%Q by ring. unfold u52 in *. split; lra.
Qed.

Lemma scale_close lm L num nn den dd c cx eps B : exf lm L -> exf num nn -> exf den dd -> 0 <= nn <= dd -> 0 < dd -> 0 <= L <= 65535 * 65536 ->
  nf B c -> 70 <= B <= 430 -> (- eps <= val c - cx <= eps)%Q -> (- (1000000 # 1) <= val c <= 1000000 # 1)%Q ->
  let y := fadd lm (fdiv64 (fmul64 (fsub c lm) num) den) in let l := (inject_Z L * (1 # 65536))%Q in
  nf (B + 354) y /\ (- (eps + (1 # 100000000)) <= val y - (l + (cx - l) * (inject_Z nn / inject_Z dd)) <= eps + (1 # 100000000))%Q.
Proof.
  intros (Nl & Vl & _) (Nn & Vn & _) (Nd & Vd & _) Hn Hd HL Nc HB Hc Bc y l.
  destruct (fsub_both B c lm Nc (nf_mono _ B _ Nl ltac:(lia)) ltac:(lia)) as (N1 & (d1 & D1 & V1) & _).
  destruct (fmul_both (B + 53) 70 (fsub c lm) num N1 Nn ltac:(lia) ltac:(lia) ltac:(lia)) as (N2 & (d2 & D2 & V2) & _).
  assert (0 < inject_Z dd)%Q as Pd by (change 0%Q with (inject_Z 0); rewrite <- Zlt_Qlt; exact Hd).
  assert (~ val den == 0)%Q as Nz by (rewrite Vd; intros Z0; assert (0 < inject_Z dd * (1 # 65536))%Q by (apply Qmult_lt_0_compat; [exact Pd|reflexivity]); lra).
  destruct (fdiv_close (B + 53 + 70 + 54) 70 (fmul64 (fsub c lm) num) den N2 Nd ltac:(lia) ltac:(lia) ltac:(lia) Nz) as (N3 & (d3 & D3 & V3)).
  destruct (fadd_both (B + 53 + 70 + 54 + 70 + 54) lm _ (nf_mono _ (B + 53 + 70 + 54 + 70 + 54) _ Nl ltac:(lia)) N3 ltac:(lia)) as (N4 & (d4 & D4 & V4) & _).
  split; [eapply nf_mono; [exact N4|lia]|]. fold y in V4.
  set (rho := (inject_Z nn / inject_Z dd)%Q) in *.
  assert (0 <= rho <= 1)%Q as R.
  { unfold rho. split; [apply Qle_shift_div_l|apply Qle_shift_div_r]; try exact Pd.
    - rewrite Qmult_0_l. change 0%Q with (inject_Z 0). rewrite <- Zle_Qle. lia.
    - rewrite Qmult_1_l. rewrite <- Zle_Qle. lia. }
  assert (0 <= l <= 65535 # 1)%Q as Bl.
  { unfold l. split; [apply Qmult_le_0_compat; [change 0%Q with (inject_Z 0); rewrite <- Zle_Qle; lia|discriminate]|].
    setoid_replace (65535 # 1)%Q with (inject_Z (65535 * 65536) * (1 # 65536))%Q by reflexivity. apply Qmult_le_compat_r; [rewrite <- Zle_Qle; lia|discriminate]. }
  fold l in Vl. set (D := (val c - l)%Q).
  destruct (three d1 d2 d3 D1 D2 D3) as (h & Hh & Eh).
  assert (val (fdiv64 (fmul64 (fsub c lm) num) den) == D * rho * (1 + h))%Q as Q.
  { rewrite <- Eh, V3, V2, V1, Vl, Vn, Vd. unfold rho, D. field. lra. }
  rewrite Q, Vl in V4. set (t := (D * rho)%Q) in *.
  assert (- (2000000 # 1) <= D <= 2000000 # 1)%Q as BD by (unfold D; split; lra).
  assert (- ((2000000 # 1) * 1) <= t <= (2000000 # 1) * 1)%Q as Bt by (apply mulb; [exact BD|split; lra]).
  pose proof (mulb t h _ _ Bt Hh) as Bth.
  assert (- (3000000 # 1) <= l + t * (1 + h) <= 3000000 # 1)%Q as Bs. { setoid_replace (l + t * (1 + h))%Q with (l + t + t * h)%Q by ring. unfold u52 in *. split; lra. }
  pose proof (mulb _ d4 _ _ Bs D4) as Be.
  assert (val y == l + t + t * h + (l + t * (1 + h)) * d4)%Q as Y by (rewrite V4; ring).
  assert (- (eps * 1) <= (val c - cx) * rho <= eps * 1)%Q as Bc' by (apply mulb; [exact Hc|split; lra]).
  assert (t == (cx - l) * rho + (val c - cx) * rho)%Q as T by (unfold t, D; ring).
  unfold u52 in *. rewrite Y. split; lra.
Qed.

(** * ClipColor *)
Definition sx (n : Z) : Q := (inject_Z n * (1 # 65536))%Q.
Definition top : Z := 65535 * 65536.
(** A channel after ClipColor, from whole numbers of 65536ths *)
Definition clipped (L N X V : Z) : Q :=
  let v := if 0 <=? N then sx V else (sx L + (sx V - sx L) * (inject_Z L / inject_Z (L - N)))%Q in
  if X <=? top then v else (sx L + (v - sx L) * (inject_Z (top - L) / inject_Z (X - L)))%Q.

Lemma sx_le a b : (sx a <= sx b)%Q <-> a <= b.
Proof. unfold sx. rewrite Qmult_le_r by reflexivity. symmetry. apply inject_le. Qed.
Lemma sx_sub a b : (sx a - sx b == sx (a - b))%Q.
Proof. unfold sx, Z.sub. rewrite inject_Z_plus, inject_Z_opp. ring. Qed.
Lemma sx_top : (sx top == 65535 # 1)%Q. Proof. reflexivity. Qed.
Lemma qle_bool_eq a b A B : (a == sx A)%Q -> (b == sx B)%Q -> Qle_bool a b = (A <=? B).
Proof.
  intros Ha Hb. assert (Qle_bool a b = true <-> A <= B) as K by (rewrite Qle_bool_iff, Ha, Hb; apply sx_le). destruct (Z.leb_spec A B) as [|G]; [now apply K|].
  destruct (Qle_bool a b); [exfalso; apply (Z.lt_irrefl A); destruct K as [K _]; specialize (K eq_refl); lia|reflexivity].
Qed.
Lemma ratio_sx a b c : 0 < c -> (a * sx b / sx c == a * (inject_Z b / inject_Z c))%Q.
Proof. intros Hc. unfold sx. assert (0 < inject_Z c)%Q by (now apply inject_pos). field. lra. Qed.

Definition same (c : colour) (r g b : Q) : Prop := let '(x, y, z) := c in (x == r /\ y == g /\ z == b)%Q.

Lemma least_eq r g b R G B : (r == sx R)%Q -> (g == sx G)%Q -> (b == sx B)%Q -> (least (r, g, b) == sx (Z.min R (Z.min G B)))%Q.
Proof.
  intros Hr Hg Hb. cbn [least]. rewrite (qle_bool_eq r g R G Hr Hg), (qle_bool_eq r b R B Hr Hb), (qle_bool_eq g b G B Hg Hb).
  destruct (Z.leb_spec R G), (Z.leb_spec R B), (Z.leb_spec G B); (rewrite ?Hr, ?Hg, ?Hb); match goal with |- (sx ?x == sx ?y)%Q => replace y with x by lia; reflexivity end.
Qed.
Lemma greatest_eq r g b R G B : (r == sx R)%Q -> (g == sx G)%Q -> (b == sx B)%Q -> (greatest (r, g, b) == sx (Z.max R (Z.max G B)))%Q.
Proof.
  intros Hr Hg Hb. cbn [greatest]. rewrite (qle_bool_eq g r G R Hg Hr), (qle_bool_eq b r B R Hb Hr), (qle_bool_eq b g B G Hb Hg).
  destruct (Z.leb_spec G R), (Z.leb_spec B R), (Z.leb_spec B G); (rewrite ?Hr, ?Hg, ?Hb); match goal with |- (sx ?x == sx ?y)%Q => replace y with x by lia; reflexivity end.
Qed.

Lemma clip_color_eq r g b R G B L : (r == sx R)%Q -> (g == sx G)%Q -> (b == sx B)%Q -> 19661 * R + 38666 * G + 7209 * B = 65536 * L -> 0 <= L <= top ->
  let N := Z.min R (Z.min G B) in let X := Z.max R (Z.max G B) in
  same (clip_color (r, g, b)) (clipped L N X R) (clipped L N X G) (clipped L N X B).
Proof.
  intros Hr Hg Hb E HL N X. unfold clip_color.
  assert (lum_of (r, g, b) == sx L)%Q as Hl.
  { cbn [lum_of]. rewrite Hr, Hg, Hb. unfold sx. assert (inject_Z (19661 * R + 38666 * G + 7209 * B) == inject_Z (65536 * L))%Q as E' by (rewrite E; reflexivity).
    rewrite !inject_Z_plus, !inject_Z_mult in E'. change (inject_Z 19661) with (19661 # 1)%Q in E'. change (inject_Z 38666) with (38666 # 1)%Q in E'. change (inject_Z 7209) with (7209 # 1)%Q in E'. change (inject_Z 65536) with (65536 # 1)%Q in E'. lra. }
  pose proof (least_eq r g b R G B Hr Hg Hb) as Hn. pose proof (greatest_eq r g b R G B Hr Hg Hb) as Hx. fold N in Hn. fold X in Hx.
  set (l := lum_of (r, g, b)) in *. set (n := least (r, g, b)) in *. set (x := greatest (r, g, b)) in *. clearbody l n x.
  assert (forall v V, (v == sx V)%Q -> ((if Qle_bool 0 n then v else l + (v - l) * l / (l - n)) == (if 0 <=? N then sx V else (sx L + (sx V - sx L) * (inject_Z L / inject_Z (L - N)))))%Q) as S1.
  { intros v V Hv. rewrite (qle_bool_eq 0 n 0 N) by (try reflexivity; exact Hn). destruct (Z.leb_spec 0 N) as [|Neg]; [exact Hv|].
    rewrite Hl, Hv, Hn. rewrite (sx_sub L N). rewrite ratio_sx by lia. reflexivity. }
  assert (forall v v', (v == v')%Q -> ((if Qle_bool x (65535 # 1) then v else l + (v - l) * ((65535 # 1) - l) / (x - l)) == (if X <=? top then v' else (sx L + (v' - sx L) * (inject_Z (top - L) / inject_Z (X - L)))))%Q) as S2.
  { intros v v' Hv. rewrite (qle_bool_eq x (65535 # 1) X top) by (try reflexivity; exact Hx). destruct (Z.leb_spec X top) as [|Big]; [exact Hv|].
    rewrite Hl, Hv, Hx. rewrite (sx_sub X L), <- sx_top, (sx_sub top L). rewrite ratio_sx by lia. reflexivity. }
  pose proof (S2 _ _ (S1 r R Hr)) as T1. pose proof (S2 _ _ (S1 g G Hg)) as T2. pose proof (S2 _ _ (S1 b B Hb)) as T3. clear S1 S2.
  unfold clipped, same, each. destruct (Qle_bool 0 n), (Qle_bool x (65535 # 1)); cbn; auto.
Qed.

Lemma ratio_range a b : 0 <= a <= b -> 0 < b -> (0 <= inject_Z a / inject_Z b <= 1)%Q.
Proof.
  intros H Hb. assert (0 < inject_Z b)%Q by (now apply inject_pos). split; [apply Qle_shift_div_l|apply Qle_shift_div_r]; try assumption.
  - rewrite Qmult_0_l. change 0%Q with (inject_Z 0). rewrite <- Zle_Qle. lia.
  - rewrite Qmult_1_l. rewrite <- Zle_Qle. lia.
Qed.
Lemma ratio_mul a b : 0 < b -> (sx b * (inject_Z a / inject_Z b) == sx a)%Q.
Proof. intros Hb. unfold sx. assert (0 < inject_Z b)%Q by (now apply inject_pos). field. lra. Qed.

Lemma clipped_range L N X V : 0 <= L <= top -> N <= L <= X -> N <= V <= X -> (0 <= clipped L N X V <= 65535 # 1)%Q.
Proof.
  intros HL HN HV. unfold clipped.
  assert (sx N <= sx L <= sx X /\ sx N <= sx V <= sx X /\ 0 <= sx L <= 65535 # 1)%Q as (B1 & B2 & B3).
  { rewrite <- sx_top. change 0%Q with (inject_Z 0). setoid_replace (inject_Z 0) with (sx 0) by reflexivity. rewrite !sx_le. tauto. }
  set (v := if 0 <=? N then _ else _).
  assert (0 <= v <= sx X)%Q as Hv.
  { unfold v. destruct (Z.leb_spec 0 N) as [P|P].
    - apply sx_le in P. change (sx 0) with (0 * (1 # 65536))%Q in P. split; lra.
    - pose proof (ratio_range L (L - N) ltac:(lia) ltac:(lia)) as R. pose proof (ratio_mul L (L - N) ltac:(lia)) as M. rewrite <- sx_sub in M. set (rho := (inject_Z L / inject_Z (L - N))%Q) in *. clearbody rho.
      split; nra. }
  clearbody v. destruct (Z.leb_spec X top) as [P|P].
  - apply sx_le in P. rewrite sx_top in P. split; lra.
  - pose proof (ratio_range (top - L) (X - L) ltac:(lia) ltac:(lia)) as R. pose proof (ratio_mul (top - L) (X - L) ltac:(lia)) as M. rewrite <- !sx_sub, sx_top in M.
    set (rho := (inject_Z (top - L) / inject_Z (X - L))%Q) in *. clearbody rho. split; nra.
Qed.

Lemma clamp_down B x e : nf B x -> 60 <= B -> (0 <= e <= 65535 # 1)%Q -> (- (1 # 2000000) <= val x - e <= 1 # 2000000)%Q -> down e (clamp16f machine x).
Proof.
  intros N HB He Hx. destruct (clamp_val B x N HB) as (R & Lo & Hi & In). set (c := clamp16f machine x) in *. clearbody c.
  destruct (Qlt_le_dec (val x) 0) as [A|A].
  - rewrite (Lo A). unfold down. change (inject_Z 0) with 0%Q. split; lra.
  - destruct (Qlt_le_dec (65535 # 1) (val x)) as [A'|A'].
    + rewrite (Hi A'). unfold down. change (inject_Z 65535) with (65535 # 1)%Q. split; lra.
    + destruct (In (conj A A')) as [I1 I2]. unfold down. split; lra.
Qed.

Lemma clipColor16_down r g b R G B L : exf r R -> exf g G -> exf b B -> Z.abs R <= 2 * top -> Z.abs G <= 2 * top -> Z.abs B <= 2 * top ->
  19661 * R + 38666 * G + 7209 * B = 65536 * L -> 0 <= L <= top ->
  let N := Z.min R (Z.min G B) in let X := Z.max R (Z.max G B) in
  let '(r', g', b') := clipColor16 machine r g b in down (clipped L N X R) r' /\ down (clipped L N X G) g' /\ down (clipped L N X B) b'.
Proof.
  intros Hr Hg Hb BR BG BB E HL N X. unfold clipColor16.
  assert (top = 4294901760) as Et by reflexivity.
  assert (exf (lum16f r g b) L) as Hl. { apply (exf_lum r g b R G B L Hr Hg Hb); try exact E; change (2 ^ 34) with 17179869184; lia. }
  assert (exf (minf r (minf g b)) N) as Hn by (unfold N; auto using exf_min). assert (exf (maxf r (maxf g b)) X) as Hx by (unfold X; auto using exf_max).
  set (lm := lum16f r g b) in *. set (mn := minf r (minf g b)) in *. set (mx := maxf r (maxf g b)) in *. clearbody lm mn mx.
  pose proof (exf_ofZ 0 ltac:(reflexivity)) as H0. pose proof (exf_ofZ 65535 ltac:(reflexivity)) as H1.
  change (65536 * 0) with 0 in H0. change (65536 * 65535) with top in H1.
  rewrite (exf_lt mn _ N 0 Hn H0), (exf_lt _ mx top X H1 Hx).
  assert (exf (fsub lm mn) (L - N)) as Hd1 by (apply exf_sub; auto; change (2 ^ 40) with 1099511627776; lia).
  assert (exf (fsub (fofZ 65535) lm) (top - L)) as Hn2 by (apply exf_sub; auto; change (2 ^ 40) with 1099511627776; lia).
  assert (exf (fsub mx lm) (X - L)) as Hd2 by (apply exf_sub; auto; change (2 ^ 40) with 1099511627776; lia).
  set (s1 := fun c => fadd lm (fdiv64 (fmul64 (fsub c lm) lm) (fsub lm mn))). set (s2 := fun c => fadd lm (fdiv64 (fmul64 (fsub c lm) (fsub (fofZ 65535) lm)) (fsub mx lm))).
  assert (N <= L <= X) as LN by lia.
  assert (forall v V, exf v V -> N <= V <= X -> Z.abs V <= 2 * top ->
    down (clipped L N X V) (clamp16f machine (let v1 := if N <? 0 then s1 v else v in if top <? X then s2 v1 else v1))) as K.
  { intros v V Hv HV BV. pose proof (clipped_range L N X V HL LN HV) as CR.
    assert (forall q, Z.abs q <= 2 * top -> (- (131070 # 1) <= sx q <= 131070 # 1)%Q) as BS.
    { intros q Hq. setoid_replace (- (131070 # 1))%Q with (sx (- (2 * top))) by reflexivity. setoid_replace (131070 # 1)%Q with (sx (2 * top)) by reflexivity. split; apply sx_le; lia. }
    pose proof (BS V BV) as BV'. pose proof (BS L ltac:(lia)) as BL'. clear BS.
    set (v1 := if N <? 0 then s1 v else v).
    set (e1 := if 0 <=? N then sx V else (sx L + (sx V - sx L) * (inject_Z L / inject_Z (L - N)))%Q).
    assert (nf 424 v1 /\ (- (1 # 100000000) <= val v1 - e1 <= 1 # 100000000)%Q /\ (- (500000 # 1) <= e1 <= 500000 # 1)%Q) as (N1 & C1 & Be1).
    { unfold v1, e1. destruct Hv as (Nv & Vv & _). destruct (Z.ltb_spec N 0) as [P|P].
      - replace (0 <=? N) with false by lia.
        destruct (scale_close lm L lm L (fsub lm mn) (L - N) v (sx V) 0 70 Hl Hl Hd1 ltac:(lia) ltac:(lia) HL Nv ltac:(lia)) as [A B0].
        + fold (sx V) in Vv. rewrite Vv. split; lra.
        + fold (sx V) in Vv. rewrite Vv. split; lra.
        + change (70 + 354) with 424 in A. split; [exact A|]. split; [|pose proof (ratio_range L (L - N) ltac:(lia) ltac:(lia)) as Rr; pose proof (mulb (sx V - sx L) (inject_Z L / inject_Z (L - N)) (262140 # 1) 1 ltac:(split; lra) ltac:(split; lra)); split; lra].
          fold (sx L) in B0. unfold s1. split; lra.
      - replace (0 <=? N) with true by lia. fold (sx V) in Vv. split; [eapply nf_mono; [exact Nv|lia]|]. rewrite Vv. split; split; lra. }
    unfold clipped in CR |- *. fold e1 in CR |- *. cbv zeta in CR |- *. clearbody v1 e1.
    destruct (Z.ltb_spec top X) as [P|P].
    - replace (X <=? top) with false in CR |- * by lia.
      destruct (scale_close lm L (fsub (fofZ 65535) lm) (top - L) (fsub mx lm) (X - L) v1 e1 (1 # 100000000) 424 Hl Hn2 Hd2 ltac:(lia) ltac:(lia) HL N1 ltac:(lia) C1) as [A B0]; [split; lra|].
      apply (clamp_down (424 + 354)); [exact A|lia|exact CR|]. fold (sx L) in B0. unfold s2. split; lra.
    - replace (X <=? top) with true in CR |- * by lia. apply (clamp_down 424); [exact N1|lia|exact CR|]. split; lra. }
  pose proof (K r R Hr ltac:(lia) BR) as K1. pose proof (K g G Hg ltac:(lia) BG) as K2. pose proof (K b B Hb ltac:(lia) BB) as K3. clear K.
  unfold s1, s2 in *. destruct (N <? 0), (top <? X); auto.
Qed.

(** * SetLum *)
Lemma setLum16_down c l : triple_in 65535 c -> triple_in 65535 l ->
  exists v, setLum machine W16 c l = Some v /\ all_down (set_lum (exact c) (lum_of (exact l))) v.
Proof.
  destruct c as [[r g] b], l as [[lr lg] lb]. cbn [triple_in]. intros Hc Hl. cbn [setLum]. eexists. split; [reflexivity|].
  set (D := luma16 (lr, lg, lb) - luma16 (r, g, b)).
  assert (forall x y z, 0 <= x <= 65535 /\ 0 <= y <= 65535 /\ 0 <= z <= 65535 -> exf (lum16 x y z) (luma16 (x, y, z))) as HL.
  { intros x y z H. unfold lum16. eapply exf_lum; [apply exf_ofZ|apply exf_ofZ|apply exf_ofZ| | | |unfold luma16; lia]; try (change (2 ^ 20) with 1048576; lia); change (2 ^ 34) with 17179869184; lia. }
  pose proof (HL r g b Hc) as H1. pose proof (HL lr lg lb Hl) as H2. clear HL.
  assert (0 <= luma16 (lr, lg, lb) <= top) as BL by (unfold luma16, top; lia). assert (0 <= luma16 (r, g, b) <= top) as BC by (unfold luma16, top; lia).
  assert (top = 4294901760) as Et by reflexivity.
  assert (exf (fsub (lum16 lr lg lb) (lum16 r g b)) D) as Hd by (apply exf_sub; auto; change (2 ^ 40) with 1099511627776; lia).
  unfold setLum16. set (d := fsub _ _) in *. clearbody d.
  assert (forall x, 0 <= x <= 65535 -> exf (fadd (fofZ x) d) (65536 * x + D)) as Ha.
  { intros x Hx. apply exf_add; [apply exf_ofZ; change (2 ^ 20) with 1048576; lia|exact Hd|change (2 ^ 40) with 1099511627776; lia]. }
  pose proof (clipColor16_down _ _ _ _ _ _ (luma16 (lr, lg, lb)) (Ha r ltac:(lia)) (Ha g ltac:(lia)) (Ha b ltac:(lia)) ltac:(lia) ltac:(lia) ltac:(lia) ltac:(unfold D, luma16; lia) BL) as K.
  unfold set_lum.
  assert (forall x, (inject_Z x + (lum_of (exact (lr, lg, lb)) - lum_of (exact (r, g, b))) == sx (65536 * x + D))%Q) as Hs.
  { intros x. unfold D, luma16, sx, Z.sub. rewrite !inject_Z_plus, inject_Z_opp, !inject_Z_plus, !inject_Z_mult. cbn [exact lum_of].
    change (inject_Z 19661) with (19661 # 1)%Q. change (inject_Z 38666) with (38666 # 1)%Q. change (inject_Z 7209) with (7209 # 1)%Q. change (inject_Z 65536) with (65536 # 1)%Q. lra. }
  pose proof (clip_color_eq _ _ _ _ _ _ (luma16 (lr, lg, lb)) (Hs r) (Hs g) (Hs b) ltac:(unfold D, luma16; lia) BL) as S.
  change (exact (r, g, b)) with (inject_Z r, inject_Z g, inject_Z b) in *. cbn [each] in *.
  destruct (clip_color _) as [[x y] z]. destruct (clipColor16 _ _ _ _) as [[r' g'] b']. cbn [same] in S. destruct S as (S1 & S2 & S3).
  cbn [all_down]. unfold down in *. rewrite S1, S2, S3. exact K.
Qed.

(** * SetSat *)
Lemma mmm16 mn md mx st : 0 <= mn -> mn <= md <= mx -> mx <= 65535 -> 0 <= st <= 65535 ->
  setSatMinMidMax machine mn md mx st = Some (0, if mn =? mx then 0 else (md - mn) * st / (mx - mn), if mn =? mx then 0 else st).
Proof.
  intros H0 H1 H2 H3. unfold setSatMinMidMax. destruct (Z.ltb_spec mn mx) as [L|L].
  - replace (mn =? mx) with false by lia. pose proof (mul_range W16 (md - mn) st ltac:(unfold in_width; cbn [maxv]; lia) ltac:(unfold in_width; cbn [maxv]; lia)) as P. cbn [maxv] in P. openar. repeat unwrap1 lia. rewrite udiv_pos by lia. reflexivity.
  - replace (mn =? mx) with true by lia. reflexivity.
Qed.
Lemma setSat3_exact c st : triple_in 65535 c -> triple_in 65535 st -> setSat3 machine c st = Some (set_sat c (spread st)) /\ triple_in 65535 (set_sat c (spread st)).
Proof.
  intros Hc Hs. assert (setSat3 machine c st = Some (set_sat c (spread st))) as E.
  2:{ split; [exact E|]. destruct (setSat3_mix W16 c st Hc Hs) as (c' & E' & _ & T). rewrite E in E'. injection E' as ->. exact T. }
  destruct c as [[r g] b], st as [[sr sg] sb]. cbn [triple_in setSat3] in *. destruct (sat_eq W16 sr sg sb) as [-> _]; unfold in_width; cbn [maxv]; try lia.
  change (Z.max sr (Z.max sg sb) - Z.min sr (Z.min sg sb)) with (spread (sr, sg, sb)). assert (0 <= spread (sr, sg, sb) <= 65535) as Hst by (unfold spread; lia).
  set (st := spread (sr, sg, sb)) in *. clearbody st. unfold setSat, set_sat.
  assert (forall x y, x < y -> (y - x) * st / (y - x) = st) as Dv by (intros x y L; rewrite Z.mul_comm; apply Z.div_mul; lia).
  assert (forall x n, (x - x) * st / n = 0) as D0 by (intros x n; now rewrite Z.sub_diag).
  Ltac satx mn md mx Dv D0 := rewrite (mmm16 mn md mx) by lia; cbn; replace (Z.min _ (Z.min _ _)) with mn by lia; replace (Z.max _ (Z.max _ _)) with mx by lia;
    rewrite ?D0; destruct (Z.eqb_spec mn mx); [reflexivity|]; rewrite ?(Dv mn mx) by lia; reflexivity.
  destruct (Z.leb_spec r g).
  - destruct (Z.leb_spec g b); [satx r g b Dv D0|]. destruct (Z.leb_spec r b); [satx r b g Dv D0|satx b r g Dv D0].
  - destruct (Z.leb_spec r b); [satx g r b Dv D0|]. destruct (Z.leb_spec g b); [satx g b r Dv D0|satx b g r Dv D0].
Qed.

Lemma mix_down m s d : triple_in 65535 s -> triple_in 65535 d -> forall e, mixed m s d = Some e -> exists v, mix machine W16 m s d = Some v /\ all_down e v.
Proof.
  intros Hs Hd e E. destruct m; try discriminate E; cbn [mixed mix] in *; injection E as <-.
  - destruct (setSat3_exact s d Hs Hd) as [-> T]. now apply setLum16_down.
  - destruct (setSat3_exact d s Hd Hs) as [-> T]. now apply setLum16_down.
  - now apply setLum16_down.
  - now apply setLum16_down.
Qed.

(** * The brightness is kept *)
Lemma lum_scaled c l a b : (lum_of c == l -> lum_of (each (fun v => l + (v - l) * a / b) c) == l)%Q.
Proof.
  destruct c as [[x y] z]. cbn [lum_of each]. unfold Qdiv. set (k := (/ b)%Q). clearbody k. intros H. 
  assert ((19661 # 65536) * (l + (x - l) * a * k) + (38666 # 65536) * (l + (y - l) * a * k) + (7209 # 65536) * (l + (z - l) * a * k) ==
    l + ((19661 # 65536) * x + (38666 # 65536) * y + (7209 # 65536) * z - l) * a * k)%Q as -> by ring. rewrite H. ring.
Qed.
Lemma lum_clip c : (lum_of (clip_color c) == lum_of c)%Q.
Proof.
  unfold clip_color. set (l := lum_of c). assert (lum_of c == l)%Q as H by reflexivity. clearbody l.
  assert (forall (t : bool) c' a b, lum_of c' == l -> lum_of (if t then c' else each (fun v => l + (v - l) * a / b) c') == l)%Q as K.
  { intros [] c' a b H'; [exact H'|now apply lum_scaled]. }
  apply K. now apply K.
Qed.
Lemma lum_set c l : (lum_of (set_lum c l) == l)%Q.
Proof. unfold set_lum. rewrite lum_clip. destruct c as [[x y] z]. cbn [lum_of each]. ring. Qed.

Lemma mixed_lum m s d e : mixed m s d = Some e -> (lum_of e == lum_of (exact (match m with Luminosity => s | _ => d end)))%Q.
Proof. destruct m; intros E; try discriminate E; injection E as <-; apply lum_set. Qed.


Lemma mix_brightness m s d e : triple_in 65535 s -> triple_in 65535 d -> mixed m s d = Some e -> exists v, mix machine W16 m s d = Some v /\
  let l := lum_of (exact (match m with Luminosity => s | _ => d end)) in (l - 1 - (1 # 1000000) < lum_of (exact v) < l + (1 # 1000000))%Q.
Proof.
  intros Hs Hd E. destruct (mix_down m s d Hs Hd e E) as (v & Ev & Hv). exists v. split; [exact Ev|]. cbv zeta. rewrite <- (mixed_lum m s d e E).
  destruct e as [[x y] z], v as [[r g] b]. cbn [all_down exact lum_of] in *. unfold down in Hv. split; lra.
Qed.
