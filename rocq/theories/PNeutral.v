(** Proofs: layers of the neutral colour of their mode change nothing. *)
From Coq Require Import String.
From Verif Require Import Base BaseFacts SUtil SConfig MRect MPicker MConfig MReader MLayer MApi SCompress SRecord SLayer XRecord PRecord3 PRecord4
  MSched MBlend MPorter SBlend PBlend PLum PBlend2 PBlend3 PHsl SPorter PPorter SOver POver MWait MRender SRender MRenderAll SRenderAll MRenderPx PRenderPx
  MDraw MTile STile MLoad SLoad MPipe SPipe PPipe2 PPipe4 PPipe5 SSharp PSharp2 PSharp3 SGlass PGlass1 PGlass2 PGlass4 PTop PCover STidy SDissolve PDissolve SBelow PBelow SNeutral.
Close Scope string_scope.
Open Scope Z_scope.

(** ** The modes *)
Lemma chan_neutral m n d : neutral m = Some n -> byte d -> chan machine W8 m n d = Some d.
Proof.
  intros T Hd. assert (is_separable m = true) as Hm by (destruct m; easy). assert (byte n) as Hn by (destruct m; try discriminate T; injection T as <-; unfold byte; lia). unfold byte in *.
  destruct (chan_ok W8 m n d) as (c & E1 & E2 & R); [exact Hm|unfold in_width; cbn; lia|unfold in_width; cbn; lia|]. rewrite E1. f_equal. clear E1.
  destruct (mulmax_eq W8 n d) as [_ Mx]; [unfold in_width; cbn; lia|unfold in_width; cbn; lia|]. destruct (mulhalf_eq W8 d n) as [_ Mh]; [unfold in_width; cbn; lia|unfold in_width; cbn; lia|].
  destruct m; try discriminate T; injection T as <-; cbn [chan maxv] in E2; rewrite ?Mx, ?Mh in E2; cbn [maxv] in *; unfold half_exact in *; openar.
  - injection E2 as <-. destruct (Z.ltb_spec 255 d); lia.
  - injection E2 as <-. lia.
  - destruct (Z.eqb_spec d 255); [injection E2 as <-; lia|]. rewrite udiv_pos in E2 by lia. injection E2 as <-. rewrite Z.div_mul by lia. unfold clip. cbn [maxv]. destruct (Z.ltb_spec (255 - d) 255); lia.
  - injection E2 as <-. destruct (Z.ltb_spec 255 (d + 255)); lia.
  - injection E2 as <-. destruct (Z.ltb_spec d 0); lia.
  - injection E2 as <-. rewrite Z.mul_0_l, Z.div_0_l by lia. lia.
  - destruct (Z.eqb_spec d 0); [injection E2 as <-; lia|]. rewrite udiv_pos in E2 by lia. injection E2 as <-. rewrite Z.sub_0_r, Z.div_mul by lia. unfold clip. cbn [maxv]. destruct (Z.ltb_spec d 255); lia.
  - injection E2 as <-. unfold clip. cbn [maxv]. destruct (Z.ltb_spec (0 + d) 255); lia.
  - injection E2 as <-. lia.
  - injection E2 as <-. destruct (Z.ltb_spec d 0); lia.
  - injection E2 as <-. rewrite Z.mul_0_r. rewrite Z.mul_0_l, Z.div_0_l by lia. lia.
  - injection E2 as <-. destruct (Z.ltb_spec d 0); lia.
  - destruct (Z.eqb_spec d 0); [injection E2 as <-; lia|]. rewrite udiv_pos in E2 by lia. injection E2 as <-. rewrite Z.div_mul by lia. unfold clip. cbn [maxv]. destruct (Z.ltb_spec d 255); lia.
Qed.
(** All the neutral levels, found by trying *)
Definition leavesb (m : mode) (n : Z) : bool :=
  match m with
  | Overlay | LinearLight | PinLight => n =? 128
  | SoftLight => (126 <=? n) && (n <=? 129)
  | _ => match neutral m with Some k => k =? n | None => false end
  end.
Lemma leavesb_spec m n : leavesb m n = true <-> leaves_all m n.
Proof. destruct m; cbn [leavesb leaves_all neutral]; try lia; try (split; [discriminate|intros H; discriminate H]); (split; [intros H; f_equal; lia|intros [= ->]; apply Z.eqb_refl]). Qed.
Definition sep_modes : list mode := [Normal; Darken; Multiply; ColorBurn; LinearBurn; Lighten; Screen; ColorDodge; LinearDodge; Add; Overlay; SoftLight; HardLight; LinearLight; VividLight; PinLight; HardMix; Difference; Exclusion; Subtract; Divide].
Definition levels : list Z := map Z.of_nat (seq 0 256).
Lemma levels_all n : byte n -> In n levels.
Proof. unfold byte. intros H. unfold levels. apply in_map_iff. exists (Z.to_nat n). split; [lia|]. apply in_seq. lia. Qed.
Definition same_chan (m : mode) (n d : Z) : bool := match chan machine W8 m n d with Some c => (Z.min 255 c) =? d | None => false end.
Definition exact_chan (m : mode) (n d : Z) : bool := match chan machine W8 m n d with Some c => c =? d | None => false end.
Definition tries (n : Z) : list Z := [0; 1; 255; 254; 64; 100; 128; 192; Z.min 255 (n + 1); Z.max 0 (n - 1)].
Lemma neutral_sweep : forallb (fun m => forallb (fun n => if leavesb m n then forallb (exact_chan m n) levels else negb (forallb (same_chan m n) (tries n))) levels) sep_modes = true.
Proof. vm_compute. reflexivity. Qed.
Lemma tries_byte n x : byte n -> In x (tries n) -> byte x.
Proof. unfold byte, tries. intros Hn Hx. repeat (destruct Hx as [<-|Hx]; [lia|]). destruct Hx. Qed.
Lemma sep_in m : is_separable m = true -> In m sep_modes.
Proof. destruct m; try discriminate; intros _; cbn; repeat (first [now left|right]). Qed.
Lemma opaque_full m n d : is_separable m = true -> byte n -> pixel_ok d -> pa d = 255 ->
  exists r g b, chan machine W8 m n (pr d) = Some r /\ chan machine W8 m n (pg d) = Some g /\ chan machine W8 m n (pb d) = Some b /\
    blend8 machine m 255 (Px n n n 255) d = Some (Px (Z.min 255 r) (Z.min 255 g) (Z.min 255 b) 255).
Proof.
  intros Sm Hn Hd Ha. assert (Hs : pixel_ok (Px n n n 255)) by (unfold pixel_ok, byte in *; cbn; lia).
  destruct (blend_between1 m 255 (Px n n n 255) d ltac:(lia) Hs Hd Ha) as (r & g & b & M & E). cbv zeta in E. cbn [pa] in E. change (255 * 255 / 255) with 255 in E.
  assert (mix machine W8 m (px_rgb (Px n n n 255)) (px_rgb d) = (let? r := chan machine W8 m n (pr d) in let? g := chan machine W8 m n (pg d) in let? b := chan machine W8 m n (pb d) in Some (r, g, b))) as X
    by (destruct m; try discriminate Sm; reflexivity).
  rewrite X in M. destruct (chan machine W8 m n (pr d)) as [r0|]; [|discriminate]. destruct (chan machine W8 m n (pg d)) as [g0|]; [|discriminate]. destruct (chan machine W8 m n (pb d)) as [b0|]; [|discriminate].
  injection M as -> -> ->. exists r, g, b. repeat (split; [reflexivity|]). rewrite E. f_equal. unfold between. replace (255 - 255) with 0 by lia. rewrite !Z.mul_0_l, !Z.add_0_r, !(Z.mul_comm 255), !Z.div_mul by lia. reflexivity.
Qed.
Lemma neutral_exact m n : is_separable m = true -> byte n -> (forall d, pixel_ok d -> pa d = 255 -> blend8 machine m 255 (Px n n n 255) d = Some d) <-> leaves_all m n.
Proof.
  intros Sm Hn. rewrite <- leavesb_spec. pose proof neutral_sweep as W. rewrite forallb_forall in W. specialize (W m (sep_in m Sm)). rewrite forallb_forall in W. specialize (W n (levels_all n Hn)). split.
  - intros H. destruct (leavesb m n); [reflexivity|]. apply negb_true_iff in W. rewrite <- W. apply forallb_forall. intros x Hx.
    pose proof (tries_byte n x Hn Hx) as Bx.
    assert (pixel_ok (Px x x x 255)) as Hd by (unfold pixel_ok, byte in *; cbn; lia). destruct (opaque_full m n _ Sm Hn Hd eq_refl) as (r & g & b & C & _ & _ & E). rewrite (H _ Hd eq_refl) in E.
    unfold same_chan. cbn [pr] in C. rewrite C. injection E as E _ _. rewrite <- E. apply Z.eqb_refl.
  - intros L d Hd Ha. rewrite L in W. rewrite forallb_forall in W. destruct (opaque_full m n d Sm Hn Hd Ha) as (r & g & b & C1 & C2 & C3 & E). rewrite E. unfold pixel_ok, byte in Hd.
    pose proof (W (pr d) (levels_all (pr d) ltac:(unfold byte; lia))) as W1. pose proof (W (pg d) (levels_all (pg d) ltac:(unfold byte; lia))) as W2. pose proof (W (pb d) (levels_all (pb d) ltac:(unfold byte; lia))) as W3.
    unfold exact_chan in *. rewrite C1 in W1. rewrite C2 in W2. rewrite C3 in W3. apply Z.eqb_eq in W1, W2, W3. subst r g b. f_equal. rewrite !Z.min_r by lia. rewrite <- Ha. now destruct d.
Qed.
Lemma no_neutral m n : m = HardLight \/ m = VividLight -> 0 <= n <= 255 -> exists d, pixel_ok d /\ pa d = 255 /\ blend8 machine m 255 (Px n n n 255) d <> Some d.
Proof.
  intros Hm Hn. assert (is_separable m = true) as Sm by (destruct Hm as [-> | ->]; reflexivity). assert (leavesb m n = false) as L by (destruct Hm as [-> | ->]; reflexivity).
  pose proof neutral_sweep as W. rewrite forallb_forall in W. specialize (W m (sep_in m Sm)). rewrite forallb_forall in W. specialize (W n (levels_all n Hn)). rewrite L in W. apply negb_true_iff in W.
  assert (exists x, In x (tries n) /\ same_chan m n x = false) as (x & Hx & Sx).
  { clear -W. induction (tries n) as [|y l IH]; [discriminate|]. cbn [forallb] in W. destruct (same_chan m n y) eqn:E; [|exists y; split; [now left|exact E]]. destruct (IH W) as (x & H1 & H2). exists x. split; [now right|exact H2]. }
  pose proof (tries_byte n x Hn Hx) as Bx. unfold byte in Bx.
  exists (Px x x x 255). assert (pixel_ok (Px x x x 255)) as Hd by (unfold pixel_ok; cbn; lia). split; [exact Hd|]. split; [reflexivity|].
  destruct (opaque_full m n _ Sm Hn Hd eq_refl) as (r & g & b & C & _ & _ & E). rewrite E. intros [= K _ _]. unfold same_chan in Sx. cbn [pr] in C. rewrite C, K, Z.eqb_refl in Sx. discriminate.
Qed.
(** A pixel of one colour, or transparent *)
Definition all_of (n : Z) (v : px) : Prop := pa v = 0 \/ (pr v = n /\ pg v = n /\ pb v = n).
Lemma blended_neutral m n op s d : neutral m = Some n -> byte op -> pixel_ok s -> pixel_ok d -> pa d = 255 -> all_of n s -> blended m op s d = d.
Proof.
  intros T Ho Hs Hd Ha [Z|(E1 & E2 & E3)].
  - unfold blended. rewrite (blend8_nothing m op s d Ho Hs Hd); auto.
  - destruct (blend_between1 m op s d Ho Hs Hd Ha) as (r & g & b & M & E). cbv zeta in E. unfold blended. rewrite E.
    assert (mix machine W8 m (px_rgb s) (px_rgb d) = (let? r := chan machine W8 m (pr s) (pr d) in let? g := chan machine W8 m (pg s) (pg d) in let? b := chan machine W8 m (pb s) (pb d) in Some (r, g, b))) as X
      by (destruct m; try discriminate T; reflexivity).
    rewrite X, E1, E2, E3 in M. unfold pixel_ok in *. rewrite !(chan_neutral m n) in M by (try exact T; unfold byte; lia). injection M as <- <- <-.
    assert (K : forall t x, 0 <= x <= 255 -> between t x x = x) by (intros t x Hx; unfold between; replace (t * x + (255 - t) * x) with (x * 255) by lia; rewrite Z.div_mul by lia; lia).
    rewrite !K by lia. rewrite <- Ha. now destruct d.
Qed.
(** ** White and black through copies and masks *)
Definition evenly (n : Z) (v : px) : Prop := pr v = n * pa v / 255 /\ pg v = n * pa v / 255 /\ pb v = n * pa v / 255.
Lemma src_even n v : n = 0 \/ n = 255 -> pixel_ok v -> all_of n v -> evenly n (src16 true v).
Proof.
  intros Hn Hv Ha. unfold pixel_ok in Hv. unfold src16, premulx, wide, evenly. cbn [pr pg pb pa].
  destruct Ha as [-> |(-> & -> & ->)]; [change (0 * 257) with 0; rewrite !Z.mul_0_r; auto|]. destruct Hn as [-> | ->]; [auto|].
  change (255 * 257) with 65535. rewrite !(Z.mul_comm 65535), !(Z.mul_comm 255), !Z.div_mul by lia. auto.
Qed.
Lemma out_even n v : n = 0 \/ n = 255 -> evenly n v -> all_of n (out16 true v).
Proof.
  intros Hn (E1 & E2 & E3). unfold out16, unmulx, all_of. destruct (Z.eqb_spec (pa v) 0) as [E|E]; [left; reflexivity|]. right. cbn [low8 pr pg pb]. rewrite E1, E2, E3.
  assert (n * pa v / 255 * 65535 / pa v / 256 = n) as K; [|auto].
  destruct Hn as [-> | ->]; [change (0 * pa v / 255 * 65535) with 0; now rewrite Z.div_0_l by lia|]. rewrite (Z.mul_comm 255), Z.div_mul by lia. rewrite (Z.mul_comm (pa v)), Z.div_mul by lia. reflexivity.
Qed.
Lemma keep_even n op s d : n = 0 \/ n = 255 -> frac_src op (pa s) (pa d) = 0 -> evenly n d -> evenly n (textbook op s d).
Proof.
  intros Hn F (E1 & E2 & E3). unfold evenly, textbook. cbn [pr pg pb pa]. rewrite F, E1, E2, E3. rewrite !Z.mul_0_r, !Z.add_0_l.
  set (k := frac_dest op (pa s) (pa d)). assert (n * pa d / 255 * k / 65535 = n * (pa d * k / 65535) / 255) as K; [|auto].
  destruct Hn as [-> | ->]; [reflexivity|]. rewrite !(Z.mul_comm 255), !Z.div_mul by lia. reflexivity.
Qed.
Lemma stored_all n v : n = 0 \/ n = 255 -> pixel_ok v -> all_of n v -> all_of n (stored v).
Proof.
  intros Hn Hv Ha. unfold stored, pdpx. apply out_even; [exact Hn|]. pose proof (src_even n v Hn Hv Ha) as (E1 & E2 & E3). unfold evenly, textbook. cbn [frac_src frac_dest pr pg pb pa].
  rewrite !Z.mul_0_r, !Z.add_0_r, !Z.div_mul by lia. auto.
Qed.
Lemma pdmask_all n op m v : n = 0 \/ n = 255 -> op = DestIn \/ op = DestOut -> pixel_ok v -> all_of n v -> all_of n (pdmask op m v).
Proof. intros Hn Ho Hv Ha. unfold pdmask. apply out_even; [exact Hn|]. apply keep_even; [exact Hn|destruct Ho as [-> | ->]; reflexivity|now apply src_even]. Qed.
Lemma masked_all A p l d s v n : n = 0 \/ n = 255 -> pixel_ok s -> all_of n s -> masked A p l false d s v -> all_of n v.
Proof.
  intros Hn Hs Ha. unfold masked. destruct (has_mask l); [|now intros ->]. intros (m & s' & _ & H & ->). destruct H as [[_ ->]|[_ [[_ ->]|[_ ->]]]]; [apply pdmask_all; auto|apply pdmask_all; auto|exact Ha].
Qed.

(** ** Pictures *)
Lemma put_neutral A p l op d e : glass_tree (SLeaf l) -> byte op -> neutral_here p l -> pixel_ok d -> pa d = 255 -> put A p (SLeaf l) [] op d e -> e = d.
Proof.
  intros G Ho (m & n & M & T & Nv) Hd Ha P. destruct (all_ok A p) as (Ki & _ & _). assert (Hn : n = 0 \/ n = 255) by (destruct m; try discriminate T; injection T as <-; auto).
  inversion P as [|? ? m' ? ? w w' _ _ M' I Tp|? ? ? ? w w' _ _ M' _ _ _|? ? ? ? M' _]; subst; [reflexivity| |discriminate (mode_fun (SLeaf l) (Some m) _ M M')|reflexivity].
  pose proof (mode_fun (SLeaf l) (Some m) _ M M') as [= <-]. inversion Tp as [|? ? ? ? N]; subst; [|now destruct N].
  apply (blended_neutral m n op w' d T Ho); auto; [exact (Ki _ _ _ _ I G Ho Hd)|]. inversion I as [? ? ? s ? V K| |]; subst. inversion G as [? _ _ Gp|]; subst. pose proof (leaf_ok _ _ _ Gp V) as Hs.
  apply (masked_all A p l d (stored s) w' n Hn (stored_ok _ Hs)); [|exact K]. apply stored_all; auto. exact (Nv s V).
Qed.
Lemma without_laid (A : point -> Prop) p ts ts' : without A p ts ts' -> Forall glass_tree ts -> Forall glass_tree ts' ->
  forall v v', laid A p None ts nothing v -> laid A p None ts' nothing v' -> v = v'.
Proof.
  destruct (all_fun A p) as (Fi & Fp & Ft & Fc & Fl & Fh). destruct (all_ok A p) as (_ & _ & _ & _ & Ko & _).
  induction 1 as [pre l post d C S N Ld Hd|pre dv f c c' m post C M K IH]; intros G G' v v' L L'.
  - apply (laid_app _ _ _ pre (SLeaf l :: post) _ _ C) in L. destruct L as (x & L1 & L2). apply (laid_app _ _ _ pre post _ _ S) in L'. destruct L' as (x' & L1' & L2').
    rewrite (Fl _ _ _ _ L1 _ Ld) in L2. rewrite (Fl _ _ _ _ L1' _ Ld) in L2'. apply Forall_app in G. destruct G as [G1 G2]. apply Forall_cons_iff in G2. destruct G2 as [Gt _].
    destruct (laid_first A p None (SLeaf l) [] post d v C (Forall_nil _) S L2) as (y & P & L3). cbn [within rec_of] in P.
    rewrite (put_neutral A p l _ d y Gt (glass_opacity _ Gt) N (Ko _ _ _ _ Ld G1 Logic.I nothing_ok) Hd P) in L3. exact (Fl _ _ _ _ L3 _ L2').
  - apply (laid_app _ _ _ pre (SFolder dv f c :: post) _ _ (clip_0 dv f c C)) in L. destruct L as (x & L1 & L2).
    apply (laid_app _ _ _ pre (SFolder dv f c' :: post) _ _ (clip_0 dv f c' C)) in L'. destruct L' as (x' & L1' & L2'). rewrite <- (Fl _ _ _ _ L1 _ L1') in L2'. clear x' L1'.
    apply Forall_app in G. destruct G as [_ G]. apply Forall_cons_iff in G. destruct G as [G _]. apply Forall_app in G'. destruct G' as [_ G']. apply Forall_cons_iff in G'. destruct G' as [G' _].
    inversion L2 as [? ? gs ? ? Lg H]; subst. inversion Lg as [|? ? ? E|? cs ts gs0 E F N Lg0]; subst; [rewrite clip_0 in E by exact C; discriminate|].
    inversion L2' as [? ? gs' ? ? Lg' H']; subst. rewrite (lg_fun _ _ Lg' _ (lg_base (SFolder dv f c') cs ts gs0 (clip_0 dv f c' C) F N Lg0)) in H'.
    inversion H as [|? ? ? ? ? y ? P H1]; subst. inversion H' as [|? ? ? ? ? y' ? P' H1']; subst. enough (y = y') as <- by exact (Fh _ _ _ _ H1 _ H1').
    cbn [within rec_of] in P, P'. clear - Fi Ft M IH G G' P P'.
    inversion P as [? ? ? ? Hu|? ? m1 ? ? w w' Hh Z M1 I T|? ? ? ? w w' Hh Z M1 To I T|? ? ? ? M1 To]; subst; try discriminate (mode_fun (SFolder dv f c) _ _ M M1);
      (inversion P' as [? ? ? ? Hu'|? ? m2 ? ? z z' Hh' Z' M2 I' T'|? ? ? ? z z' Hh' Z' M2 To' I' T'|? ? ? ? M2 To']; subst; try discriminate (mode_fun (SFolder dv f c') _ _ M M2)).
    + reflexivity.
    + destruct Hu as [Hu|Hu]; cbn [rec_of] in *; congruence.
    + destruct Hu' as [Hu'|Hu']; cbn [rec_of] in *; congruence.
    + pose proof (mode_fun (SFolder dv f c) _ (Some m2) M1 M2) as [= <-]. f_equal.
      inversion I as [|? ? ? ? ? ? s ? _ Ls K|? ? ? ? ? s ? M3 _ _]; subst; [|discriminate (mode_fun (SFolder dv f c) _ _ M M3)].
      inversion I' as [|? ? ? ? ? ? s' ? _ Ls' K'|? ? ? ? ? s' ? M3 _ _]; subst; [|discriminate (mode_fun (SFolder dv f c') _ _ M M3)].
      rewrite <- (IH (folder_glass _ _ _ G) (folder_glass _ _ _ G') s s' Ls Ls') in K'. pose proof (masked_fun _ _ _ _ _ _ _ _ K K') as <-.
      exact (Ft _ _ _ _ T _ (topped_rec A p (SFolder dv f c') (SFolder dv f c) cs w z' eq_refl T')).
Qed.

(** ** From the bytes to the pixels *)
Lemma neutral_shown inflate kind procs h rsv cmd res neg pl sf pad gmask bs tail rest inflate' kind' procs' h' rsv' cmd' res' neg' pl' sf' pad' gmask' bs' tail' rest' cpus cpus1 ts :
  (1 <= procs)%nat -> (1 <= procs')%nat -> (1 <= cpus)%nat -> (1 <= cpus1)%nat -> 0 < ts ->
  header_valid h -> h_mode h = 3 -> h_depth h = 8 -> zlen rsv = 6 -> zlen cmd < 4294967296 ->
  Forall rblock_valid res -> zlen (enc_rblocks res) < 4294967296 ->
  header_valid h' -> h_mode h' = 3 -> h_depth h' = 8 -> zlen rsv' = 6 -> zlen cmd' < 4294967296 ->
  Forall rblock_valid res' -> zlen (enc_rblocks res') < 4294967296 ->
  let large := h_version h =? 2 in let large' := h_version h' =? 2 in
  section_valid inflate large neg 8 3 pl (flat_map sflatten sf) pad gmask bs tail -> Forall stree_valid sf -> glass_forest sf ->
  section_valid inflate' large' neg' 8 3 pl' (flat_map sflatten sf') pad' gmask' bs' tail' -> Forall stree_valid sf' -> glass_forest sf' ->
  let enc := enc_config h rsv cmd res ++ enc_section large neg pl (flat_map sflatten sf) pad gmask bs tail in
  let enc' := enc_config h' rsv' cmd' res' ++ enc_section large' neg' pl' (flat_map sflatten sf') pad' gmask' bs' tail' in
  exists f evs f' evs', Decode inflate kind procs newOptions (enc ++ rest) = (Ok (f, zlen enc, rest), evs) /\ Decode inflate' kind' procs' newOptions (enc' ++ rest') = (Ok (f', zlen enc', rest'), evs') /\
    forall st st', MWait.steps (lstep cpus ts) (lstart (map (fun e => playerOf (ev_layer e)) evs)) st -> lended st ->
    MWait.steps (lstep cpus1 ts) (lstart (map (fun e => playerOf (ev_layer e)) evs')) st' -> lended st' ->
    forall n n' r r' w0 w1 w0' w1', (1 <= n)%nat -> (1 <= n')%nat -> new w0 -> new w0' ->
    renderedPx ts (ldImages st) n ts r false (rootOf (ldCopied st) (f_layer f)) w0 w1 ->
    renderedPx ts (ldImages st') n' ts r' false (rootOf (ldCopied st') (f_layer f')) w0' w1' ->
    forall q p, tileOf ts r q -> tileOf ts r' q -> in_tile ts q p -> 0 <= MRect.px p -> 0 <= py p ->
    without (square ts q) p sf sf' ->
    exists u t u' t' v, w1 q = Some (u, t) /\ w1' q = Some (u', t') /\ tile_at ts q t p = Some v /\ tile_at ts q t' p = Some v.
Proof.
  intros Hp Hp' Hc Hc1 Ht Hh Hm Hdp Hr Hcm Hres Hrl Hh' Hm' Hdp' Hr' Hcm' Hres' Hrl' large large' Sv Tv Gl Sv' Tv' Gl' enc enc'.
  destruct (glass_shown inflate kind procs h rsv cmd res neg pl sf pad gmask bs tail rest cpus ts Hp Hc Ht Hh Hm Hdp Hr Hcm Hres Hrl Sv Tv Gl) as (f & evs & D & _ & K).
  destruct (glass_shown inflate' kind' procs' h' rsv' cmd' res' neg' pl' sf' pad' gmask' bs' tail' rest' cpus1 ts Hp' Hc1 Ht Hh' Hm' Hdp' Hr' Hcm' Hres' Hrl' Sv' Tv' Gl') as (f' & evs' & D' & _ & K').
  exists f, evs, f', evs'. split; [exact D|]. split; [exact D'|]. clear D D'.
  intros st st' S L S' L' n n' r r' w0 w1 w0' w1' Hn Hn' W W' R R' q p Tq Tq' Hin P1 P2 Op.
  destruct (K st S L n r w0 w1 Hn W R q p Tq Hin P1 P2) as (u & t & x & E & Lc & V). destruct (K' st' S' L' n' r' w0' w1' Hn' W' R' q p Tq' Hin P1 P2) as (u' & t' & x' & E' & Lc' & V').
  exists u, t, u', t', (stored (stored x)). split; [exact E|]. split; [exact E'|]. split; [exact V|].
  assert (x = x') as ->; [|exact V'].
  exact (without_laid (square ts q) p sf sf' Op (proj1 Gl) (proj1 Gl') x x' (proj2 (Lc x) eq_refl) (proj2 (Lc' x') eq_refl)).
Qed.
