(** Proofs: the alpha of the pictures of SGlass against the exact coverage. *)
From Coq Require Import String QArith Lqa.
From Verif Require Import Base BaseFacts SUtil SConfig MRect MPicker MConfig MReader MLayer MApi SCompress SRecord SLayer XRecord PRecord3
  MSched MBlend MPorter SBlend PBlend PBlend2 PLum PBlend3 SPorter PPorter MWait MRender SRender MRenderAll SRenderAll MRenderPx PRenderPx
  MDraw MTile STile MLoad SLoad MPipe SPipe PPipe2 PPipe4 PPipe5 SSharp PSharp2 PSharp3 SGlass PGlass1 PGlass2 PGlass4 SOver POver PTop SStack PStack1 PStack2 PRecord4 SCover.
Close Scope string_scope.
Open Scope Z_scope.

(** ** Alpha of the operators *)
Lemma out_alpha q : pa (out16 true q) = pa q / 256.
Proof. unfold out16, unmulx, low8. destruct (Z.eqb_spec (pa q) 0) as [-> |_]; reflexivity. Qed.
Lemma stored_alpha v : pixel_ok v -> pa (stored v) = pa v.
Proof. unfold pixel_ok. intros H. unfold stored, pdpx. rewrite out_alpha. cbn [textbook frac_src frac_dest src16 premulx wide pa nothing]. lia. Qed.
Lemma over_alpha d s : pixel_ok s -> pa d = 255 -> pa (pdpx DestOver d s) = 255.
Proof. unfold pixel_ok. intros H E. unfold pdpx. rewrite out_alpha. cbn [textbook frac_src frac_dest src16 premulx wide pa]. rewrite E. lia. Qed.
Lemma in_alpha v x : pixel_ok v -> pa x = 255 -> pa (pdpx DestIn v x) = pa v.
Proof. unfold pixel_ok. intros H E. unfold pdpx. rewrite out_alpha. cbn [textbook frac_src frac_dest src16 premulx wide pa]. rewrite E. lia. Qed.
Lemma blended_alpha m op x d : byte op -> pixel_ok x -> pixel_ok d -> let t := pa x * op / 255 in let a := pa (blended m op x d) in
  255 * a <= 255 * (t + pa d) - t * pa d < 255 * a + 510.
Proof.
  intros Ho Hx Hd t a. destruct (blend8_eq m op x d Ho Hx Hd) as (Ht & r & g & b & _ & _ & _ & E & _ & _). fold t in Ht, E. unfold a, blended. rewrite E. clear E. clearbody t.
  assert (0 <= pa d <= 255) as Bd by (unfold pixel_ok, byte in Hd; lia). destruct (wa_bounds t (pa d) Ht Bd) as [W1 W2].
  destruct (Z.eqb_spec t 0) as [-> |T]; cbn [orb]; [lia|]. destruct (Z.eqb_spec (wa 255 t (pa d)) 0) as [W|W]; cbn [pa]; [|exact W2]. unfold byte in Ht. nia.
Qed.
Lemma blended_full m op x d : byte op -> pixel_ok x -> pixel_ok d -> pa d = 255 -> pa (blended m op x d) = 255.
Proof.
  intros Ho Hx Hd E. destruct (blend8_range m op x d Ho Hx Hd) as (c & Ec & _ & _). unfold blended. rewrite Ec. exact (blend8_opaque_dest m op x d c Ho Hx Hd E Ec).
Qed.

(** An opaque picture stays opaque, and layers clipped to a layer do not change its alpha. *)
Lemma all_full A p :
  (forall t op d v, image A p t op d v -> glass_tree t -> byte op -> pixel_ok d -> mode_of t None -> pa d = 255 -> pa v = 255) /\
  (forall t cs op d d', put A p t cs op d d' -> glass_tree t -> Forall glass_tree cs -> byte op -> pixel_ok d -> pa d = 255 -> pa d' = 255) /\
  (forall t cs v v', topped A p t cs v v' -> Forall glass_tree cs -> pixel_ok v -> pa v' = pa v) /\
  (forall cs x y, clips_on A p cs x y -> Forall glass_tree cs -> pixel_ok x -> pa x = 255 -> pa y = 255) /\
  (forall op ts d d', laid A p op ts d d' -> Forall glass_tree ts -> opB op -> pixel_ok d -> pa d = 255 -> pa d' = 255) /\
  (forall op gs d d', heaped A p op gs d d' -> (forall t cs, In (t, cs) gs -> glass_tree t /\ Forall glass_tree cs) -> opB op -> pixel_ok d -> pa d = 255 -> pa d' = 255).
Proof.
  destruct (all_ok A p) as (Ki & Kp & Kt & Kc & Kl & Kh).
  apply (glass_ind A p (fun t op d v _ => glass_tree t -> byte op -> pixel_ok d -> mode_of t None -> pa d = 255 -> pa v = 255)
    (fun t cs op d d' _ => glass_tree t -> Forall glass_tree cs -> byte op -> pixel_ok d -> pa d = 255 -> pa d' = 255)
    (fun t cs v v' _ => Forall glass_tree cs -> pixel_ok v -> pa v' = pa v) (fun cs x y _ => Forall glass_tree cs -> pixel_ok x -> pa x = 255 -> pa y = 255)
    (fun op ts d d' _ => Forall glass_tree ts -> opB op -> pixel_ok d -> pa d = 255 -> pa d' = 255)
    (fun op gs d d' _ => (forall t cs, In (t, cs) gs -> glass_tree t /\ Forall glass_tree cs) -> opB op -> pixel_ok d -> pa d = 255 -> pa d' = 255)).
  - intros l op d s v _ _ _ _ _ [].
  - intros dv f c m op d s v Fm _ _ _ _ _ _ Fn. cbn [mode_of] in Fn. discriminate (folder_mode_fun _ _ _ Fm Fn).
  - intros dv f c op d s v Fm L IH Mk G Ho Hd _ E. inversion G as [|? ? ? m Of Fm' Gm Gc _]; subst.
    pose proof (Kl _ _ _ _ L Gc Ho (stored_ok d Hd)) as Hs. specialize (IH Gc Ho (stored_ok d Hd) ltac:(now rewrite stored_alpha)).
    unfold masked in Mk. destruct (has_mask f) eqn:Hm; [|now subst v]. destruct Mk as (mk & s' & Ma & C & ->). apply over_alpha; [|exact E].
    unfold has_mask in Hm. apply andb_prop in Hm. destruct Hm as [On _]. pose proof (mask_byte f _ p mk Gm On Ma) as Bm.
    destruct C as [[_ ->]|[_ [[_ ->]|[_ ->]]]]; [apply pdmask_eq; auto|apply pdmask_eq; auto; unfold byte in *; lia|exact Hs].
  - auto.
  - intros t cs m op d v v' Hh O M I _ T _ G Gc Ho Hd E. apply blended_full; auto. apply (Kt _ _ _ _ T Gc). exact (Ki _ _ _ _ I G Ho Hd).
  - intros t cs op d v v' Hh O M _ I IHi T IHt G Gc Ho Hd E. pose proof (Ki _ _ _ _ I G Ho Hd) as Hv. rewrite stored_alpha by (exact (Kt _ _ _ _ T Gc Hv)).
    rewrite (IHt Gc Hv). exact (IHi G Ho Hd M E).
  - auto.
  - auto.
  - intros t cs v x _ _ _ IH Gc Hv. apply in_alpha; [exact Hv|]. apply IH; [exact Gc|apply opaque_ok, stored_ok, Hv|reflexivity].
  - auto.
  - intros t cs x y z P IHp C IHc G Hx E. apply Forall_cons_iff in G. destruct G as [Gt Gc]. pose proof (glass_opacity t Gt) as Ho.
    apply IHc; [exact Gc|exact (Kp _ _ _ _ _ P Gt ltac:(constructor) Ho Hx)|]. apply IHp; auto.
  - intros op ts gs d d' Lg H IH G Ho Hd E. apply IH; auto. exact (grouped_glass ts gs Lg G).
  - auto.
  - intros op t cs gs d1 d2 d3 P IHp H IHh G Ho Hd E. destruct (G t cs (or_introl eq_refl)) as [Gt Gc]. pose proof (within_byte op _ Ho (glass_opacity t Gt)) as Hw.
    apply IHh; [intros; apply G; now right|exact Ho|exact (Kp _ _ _ _ _ P Gt Gc Hw Hd)|]. apply IHp; auto.
Qed.

(** ** The exact coverage *)
Scheme shape_ind2 := Induction for shape Sort Prop
  with adds_ind2 := Induction for adds Sort Prop
  with cover_ind2 := Induction for cover Sort Prop.
Combined Scheme cover_both from shape_ind2, adds_ind2, cover_ind2.

Lemma grouped_has ts gs : layers_grouped ts gs -> forall t, In t ts -> clips t = false -> exists cs, In (t, cs) gs.
Proof.
  induction 1 as [|t ts gs E _ IH|t cs ts gs E F N _ IH]; intros t' Hi Hc.
  - destruct Hi.
  - destruct Hi as [-> |Hi]; [congruence|auto].
  - destruct Hi as [-> |Hi]; [exists cs; now left|]. apply in_app_or in Hi. destruct Hi as [Hi|Hi].
    + rewrite Forall_forall in F. rewrite (F _ Hi) in Hc. discriminate.
    + destruct (IH _ Hi Hc) as [cs' I]. exists cs'. now right.
Qed.
Lemma cover_clips p w j cs ts e e' lo hi : Forall (fun c => clips c = true) cs -> cover p w j (cs ++ ts) e e' lo hi -> cover p w j ts e e' lo hi.
Proof.
  induction 1 as [|t cs C _ IH]; [auto|]. cbn [app]. intros H. inversion H; subst; [auto|congruence].
Qed.
Lemma cover_groups p w j ts gs : layers_grouped ts gs -> forall e e' lo hi, cover p w j ts e e' lo hi -> cover p w j (map fst gs) e e' lo hi.
Proof.
  induction 1 as [|t ts gs E _ IH|t cs ts gs E F N _ IH]; intros e e' lo hi H.
  - exact H.
  - inversion H; subst; [auto|congruence].
  - cbn [map fst]. inversion H; subst; [congruence|]. eapply cover_next; eauto. apply IH. eapply cover_clips; eauto.
Qed.

(** The opacity of the pass-through folders around, as the code has it *)
Definition opq (op : option Z) (w : Q) (j : Z) : Prop := match op with
  | None => (w == 1)%Q /\ j = 0
  | Some o => byte o /\ (0 <= w <= 1)%Q /\ 1 <= j /\ (0 <= (255 # 1) * w - inject_Z o <= inject_Z (j - 1))%Q end.
Lemma opq_range op w j : opq op w j -> (0 <= w <= 1)%Q /\ 0 <= j.
Proof. destruct op as [o|]; cbn [opq]; [intros (_ & H & J & _); split; [exact H|lia]|intros [-> ->]; split; [split; Lqa.lra|lia]]. Qed.
Lemma injZ n m : n <= m -> (inject_Z n <= inject_Z m)%Q. Proof. rewrite <- Zle_Qle. auto. Qed.
Lemma byteQ n : byte n -> (0 <= inject_Z n <= 255 # 1)%Q.
Proof. unfold byte. intros H. change (255 # 1)%Q with (inject_Z 255). change 0%Q with (inject_Z 0). rewrite <- !Zle_Qle. exact H. Qed.
Lemma opq_within op w j o : opq op w j -> byte o -> (0 <= (255 # 1) * (w * SBlend.unit o) - inject_Z (within op o) <= inject_Z j)%Q.
Proof.
  intros H Ho. destruct op as [q|]; cbn [opq within] in *.
  - destruct H as (Hq & Hw & Hj & H). pose proof (floor_div (o * q)) as F. pose proof (unit_range o Ho) as U. pose proof (unit_q o) as Uq. pose proof (byteQ q Hq) as Bq.
    assert ((o * q # 255) == SBlend.unit o * inject_Z q)%Q as E by (unfold SBlend.unit, inject_Z, Qeq; cbn; lia). rewrite E in F.
    assert (inject_Z j == inject_Z (j - 1) + 1)%Q as Ej by (change 1%Q with (inject_Z 1); rewrite <- inject_Z_plus; apply inject_Z_injective; lia).
    set (u := SBlend.unit o) in *. set (x := inject_Z q) in *. set (z := inject_Z (o * q / 255)) in *. set (k := inject_Z (j - 1)) in *.
    assert (0 <= u * ((255 # 1) * w - x) <= k)%Q by (split; Lqa.nra). Lqa.lra.
  - destruct H as [-> ->]. pose proof (unit_q o) as E. rewrite E. change (255 # 1)%Q with 255%Q. change (inject_Z 0) with 0%Q. Lqa.lra.
Qed.
Lemma seen_b l th p v : glass_mask l th -> seen_at l p v -> byte v.
Proof.
  intros G. unfold seen_at. destruct (has_mask l) eqn:H; [|intros ->; unfold byte; lia]. unfold has_mask in H. apply andb_prop in H. destruct H as [On _]. intros M. exact (mask_byte l th p v G On M).
Qed.
Lemma masks_range l : (0 <= inject_Z (masks l) <= 1)%Q.
Proof. unfold masks. destruct (has_mask l); split; unfold Qle; cbn; lia. Qed.
Lemma unit_b o : byte o -> (0 <= SBlend.unit o <= 1)%Q.
Proof. exact (unit_range o). Qed.
Lemma step_range e a : (0 <= e <= 1)%Q -> (0 <= a <= 1)%Q -> (e <= e + a * (1 - e) <= 1)%Q.
Proof. intros. split; Lqa.nra. Qed.
Lemma px_dec (v w : px) : {v = w} + {v <> w}.
Proof. decide equality; apply Z.eq_dec. Qed.

(** What does not touch the square adds no more than the rounding may take away. *)
Lemma untouched (A : point -> Prop) p : A p ->
  (forall t a lo hi, shape p t a lo hi -> glass_tree t ->
     ((0 <= a <= 1)%Q /\ 0 <= lo /\ 0 <= hi) /\ forall op, hidden (rec_of t) = false -> op <> 0 -> ~ touches A t op -> ((255 # 1) * a <= inject_Z lo)%Q) /\
  (forall w j t e e' lo hi, adds p w j t e e' lo hi -> glass_tree t -> (0 <= w <= 1)%Q -> 0 <= j -> (0 <= e <= 1)%Q ->
     ((e <= e' <= 1)%Q /\ 0 <= lo /\ 0 <= hi) /\
     forall op, byte op -> (0 <= (255 # 1) * (w * SBlend.unit (sl_opacity (rec_of t))) - inject_Z op <= inject_Z j)%Q -> ~ touches A t op -> ((255 # 1) * e' <= (255 # 1) * e + inject_Z lo)%Q) /\
  (forall w j ts e e' lo hi, cover p w j ts e e' lo hi -> Forall glass_tree ts -> (0 <= w <= 1)%Q -> 0 <= j -> (0 <= e <= 1)%Q ->
     ((e <= e' <= 1)%Q /\ 0 <= lo /\ 0 <= hi) /\
     forall op, opq op w j -> (forall t, In t ts -> clips t = false -> ~ touches A t (within op (sl_opacity (rec_of t)))) -> ((255 # 1) * e' <= (255 # 1) * e + inject_Z lo)%Q).
Proof.
  intros Ap.
  apply (cover_both p (fun t a lo hi _ => glass_tree t ->
     ((0 <= a <= 1)%Q /\ 0 <= lo /\ 0 <= hi) /\ forall op, hidden (rec_of t) = false -> op <> 0 -> ~ touches A t op -> ((255 # 1) * a <= inject_Z lo)%Q)
    (fun w j t e e' lo hi _ => glass_tree t -> (0 <= w <= 1)%Q -> 0 <= j -> (0 <= e <= 1)%Q ->
     ((e <= e' <= 1)%Q /\ 0 <= lo /\ 0 <= hi) /\
     forall op, byte op -> (0 <= (255 # 1) * (w * SBlend.unit (sl_opacity (rec_of t))) - inject_Z op <= inject_Z j)%Q -> ~ touches A t op -> ((255 # 1) * e' <= (255 # 1) * e + inject_Z lo)%Q)
    (fun w j ts e e' lo hi _ => Forall glass_tree ts -> (0 <= w <= 1)%Q -> 0 <= j -> (0 <= e <= 1)%Q ->
     ((e <= e' <= 1)%Q /\ 0 <= lo /\ 0 <= hi) /\
     forall op, opq op w j -> (forall t, In t ts -> clips t = false -> ~ touches A t (within op (sl_opacity (rec_of t)))) -> ((255 # 1) * e' <= (255 # 1) * e + inject_Z lo)%Q)).
  - (* a picture *) intros l s v Lv Sv G. inversion G as [? Ob Gm Gp|]; subst. pose proof (unit_b _ (seen_b l false p v Gm Sv)) as Uv.
    pose proof (leaf_ok l p s Gp Lv) as Hs. assert (byte (pa s)) as Bs by (unfold pixel_ok in Hs; unfold byte; lia). pose proof (unit_b _ Bs) as Us.
    assert (0 <= masks l) as Pm by (unfold masks; destruct (has_mask l); lia). split; [split; [split; Lqa.nra|auto]|]. intros op Hh O N. pose proof (masks_range l) as M.
    destruct (px_dec s nothing) as [-> |Ns]; [|exfalso; apply N; eapply touches_leaf; eauto]. change (SBlend.unit (pa nothing)) with (0 # 255)%Q. assert ((0 # 255) == 0)%Q as -> by reflexivity. Lqa.lra.
  - (* a folder *) intros dv f c m a v lo hi Fm Cv IH Sv G. inversion G as [|? ? ? m' Of Fm' Gm Gc _]; subst. pose proof (unit_b _ (seen_b f _ p v Gm Sv)) as Uv.
    destruct (IH Gc ltac:(split; Lqa.lra) ltac:(lia) ltac:(split; Lqa.lra)) as ((Ra & L0 & H0) & T). assert (0 <= masks f) as Pm by (unfold masks; destruct (has_mask f); lia).
    split; [split; [split; Lqa.nra|lia]|]. intros op Hh O N. cbn [rec_of] in Hh. assert ((255 # 1) * a <= (255 # 1) * 0 + inject_Z lo)%Q as Ha.
    { apply (T None); [split; [reflexivity|reflexivity]|]. intros t Hi Hc To. apply N. destruct (lg_exists (length c) c ltac:(lia)) as [gs Lg]. destruct (grouped_has c gs Lg t Hi Hc) as [cs Hg].
      exact (touches_folder A dv f c (Some m) op gs t cs Hh O Fm Lg Hg To). }
    pose proof (injZ lo (lo + masks f) ltac:(lia)). assert (a * SBlend.unit v <= a)%Q by Lqa.nra. Lqa.lra.
  - (* hidden *) intros w j t e Hh G Hw Hj He. split; [split; [split; Lqa.lra|lia]|]. intros op Ho Hop N. change (inject_Z 0) with 0%Q. Lqa.lra.
  - (* a layer *) intros w j t m a e lo hi Hh Hm Sh IH G Hw Hj He. destruct (IH G) as ((Ra & L0 & H0) & T). pose proof (unit_b _ (glass_opacity t G)) as Uo. set (u := SBlend.unit (sl_opacity (rec_of t))) in *.
    assert (0 <= w * u <= 1)%Q as Ru by (split; Lqa.nra). assert (0 <= a * (w * u) <= 1)%Q as Rt by (split; Lqa.nra).
    split; [split; [now apply step_range|lia]|]. intros op Ho Hop N. pose proof (injZ lo (lo + j + 3) ltac:(lia)) as I1. pose proof (injZ j (lo + j + 3) ltac:(lia)) as I2.
    assert (a * (w * u) * (1 - e) <= a * (w * u))%Q by Lqa.nra. destruct (Z.eq_dec op 0) as [-> |O].
    + change (inject_Z 0) with 0%Q in Hop. assert (a * (w * u) <= w * u)%Q by Lqa.nra. Lqa.lra.
    + specialize (T op Hh O N). assert (a * (w * u) <= a)%Q by Lqa.nra. Lqa.lra.
  - (* a pass-through folder *) intros w j dv f c e e' lo hi Hh Fm Nm Cv IH G Hw Hj He. inversion G as [|? ? ? m' Of Fm' Gm Gc _]; subst. pose proof (unit_b _ (isb _ Of)) as Uo. cbn [rec_of].
    set (u := SBlend.unit (sl_opacity f)) in *. assert (0 <= w * u <= 1)%Q as Ru by (split; Lqa.nra). destruct (IH Gc Ru ltac:(lia) He) as (R & T). split; [exact R|]. intros op Ho Hop N.
    apply (T (Some op)); [cbn [opq]; replace (j + 1 - 1) with j by lia; repeat split; try tauto; try lia; try Lqa.lra; unfold byte in Ho; lia|]. intros t Hi Hc To. destruct (Z.eq_dec op 0) as [-> |O].
    { cbn [within] in To. rewrite Z.mul_0_r in To. change (0 / 255) with 0 in To. inversion To; congruence. }
    apply N. destruct (lg_exists (length c) c ltac:(lia)) as [gs Lg]. destruct (grouped_has c gs Lg t Hi Hc) as [cs Hg]. exact (touches_folder A dv f c None op gs t cs Hh O Fm Lg Hg To).
  - intros w j e _ Hw Hj He. split; [split; [split; Lqa.lra|lia]|]. intros. change (inject_Z 0) with 0%Q. Lqa.lra.
  - intros w j t ts e e' lo hi Hc Cv IH G Hw Hj He. apply Forall_cons_iff in G. destruct G as [_ G]. destruct (IH G Hw Hj He) as [R T]. split; [exact R|]. intros op Ho N. apply (T op Ho). intros. apply N; auto. now right.
  - intros w j t ts e e1 e2 lo1 hi1 lo2 hi2 Hc Ad IHa Cv IHc G Hw Hj He. apply Forall_cons_iff in G. destruct G as [Gt G]. destruct (IHa Gt Hw Hj He) as (((R1 & R1') & L1 & H1) & T1).
    destruct (IHc G Hw Hj ltac:(split; Lqa.lra)) as (((R2 & R2') & L2 & H2) & T2). split; [split; [split; Lqa.lra|lia]|]. intros op Ho N. rewrite inject_Z_plus.
    assert (opB op) as Bo. { destruct op as [o|]; [exact (proj1 Ho)|exact I]. }
    specialize (T1 _ (within_byte op _ Bo (glass_opacity t Gt)) (opq_within op w j _ Ho (glass_opacity t Gt)) (N t (or_introl eq_refl) Hc)).
    specialize (T2 op Ho ltac:(intros; apply N; auto; now right)). Lqa.lra.
Qed.

(** ** One layer *)
Lemma layer_alpha A op d a' a o e j lo hi lod hid : byte A -> byte op -> byte d -> (0 <= a <= 1)%Q -> (0 <= o <= 1)%Q -> (0 <= e <= 1)%Q -> 0 <= j -> 0 <= lo -> 0 <= hi -> 0 <= lod -> 0 <= hid ->
  around lo hi A a -> (0 <= (255 # 1) * o - inject_Z op <= inject_Z j)%Q -> around lod hid d e ->
  (let t := A * op / 255 in 255 * a' <= 255 * (t + d) - t * d < 255 * a' + 510) ->
  around (lod + (lo + j + 3)) (hid + hi) a' (e + a * o * (1 - e)).
Proof.
  intros HA Hop Hd Ra Ro Re Hj Hlo Hhi Hlod Hhid Ha Ho He B. unfold around in *. rewrite !inject_Z_plus. pose proof (byteQ A HA) as QA. pose proof (byteQ d Hd) as Qd. pose proof (floor_div (A * op)) as F.
  assert ((A * op # 255) == inject_Z A * inject_Z op * (1 # 255))%Q as E by (unfold inject_Z, Qeq; cbn; lia). rewrite E in F. clear E.
  set (t := A * op / 255) in *. destruct B as [B1 B2].
  assert ((255 # 1) * inject_Z a' <= (255 # 1) * (inject_Z t + inject_Z d) - inject_Z t * inject_Z d)%Q as C1.
  { apply injZ in B1. unfold Z.sub in B1. rewrite inject_Z_plus, inject_Z_opp, !inject_Z_mult, inject_Z_plus in B1. exact B1. }
  assert ((255 # 1) * (inject_Z t + inject_Z d) - inject_Z t * inject_Z d <= (255 # 1) * inject_Z a' + (510 # 1))%Q as C2.
  { apply Z.lt_le_incl, injZ in B2. unfold Z.sub in B2. rewrite !inject_Z_plus, inject_Z_opp, !inject_Z_mult, inject_Z_plus in B2. exact B2. }
  clear B1 B2. apply injZ in Hj, Hlo, Hhi, Hlod, Hhid. change (inject_Z 0) with 0%Q in *. change (inject_Z 3) with (3 # 1)%Q.
  set (x := inject_Z a') in *. set (T := inject_Z t) in *. set (D := inject_Z d) in *. set (X := inject_Z A) in *. set (P := inject_Z op) in *. set (J := inject_Z j) in *.
  set (L := inject_Z lo) in *. set (H := inject_Z hi) in *. set (L2 := inject_Z lod) in *. set (H2 := inject_Z hid) in *. clearbody x T D X P J L H L2 H2. clear t.
  (* the alpha of the source *)
  assert (0 <= X * ((255 # 1) * o - P) * (1 # 255) <= J)%Q as S1 by (split; Lqa.nra).
  assert (- L <= (X - (255 # 1) * a) * o <= H)%Q as S2 by (split; Lqa.nra).
  assert (- (L + J + 1) <= T - (255 # 1) * (a * o) <= H)%Q as S3 by (split; Lqa.lra).
  assert (0 <= a * o <= 1)%Q as Rao by (split; Lqa.nra).
  (* the union *)
  assert (- (L + J + 1) <= (T - (255 # 1) * (a * o)) * (1 - D * (1 # 255)) <= H)%Q as S4.
  { assert (0 <= 1 - D * (1 # 255) <= 1)%Q as R by Lqa.lra. set (r := (1 - D * (1 # 255))%Q) in *. set (y := (T - (255 # 1) * (a * o))%Q) in *. clearbody r y. clear - R S3 Hlo Hj Hhi. split; Lqa.nra. }
  assert (- L2 <= (D - (255 # 1) * e) * (1 - a * o) <= H2)%Q as S5.
  { set (r := (a * o)%Q) in *. set (y := (D - (255 # 1) * e)%Q) in *. clearbody r y. clear - Rao He Hlod Hhid. split; Lqa.nra. }
  assert ((T + D - T * D * (1 # 255)) - (255 # 1) * (e + a * o * (1 - e)) == (T - (255 # 1) * (a * o)) * (1 - D * (1 # 255)) + (D - (255 # 1) * e) * (1 - a * o))%Q as E by ring.
  set (Y := (T * D)%Q) in *. set (V := ((255 # 1) * (e + a * o * (1 - e)))%Q) in *. clearbody Y V. Lqa.lra.
Qed.

Lemma mask_around (A : point -> Prop) p l th d s v x a lo hi : glass_mask l th -> A p -> seen_at l p v -> pixel_ok s -> (0 <= a <= 1)%Q -> 0 <= lo -> 0 <= hi -> around lo hi (pa s) a ->
  masked A p l false d s x -> around (lo + masks l) (hi + masks l) (pa x) (a * SBlend.unit v).
Proof.
  intros G Ap Sv Hs Ra Hlo Hhi Ha Mk. pose proof (seen_b l th p v G Sv) as Bv. unfold seen_at, masked, masks in *. destruct (has_mask l).
  - destruct Mk as (m & s' & Mm & C & ->). assert (m = v) as -> by (eapply mask_only; eauto).
    assert (-254 <= 255 * pa s' - pa s * v <= 254) as N.
    { assert (s' = pdmask DestIn v s \/ s' = s /\ v = 255) as [-> |[-> ->]].
      { destruct C as [[_ ->]|[_ [[_ ->]|[Al ->]]]]; [now left|left; now apply pdmask_out|right; split; [reflexivity|]]. specialize (Al p Ap). eapply mask_only; eauto. }
      - unfold pdmask. rewrite out_alpha. cbn [textbook frac_src frac_dest src16 premulx wide pa]. rewrite Z.mul_0_r, Z.add_0_l. apply mask_alpha; [unfold pixel_ok, byte in Hs; lia|exact Bv].
      - lia. }
    unfold around in *. rewrite !inject_Z_plus. change (inject_Z 1) with 1%Q. pose proof (unit_b v Bv) as U. pose proof (unit_q v) as Uq.
    assert (inject_Z (pa s) * SBlend.unit v == (pa s * v # 255))%Q as E1 by (unfold SBlend.unit, inject_Z, Qeq; cbn; lia).
    assert (- 1 <= inject_Z (pa s') - (pa s * v # 255) <= 1)%Q as E2 by (split; unfold inject_Z, Qle; cbn; lia). rewrite <- E1 in E2.
    apply injZ in Hlo, Hhi. change (inject_Z 0) with 0%Q in *. set (u := SBlend.unit v) in *. set (X := inject_Z (pa s)) in *. set (L := inject_Z lo) in *. set (H := inject_Z hi) in *.
    assert (- L <= (X - (255 # 1) * a) * u <= H)%Q as S2. { set (y := (X - (255 # 1) * a)%Q) in *. clearbody y u. clear - Ha Hlo Hhi U. split; Lqa.nra. }
    Lqa.lra.
  - subst x v. rewrite !Z.add_0_r. unfold around in *. assert (SBlend.unit 255 == 1)%Q as -> by reflexivity. rewrite Qmult_1_r. exact Ha.
Qed.

(** ** Pictures *)
Lemma all_around (A : point -> Prop) p : A p ->
  (forall t op d v, image A p t op d v -> glass_tree t -> byte op -> pixel_ok d ->
     (forall m a lo hi, mode_of t (Some m) -> shape p t a lo hi -> around lo hi (pa v) a) /\
     (forall dv f c w j e e' lo hi lod hid, t = SFolder dv f c -> folder_mode f None -> has_mask f = false -> opq (Some op) w j -> cover p w j c e e' lo hi ->
        (0 <= e <= 1)%Q -> 0 <= lod -> 0 <= hid -> around lod hid (pa d) e -> around (lod + lo) (hid + hi) (pa v) e')) /\
  (forall t cs op d d', put A p t cs op d d' -> glass_tree t -> Forall glass_tree cs -> byte op -> pixel_ok d ->
     forall w j e e' lo hi lod hid, (0 <= w <= 1)%Q -> 0 <= j -> (0 <= (255 # 1) * (w * SBlend.unit (sl_opacity (rec_of t))) - inject_Z op <= inject_Z j)%Q -> adds p w j t e e' lo hi ->
        (0 <= e <= 1)%Q -> 0 <= lod -> 0 <= hid -> around lod hid (pa d) e -> around (lod + lo) (hid + hi) (pa d') e') /\
  (forall t cs v v', topped A p t cs v v' -> True) /\
  (forall cs x y, clips_on A p cs x y -> True) /\
  (forall op ts d d', laid A p op ts d d' -> Forall glass_tree ts -> opB op -> pixel_ok d ->
     forall w j e e' lo hi lod hid, opq op w j -> cover p w j ts e e' lo hi ->
        (0 <= e <= 1)%Q -> 0 <= lod -> 0 <= hid -> around lod hid (pa d) e -> around (lod + lo) (hid + hi) (pa d') e') /\
  (forall op gs d d', heaped A p op gs d d' -> (forall t cs, In (t, cs) gs -> glass_tree t /\ Forall glass_tree cs) -> opB op -> pixel_ok d ->
     forall w j e e' lo hi lod hid, opq op w j -> cover p w j (map fst gs) e e' lo hi -> (forall t cs, In (t, cs) gs -> clips t = false) ->
        (0 <= e <= 1)%Q -> 0 <= lod -> 0 <= hid -> around lod hid (pa d) e -> around (lod + lo) (hid + hi) (pa d') e').
Proof.
  intros Ap. destruct (all_ok A p) as (Ki & Kp & Kt & Kc & Kl & Kh). destruct (all_full A p) as (_ & _ & Ft & _). destruct (untouched A p Ap) as (Us & Ua & Uc).
  assert (Away : forall t op d w j e e' lo hi lod hid, glass_tree t -> byte op -> (0 <= w <= 1)%Q -> 0 <= j ->
    (0 <= (255 # 1) * (w * SBlend.unit (sl_opacity (rec_of t))) - inject_Z op <= inject_Z j)%Q -> adds p w j t e e' lo hi -> (0 <= e <= 1)%Q -> around lod hid (pa d) e ->
    ~ touches A t op -> around (lod + lo) (hid + hi) (pa d) e').
  { intros t op d w j e e' lo hi lod hid G Ho Hw Hj Hop Ad He Hd N. destruct (Ua _ _ _ _ _ _ _ Ad G Hw Hj He) as ((R & L0 & H0) & T). specialize (T op Ho Hop N).
    unfold around in *. rewrite !inject_Z_plus. apply injZ in L0, H0. change (inject_Z 0) with 0%Q in *. Lqa.lra. }
  apply (glass_ind A p
    (fun t op d v _ => glass_tree t -> byte op -> pixel_ok d ->
     (forall m a lo hi, mode_of t (Some m) -> shape p t a lo hi -> around lo hi (pa v) a) /\
     (forall dv f c w j e e' lo hi lod hid, t = SFolder dv f c -> folder_mode f None -> has_mask f = false -> opq (Some op) w j -> cover p w j c e e' lo hi ->
        (0 <= e <= 1)%Q -> 0 <= lod -> 0 <= hid -> around lod hid (pa d) e -> around (lod + lo) (hid + hi) (pa v) e'))
    (fun t cs op d d' _ => glass_tree t -> Forall glass_tree cs -> byte op -> pixel_ok d ->
     forall w j e e' lo hi lod hid, (0 <= w <= 1)%Q -> 0 <= j -> (0 <= (255 # 1) * (w * SBlend.unit (sl_opacity (rec_of t))) - inject_Z op <= inject_Z j)%Q -> adds p w j t e e' lo hi ->
        (0 <= e <= 1)%Q -> 0 <= lod -> 0 <= hid -> around lod hid (pa d) e -> around (lod + lo) (hid + hi) (pa d') e')
    (fun t cs v v' _ => True) (fun cs x y _ => True)
    (fun op ts d d' _ => Forall glass_tree ts -> opB op -> pixel_ok d ->
     forall w j e e' lo hi lod hid, opq op w j -> cover p w j ts e e' lo hi ->
        (0 <= e <= 1)%Q -> 0 <= lod -> 0 <= hid -> around lod hid (pa d) e -> around (lod + lo) (hid + hi) (pa d') e')
    (fun op gs d d' _ => (forall t cs, In (t, cs) gs -> glass_tree t /\ Forall glass_tree cs) -> opB op -> pixel_ok d ->
     forall w j e e' lo hi lod hid, opq op w j -> cover p w j (map fst gs) e e' lo hi -> (forall t cs, In (t, cs) gs -> clips t = false) ->
        (0 <= e <= 1)%Q -> 0 <= lod -> 0 <= hid -> around lod hid (pa d) e -> around (lod + lo) (hid + hi) (pa d') e')); try (intros; exact I).
  - (* a leaf *) intros l op d s v Lv Mk G Ho Hd. split; [|discriminate]. intros m a lo hi _ Sh. inversion G as [? Ob Gm Gp|]; subst. inversion Sh as [? s' v' Lv' Sv|]; subst.
    assert (s' = s) as -> by (eapply leaf_only; eauto). pose proof (leaf_ok l p s Gp Lv) as Hs. assert (byte (pa s)) as Bs by (unfold pixel_ok in Hs; unfold byte; lia).
    apply (mask_around A p l false d (stored s) v' v (SBlend.unit (pa s)) 0 0); auto; try lia; [now apply stored_ok|now apply unit_b|].
    rewrite stored_alpha by exact Hs. unfold around. rewrite (unit_q (pa s)). change (255 # 1)%Q with 255%Q. change (inject_Z 0) with 0%Q. split; Lqa.lra.
  - (* a folder *) intros dv f c m op d s v Fm L IH Mk G Ho Hd. inversion G as [|? ? ? m' Of Fm' Gm Gc _]; subst. split.
    + intros m0 a lo hi _ Sh. inversion Sh as [|? ? ? m1 a1 v1 lo1 hi1 Fm1 Cv Sv]; subst. destruct (Uc _ _ _ _ _ _ _ Cv Gc ltac:(split; Lqa.lra) ltac:(lia) ltac:(split; Lqa.lra)) as ((Ra & L0 & H0) & _).
      pose proof (Kl _ _ _ _ L Gc I nothing_ok) as Hs.
      eapply (mask_around A p f _ d s v1 v a1 lo1 hi1); eauto.
      apply (IH Gc I nothing_ok 1%Q 0 0%Q a1 lo1 hi1 0 0); auto; try lia; try (split; Lqa.lra); [split; reflexivity|]. unfold around. change (pa nothing) with 0. change (inject_Z 0) with 0%Q. split; Lqa.lra.
    + intros dv0 f0 c0 w j e e' lo hi lod hid E Fn. injection E as -> -> ->. discriminate (folder_mode_fun _ _ _ Fm Fn).
  - (* a pass-through folder *) intros dv f c op d s v Fm L IH Mk G Ho Hd. inversion G as [|? ? ? m' Of Fm' Gm Gc _]; subst. split.
    + intros m0 a lo hi Fn. cbn [mode_of] in Fn. discriminate (folder_mode_fun _ _ _ Fm Fn).
    + intros dv0 f0 c0 w j e e' lo hi lod hid E Fn Nm Hop Cv He Hl Hh Hda. injection E as <- <- <-. unfold masked in Mk. rewrite Nm in Mk. subst v.
      apply (IH Gc Ho (stored_ok d Hd) w j e e' lo hi lod hid); auto. now rewrite stored_alpha.
  - (* unseen *) intros t cs op d H G Gc Ho Hd w j e e' lo hi lod hid Hw Hj Hop Ad He Hl Hh Hda. apply (Away t op d w j e e' lo hi lod hid); auto. intros To. destruct H as [H|H]; [inversion To; subst; cbn [rec_of] in *; congruence|inversion To; congruence].
  - (* a layer *) intros t cs m op d v v' Hh O M Im IH T _ G Gc Ho Hd w j e e' lo hi lod hid Hw Hj Hop Ad He Hl Hhd Hda. destruct (IH G Ho Hd) as [IHi _].
    inversion Ad as [? ? ? ? X|? ? ? m' a ? lo1 hi1 _ _ Sh|? ? dv f c ? ? ? ? _ Fn]; subst.
    + congruence.
    + pose proof (Ki _ _ _ _ Im G Ho Hd) as Hv. pose proof (Kt _ _ _ _ T Gc Hv) as Hv'. specialize (IHi m a lo1 hi M Sh). rewrite <- (Ft _ _ _ _ T Gc Hv) in IHi.
      destruct (Us _ _ _ _ Sh G) as ((Ra & L0 & H0) & _). pose proof (unit_b _ (glass_opacity t G)) as Uo.
      apply (layer_alpha (pa v') op (pa d)); auto; try (unfold pixel_ok, byte in *; lia); [split; Lqa.nra|]. now apply blended_alpha.
    + cbn [mode_of] in M. discriminate (folder_mode_fun _ _ _ M Fn).
  - (* a pass-through folder *) intros t cs op d v v' Hh O M To Im IH T _ G Gc Ho Hd w j e e' lo hi lod hid Hw Hj Hop Ad He Hl Hhd Hda. destruct (IH G Ho Hd) as [_ IHt].
    pose proof (Ki _ _ _ _ Im G Ho Hd) as Hv. pose proof (Kt _ _ _ _ T Gc Hv) as Hv'. rewrite stored_alpha by exact Hv'. rewrite (Ft _ _ _ _ T Gc Hv).
    inversion Ad as [? ? ? ? X|? ? ? m' a ? lo1 hi1 _ Mm|? ? dv f c ? ? ? ? _ Fn Nm Cv]; subst.
    + congruence.
    + destruct t as [l|dv f c]; cbn [mode_of] in M, Mm; [destruct M|]. discriminate (folder_mode_fun _ _ _ M Mm).
    + cbn [rec_of] in Hop. inversion G as [|? ? ? m' Of Fm' Gm Gcc _]; subst. pose proof (unit_b _ (isb _ Of)) as Uo.
      apply (IHt dv f c (w * SBlend.unit (sl_opacity f))%Q (j + 1) e e' lo hi lod hid); auto. cbn [opq]. replace (j + 1 - 1) with j by lia.
      split; [exact Ho|]. split; [split; Lqa.nra|]. split; [lia|exact Hop].
  - (* away *) intros t cs op d M N G Gc Ho Hd w j e e' lo hi lod hid Hw Hj Hop Ad He Hl Hh Hda. apply (Away t op d w j e e' lo hi lod hid); auto.
  - (* a list *) intros op ts gs d d' Lg H IH G Ho Hd w j e e' lo hi lod hid Hop Cv He Hl Hh Hda.
    apply (IH (grouped_glass ts gs Lg G) Ho Hd w j e e' lo hi lod hid); auto; [eapply cover_groups; eauto|]. clear -Lg. intros t cs. induction Lg; intros Hi; [destruct Hi|auto|]. destruct Hi as [[= <- <-]|Hi]; auto.
  - intros op d G Ho Hd w j e e' lo hi lod hid Hop Cv Hc He Hl Hh Hda. cbn [map] in Cv. inversion Cv; subst. now rewrite !Z.add_0_r.
  - intros op t cs gs d1 d2 d3 P IHp H IHh G Ho Hd w j e e' lo hi lod hid Hop Cv Hc He Hl Hh Hda. cbn [map fst] in Cv. destruct (G t cs (or_introl eq_refl)) as [Gt Gc].
    pose proof (within_byte op _ Ho (glass_opacity t Gt)) as Hw. destruct (opq_range op w j Hop) as [Rw Rj].
    inversion Cv as [|? ? ? ? ? ? ? ? X|? ? ? ? ? e1 ? lo1 hi1 lo2 hi2 _ Ad Cv2]; subst; [rewrite (Hc t cs (or_introl eq_refl)) in X; discriminate|].
    destruct (Ua _ _ _ _ _ _ _ Ad Gt Rw Rj He) as (((R1 & R1') & L1 & H1) & _).
    rewrite !Z.add_assoc. apply (IHh ltac:(intros; apply G; now right) Ho (Kp _ _ _ _ _ P Gt Gc Hw Hd) w j e1 e' lo2 hi2 (lod + lo1) (hid + hi1)); auto; try lia; [intros; eapply Hc; right; eauto|split; Lqa.lra|].
    apply (IHp Gt Gc Hw Hd w j e e1 lo1 hi1 lod hid Rw Rj); auto. exact (opq_within op w j _ Hop (glass_opacity t Gt)).
Qed.

Lemma cover_shown inflate kind procs h rsv cmd res neg pl sf pad gmask bs tail rest cpus ts : (1 <= procs)%nat -> (1 <= cpus)%nat -> 0 < ts ->
  header_valid h -> h_mode h = 3 -> h_depth h = 8 -> zlen rsv = 6 -> zlen cmd < 4294967296 ->
  Forall rblock_valid res -> zlen (enc_rblocks res) < 4294967296 ->
  let large := h_version h =? 2 in
  section_valid inflate large neg 8 3 pl (flat_map sflatten sf) pad gmask bs tail ->
  Forall stree_valid sf -> glass_forest sf ->
  let enc := enc_config h rsv cmd res ++ enc_section large neg pl (flat_map sflatten sf) pad gmask bs tail in
  exists f evs, Decode inflate kind procs newOptions (enc ++ rest) = (Ok (f, zlen enc, rest), evs) /\
    forall st, MWait.steps (lstep cpus ts) (lstart (map (fun e => playerOf (ev_layer e)) evs)) st -> lended st ->
    forall cpus' r' w0 w1, (1 <= cpus')%nat -> new w0 ->
    renderedPx ts (ldImages st) cpus' ts r' false (rootOf (ldCopied st) (f_layer f)) w0 w1 ->
    forall q p e lo hi, tileOf ts r' q -> in_tile ts q p -> 0 <= MRect.px p -> 0 <= py p ->
    cover p 1 0 sf 0 e lo hi ->
    exists u t v, w1 q = Some (u, t) /\ tile_at ts q t p = Some v /\ around lo hi (pa v) e.
Proof.
  intros Hp Hc Ht Hh Hm Hdp Hr Hcm Hres Hrl large Sv Tv Gl enc.
  destruct (glass_shown inflate kind procs h rsv cmd res neg pl sf pad gmask bs tail rest cpus ts Hp Hc Ht Hh Hm Hdp Hr Hcm Hres Hrl Sv Tv Gl) as (f & evs & D & _ & K).
  exists f, evs. split; [exact D|]. intros st St Le cpus' r' w0 w1 Hc' Nw Rn q p e lo hi Hq Hi Hx Hy Cv.
  destruct (K st St Le cpus' r' w0 w1 Hc' Nw Rn q p Hq Hi Hx Hy) as (u & t & v & Ew & Un & Et). exists u, t, (stored (stored v)). split; [exact Ew|]. split; [exact Et|].
  assert (L : laid (square ts q) p None sf nothing v) by now apply Un. destruct Gl as [Gl _].
  destruct (all_ok (square ts q) p) as (_ & _ & _ & _ & X & _). pose proof (X None sf nothing v L Gl I nothing_ok) as Hv. rewrite !stored_alpha by (try apply stored_ok; exact Hv).
  destruct (all_around (square ts q) p (conj Hi (conj Hx Hy))) as (_ & _ & _ & _ & Y & _). rewrite <- (Z.add_0_l lo), <- (Z.add_0_l hi).
  apply (Y None sf nothing v L Gl I nothing_ok 1%Q 0 0%Q e lo hi 0 0); auto; try lia; [split; reflexivity|split; Lqa.lra|]. unfold around. change (pa nothing) with 0. change (inject_Z 0) with 0%Q. split; Lqa.lra.
Qed.

(** ** Every file of this kind has one exact coverage. *)
Lemma seen_exists inflate large l th p : slayer_valid inflate large 8 3 l -> glass_mask l th -> exists v, seen_at l p v.
Proof.
  intros V G. unfold seen_at. destruct (has_mask l) eqn:Hm; [|eauto]. destruct (mask_exists inflate large l th p V G Hm) as (v & M & _). eauto.
Qed.
Lemma cover_exists_n inflate large p n : forall ts, (list_sum (map ssize ts) <= n)%nat -> Forall (slayer_valid inflate large 8 3) (flat_map sflatten ts) -> Forall glass_tree ts -> Forall no_masked_through ts ->
  forall w j e, exists e' lo hi, cover p w j ts e e' lo hi.
Proof.
  induction n as [|n IH]; intros ts Hn V G N w j e.
  { destruct ts as [|t ts]; [do 3 eexists; constructor|]. exfalso. destruct t; cbn in Hn; lia. }
  destruct ts as [|t ts]; [do 3 eexists; constructor|]. assert (Hs : (ssize t + list_sum (map ssize ts) <= S n)%nat) by exact Hn. clear Hn. cbn [flat_map] in V. apply Forall_app in V. destruct V as [Vt V]. apply Forall_cons_iff in G, N. destruct G as [Gt G], N as [Nt N].
  assert (list_sum (map ssize ts) <= n)%nat as Hn2 by (destruct t; cbn [ssize] in Hs; lia).
  destruct (clips t) eqn:Hc.
  { destruct (IH ts Hn2 V G N w j e) as (e' & lo & hi & C). exists e', lo, hi. now apply cover_clipped. }
  assert (exists e1 lo1 hi1, adds p w j t e e1 lo1 hi1) as (e1 & lo1 & hi1 & Ad).
  { destruct (hidden (rec_of t)) eqn:Hh; [exists e, 0, 0; now apply adds_hidden|]. destruct t as [l|dv f c]; cbn [rec_of] in Hh.
    - inversion Gt as [? _ Gm Gp|]; subst. cbn [sflatten] in Vt. apply Forall_cons_iff in Vt. destruct Vt as [Vl _]. destruct (leaf_exists inflate large l p Vl Gp) as [s Ls]. destruct (proj1 (proj2 Gp)) as [m Lm].
      destruct (seen_exists inflate large l false p Vl Gm) as [v Sv]. do 3 eexists. eapply (adds_layer p w j (SLeaf l) m); [exact Hh|exact Lm|econstructor; eauto].
    - inversion Gt as [|? ? ? m Of Fm Gm Gc _]; subst. inversion Nt as [|? ? ? Nm Nc]; subst. cbn [sflatten] in Vt. apply Forall_cons_iff in Vt. destruct Vt as [_ Vt]. apply Forall_app in Vt. destruct Vt as [Vc Vf].
      apply Forall_cons_iff in Vf. destruct Vf as [Vf _]. assert (list_sum (map ssize c) <= n)%nat as Hnc by (cbn [ssize] in Hs; lia). destruct m as [m|].
      + destruct (IH c Hnc Vc Gc Nc 1%Q 0 0%Q) as (a & lo & hi & C). destruct (seen_exists inflate large f _ p Vf Gm) as [v Sv]. do 3 eexists.
        eapply (adds_layer p w j (SFolder dv f c) m); [exact Hh|exact Fm|econstructor; eauto].
      + destruct (IH c Hnc Vc Gc Nc (w * SBlend.unit (sl_opacity f))%Q (j + 1) e) as (e' & lo & hi & C). exists e', lo, hi. apply adds_through; auto. }
  destruct (IH ts Hn2 V G N w j e1) as (e2 & lo2 & hi2 & C). do 3 eexists. eapply cover_next; eauto.
Qed.
Lemma cover_exists inflate large p ts : Forall (slayer_valid inflate large 8 3) (flat_map sflatten ts) -> Forall glass_tree ts -> Forall no_masked_through ts ->
  exists e lo hi, cover p 1 0 ts 0 e lo hi.
Proof. intros V G N. eapply cover_exists_n; eauto. Qed.

Lemma cover_fun p :
  (forall t a lo hi, shape p t a lo hi -> forall a' lo' hi', shape p t a' lo' hi' -> a' = a /\ lo' = lo /\ hi' = hi) /\
  (forall w j t e e1 lo hi, adds p w j t e e1 lo hi -> forall e1' lo' hi', adds p w j t e e1' lo' hi' -> e1' = e1 /\ lo' = lo /\ hi' = hi) /\
  (forall w j ts e e1 lo hi, cover p w j ts e e1 lo hi -> forall e1' lo' hi', cover p w j ts e e1' lo' hi' -> e1' = e1 /\ lo' = lo /\ hi' = hi).
Proof.
  assert (Sf : forall l v v', seen_at l p v -> seen_at l p v' -> v' = v).
  { intros l v v'. unfold seen_at. destruct (has_mask l); [|congruence]. intros. eapply mask_only; eauto. }
  apply (cover_both p (fun t a lo hi _ => forall a' lo' hi', shape p t a' lo' hi' -> a' = a /\ lo' = lo /\ hi' = hi)
    (fun w j t e e1 lo hi _ => forall e1' lo' hi', adds p w j t e e1' lo' hi' -> e1' = e1 /\ lo' = lo /\ hi' = hi)
    (fun w j ts e e1 lo hi _ => forall e1' lo' hi', cover p w j ts e e1' lo' hi' -> e1' = e1 /\ lo' = lo /\ hi' = hi)).
  - intros l s v Lv Sv a' lo' hi' H. inversion H as [? s' v' Lv' Sv'|]; subst. assert (s' = s) as -> by (eapply leaf_only; eauto). rewrite (Sf _ _ _ Sv Sv'). auto.
  - intros dv f c m a v lo hi Fm _ IH Sv a' lo' hi' H. inversion H as [|? ? ? m' a1 v' lo1 hi1 Fm' Cv Sv']; subst. destruct (IH _ _ _ Cv) as (-> & -> & ->). rewrite (Sf _ _ _ Sv Sv'). auto.
  - intros w j t e Hh e1' lo' hi' H. inversion H; subst; cbn [rec_of] in *; auto; congruence.
  - intros w j t m a e lo hi Hh Hm _ IH e1' lo' hi' H. inversion H as [|? ? ? m' a' ? lo1 hi1 _ _ Sh|? ? dv f c ? ? ? ? _ Fn]; subst; [congruence| |].
    + destruct (IH _ _ _ Sh) as (-> & -> & ->). auto.
    + cbn [mode_of] in Hm. discriminate (folder_mode_fun _ _ _ Hm Fn).
  - intros w j dv f c e e' lo hi Hh Fm Nm _ IH e1' lo' hi' H. inversion H as [? ? ? ? Hx|? ? ? m' a' ? lo1 hi1 _ Hm|? ? ? ? ? ? ? ? ? _ _ _ Cv]; subst; [cbn [rec_of] in Hx; congruence| |eauto].
    cbn [mode_of] in Hm. discriminate (folder_mode_fun _ _ _ Hm Fm).
  - intros w j e e1' lo' hi' H. inversion H; auto.
  - intros w j t ts e e' lo hi Hc _ IH e1' lo' hi' H. inversion H; subst; [eauto|congruence].
  - intros w j t ts e e1 e2 lo1 hi1 lo2 hi2 Hc _ IHa _ IHc e1' lo' hi' H. inversion H as [|? ? ? ? ? ? ? ? Hx|? ? ? ? ? e3 ? lo3 hi3 lo4 hi4 _ Ad Cv]; subst; [congruence|].
    destruct (IHa _ _ _ Ad) as (-> & -> & ->). destruct (IHc _ _ _ Cv) as (-> & -> & ->). auto.
Qed.
Lemma cover_one inflate large p sf : Forall (slayer_valid inflate large 8 3) (flat_map sflatten sf) -> Forall glass_tree sf -> Forall no_masked_through sf ->
  exists e lo hi, cover p 1 0 sf 0 e lo hi /\ forall e' lo' hi', cover p 1 0 sf 0 e' lo' hi' -> e' = e /\ lo' = lo /\ hi' = hi.
Proof.
  intros V G N. destruct (cover_exists inflate large p sf V G N) as (e & lo & hi & C). exists e, lo, hi. split; [exact C|]. intros. eapply cover_fun; eauto.
Qed.

Lemma count_app {A} (f : A -> bool) l l' : zlen (filter f (l ++ l')) = zlen (filter f l) + zlen (filter f l').
Proof. rewrite filter_app. apply zlen_app. Qed.
Lemma count_pos {A} (f : A -> bool) l : 0 <= zlen (filter f l). Proof. apply zlen_nonneg. Qed.
Lemma cover_masks p :
  (forall t a lo hi, shape p t a lo hi -> hi <= zlen (filter has_mask (sflatten t))) /\
  (forall w j t e e1 lo hi, adds p w j t e e1 lo hi -> hi <= zlen (filter has_mask (sflatten t))) /\
  (forall w j ts e e1 lo hi, cover p w j ts e e1 lo hi -> hi <= zlen (filter has_mask (flat_map sflatten ts))).
Proof.
  assert (One : forall l, zlen (filter has_mask [l]) = masks l) by (intros l; unfold masks; cbn [filter]; destruct (has_mask l); reflexivity).
  assert (Fo : forall dv f c, zlen (filter has_mask (sflatten (SFolder dv f c))) = masks dv + zlen (filter has_mask (flat_map sflatten c)) + masks f).
  { intros. cbn [sflatten]. change (dv :: flat_map sflatten c ++ [f]) with ([dv] ++ flat_map sflatten c ++ [f]). rewrite !count_app, !One. lia. }
  assert (Mp : forall l, 0 <= masks l) by (intros l; unfold masks; destruct (has_mask l); lia).
  apply (cover_both p (fun t a lo hi _ => hi <= zlen (filter has_mask (sflatten t))) (fun w j t e e1 lo hi _ => hi <= zlen (filter has_mask (sflatten t)))
    (fun w j ts e e1 lo hi _ => hi <= zlen (filter has_mask (flat_map sflatten ts)))); intros; cbn [flat_map]; rewrite ?count_app, ?Fo.
  - cbn [sflatten]. rewrite One. lia.
  - specialize (Mp dv). lia.
  - apply count_pos.
  - assumption.
  - pose proof (Mp dv). pose proof (Mp f). lia.
  - cbn. lia.
  - pose proof (count_pos has_mask (sflatten t)). lia.
  - lia.
Qed.
Lemma cover_app p w j ts ts' e e2 lo hi : cover p w j (ts ++ ts') e e2 lo hi ->
  exists e1 lo1 hi1 lo2 hi2, cover p w j ts e e1 lo1 hi1 /\ cover p w j ts' e1 e2 lo2 hi2 /\ lo = lo1 + lo2 /\ hi = hi1 + hi2.
Proof.
  revert e lo hi. induction ts as [|t ts IH]; intros e lo hi H; cbn [app] in H.
  - exists e, 0, 0, lo, hi. split; [constructor|]. auto.
  - inversion H as [|? ? ? ? ? ? ? ? C H'|? ? ? ? ? e3 ? lo3 hi3 lo4 hi4 C Ad H']; subst; destruct (IH _ _ _ H') as (e1 & lo1 & hi1 & lo2 & hi2 & C1 & C2 & -> & ->).
    + exists e1, lo1, hi1, lo2, hi2. split; [now apply cover_clipped|]. auto.
    + exists e1, (lo3 + lo1), (hi3 + hi1), lo2, hi2. split; [eapply cover_next; eauto|]. split; [exact C2|]. lia.
Qed.
Lemma cover_bounds p sf sf' e lo hi e' lo' hi' : Forall glass_tree (sf ++ sf') -> cover p 1 0 sf 0 e lo hi -> cover p 1 0 (sf ++ sf') 0 e' lo' hi' ->
  (0 <= e <= e')%Q /\ (e' <= 1)%Q /\ 0 <= lo <= lo' /\ 0 <= hi <= hi' /\ hi' <= zlen (filter has_mask (flat_map sflatten (sf ++ sf'))).
Proof.
  intros G C C'. pose proof (proj2 (proj2 (cover_masks p)) _ _ _ _ _ _ _ C') as M. apply Forall_app in G. destruct G as [G G']. destruct (cover_app _ _ _ _ _ _ _ _ _ C') as (e1 & lo1 & hi1 & lo2 & hi2 & C1 & C2 & -> & ->).
  destruct (proj2 (proj2 (cover_fun p)) _ _ _ _ _ _ _ C _ _ _ C1) as (-> & -> & ->). destruct (untouched (fun _ => True) p I) as (_ & _ & U).
  destruct (U _ _ _ _ _ _ _ C G ltac:(split; Lqa.lra) ltac:(lia) ltac:(split; Lqa.lra)) as (((R1 & R1') & L1 & H1) & _).
  destruct (U _ _ _ _ _ _ _ C2 G' ltac:(split; Lqa.lra) ltac:(lia) ltac:(split; Lqa.lra)) as (((R2 & R2') & L2 & H2) & _).
  split; [split; assumption|]. split; [assumption|]. split; [lia|]. split; [lia|exact M].
Qed.
