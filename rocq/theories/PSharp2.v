(** The masks of the loaded layers. *)
From Coq Require Import String.
From Verif Require Import Base BaseFacts SConfig MRect MPicker MConfig MReader MLayer MApi SCompress SRecord SLayer PConfig2 PRecord4
  MSched PSched MBlend MPorter SBlend MWait PWait MRender SRender PRender PRender2 MRenderAll SRenderAll PRenderAll MRenderPx PRenderPx
  MDraw MTile STile PTile MLoad SLoad PLoad STileRender PTileRender MPipe SPipe PPipe PPipe2 PPipe3 PPipe5 SSharp PSharp.
Close Scope string_scope.
Open Scope Z_scope.

Lemma bit1 f : Z.land f 2 = if Z.testbit f 1 then 2 else 0.
Proof.
  apply Z.bits_inj'. intros k Hk. rewrite Z.land_spec. destruct (Z.eq_dec k 1) as [->|N].
  - destruct (Z.testbit f 1); reflexivity.
  - assert (T : Z.testbit 2 k = false). { change 2 with (2 ^ 1). apply Z.pow2_bits_false. lia. }
    rewrite T, andb_false_r. destruct (Z.testbit f 1); [symmetry; exact T|symmetry; apply Z.bits_0].
Qed.
Lemma mask_on_flags sl : mask_on sl = true -> Z.land (mk_flags (mask_of (sl_mask sl))) 2 = 0.
Proof. unfold mask_on. rewrite bit1. destruct (sl_mask sl); cbn [mask_of mk_flags]; intros H; try discriminate; apply negb_true_iff in H; now rewrite H. Qed.
Lemma mask_rect_is sl : mk_rect (mask_of (sl_mask sl)) = mask_rect sl.
Proof. unfold mask_rect. now destruct (sl_mask sl). Qed.
Lemma mask_colour_is sl : mk_color (mask_of (sl_mask sl)) = mask_colour sl.
Proof. unfold mask_colour. now destruct (sl_mask sl). Qed.

Definition mTile (m : option (tilemap Z)) (q : point) : option (list Z) := match m with Some m => m_get pt_eqb m q | None => None end.
(** The mask of the layer as the renderer sees it *)
Definition seenMask (l' : player) (m : option (tilemap Z)) (q : point) (k : nat) : bool :=
  match maskEnabled l', pmdc l' =? 255, mTile m q with
  | false, _, _ => true
  | true, false, Some m => match nth_error m k with Some v => v =? 255 | None => false end
  | true, false, None => false
  | true, true, Some m => match nth_error m k with Some v => v =? 0 | None => false end
  | true, true, None => true
  end.

Section masks.
  Variables (inflate : bytes -> Z -> option (bytes * Z)) (large : bool) (cpus : nat) (ts : Z).
  Hypotheses (Hc : (1 <= cpus)%nat) (Ht : 0 < ts).
  Variables (i : Z) (sl : slayer) (l : lrec) (l1 l2 l' : player) (c : option (tilemap px)) (m : option (tilemap Z)).
  Hypothesis V : slayer_valid inflate large 8 3 sl.
  Hypothesis L : layer_is false 3 8 3 i sl l.
  Hypothesis C : canvasOf cpus ts (playerOf l) l1 c.
  Hypothesis M : maskOf cpus ts l1 l2 m.
  Hypothesis S' : sameButRects (playerOf l) l'.
  Hypothesis R' : pmrect l' = mk_rect (l_mask l) \/ exists t, m = Some t /\ bounds ts t (pmrect l').
  Hypothesis Sh : sharp_mask sl.

  Lemma mask_facts : pmdc l' = mask_colour sl /\ pflags l' = mk_flags (mask_of (sl_mask sl)) /\
    (pmrect l' = mask_rect sl \/ exists t, m = Some t /\ bounds ts t (pmrect l')) /\
    (if rempty (mask_rect sl) then m = None else
     match chan_data sl 8 (-2) with Some d => exists t, m = Some t /\ built (newTiledMask cpus ts (mask_rect sl) d (mask_colour sl)) t | None => m = None end).
  Proof.
    pose proof (layer_image _ _ _ L) as Im. destruct L as [(_ & _ & _ & _ & _ & _ & Em & _) _]. rewrite Em, mask_rect_is in R'. split; [|split; [|split; [exact R'|]]].
    - rewrite S'. cbn [setMaskRect setRect playerOf pmdc]. now rewrite Em, mask_colour_is.
    - rewrite S'. cbn [setMaskRect setRect playerOf pflags]. now rewrite Em.
    - pose proof (canvasOf_same _ _ _ _ _ C) as E1. unfold maskOf in M. rewrite E1 in M. cbn [setRect playerOf pmrect pmchan pmdc] in M. rewrite Em, mask_rect_is, mask_colour_is, Im in M.
      destruct (rempty (mask_rect sl)); cbn [negb] in M; [exact (proj1 M)|]. destruct (chan_data sl 8 (-2)) as [d|]; [|exact (proj1 M)].
      destruct M as (t & r & B & _ & -> & _). eauto.
  Qed.

  Lemma mask_seen : (maskEnabled l' = true -> forall q t, mTile m q = Some t -> mask_ok (Z.to_nat (ts * ts)) t) /\
    forall q p, at_tile ts q p -> forall b, mask_shows sl p b <-> b = seenMask l' m q (pos ts q p).
  Proof.
    destruct mask_facts as (Ec & Ef & Er & Em). unfold mask_shows, seenMask, maskEnabled. rewrite Ec, Ef. destruct (mask_on sl) eqn:On.
    2: { assert (E : (Z.land (mk_flags (mask_of (sl_mask sl))) 2 =? 0) && negb (rempty (pmrect l')) = false).
         { unfold mask_on in On. rewrite bit1. destruct (sl_mask sl) as [|r cc f pp pad|r cc f pp rf rc rr] eqn:Es; cbn [mask_of mk_flags mask0].
           - unfold mask_rect in Er, Em. rewrite Es in Er, Em. change (rempty ZR) with true in Em. cbn iota in Em. destruct Er as [->|(t & X & _)]; [reflexivity|congruence].
           - apply negb_false_iff in On. now rewrite On.
           - apply negb_false_iff in On. now rewrite On. }
         rewrite E. split; [discriminate|]. intros q p _ b. reflexivity. }
    rewrite (mask_on_flags _ On). cbn [Z.eqb andb]. destruct (Sh On) as (_ & (d & Ed & Hd) & Hcol).
    destruct (rempty (mask_rect sl)) eqn:Ee.
    - subst m. destruct Er as [->|(t & X & _)]; [|discriminate]. rewrite Ee. cbn [negb]. split; [discriminate|]. intros q p _ b.
      assert (No : forall p, pt_in p (mask_rect sl) = false) by (intros p0; clear -Ee; unfold rempty in Ee; unfold pt_in; lia).
      assert (E255 : mask_colour sl = 255) by (destruct Hcol as [X|(_ & p0 & _ & _ & X & _)]; [exact X|rewrite No in X; discriminate]).
      unfold mask_at. rewrite No. split; [intros (v & -> & ->); now rewrite E255|]. intros ->. exists 255. split; [symmetry; exact E255|reflexivity].
    - rewrite Ed in Em. destruct Em as (t & -> & B). pose proof (mask_len inflate large sl d V Ed) as Ln. rewrite mask_rect_is in Ln.
      assert (G : aligned ts t /\ cellsOK (fun v => v = 0 \/ v = 255) t).
      { apply built_good with (P := fun v => v = 0 \/ v = 255) in B; [exact B|exact Hc|exact Ht|now left|]. intros k v E. unfold getMask in E. destruct (idx d k) as [x|] eqn:Ex; [|discriminate].
        pose proof (Forall_idx _ _ _ _ Hd Ex) as Hx. cbn beta in Hx. destruct (mask_colour sl =? 0); [destruct (x =? 0)|destruct (x =? 255)]; try discriminate; injection E as <-; lia. }
      destruct G as [Al Ok].
      destruct (newTiledMask_spec cpus ts (mask_rect sl) d (mask_colour sl) Hc Ht) as (ws & W & S); [unfold plane_ok; lia|].
      destruct B as (ws' & s & W' & I & Eex). rewrite W in W'. injection W' as <-. destruct (S s I) as (_ & S1 & S2). rewrite <- Eex in S1, S2. clear S Eex.
      assert (C01 : mask_colour sl = 0 \/ mask_colour sl = 255) by tauto.
      (* the value at a point *)
      assert (Val : forall p, 0 <= MRect.px p -> 0 <= py p -> exists v0, shows ts 0 t p v0 /\ forall v, mask_at sl p v <-> v = mask_value (mask_colour sl) v0).
      { intros p Hx Hy. unfold mask_at. destruct (pt_in p (mask_rect sl)) eqn:Ip.
        - destruct (S1 p Ip Hx Hy) as (v0 & Hv & Hi). exists v0. split; [exact Hv|]. unfold sample_pos in Hi. rewrite Z.mul_1_r in Hi. unfold idx in Hi.
          destruct (_ <? 0) in Hi; [discriminate|]. intros v. split.
          + intros (d' & E' & N). rewrite Ed in E'. injection E' as <-. rewrite Hi in N. congruence.
          + intros ->. exists d. auto.
        - exists 0. split; [now apply S2|]. intros v. unfold mask_value. destruct C01 as [-> | ->]; reflexivity. }
      assert (U : forall q p v0, at_tile ts q p -> shows ts 0 t p v0 -> match m_get pt_eqb t q with Some x => nth_error x (pos ts q p) = Some v0 | None => v0 = 0 end).
      { intros q p v0 (D1 & D2 & Hq & _ & _) [(k & x & Gk & Hk & Ev)|[-> N]].
        - destruct (Al k x Gk) as (K1 & K2 & _). assert (k = q) as -> by (eapply mult_unique; eauto). rewrite Gk. unfold tile_at, idx in Ev. now destruct (_ <? 0) in Ev.
        - destruct (m_get pt_eqb t q) as [x|] eqn:Gq; [exfalso; exact (N _ _ Gq Hq)|reflexivity]. }
      split.
      + intros _ q x Gx. unfold mTile in Gx. destruct (Al q x Gx) as (_ & _ & Lx). split; [unfold zlen in Lx; lia|]. apply Forall_forall. intros v Hv. exact (Ok q x v Gx Hv).
      + intros q p A b. pose proof A as (D1 & D2 & Hq & Hx & Hy). destruct (Val p Hx Hy) as (v0 & Hv & At). pose proof (U q p v0 A Hv) as Uq. unfold mTile.
        assert (E : (exists v, mask_at sl p v /\ b = (v =? 255)) <-> b = (mask_value (mask_colour sl) v0 =? 255)).
        { split; [intros (v & H & ->); apply At in H; now subst|]. intros ->. eexists. split; [apply At; reflexivity|reflexivity]. }
        rewrite E. clear E. unfold mask_value.
        destruct (rempty (pmrect l')) eqn:El; cbn [negb].
        * (* no tiles *)
          destruct Er as [Er|(t' & [= <-] & Bn & _)]; [congruence|].
          assert (No : forall p, pt_in p (pmrect l') = false) by (intros p0; clear -El; unfold rempty in El; unfold pt_in; lia).
          assert (Z0 : forall p v, shows ts 0 t p v -> v = 0). { intros p0 v [(k & x & Gk & Hk & _)|[-> _]]; [|reflexivity]. specialize (Bn k x p0 Gk Hk). rewrite No in Bn. discriminate. }
          destruct Hcol as [E|(E & p0 & Hx0 & Hy0 & Ip & A0)].
          -- rewrite E, (Z0 _ _ Hv). reflexivity.
          -- exfalso. destruct (Val p0 Hx0 Hy0) as (v1 & Hv1 & At1). apply At1 in A0. rewrite E in A0. unfold mask_value in A0. cbn [Z.eqb] in A0. rewrite (Z0 _ _ Hv1) in A0. discriminate.
        * destruct C01 as [-> | ->]; cbn [Z.eqb Pos.eqb].
          -- destruct (m_get pt_eqb t q) as [x|]; [now rewrite Uq|now subst v0].
          -- destruct (m_get pt_eqb t q) as [x|]; [|now subst v0]. rewrite Uq. replace (255 - v0 =? 255) with (v0 =? 0); [reflexivity|]. apply eq_true_iff_eq. rewrite !Z.eqb_eq. lia.
  Qed.
End masks.
