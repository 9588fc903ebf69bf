(** The pictures and masks of the loaded layers: any values. *)
From Coq Require Import String.
From Verif Require Import Base BaseFacts SConfig MRect MPicker MConfig MReader MLayer MApi SCompress SRecord SLayer PConfig2 PRecord4
  MSched PSched MBlend MPorter SBlend PLum MWait PWait MRender SRender PRender PRender2 MRenderAll SRenderAll PRenderAll MRenderPx PRenderPx
  MDraw MTile STile PTile MLoad SLoad PLoad STileRender PTileRender MPipe SPipe PPipe PPipe2 PPipe3 PPipe5 SSharp PSharp2 SGlass PGlass1.
Close Scope string_scope.
Open Scope Z_scope.

Section grid.
  Variables (ts : Z).
  Hypotheses (Ht : 0 < ts).
  Notation n := (Z.to_nat (ts * ts)).

  Lemma tile_nonneg q p : at_tile ts q p -> forall p', in_tile ts q p' -> at_tile ts q p'.
  Proof.
    intros ((a & Ea) & (b & Eb) & (X1 & X2) & Px & Py) p' (Y1 & Y2). assert (0 <= a) by nia. assert (0 <= b) by nia.
    split; [now exists a|]. split; [now exists b|]. split; [split; assumption|]. split; nia.
  Qed.
  Lemma tile_at_nth {V} q p (t : list V) : in_tile ts q p -> tile_at ts q t p = nth_error t (pos ts q p).
  Proof.
    intros H. pose proof (tile_pos ts q p Ht H) as B. unfold tile_at, idx, pos. set (o := (py p - py q) * ts + (MRect.px p - MRect.px q)) in *. now replace (o <? 0) with false by lia.
  Qed.
  Lemma has_tile (t : list px) : zlen t = ts * ts -> (forall v, In v t -> pixel_ok v) -> exists f, has n t f.
  Proof.
    intros L H. exists (fun i => match nth_error t i with Some v => v | None => nothing end). split; [unfold zlen in L; lia|]. intros i Hi.
    destruct (nth_error t i) as [v|] eqn:E; [|apply nth_error_None in E; unfold zlen in L; lia]. split; [reflexivity|]. apply H. eapply nth_error_In. exact E.
  Qed.

End grid.

Section tiles.
  Variables (inflate : bytes -> Z -> option (bytes * Z)) (large : bool) (cpus : nat) (ts : Z).
  Hypotheses (Hc : (1 <= cpus)%nat) (Ht : 0 < ts).
  Notation n := (Z.to_nat (ts * ts)).

  (** ** Pictures *)
  Definition cTile (c : option (tilemap px)) (q : point) : option (list px) := match c with Some m => m_get pt_eqb m q | None => None end.
  Definition cellPx (c : option (tilemap px)) (q p : point) : px :=
    match cTile c q with Some t => match nth_error t (pos ts q p) with Some v => v | None => nothing end | None => nothing end.
  Lemma leaf_only sl p v v' : leaf_value sl p v -> leaf_value sl p v' -> v = v'.
  Proof.
    unfold leaf_value. destruct (pt_in p (sl_rect sl)); [|congruence]. cbv zeta.
    intros (dr & dg & db & r & g & b & a & A1 & A2 & A3 & A4 & A5 & A6 & A7 & ->) (dr' & dg' & db' & r' & g' & b' & a' & B1 & B2 & B3 & B4 & B5 & B6 & B7 & ->).
    rewrite A1 in B1. rewrite A2 in B2. rewrite A3 in B3. injection B1 as <-. injection B2 as <-. injection B3 as <-. rewrite A4 in B4. rewrite A5 in B5. rewrite A6 in B6. injection B4 as <-. injection B5 as <-. injection B6 as <-.
    destruct (chan_data sl 8 (-1)); [rewrite A7 in B7; now injection B7 as <-|now subst].
  Qed.
  Lemma leaf_glass i sl l l1 c : glass_picture sl -> slayer_valid inflate large 8 3 sl -> layer_is false 3 8 3 i sl l -> canvasOf cpus ts (playerOf l) l1 c ->
    (forall q t, cTile c q = Some t -> exists f, has n t f) /\
    (forall q p, at_tile ts q p -> forall v, leaf_value sl p v <-> v = cellPx c q p) /\
    (forall q p, at_tile ts q p -> (exists p' v, at_tile ts q p' /\ leaf_value sl p' v /\ v <> nothing) <-> cTile c q <> None).
  Proof.
    intros Pl V L C. pose proof (layer_image _ _ _ L) as Im.
    destruct Pl as (Ty & _ & (dr & Er & Br) & (dg & Eg & Bg) & (db & Eb & Bb) & Ha).
    destruct L as [A _]. pose proof (has_type_is _ _ _ _ A Ty) as Et. destruct A as (_ & Rc & _).
    pose proof (chan_len _ _ _ _ _ _ V Er ltac:(lia) ltac:(lia)) as Lr. pose proof (chan_len _ _ _ _ _ _ V Eg ltac:(lia) ltac:(lia)) as Lg.
    pose proof (chan_len _ _ _ _ _ _ V Eb ltac:(lia) ltac:(lia)) as Lb.
    assert (La : match chan_data sl 8 (-1) with Some d => zlen d = rdx (sl_rect sl) * rdy (sl_rect sl) | None => True end).
    { destruct (chan_data sl 8 (-1)) eqn:E; [|exact I]. eapply chan_len; eauto; lia. }
    unfold canvasOf, hasImage in C. cbn [playerOf prect ptype pr_ pg_ pb_ pa_] in C. rewrite Et, Rc in C. cbn [Z.eqb andb] in C.
    destruct (rempty (sl_rect sl)) eqn:Ee; cbn [negb] in C.
    { destruct C as [-> _]. assert (No : forall p v, leaf_value sl p v <-> v = nothing).
      { intros p v. unfold leaf_value. assert (N : pt_in p (sl_rect sl) = false) by (unfold rempty in Ee; unfold pt_in; lia). rewrite N. reflexivity. }
      split; [intros q t; discriminate|]. split; [intros q p _ v; apply No|]. intros q p _. split; [|intros X; now destruct X]. intros (p' & v & _ & H & N). apply No in H. contradiction. }
    destruct C as (m & r & B & X1 & -> & X2). unfold plane0 in B. rewrite !Im, Er, Eg, Eb in B.
    destruct (built_goodImage _ _ _ _ _ _ _ _ _ Hc Ht Br Bg Bb Ha B) as [Al Ok]. pose proof B as B0.
    destruct (newTiledImage_spec cpus ts (sl_rect sl) dr dg db (chan_data sl 8 (-1)) 1 Hc Ht ltac:(lia)) as (ws & W & S).
    1-3: unfold plane_ok; lia. { destruct (chan_data sl 8 (-1)); [unfold plane_ok; lia|exact I]. }
    destruct B as (ws' & s & W' & I & Em). rewrite W in W'. injection W' as <-. destruct (S s I) as (_ & S1 & _ & S2). rewrite <- Em in S1, S2. clear S Em.
    assert (U : forall q p v, at_tile ts q p -> shows ts (Px 0 0 0 0) m p v -> v = cellPx (Some m) q p /\ (v <> nothing -> cTile (Some m) q <> None)).
    { intros q p v (D1 & D2 & Hq & _) [(k & t & Gk & Hk & Ev)|[-> N]].
      - destruct (Al k t Gk) as (K1 & K2 & _). assert (k = q) as -> by (eapply mult_unique; eauto). unfold cellPx, cTile. rewrite Gk. rewrite (tile_at_nth ts Ht) in Ev by exact Hq. rewrite Ev. split; [reflexivity|discriminate].
      - split; [|intros X; now destruct X]. unfold cellPx, cTile. destruct (m_get pt_eqb m q) as [t|] eqn:Gq; [exfalso; exact (N _ _ Gq Hq)|reflexivity]. }
    assert (E : forall p, 0 <= MRect.px p -> 0 <= py p -> exists v, leaf_value sl p v /\ shows ts (Px 0 0 0 0) m p v).
    { intros p Hx Hy. unfold leaf_value. destruct (pt_in p (sl_rect sl)) eqn:Ip; [|exists nothing; split; [reflexivity|now apply S2]].
      destruct (S1 p Ip Hx Hy) as (v & (rv & gv & bv & av & I1 & I2 & I3 & I4 & Ev) & Sh). exists v. split; [|exact Sh]. unfold sample_pos in I1, I2, I3, I4.
      set (o := (py p - ry0 (sl_rect sl)) * rdx (sl_rect sl) + (MRect.px p - rx0 (sl_rect sl))) in *. rewrite Z.mul_1_r in *. cbv zeta.
      assert (N : forall (d : bytes) x, idx d o = Some x -> nth_error d (Z.to_nat o) = Some x). { intros d x. unfold idx. now destruct (o <? 0). }
      assert (Av : 0 <= av). { destruct (chan_data sl 8 (-1)) as [da|]; [|lia]. pose proof (Forall_idx _ _ _ _ Ha I4) as X. unfold is_byte in X. lia. }
      exists dr, dg, db, rv, gv, bv, av. repeat (split; [now auto|]). split; [destruct (chan_data sl 8 (-1)); auto|]. rewrite Ev. unfold nothing. destruct (Z.ltb_spec 0 av), (Z.eqb_spec av 0); try lia; reflexivity. }
    split; [|split].
    - intros q t G. unfold cTile in G. apply (has_tile ts Ht); [apply (Al q t G)|]. intros v Hin. exact (Ok q t v G Hin).
    - intros q p At v. destruct (E p) as (v0 & E1 & E2); [apply At|apply At|]. destruct (U q p v0 At E2) as [Ev _]. split.
      + intros H. rewrite <- Ev. eapply leaf_only; eauto.
      + intros ->. now rewrite <- Ev.
    - intros q p At. split.
      + intros (p' & v & At' & H & N). destruct (E p') as (v0 & E1 & E2); [apply At'|apply At'|]. apply (U q p' v0 At' E2). intros X. apply N. rewrite <- X. eapply leaf_only; eauto.
      + intros Nn. unfold cTile in Nn. destruct (m_get pt_eqb m q) as [t|] eqn:G; [|congruence]. unfold newTiledImage in B0. pose proof G as G'. apply (built_spec _ _ _ _ _ _ _ Hc Ht B0) in G'. destruct G' as [_ F].
        apply fillTile_spec in F; [|lia]. destruct F as (_ & F1 & _ & F3). destruct (proj1 F3 eq_refl) as (p' & v & T' & Ip & Gv). pose proof (tile_nonneg ts Ht q p At p' T') as At'.
        destruct (E p') as (v0 & E1 & E2); [apply At'|apply At'|]. destruct (U q p' v0 At' E2) as [Ev _]. exists p', v0. split; [exact At'|]. split; [exact E1|].
        destruct (F1 p' T' Ip) as (o & Go & Eo). rewrite Gv in Go. injection Go as <-. rewrite (tile_at_nth ts Ht) in Eo by exact T'. unfold cellPx, cTile in Ev. rewrite G, Eo in Ev. subst v0.
        unfold getImage in Gv. intros ->. destruct (chan_data sl 8 (-1)) as [da|].
        * destruct (idx da _) as [av|]; [|discriminate]. destruct (Z.ltb_spec 0 av); [|discriminate]. destruct (idx db _); [|discriminate]. destruct (idx dg _); [|discriminate]. destruct (idx dr _); [|discriminate]. injection Gv. lia.
        * destruct (idx db _); [|discriminate]. destruct (idx dg _); [|discriminate]. destruct (idx dr _); [|discriminate]. injection Gv. lia.
  Qed.
End tiles.

(** ** Masks *)
Section masks.
  Variables (inflate : bytes -> Z -> option (bytes * Z)) (large : bool) (cpus : nat) (ts : Z).
  Hypotheses (Hc : (1 <= cpus)%nat) (Ht : 0 < ts).
  Variables (i : Z) (sl : slayer) (l : lrec) (l1 l2 l' : player) (c : option (tilemap px)) (m : option (tilemap Z)).
  Hypothesis V : slayer_valid inflate large 8 3 sl.
  Hypothesis L : layer_is false 3 8 3 i sl l.
  Hypothesis C : canvasOf cpus ts (playerOf l) l1 c.
  Hypothesis M : maskOf cpus ts l1 l2 m.
  Hypothesis S' : sameButRects (playerOf l) l'.
  Hypothesis R' : pmrect l' = mk_rect (l_mask l) \/ exists t, m = Some t /\ bounds ts t (pmrect l').
  Variable through : bool.
  Hypothesis Gl : glass_mask sl through.
  Notation n := (Z.to_nat (ts * ts)).

  Lemma mask_only sl0 p v v' : mask_at sl0 p v -> mask_at sl0 p v' -> v = v'.
  Proof. unfold mask_at. destruct (pt_in _ _); [|congruence]. intros (d & E & N) (d' & E' & N'). congruence. Qed.

  (** The mask of the layer as the renderer applies it *)
  Definition seenG (q : point) (k : nat) (d s : px) : px :=
    let under y := if through then pdpx DestOver d y else y in
    match maskEnabled l', pmdc l' =? 255, mTile m q with
    | false, _, _ => s
    | true, false, Some m => under (pdmask DestIn (mv m k) s)
    | true, false, None => under nothing
    | true, true, Some m => under (pdmask DestOut (mv m k) s)
    | true, true, None => under s
    end.
  Lemma mask_glass : (maskEnabled l' = true -> forall q t, mTile m q = Some t -> mask_good n t) /\
    forall q p, at_tile ts q p -> forall d s v, masked (at_tile ts q) p sl through d s v <-> v = seenG q (pos ts q p) d s.
  Proof.
    destruct (mask_facts cpus ts i sl l l1 l2 l' c m L C M S' R') as (Ec & Ef & Er & Em). unfold masked, has_mask, seenG, maskEnabled. rewrite Ec, Ef. destruct (mask_on sl) eqn:On.
    2: { assert (E : (Z.land (mk_flags (mask_of (sl_mask sl))) 2 =? 0) && negb (rempty (pmrect l')) = false).
         { unfold mask_on in On. rewrite bit1. destruct (sl_mask sl) as [|r cc f pp pad|r cc f pp rf rc rr] eqn:Es; cbn [mask_of mk_flags mask0].
           - unfold mask_rect in Er, Em. rewrite Es in Er, Em. change (rempty ZR) with true in Em. cbn iota in Em. destruct Er as [->|(t & X & _)]; [reflexivity|congruence].
           - apply negb_false_iff in On. now rewrite On.
           - apply negb_false_iff in On. now rewrite On. }
         rewrite E. split; [discriminate|]. intros q p _ d s v. reflexivity. }
    rewrite (mask_on_flags _ On). cbn [Z.eqb andb]. destruct (Gl On) as (_ & (d & Ed & Hd) & C01 & Hnt).
    destruct (rempty (mask_rect sl)) eqn:Ee.
    - subst m. destruct Er as [->|(t & X & _)]; [|discriminate]. rewrite Ee. cbn [negb]. split; [discriminate|]. intros q p _ d0 s v. reflexivity.
    - rewrite Ed in Em. destruct Em as (t & -> & B). pose proof (mask_len inflate large sl d V Ed) as Ln. rewrite mask_rect_is in Ln.
      destruct (built_goodMask _ _ _ _ _ _ Hc Ht Hd B) as [Al Ok]. pose proof B as B0.
      destruct (newTiledMask_spec cpus ts (mask_rect sl) d (mask_colour sl) Hc Ht) as (ws & W & S); [unfold plane_ok; lia|].
      destruct B as (ws' & s & W' & I & Eex). rewrite W in W'. injection W' as <-. destruct (S s I) as (_ & S1 & S2). rewrite <- Eex in S1, S2. clear S Eex.
      assert (Val : forall p, 0 <= MRect.px p -> 0 <= py p -> exists v0, shows ts 0 t p v0 /\ forall v, mask_at sl p v <-> v = mask_value (mask_colour sl) v0).
      { intros p Hx Hy. unfold mask_at. destruct (pt_in p (mask_rect sl)) eqn:Ip.
        - destruct (S1 p Ip Hx Hy) as (v0 & Hv & Hi). exists v0. split; [exact Hv|]. unfold sample_pos in Hi. rewrite Z.mul_1_r in Hi. unfold idx in Hi.
          destruct (_ <? 0) in Hi; [discriminate|]. intros v. split.
          + intros (d' & E' & N). rewrite Ed in E'. injection E' as <-. rewrite Hi in N. congruence.
          + intros ->. exists d. auto.
        - exists 0. split; [now apply S2|]. intros v. unfold mask_value. destruct C01 as [-> | ->]; reflexivity. }
      assert (U : forall q p v0, at_tile ts q p -> shows ts 0 t p v0 -> match m_get pt_eqb t q with Some x => nth_error x (pos ts q p) = Some v0 | None => v0 = 0 end).
      { intros q p v0 (D1 & D2 & Hq & _ & _) [(k & x & Gk & Hk & Ev)|[-> N]].
        - destruct (Al k x Gk) as (K1 & K2 & _). assert (k = q) as -> by (eapply mult_unique; eauto). rewrite Gk. now rewrite (tile_at_nth ts Ht) in Ev by exact Hq.
        - destruct (m_get pt_eqb t q) as [x|] eqn:Gq; [exfalso; exact (N _ _ Gq Hq)|reflexivity]. }
      (* a tile is there if some value in it differs from the default colour *)
      assert (Pr : forall q p, at_tile ts q p -> match m_get pt_eqb t q with Some _ => exists p' v, at_tile ts q p' /\ mask_at sl p' v /\ v <> mask_colour sl | None => forall p', at_tile ts q p' -> mask_at sl p' (mask_colour sl) end).
      { intros q p At. destruct (m_get pt_eqb t q) as [x|] eqn:G.
        - unfold newTiledMask in B0. pose proof G as G'. apply (built_spec _ _ _ _ _ _ _ Hc Ht B0) in G'. destruct G' as [_ F].
          apply fillTile_spec in F; [|lia]. destruct F as (_ & F1 & _ & F3). destruct (proj1 F3 eq_refl) as (p' & v & T' & Ip & Gv). pose proof (tile_nonneg ts Ht q p At p' T') as At'.
          destruct (Val p') as (v0 & Hv & Mv); [apply At'|apply At'|]. pose proof (U q p' v0 At' Hv) as Uq. rewrite G in Uq. destruct (F1 p' T' Ip) as (o & Go & Eo). rewrite Gv in Go. injection Go as <-.
          rewrite (tile_at_nth ts Ht) in Eo by exact T'. rewrite Eo in Uq. injection Uq as <-. exists p', (mask_value (mask_colour sl) v). split; [exact At'|]. split; [now apply Mv|].
          unfold getMask in Gv. destruct (idx d _) as [al|]; [|discriminate]. unfold mask_value. destruct C01 as [E | E]; rewrite E in *; cbn [Z.eqb Pos.eqb] in *.
          + destruct (Z.eqb_spec al 0); [discriminate|]. injection Gv as <-. assumption.
          + destruct (Z.eqb_spec al 255); [discriminate|]. injection Gv as <-. lia.
        - intros p' At'. destruct (Val p') as (v0 & Hv & Mv); [apply At'|apply At'|]. pose proof (U q p' v0 At' Hv) as Uq. rewrite G in Uq. subst v0. apply Mv. unfold mask_value. destruct C01 as [-> | ->]; reflexivity. }
      split.
      + intros _ q x Gx. unfold mTile in Gx. destruct (Al q x Gx) as (_ & _ & Lx). split; [unfold zlen in Lx; lia|]. apply Forall_forall. intros v Hv. pose proof (Ok q x v Gx Hv) as X; unfold byteZ in X; unfold byte; lia.
      + intros q p At d0 s0 v. pose proof At as (D1 & D2 & Hq & Hx & Hy). destruct (Val p Hx Hy) as (v0 & Hv & Mv). pose proof (U q p v0 At Hv) as Uq. specialize (Pr q p At). unfold mTile. cbn [negb].
        (* the effect of the mask, if it is enabled *)
        assert (Eff : (exists m s', mask_at sl p m /\
          (mask_colour sl = 0 /\ s' = pdmask DestIn m s0 \/
           mask_colour sl <> 0 /\ ((exists q0 m', at_tile ts q q0 /\ mask_at sl q0 m' /\ m' <> 255) /\ s' = pdmask DestOut (255 - m) s0 \/
                                   (forall q0, at_tile ts q q0 -> mask_at sl q0 255) /\ s' = s0)) /\ v = (if through then pdpx DestOver d0 s' else s')) <->
          v = (let under y := if through then pdpx DestOver d0 y else y in
               match mask_colour sl =? 255, m_get pt_eqb t q with
               | false, Some m => under (pdmask DestIn (mv m (pos ts q p)) s0)
               | false, None => under nothing
               | true, Some m => under (pdmask DestOut (mv m (pos ts q p)) s0)
               | true, None => under s0
               end)).
        { assert (Mp : mask_at sl p (mask_value (mask_colour sl) v0)) by now apply Mv. cbv zeta. unfold mv.
          destruct C01 as [E | E]; rewrite E in *; cbn [Z.eqb Pos.eqb]; unfold mask_value in Mp; cbn [Z.eqb Pos.eqb] in Mp; (destruct (m_get pt_eqb t q) as [x|]; [rewrite Uq|subst v0]).
          - split; [|intros ->; exists v0, (pdmask DestIn v0 s0); auto]. intros (m0 & s' & H1 & [[_ ->]|[X _]] & ->); [|congruence]. now rewrite (mask_only _ _ _ _ H1 Mp).
          - split; [|intros ->; exists 0, nothing; split; [exact Mp|]; split; [left; split; [reflexivity|symmetry; apply pdmask_in0]|reflexivity]]. intros (m0 & s' & H1 & [[_ ->]|[X _]] & ->); [|congruence].
            rewrite (mask_only _ _ _ _ H1 Mp). now rewrite pdmask_in0.
          - split.
            + intros (m0 & s' & H1 & [[X _]|[_ [[_ ->]|[X _]]]] & ->); [discriminate|rewrite (mask_only _ _ _ _ H1 Mp); now replace (255 - (255 - v0)) with v0 by lia|].
              exfalso. destruct Pr as (p' & v' & At' & Mv' & N). apply N. exact (mask_only _ _ _ _ Mv' (X p' At')).
            + intros ->. exists (255 - v0), (pdmask DestOut v0 s0). split; [exact Mp|]. split; [|reflexivity]. right. split; [discriminate|]. left. replace (255 - (255 - v0)) with v0 by lia. auto.
          - split.
            + intros (m0 & s' & H1 & [[X _]|[_ [[X _]|[_ ->]]]] & ->); [discriminate| |reflexivity].
              exfalso. destruct X as (p' & v' & At' & Mv' & N). apply N. exact (mask_only _ _ _ _ Mv' (Pr p' At')).
            + intros ->. exists 255, s0. split; [exact Mp|]. split; [|reflexivity]. right. split; [discriminate|]. right. auto. }
        rewrite Eff. clear Eff. destruct (rempty (pmrect l')) eqn:El; cbn [negb]; [|reflexivity].
        (* no tiles *)
        destruct Er as [Er|(t' & [= <-] & Bn & _)]; [congruence|].
        assert (No : forall p, pt_in p (pmrect l') = false) by (intros p0; clear -El; unfold rempty in El; unfold pt_in; lia).
        assert (Gq : forall q0 x, m_get pt_eqb t q0 = Some x -> False).
        { intros q0 x G0. specialize (Bn q0 x q0 G0). rewrite No in Bn. unfold in_tile in Bn. assert (false = true) as X by (apply Bn; lia). discriminate. }
        destruct (m_get pt_eqb t q) as [x|] eqn:G; [now destruct (Gq q x)|].
        destruct Hnt as [[E [X|X]]|(p0 & v1 & Hx0 & Hy0 & Ip & A0 & N0)].
        * congruence.
        * rewrite E, X. reflexivity.
        * exfalso. destruct (Val p0 Hx0 Hy0) as (v2 & Hv2 & At1). apply At1 in A0. subst v1. apply N0.
          destruct Hv2 as [(k & x & Gk & _)|[-> _]]; [now destruct (Gq k x)|]. unfold mask_value. destruct C01 as [-> | ->]; reflexivity.
  Qed.
End masks.
