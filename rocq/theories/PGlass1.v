(** Drawing a tree of layers of any transparency: every pixel by itself, except for which
    layers draw anything in the tile. *)
From Verif Require Import Base BaseFacts MRect MBlend MPorter SBlend SPorter PLum PBlend PBlend2 PBlend3 PHsl PPorter
  MRender SRender PRender PRender2 MRenderPx PRenderPx SPipe PPipe SGlass.
Open Scope Z_scope.

(** * Pixels *)
Lemma pdpx_eq op s d : pixel_ok s -> pixel_ok d -> pdB machine op true true 65535 s d = Some (pdpx op s d) /\ pixel_ok (pdpx op s d).
Proof. intros Hs Hd. destruct (pdB_eq machine op true true s d) as (E & K & _); try (left; reflexivity); auto; discriminate. Qed.
Lemma pdmask_eq op m d : byte m -> pixel_ok d -> pdA machine op true 65535 m d = Some (pdmask op m d) /\ pixel_ok (pdmask op m d).
Proof. intros Hs Hd. destruct (pdA_eq machine op true m d) as (E & K & _); try (left; reflexivity); auto; discriminate. Qed.
Lemma stored_ok s : pixel_ok s -> pixel_ok (stored s).
Proof. intros H. exact (proj2 (pdpx_eq Copy s black H black_ok)). Qed.
Lemma opaque_ok s : pixel_ok s -> pixel_ok (opaque s).
Proof. unfold pixel_ok. destruct s. cbn. lia. Qed.
Lemma blended_eq m op s d : byte op -> pixel_ok s -> pixel_ok d -> orElse (blend8 machine m (op mod 256) s d) d = blended m op s d /\ pixel_ok (blended m op s d).
Proof.
  intros Ho Hs Hd. unfold byte in Ho. unfold blended. rewrite Z.mod_small by lia. destruct (blend8_range m op s d Ho Hs Hd) as (p & E & _ & Hp). rewrite E. auto.
Qed.
Lemma blended_nothing m op d : byte op -> pixel_ok d -> blended m op nothing d = d.
Proof. intros Ho Hd. unfold blended. rewrite (blend8_nothing m op nothing d Ho black_ok Hd); auto. Qed.
Lemma blended_op0 m s d : pixel_ok s -> pixel_ok d -> blended m 0 s d = d.
Proof. intros Hs Hd. unfold blended. rewrite (blend8_nothing m 0 s d); auto. unfold byte. lia. Qed.
Lemma pdmask_nothing op m : op = DestIn \/ op = DestOut -> pdmask op m nothing = nothing.
Proof.
  intros H. unfold pdmask. change (src16 true nothing) with nothing. unfold textbook. destruct H as [-> | ->]; cbn [frac_src frac_dest nothing pr pg pb pa]; rewrite ?Z.mul_0_r, ?Z.mul_0_l; reflexivity.
Qed.
Lemma pdmask_in0 d : pdmask DestIn 0 d = nothing.
Proof.
  unfold pdmask. change (0 * 257) with 0. unfold textbook. cbn [frac_src frac_dest pr pg pb pa]. rewrite !Z.mul_0_r. reflexivity.
Qed.
Lemma pdpx_in_nothing d : pdpx DestIn nothing d = nothing.
Proof.
  unfold pdpx. change (src16 true nothing) with nothing. unfold textbook. cbn [frac_src frac_dest nothing pr pg pb pa]. rewrite !Z.mul_0_r. reflexivity.
Qed.
Lemma stored_nothing : stored nothing = nothing.
Proof. reflexivity. Qed.

(** * Opacities *)
Lemma shift_255 x : 0 <= x <= 65025 -> Z.shiftr (x * 32897) 23 = x / 255.
Proof. intros H. rewrite Z.shiftr_div_pow2 by lia. change (2 ^ 23) with 8388608. pose proof (Z.div_mod x 255). pose proof (Z.mod_pos_bound x 255). symmetry. apply Z.div_unique with (r := x * 32897 - 8388608 * (x / 255)); nia. Qed.
Definition opIn (a : lattr) (op : Z) : option Z := if isPT a then Some op else None.
Lemma kidOp_eq a op o : byte op -> byte o -> kidOp a op o = within (opIn a op) o.
Proof.
  unfold byte. intros Hp Ho. unfold kidOp, alphaOf, opIn. rewrite Z.mul_assoc. destruct (isPT a); cbn [within].
  - apply shift_255. nia.
  - rewrite shift_255 by lia. apply Z.div_mul. lia.
Qed.
Lemma within_byte c o : byte o -> match c with Some op => byte op | None => True end -> byte (within c o).
Proof.
  unfold byte. destruct c as [op|]; cbn [within]; [|auto]. intros H1 H2. split; [apply Z.div_pos; nia|]. apply Z.div_le_upper_bound; nia.
Qed.

Section draw.
  Variable n : nat.
  Variable canvas : Z -> option tile.
  Variable mask : Z -> option mtile.
  Definition has (b : tile) (f : nat -> px) : Prop := length b = n /\ forall i, (i < n)%nat -> nth_error b i = Some (f i) /\ pixel_ok (f i).
  Hypothesis canvas_good : forall s t, canvas s = Some t -> exists f, has t f.

  Lemma has_ext b f g : (forall i, (i < n)%nat -> f i = g i) -> has b f -> has b g.
  Proof. intros E [L H]. split; [exact L|]. intros i Hi. rewrite <- E by exact Hi. now apply H. Qed.
  Lemma has_zero : has (zeroPx n) (fun _ => nothing).
  Proof. split; [apply repeat_length|]. intros i Hi. split; [|exact black_ok]. now apply nth_error_repeat. Qed.
  Lemma has_map (op : px -> px) b f g : has b f -> (forall i, (i < n)%nat -> pixel_ok (f i) -> op (f i) = g i /\ pixel_ok (g i)) -> has (map op b) g.
  Proof.
    intros [L H] E. split; [now rewrite map_length|]. intros i Hi. destruct (H i Hi) as [Eb Kb]. destruct (E i Hi Kb) as [E' K']. rewrite nth_error_map, Eb. cbn [option_map]. now rewrite E'.
  Qed.
  Lemma has_map2 {A} (op : A -> px -> px) (l : list A) b f g : length l = n -> has b f ->
    (forall i x, (i < n)%nat -> nth_error l i = Some x -> pixel_ok (f i) -> op x (f i) = g i /\ pixel_ok (g i)) -> has (map2 op l b) g.
  Proof.
    intros L [Lb Hb] H. split; [rewrite length_map2; lia|]. intros i Hi. destruct (Hb i Hi) as [Eb Kb].
    destruct (nth_error l i) as [x|] eqn:E; [|apply nth_error_None in E; lia]. destruct (H i x Hi E Kb) as [E' K']. split; [|exact K'].
    rewrite (nth_map2 _ _ _ _ _ _ E Eb). now f_equal.
  Qed.
  Lemma has_copy b f : has b f -> has (copyPx b) (fun i => stored (f i)).
  Proof.
    intros H. eapply has_map; [exact H|]. intros i Hi K. destruct (pdpx_eq Copy (f i) black K black_ok) as [-> K']. split; [reflexivity|exact K'].
  Qed.
  Lemma has_opaque b f : has b f -> has (removeAlphaPx b) (fun i => opaque (f i)).
  Proof. intros H. eapply has_map; [exact H|]. intros i Hi K. split; [reflexivity|now apply opaque_ok]. Qed.
  Lemma has_pd op s x fs f : has s fs -> has x f -> has (map2 (fun s d => orElse (pdB machine op true true 65535 s d) d) s x) (fun i => pdpx op (fs i) (f i)).
  Proof.
    intros [Ls Hs] Hx. apply has_map2 with (f := f); [exact Ls|exact Hx|]. intros i v Hi E K. destruct (Hs i Hi) as [E' K']. rewrite E in E'. injection E' as ->.
    destruct (pdpx_eq op (fs i) (f i) K' K) as [-> K2]. auto.
  Qed.
  Definition mask_good (m : mtile) : Prop := length m = n /\ Forall byte m.
  Definition mv (m : mtile) (i : nat) : Z := match nth_error m i with Some v => v | None => 0 end.
  Lemma has_pdm op m x f : mask_good m -> has x f -> has (map2 (fun s d => orElse (pdA machine op true 65535 s d) d) m x) (fun i => pdmask op (mv m i) (f i)).
  Proof.
    intros [L Hm] Hx. apply has_map2 with (f := f); [exact L|exact Hx|]. intros i v Hi E K. unfold mv. rewrite E.
    assert (byte v) by (rewrite Forall_forall in Hm; apply Hm; eapply nth_error_In; exact E).
    destruct (pdmask_eq op v (f i)) as [-> K2]; auto.
  Qed.
  Lemma has_blend m op s d fs fd : byte op -> has s fs -> has d fd ->
    has (map2 (fun s d => orElse (blend8 machine m (op mod 256) s d) d) s d) (fun i => blended m op (fs i) (fd i)).
  Proof.
    intros Ho [Ls Hs] Hx. apply has_map2 with (f := fd); [exact Ls|exact Hx|]. intros i v Hi E K. destruct (Hs i Hi) as [E' K']. rewrite E in E'. injection E' as ->.
    now apply blended_eq.
  Qed.

  Notation body := (body (zeroPx n) copyPx blendPx destInMPx destOutMPx destInPx destOverPx (clearPx n) removeAlphaPx canvas mask).
  Notation pre := (pre (zeroPx n) copyPx blendPx destInMPx destOutMPx destInPx destOverPx (clearPx n) removeAlphaPx canvas mask).
  Notation grp := (grp (zeroPx n) copyPx blendPx destInMPx destOutMPx destInPx destOverPx (clearPx n) removeAlphaPx canvas mask).
  Notation maskT := (maskT destInMPx destOutMPx destOverPx (clearPx n) mask).
  Notation kidP := (kidP (zeroPx n) copyPx blendPx destInMPx destOutMPx destInPx destOverPx (clearPx n) removeAlphaPx canvas mask).
  Notation clipP := (clipP (zeroPx n) copyPx blendPx destInMPx destOutMPx destInPx destOverPx (clearPx n) removeAlphaPx canvas mask).
  Notation clipsP := (clipsP (zeroPx n) copyPx blendPx destInMPx destOutMPx destInPx destOverPx (clearPx n) removeAlphaPx canvas mask).
  Notation drawsP := (drawsP (zeroPx n) copyPx blendPx destInMPx destOutMPx destInPx destOverPx (clearPx n) removeAlphaPx canvas mask).

  (** The layers *)
  Definition maskFits (a : lattr) : Prop := lmen a = true -> forall t, mask (lseq a) = Some t -> mask_good t.
  Inductive glassL : layer -> Prop :=
  | GlassL a ks cs : byte (lopa a) -> maskFits a -> modeOK blendPx a cs -> (isPT a = true -> ks = [] -> canvas (lseq a) = None) ->
      Forall glassL ks -> Forall glassL cs -> glassL (Lay a ks cs).

  (** Does the layer draw anything in the tile? *)
  Definition alive (a : lattr) (op : Z) : bool := lvis a && negb (op =? 0).
  Fixpoint touchL (l : layer) (op : Z) {struct l} : bool :=
    match l with
    | Lay a ks cs =>
        alive a op &&
        match ks with
        | [] => match canvas (lseq a) with Some _ => true | None => false end
        | _ => existsb (fun k => negb (lclipping (latt k)) && touchL k (within (opIn a op) (lopa (latt k)))) ks
        end
    end.
  (** One pixel *)
  Definition cellG (s : Z) (i : nat) : px := match canvas s with Some t => match nth_error t i with Some v => v | None => nothing end | None => nothing end.
  Definition maskG (a : lattr) (i : nat) (d s : px) : px :=
    let under y := if isPT a then pdpx DestOver d y else y in
    match lmen a, lmdc a, mask (lseq a) with
    | false, _, _ => s
    | true, false, Some m => under (pdmask DestIn (mv m i) s)
    | true, false, None => under nothing
    | true, true, Some m => under (pdmask DestOut (mv m i) s)
    | true, true, None => under s
    end.
  Definition putG (l : layer) (op : Z) (v d : px) : px :=
    if alive (latt l) op then if isPT (latt l) then if touchL l op then stored v else d else blended (modeB (latt l)) op v d else d.
  Fixpoint valG (i : nat) (l : layer) (op : Z) (d : px) {struct l} : px :=
    match l with
    | Lay a ks cs =>
        let kids d0 := fold_left (fun d k => let o := within (opIn a op) (lopa (latt k)) in if lclipping (latt k) then d else putG k o (valG i k o d) d) ks d0 in
        let s := if isPT a then kids (stored d) else match ks with [] => stored (cellG (lseq a) i) | _ => kids nothing end in
        let v := maskG a i d s in
        match cs with
        | [] => v
        | _ => if lbce a then pdpx DestIn v (fold_left (fun d k => putG k (lopa (latt k)) (valG i k (lopa (latt k)) d) d) cs (opaque (stored v))) else v
        end
    end.
  Definition compG (i : nat) (l : layer) (op : Z) (d : px) : px := putG l op (valG i l op d) d.
  Definition kidG (i : nat) (c : option Z) (k : layer) (d : px) : px := if lclipping (latt k) then d else compG i k (within c (lopa (latt k))) d.
  Definition kidsG (i : nat) (c : option Z) (ks : list layer) (d : px) : px := fold_left (fun d k => kidG i c k d) ks d.
  Definition clipsG (i : nat) (cs : list layer) (d : px) : px := fold_left (fun d k => compG i k (lopa (latt k)) d) cs d.
  Definition grpG (i : nat) (a : lattr) (cs : list layer) (v : px) : px :=
    match cs with [] => v | _ => if lbce a then pdpx DestIn v (clipsG i cs (opaque (stored v))) else v end.
  Definition preG (i : nat) (a : lattr) (ks : list layer) (op : Z) (d : px) : px :=
    if isPT a then kidsG i (Some op) ks (stored d) else match ks with [] => stored (cellG (lseq a) i) | _ => kidsG i None ks nothing end.
  Lemma valG_eq i a ks cs op d : valG i (Lay a ks cs) op d = grpG i a cs (maskG a i d (preG i a ks op d)).
  Proof. unfold preG. cbn [valG]. unfold opIn. destruct (isPT a); reflexivity. Qed.
  Definition touchK (c : option Z) (k : layer) : bool := negb (lclipping (latt k)) && touchL k (within c (lopa (latt k))).
  Lemma touchL_eq a ks cs op : touchL (Lay a ks cs) op = alive a op && if isNil ks then match canvas (lseq a) with Some _ => true | None => false end else existsb (touchK (opIn a op)) ks.
  Proof. destruct ks; reflexivity. Qed.

  Definition opOK (c : option Z) : Prop := match c with Some op => byte op | None => True end.
  Lemma opIn_ok a op : byte op -> opOK (opIn a op).
  Proof. unfold opIn. now destruct (isPT a). Qed.

  (** A layer that draws nothing changes nothing. *)
  Definition quiets (l : layer) : Prop := forall i op d, glassL l -> byte op -> pixel_ok d -> touchL l op = false -> compG i l op d = d.
  Lemma kids_quiet i c ks : Forall quiets ks -> Forall glassL ks -> opOK c -> forall d, pixel_ok d -> existsb (touchK c) ks = false -> kidsG i c ks d = d.
  Proof.
    intros HQ. induction HQ as [|k ks Hk _ IH]; intros HG Hc d Hd E; [reflexivity|]. cbn [existsb] in E. apply orb_false_iff in E. destruct E as [E1 E2].
    pose proof (Forall_inv HG) as Gk. unfold kidsG. cbn [fold_left]. replace (kidG i c k d) with d; [apply IH; auto; now inversion HG|].
    unfold kidG, touchK in *. destruct (lclipping (latt k)); [reflexivity|]. symmetry. apply Hk; auto. apply within_byte; [now inversion Gk|exact Hc].
  Qed.
  Lemma quiet l : quiets l.
  Proof.
    induction l as [a ks cs Hk Hc] using layer_rec'. intros i op d HG Ho Hd E. inversion HG as [? ? ? Hb Hm Hmode Hleaf Hks Hcs]; subst.
    rewrite touchL_eq in E. unfold compG, putG. cbn [latt]. rewrite touchL_eq. destruct (alive a op) eqn:Ea; [|reflexivity]. cbn [andb] in *. rewrite E. destruct (isPT a) eqn:Ep; [reflexivity|].
    assert (Ev : valG i (Lay a ks cs) op d = nothing); [|now rewrite Ev, blended_nothing].
    rewrite valG_eq. unfold preG. rewrite Ep.
    assert (Es : match ks with [] => stored (cellG (lseq a) i) | _ => kidsG i None ks nothing end = nothing).
    { destruct ks as [|k ks]; cbn [isNil] in E.
      - unfold cellG. destruct (canvas (lseq a)); [discriminate|reflexivity].
      - unfold opIn in E. rewrite Ep in E. apply kids_quiet; auto; [exact I|exact black_ok]. }
    rewrite Es.
    assert (Em : maskG a i d nothing = nothing).
    { unfold maskG. rewrite Ep. destruct (lmen a), (lmdc a), (mask (lseq a)); auto; apply pdmask_nothing; auto. }
    rewrite Em. unfold grpG. destruct cs; [reflexivity|]. destruct (lbce a); [apply pdpx_in_nothing|reflexivity].
  Qed.

  Lemma has_maskT a b x fb f : maskFits a -> has b fb -> has x f -> has (maskT a b x) (fun i => maskG a i (fb i) (f i)).
  Proof.
    intros Hg Hb Hx. unfold SRender.maskT, maskG. destruct (lmen a) eqn:Em; [|exact Hx]. specialize (Hg Em).
    assert (U : forall y fy, has y fy -> has (if isPT a then destOverPx b y else y) (fun i => if isPT a then pdpx DestOver (fb i) (fy i) else fy i)).
    { intros y fy Hy. destruct (isPT a); [now apply has_pd|exact Hy]. }
    destruct (lmdc a), (mask (lseq a)) as [m|]; apply U.
    - apply has_pdm; [now apply Hg|exact Hx].
    - exact Hx.
    - apply has_pdm; [now apply Hg|exact Hx].
    - apply has_zero.
  Qed.

  Definition draws_px (l : layer) : Prop := forall b f op, has b f -> byte op ->
    exists b', dr1 copyPx blendPx (latt l) (body l b op) b op = (b', touchL l op) /\ has b' (fun i => compG i l op (f i)).
  Lemma draws_kids ks c g : opOK c -> (forall o, byte o -> g o = within c o) -> Forall glassL ks -> Forall draws_px ks -> forall b f dw, has b f ->
    exists b', drawsP g ks b dw = (b', dw || existsb (touchK c) ks) /\ has b' (fun i => kidsG i c ks (f i)).
  Proof.
    intros Hc Hg HP HW. induction HW as [|k ks HW _ IH]; intros b f dw Hb.
    - exists b. cbn [SRender.drawsP existsb]. rewrite orb_false_r. auto.
    - pose proof (Forall_inv HP) as Pk. pose proof (Forall_inv_tail HP) as Pks. assert (Bk : byte (lopa (latt k))) by now inversion Pk.
      assert (K : exists b1, kidP g k b = (b1, touchK c k) /\ has b1 (fun i => kidG i c k (f i))).
      { unfold SRender.kidP, kidG, touchK. destruct (lclipping (latt k)); [exists b; auto|]. cbv zeta. rewrite (Hg _ Bk). apply HW; [exact Hb|now apply within_byte]. }
      destruct K as (b1 & K & H1). destruct (IH Pks b1 _ (dw || touchK c k) H1) as (b' & E & H). exists b'. cbn [SRender.drawsP]. rewrite K. cbn [fst snd existsb]. rewrite E, orb_assoc. auto.
  Qed.
  Lemma draws_clips cs : Forall glassL cs -> Forall draws_px cs -> forall b f, has b f -> has (clipsP cs b) (fun i => clipsG i cs (f i)).
  Proof.
    intros HP HW. induction HW as [|k cs HW _ IH]; intros b f Hb; [exact Hb|]. pose proof (Forall_inv HP) as Pk. assert (Bk : byte (lopa (latt k))) by now inversion Pk.
    destruct (HW b f (lopa (latt k)) Hb Bk) as (b1 & E1 & H1). cbn [SRender.clipsP]. unfold SRender.clipP. rewrite E1. cbn [fst].
    apply (IH (Forall_inv_tail HP) b1 _ H1).
  Qed.
  Lemma has_grp a cs m fm : Forall glassL cs -> Forall draws_px cs -> has m fm -> has (grp a cs m) (fun i => grpG i a cs (fm i)).
  Proof.
    intros HP HW Hm. unfold SRender.grp, grpG. destruct cs as [|k cs]; [exact Hm|]. destruct (lbce a); [|exact Hm].
    apply has_pd; [exact Hm|]. apply draws_clips; auto. apply has_opaque, has_copy, Hm.
  Qed.
  Lemma canvas_cells s t : canvas s = Some t -> has t (cellG s).
  Proof. intros E. destruct (canvas_good s t E) as (f & H). eapply has_ext; [|exact H]. intros i Hi. unfold cellG. rewrite E. now rewrite (proj1 (proj2 H i Hi)). Qed.

  Lemma draws_glass l : glassL l -> draws_px l.
  Proof.
    induction l as [a ks cs Hk Hc] using layer_rec'. intros P. inversion P as [? ? ? Ho Hm Hmode Hleaf Hks Hcs]; subst. intros b f op Hb Hop.
    assert (HW : Forall draws_px ks). { rewrite Forall_forall in *. auto. }
    assert (HC : Forall draws_px cs). { rewrite Forall_forall in *. auto. }
    assert (Q : forall i, (i < n)%nat -> touchL (Lay a ks cs) op = false -> f i = compG i (Lay a ks cs) op (f i)).
    { intros i Hi E. symmetry. apply quiet; auto. apply Hb, Hi. }
    unfold compG, putG. unfold compG, putG in Q. cbn [latt] in *. unfold dr1. rewrite touchL_eq in *. replace (negb (lvis a) || (op =? 0)) with (negb (alive a op)) by (unfold alive; destruct (lvis a), (op =? 0); reflexivity).
    destruct (alive a op) eqn:Ea; cbn [negb andb] in *; [|exists b; auto].
    rewrite body_eq. cbn [latt lgroup].
    assert (Put : forall x fx, has x fx -> has (putT copyPx blendPx a b x op) (fun i => if isPT a then stored (fx i) else blended (modeB a) op (fx i) (f i))).
    { intros x fx Hx. unfold putT. unfold modeOK in Hmode. destruct (isPT a); [now apply has_copy|]. unfold blendT, blendPx, modeB in *. destruct (m_get list_eqb blendModes (lbm a)); [|congruence]. now apply has_blend. }
    assert (Fin : forall x, has x (fun i => preG i a ks op (f i)) ->
      has (putT copyPx blendPx a b (grp a cs (maskT a b x)) op) (fun i => if isPT a then stored (valG i (Lay a ks cs) op (f i)) else blended (modeB a) op (valG i (Lay a ks cs) op (f i)) (f i))).
    { intros x Hx. eapply has_ext; [|apply Put, has_grp; [exact Hcs|exact HC|apply has_maskT; [exact Hm|exact Hb|exact Hx]]]. intros i Hi. cbv beta. now rewrite valG_eq. }
    unfold SRender.pre. destruct ks as [|k ks].
    - cbn [isNil] in *. destruct (canvas (lseq a)) as [t|] eqn:Et; cbn [option_map].
      + eexists. split; [reflexivity|]. cbn beta iota. apply Fin. unfold preG. destruct (isPT a) eqn:Ep; [specialize (Hleaf eq_refl eq_refl); discriminate|]. apply has_copy, canvas_cells, Et.
      + exists b. split; [reflexivity|]. eapply has_ext; [|exact Hb]. intros i Hi. now apply Q.
    - cbn [isNil] in *.
      assert (Hst : has (startBuf (zeroPx n) copyPx a b) (fun i => if isPT a then stored (f i) else nothing)).
      { unfold startBuf. destruct (isPT a); [now apply has_copy|apply has_zero]. }
      destruct (draws_kids (k :: ks) (opIn a op) (kidOp a op) (opIn_ok a op Hop) (fun o => kidOp_eq a op o Hop) Hks HW _ _ false Hst) as (r & Er & Hr).
      rewrite Er. cbn [fst snd orb]. destruct (existsb (touchK (opIn a op)) (k :: ks)); cbn [option_map].
      + eexists. split; [reflexivity|]. cbn beta iota. apply Fin. eapply has_ext; [|exact Hr]. intros i Hi. unfold preG, opIn. now destruct (isPT a).
      + exists b. split; [reflexivity|]. eapply has_ext; [|exact Hb]. intros i Hi. now apply Q.
  Qed.

  Notation shown := (shown (zeroPx n) copyPx blendPx destInMPx destOutMPx destInPx destOverPx (clearPx n) removeAlphaPx canvas mask).
  Lemma shown_glass a ks cs d : Forall glassL ks -> has (shown (Lay a ks cs) d) (fun i => stored (stored (kidsG i None ks nothing))).
  Proof.
    intros HP. assert (HW : Forall draws_px ks) by (eapply Forall_impl; [exact draws_glass|exact HP]).
    destruct (draws_kids ks None idOp I (fun o _ => eq_refl) HP HW _ _ false has_zero) as (b & E & H).
    unfold SRender.shown. cbn [lkids]. rewrite E. cbn [fst snd orb]. destruct (existsb (touchK None) ks) eqn:Et.
    - apply has_copy, has_copy, H.
    - eapply has_ext; [|apply has_zero]. intros i Hi. cbv beta. rewrite kids_quiet; [reflexivity|apply Forall_forall; intros k _; apply quiet|exact HP|exact I|exact black_ok|exact Et].
  Qed.
End draw.
