(** Tiles of bytes are drawn without a panic: the operations of [MRenderPx] give what those
    of [MRenderStrict] give. *)
From Verif Require Import Base BaseFacts MBlend MPorter SBlend PLum PBlend PBlend2 PBlend3 PHsl PPorter MRender SRender PRender PRender2 PRender3 PRender4 MRenderPx PRenderPx MRenderStrict SRenderStrict.

(** * Two sets of operations that agree on good tiles *)
Section agree.
  Context {img img' msk : Type}.
  Variable h : img -> img'.
  Variable G : img -> Prop.
  Variable GM : msk -> Prop.
  Variable zero : img.
  Variable copyT : img -> img.
  Variable blendOf : bytes -> option (Z -> img -> img -> img).
  Variable destInM destOutM : msk -> img -> img.
  Variable destInT destOverT : img -> img -> img.
  Variable clearT removeAlpha : img -> img.
  Variable canvas : Z -> option img.
  Variable mask : Z -> option msk.
  Variable zero' : img'.
  Variable copyT' : img' -> img'.
  Variable blendOf' : bytes -> option (Z -> img' -> img' -> img').
  Variable destInM' destOutM' : msk -> img' -> img'.
  Variable destInT' destOverT' : img' -> img' -> img'.
  Variable clearT' removeAlpha' : img' -> img'.
  Hypothesis Hzero : G zero /\ zero' = h zero.
  Hypothesis Hcopy : forall x, G x -> G (copyT x) /\ copyT' (h x) = h (copyT x).
  Hypothesis Hclear : forall x, G x -> G (clearT x) /\ clearT' (h x) = h (clearT x).
  Hypothesis Hremove : forall x, G x -> G (removeAlpha x) /\ removeAlpha' (h x) = h (removeAlpha x).
  Hypothesis HinM : forall m x, GM m -> G x -> G (destInM m x) /\ destInM' m (h x) = h (destInM m x).
  Hypothesis HoutM : forall m x, GM m -> G x -> G (destOutM m x) /\ destOutM' m (h x) = h (destOutM m x).
  Hypothesis Hin : forall s x, G s -> G x -> G (destInT s x) /\ destInT' (h s) (h x) = h (destInT s x).
  Hypothesis Hover : forall s x, G s -> G x -> G (destOverT s x) /\ destOverT' (h s) (h x) = h (destOverT s x).
  Hypothesis Hblend : forall m, match blendOf m, blendOf' m with
    | Some f, Some f' => forall op s x, G s -> G x -> G (f op s x) /\ f' op (h s) (h x) = h (f op s x)
    | None, None => True
    | _, _ => False
    end.
  Hypothesis Hcanvas : forall s t, canvas s = Some t -> G t.
  Hypothesis Hmask : forall s m, mask s = Some m -> GM m.
  Let canvas' s := option_map h (canvas s).

  Definition goodS (st : tstate img) : Prop := forall k i, In (k, Some i) (tent st) -> G i.
  Definition hS (st : tstate img) : tstate img' := Tst (map (fun '(k, v) => (k, option_map h v)) (tent st)) (tlog st).

  Lemma get_h (l : list (Z * option img)) k :
    m_get Z.eqb (map (fun '(k, v) => (k, option_map h v)) l) k = option_map (option_map h) (m_get Z.eqb l k).
  Proof. induction l as [|[k' v] l IH]; cbn; [reflexivity|]. destruct (Z.eqb k k'); [reflexivity|exact IH]. Qed.
  Lemma set_h (l : list (Z * option img)) k v :
    m_set Z.eqb (map (fun '(k, v) => (k, option_map h v)) l) k (option_map h v) = map (fun '(k, v) => (k, option_map h v)) (m_set Z.eqb l k v).
  Proof.
    unfold m_set. cbn [map]. f_equal. unfold m_del. induction l as [|[k' v'] l IH]; cbn [map filter fst]; [reflexivity|].
    destruct (negb (Z.eqb k k')); cbn [map]; now rewrite IH.
  Qed.
  Lemma get_in (l : list (Z * option img)) k v : m_get Z.eqb l k = Some v -> In (k, v) l.
  Proof. induction l as [|[k' v'] l IH]; cbn; [discriminate|]. destruct (Z.eqb_spec k k') as [->|]; [intros [= ->]; now left|auto]. Qed.
  Lemma in_set (l : list (Z * option img)) k v k' v' : In (k', v') (m_set Z.eqb l k v) -> v' = v \/ In (k', v') l.
  Proof.
    unfold m_set, m_del. intros [E|E]; [inversion E; auto|]. apply filter_In in E. tauto.
  Qed.

  Definition hR (r : option (tstate img * img * drawResult)) : option (tstate img' * img' * drawResult) :=
    option_map (fun '(st, b, dr) => (hS st, h b, dr)) r.
  Definition goodR (r : option (tstate img * img * drawResult)) : Prop :=
    match r with Some (st, b, _) => goodS st /\ G b | None => True end.

  Lemma upd_agree dr s b c st : goodS st -> G b -> goodS (updateCache copyT dr s b c st) /\
    updateCache copyT' dr s (h b) c (hS st) = hS (updateCache copyT dr s b c st).
  Proof.
    intros Hs Hb. destruct (Hcopy b Hb) as [G1 E1]. unfold updateCache. destruct c; [|auto].
    assert (N : goodS (Tst (m_set Z.eqb (tent st) s None) (tlog st ++ [s])) /\
       Tst (m_set Z.eqb (tent (hS st)) s None) (tlog (hS st) ++ [s]) = hS (Tst (m_set Z.eqb (tent st) s None) (tlog st ++ [s]))).
    { split; [intros k i I; apply in_set in I; destruct I as [I|I]; [discriminate|exact (Hs _ _ I)]|].
      unfold hS. cbn [tent tlog]. rewrite <- set_h. reflexivity. }
    destruct dr; auto. split; [intros k i I; apply in_set in I; destruct I as [[= ->]|I]; [exact G1|exact (Hs _ _ I)]|].
    unfold hS. cbn [tent tlog]. rewrite <- set_h. cbn [option_map]. now rewrite E1.
  Qed.
  Lemma dwo_agree b buf op bm : G b -> G buf ->
    drawWithOpacity blendOf' (h b) (h buf) op bm = option_map h (drawWithOpacity blendOf b buf op bm) /\
    match drawWithOpacity blendOf b buf op bm with Some x => G x | None => True end.
  Proof.
    intros Gb Gf. unfold drawWithOpacity. specialize (Hblend bm). destruct (blendOf bm) as [f|], (blendOf' bm) as [f'|]; try contradiction; [|auto].
    destruct (Hblend op buf b Gf Gb) as [A ->]. auto.
  Qed.
  Lemma put_agree a b buf op : G b -> G buf ->
    putTile copyT' blendOf' a (h b) (h buf) op = option_map h (putTile copyT blendOf a b buf op) /\
    match putTile copyT blendOf a b buf op with Some x => G x | None => True end.
  Proof.
    intros Gb Gf. unfold putTile. destruct (isPT a); [|now apply dwo_agree]. destruct (Hcopy buf Gf) as [A ->]. auto.
  Qed.
  Lemma mask_agree a b buf : G b -> G buf ->
    G (applyMask destInM destOutM destOverT clearT mask a b buf) /\
    applyMask destInM' destOutM' destOverT' clearT' mask a (h b) (h buf) = h (applyMask destInM destOutM destOverT clearT mask a b buf).
  Proof.
    intros Gb Gf. unfold applyMask. destruct (lmen a); [|auto].
    set (x := match mask (lseq a) with Some m => _ | None => _ end). set (x' := match mask (lseq a) with Some m => _ | None => if negb (lmdc a) then clearT' _ else _ end).
    assert (X : G x /\ x' = h x).
    { unfold x, x'. destruct (mask (lseq a)) as [m|] eqn:E.
      - destruct (lmdc a); cbn; [apply HoutM|apply HinM]; eauto.
      - destruct (lmdc a); cbn; auto. }
    destruct X as [X ->]. destruct (isPT a); auto.
  Qed.

  Notation dl := (drawLayer zero copyT blendOf destInM destOutM destInT destOverT clearT removeAlpha canvas mask).
  Notation dl' := (drawLayer zero' copyT' blendOf' destInM' destOutM' destInT' destOverT' clearT' removeAlpha' canvas' mask).
  Notation clips := (clips zero copyT blendOf destInM destOutM destInT destOverT clearT removeAlpha canvas mask).
  Notation clips' := (PRender.clips zero' copyT' blendOf' destInM' destOutM' destInT' destOverT' clearT' removeAlpha' canvas' mask).
  Notation draws := (draws zero copyT blendOf destInM destOutM destInT destOverT clearT removeAlpha canvas mask).
  Notation draws' := (PRender.draws zero' copyT' blendOf' destInM' destOutM' destInT' destOverT' clearT' removeAlpha' canvas' mask).
  Notation finish := (finish zero copyT blendOf destInM destOutM destInT destOverT clearT removeAlpha canvas mask).
  Notation finish' := (PRender.finish zero' copyT' blendOf' destInM' destOutM' destInT' destOverT' clearT' removeAlpha' canvas' mask).
  Definition agreeL (l : layer) : Prop := forall st b op f, goodS st -> G b ->
    dl' (hS st) (h b) l op f = hR (dl st b l op f) /\ goodR (dl st b l op f).
  Lemma clips_agree cs : Forall agreeL cs -> forall st x, goodS st -> G x ->
    clips' cs (hS st) (h x) = option_map (fun '(st, b) => (hS st, h b)) (clips cs st x) /\
    match clips cs st x with Some (st, b) => goodS st /\ G b | None => True end.
  Proof.
    induction 1 as [|c cs Hc F IH]; intros st x Hs Hx; [split; [reflexivity|cbn; auto]|].
    rewrite !clips_cons. destruct (Hc st x (lopa (latt c)) true Hs Hx) as [E1 G1]. rewrite E1.
    destruct (dl st x c (lopa (latt c)) true) as [[[st1 x1] dr]|]; cbn [hR option_map goodR] in *; [|split; [reflexivity|exact I]].
    destruct G1. now apply IH.
  Qed.
  Lemma draws_agree al ks : Forall agreeL ks -> forall st x d, goodS st -> G x ->
    draws' al ks (hS st) (h x) d = option_map (fun '(st, b, d) => (hS st, h b, d)) (draws al ks st x d) /\
    match draws al ks st x d with Some (st, b, _) => goodS st /\ G b | None => True end.
  Proof.
    induction 1 as [|c cs Hc F IH]; intros st x d Hs Hx; [split; [reflexivity|cbn; auto]|].
    rewrite !draws_cons. destruct (Hc st x (Z.shiftr (lopa (latt c) * al) 23) false Hs Hx) as [E1 G1]. rewrite E1.
    destruct (dl st x c (Z.shiftr (lopa (latt c) * al) 23) false) as [[[st1 x1] dr]|]; cbn [hR option_map goodR] in *; [|split; [reflexivity|exact I]].
    destruct G1. now apply IH.
  Qed.
  Lemma finish_agree a cs op b : Forall agreeL cs -> G b -> forall st buf c, goodS st -> G buf ->
    finish' a cs op (h b) (hS st) (h buf) c = hR (finish a cs op b st buf c) /\ goodR (finish a cs op b st buf c).
  Proof.
    intros Fc Hb st buf c Hs Hf. unfold PRender.finish. destruct (mask_agree a b buf Hb Hf) as [Gm Em]. cbv zeta. rewrite Em.
    set (m := applyMask destInM destOutM destOverT clearT mask a b buf) in *. clearbody m.
    destruct cs as [|c0 cs0].
    - destruct (put_agree a b m op Hb Gm) as [E1 G1]. rewrite E1. destruct (putTile copyT blendOf a b m op) as [x|]; cbn [option_map]; [|split; [reflexivity|exact I]].
      destruct (upd_agree DrDrew (lseq a) m c st Hs Gm) as [A B]. rewrite B. cbn [hR goodR option_map]. auto.
    - destruct (lbce a).
      + destruct (Hcopy m Gm) as [Gc Ec]. destruct (Hremove _ Gc) as [Gr Er]. rewrite Ec, Er.
        destruct (clips_agree _ Fc st (removeAlpha (copyT m)) Hs Gr) as [E1 G1]. rewrite E1.
        destruct (clips (c0 :: cs0) st (removeAlpha (copyT m))) as [[st1 x1]|]; cbn [option_map] in *; [|split; [reflexivity|exact I]].
        destruct G1 as [G1 G2]. destruct (Hin m x1 Gm G2) as [G3 E3]. cbv zeta. rewrite E3.
        destruct (put_agree a b (destInT m x1) op Hb G3) as [E4 G4]. rewrite E4. destruct (putTile copyT blendOf a b (destInT m x1) op) as [x|]; cbn [option_map]; [|split; [reflexivity|exact I]].
        destruct (upd_agree DrDrew (lseq a) (destInT m x1) c st1 G1 G3) as [A B]. rewrite B. cbn [hR goodR option_map]. auto.
      + destruct (dwo_agree b m op (lbm a) Hb Gm) as [E1 G1]. rewrite E1. destruct (drawWithOpacity blendOf b m op (lbm a)) as [x|]; cbn [option_map]; [|split; [reflexivity|exact I]].
        destruct (upd_agree DrDrew (lseq a) m c st Hs Gm) as [A B]. rewrite B. cbn [hR goodR option_map]. auto.
  Qed.
  Lemma drawLayer_agree : forall l, agreeL l.
  Proof.
    apply layer_rec'. intros a ks cs Fk Fc st b op f Hs Hb.
    rewrite !drawLayer_eq. destruct (negb (lvis a) || (op =? 0)); [split; [reflexivity|cbn; auto]|].
    destruct (lclipping a && negb f); [split; [reflexivity|cbn; auto]|].
    destruct (isNil ks).
    - unfold canvas' at 1. destruct (canvas (lseq a)) as [t|] eqn:Ec; cbn [option_map]; [|split; [reflexivity|cbn; auto]].
      destruct (Hcopy t (Hcanvas _ _ Ec)) as [Gc Ec']. rewrite Ec'. now apply finish_agree.
    - unfold hS at 1. cbn [tent]. rewrite get_h. destruct (m_get Z.eqb (tent st) (lseq a)) as [[ci|]|] eqn:Eg; cbn [option_map].
      + assert (Gi : G ci) by (eapply Hs; apply get_in; exact Eg).
        destruct (put_agree a b ci op Hb Gi) as [E1 G1]. rewrite E1. destruct (putTile copyT blendOf a b ci op); cbn [hR goodR option_map]; auto.
      + split; [reflexivity|cbn; auto].
      + assert (B0 : G (startBuf zero copyT a b) /\ startBuf zero' copyT' a (h b) = h (startBuf zero copyT a b)) by (unfold startBuf; destruct (isPT a); auto).
        destruct B0 as [Gb0 Eb0]. rewrite Eb0.
        destruct (draws_agree (alphaOf a op) ks Fk st (startBuf zero copyT a b) false Hs Gb0) as [E1 G1]. rewrite E1.
        destruct (draws (alphaOf a op) ks st (startBuf zero copyT a b) false) as [[[st1 x1] d]|]; cbn [option_map] in *; [|split; [reflexivity|exact I]].
        destruct G1 as [G1 G2]. destruct d; [now apply finish_agree|].
        destruct (upd_agree DrInvisible (lseq a) x1 true st1 G1 G2) as [A B]. rewrite B. cbn [hR goodR option_map]. auto.
  Qed.

  Notation dt := (drawTop zero copyT blendOf destInM destOutM destInT destOverT clearT removeAlpha canvas mask).
  Notation dt' := (drawTop zero' copyT' blendOf' destInM' destOutM' destInT' destOverT' clearT' removeAlpha' canvas' mask).
  Lemma drawTop_agree : forall ks st b d, goodS st -> G b ->
    dt' ks (hS st) (h b) d = option_map (fun '(st, b, d) => (hS st, h b, d)) (dt ks st b d) /\
    match dt ks st b d with Some (st, b, _) => goodS st /\ G b | None => True end.
  Proof.
    induction ks as [|k ks IH]; intros st b d Hs Hb; cbn [drawTop]; [split; [reflexivity|auto]|].
    destruct (drawLayer_agree k st b (lopa (latt k)) false Hs Hb) as [E1 G1]. rewrite E1.
    destruct (dl st b k (lopa (latt k)) false) as [[[st1 x1] dr]|]; cbn [hR option_map goodR] in *; [|split; [reflexivity|exact I]].
    destruct G1. now apply IH.
  Qed.
  Notation rt := (renderTile zero copyT blendOf destInM destOutM destInT destOverT clearT removeAlpha canvas mask).
  Notation rt' := (renderTile zero' copyT' blendOf' destInM' destOutM' destInT' destOverT' clearT' removeAlpha' canvas' mask).
  Lemma renderTile_agree dO root st d : goodS st -> G d ->
    rt' dO root (hS st) (h d) = option_map (fun '(st, b) => (hS st, h b)) (rt dO root st d) /\
    match rt dO root st d with Some (st, b) => goodS st /\ G b | None => True end.
  Proof.
    intros Hs Hd.
    assert (P : forall st, goodS st -> paint copyT' clearT' root (hS st) (h d) = option_map h (paint copyT clearT root st d) /\
                  match paint copyT clearT root st d with Some x => G x | None => True end).
    { clear st Hs. intros st Hs. unfold paint. unfold hS at 1. cbn [tent]. rewrite get_h.
      destruct (m_get Z.eqb (tent st) (lseq (latt root))) as [[ci|]|] eqn:Eg; cbn [option_map]; [| |auto].
      - destruct (Hcopy ci) as [A ->]; [eapply Hs; apply get_in; exact Eg|]. auto.
      - destruct (Hclear d Hd) as [A ->]. auto. }
    unfold renderTile, updateTile. unfold hS at 1. cbn [tent]. rewrite get_h.
    destruct (m_get Z.eqb (tent st) (lseq (latt root))) as [v|] eqn:Eg; cbn [option_map].
    - destruct (false || negb dO); [|cbn; auto].
      destruct (P st Hs) as [E1 G1]. rewrite E1. destruct (paint copyT clearT root st d); cbn; auto.
    - destruct Hzero as [Gz Ez]. destruct (drawTop_agree (lkids root) st zero false Hs Gz) as [E1 G1]. rewrite <- Ez in E1. rewrite E1.
      destruct (dt (lkids root) st zero false) as [[[st1 x1] dr]|]; cbn [option_map] in *; [|split; [reflexivity|exact I]].
      destruct G1 as [G1 G2]. set (res := if dr then DrDrew else DrInvisible).
      destruct (upd_agree res (lseq (latt root)) x1 true st1 G1 G2) as [A B]. cbn [orb]. rewrite B.
      destruct (P _ A) as [E2 G3]. rewrite E2. destruct (paint copyT clearT root (updateCache copyT res (lseq (latt root)) x1 true st1) d); cbn; auto.
  Qed.
End agree.

(** * Tiles of bytes *)

Lemma trav_ok {A} (P : A -> Prop) (f : A -> option px) e (l : list A) : (forall x, P x -> exists q, f x = Some q /\ pixel_ok q) -> Forall P l ->
  tileOK (length l) (map (fun x => orElse (f x) (e x)) l) /\ traverse f l = Some (map (fun x => orElse (f x) (e x)) l).
Proof.
  intros H F. induction F as [|x l Hx F [[IL IF] IE]]; [repeat split; constructor|].
  destruct (H x Hx) as (q & Eq & Q). cbn [map traverse]. rewrite Eq, IE. cbn [orElse]. repeat split; [cbn; congruence|constructor; auto].
Qed.
Lemma trav2_ok {A} (P : A -> Prop) (f : A -> px -> option px) n (l : list A) (t : tile) :
  (forall x d, P x -> pixel_ok d -> exists q, f x d = Some q /\ pixel_ok q) -> length l = n -> Forall P l -> tileOK n t ->
  tileOK n (map2 (fun x d => orElse (f x d) d) l t) /\ traverse2 f l t = Some (map2 (fun x d => orElse (f x d) d) l t).
Proof.
  intros H L F [T1 T2]. revert n t L T1 T2. induction F as [|x l Hx F IH]; intros n t L T1 T2; destruct t as [|d t]; cbn in L, T1; subst n; try discriminate; [repeat split; constructor|].
  inversion T2 as [|? ? Hd Ht]; subst. destruct (H x d Hx Hd) as (q & Eq & Q). injection T1 as T1.
  destruct (IH _ t eq_refl T1 Ht) as [[IL IF] IE].
  cbn [map2 traverse2]. rewrite Eq, IE. cbn [orElse]. repeat split; [cbn; congruence|constructor; auto].
Qed.
Lemma zeroPx_ok n : tileOK n (zeroPx n).
Proof. split; [apply repeat_length|]. apply Forall_forall. intros x I. apply repeat_spec in I. subst x. unfold pixel_ok. cbn. lia. Qed.
Lemma removeAlpha_ok n t : tileOK n t -> tileOK n (removeAlphaPx t).
Proof.
  intros [L F]. split; [unfold removeAlphaPx; now rewrite map_length|]. apply Forall_forall. intros x I. apply in_map_iff in I. destruct I as (p & <- & I).
  rewrite Forall_forall in F. specialize (F p I). unfold pixel_ok in *. cbn. lia.
Qed.


Lemma render_strict n canvas mask : (forall s t, canvas s = Some t -> tileOK n t) -> (forall s m, mask s = Some m -> mtileOK n m) ->
  forall dO root st d, stateOK n st -> tileOK n d ->
  renderS n canvas mask dO root (strictS st) (Some d) =
    option_map (fun '(st, t) => (strictS st, Some t)) (renderPx n canvas mask dO root st d) /\
  match renderPx n canvas mask dO root st d with Some (st', t) => stateOK n st' /\ tileOK n t | None => True end.
Proof.
  intros Hc Hm dO root st d. unfold renderS, renderPx.
  apply (renderTile_agree (Some : tile -> stile) (tileOK n) (mtileOK n)); try assumption.
  - split; [apply zeroPx_ok|reflexivity].
  - intros x [L F]. destruct (trav_ok pixel_ok (fun s => pdB machine Copy true true 65535 s black) (fun _ => black) x) as [A B]; [intros s _; apply pdB_ok|exact F|].
    rewrite L in A. split; [exact A|exact B].
  - intros x _. split; [apply zeroPx_ok|reflexivity].
  - intros x H. split; [now apply removeAlpha_ok|reflexivity].
  - intros m x [L F] H. apply (trav2_ok (fun a => 0 <= a <= 255)); auto. intros; apply pdA_ok.
  - intros m x [L F] H. apply (trav2_ok (fun a => 0 <= a <= 255)); auto. intros; apply pdA_ok.
  - intros m x [L F] H. apply (trav2_ok pixel_ok); auto. intros; apply pdB_ok.
  - intros m x [L F] H. apply (trav2_ok pixel_ok); auto. intros; apply pdB_ok.
  - intros m. unfold blendPx, blendS. destruct (m_get list_eqb blendModes m) as [md|]; [|exact I].
    intros op s x [L F] H. apply (trav2_ok pixel_ok); auto. intros; now apply blend_ok.
Qed.

Lemma render_strict_total n canvas mask : (forall s t, canvas s = Some t -> tileOK n t) -> (forall s m, mask s = Some m -> mtileOK n m) ->
  forall dO root st d, stateOK n st -> tileOK n d -> Forall (modesOK blendPx) (lkids root) ->
  exists st' t, renderS n canvas mask dO root (strictS st) (Some d) = Some (strictS st', Some t) /\ stateOK n st' /\ tileOK n t /\
    renderPx n canvas mask dO root st d = Some (st', t).
Proof.
  intros Hc Hm dO root st d Hs Hd M. destruct (render_strict n canvas mask Hc Hm dO root st d Hs Hd) as [E K].
  destruct (renderPx n canvas mask dO root st d) as [[st' t]|] eqn:Er.
  - exists st', t. destruct K as [K1 K2]. split; [exact E|]. split; [exact K1|]. split; [exact K2|reflexivity].
  - exfalso. revert Er. now apply renderTile_some.
Qed.

(** ** The strict operations fail if one pixel fails *)
Lemma traverse_iff {A B} (f : A -> option B) l : forall r, traverse f l = Some r <-> pixelwise f l r.
Proof.
  unfold pixelwise. induction l as [|x l IH]; intros r; cbn [traverse].
  - split; [intros [= <-]; split; [reflexivity|intros [|i] x; discriminate]|]. intros [E _]. now destruct r.
  - split.
    + destruct (f x) as [y|] eqn:Ef; [|discriminate]. destruct (traverse f l) as [r0|] eqn:Et; [|discriminate]. intros [= <-]. destruct (proj1 (IH r0) eq_refl) as [L H]. split; [cbn [length]; lia|].
      intros [|i] x0; cbn [nth_error]; [intros [= <-]; eauto|apply H].
    + intros [L H]. destruct r as [|z r]; [discriminate|]. destruct (H 0%nat x eq_refl) as (z' & Ez & [= <-]). rewrite Ez.
      rewrite (proj2 (IH r)); [reflexivity|]. split; [cbn [length] in L; lia|]. intros i x0 Hx. exact (H (S i) x0 Hx).
Qed.
Lemma traverse2_iff {A B C} (f : A -> B -> option C) l : forall l' r, traverse2 f l l' = Some r <-> pixelwise2 f l l' r.
Proof.
  unfold pixelwise2. induction l as [|x l IH]; intros [|y l'] r; cbn [traverse2].
  - split; [intros [= <-]; split; [reflexivity|]; split; [reflexivity|intros [|i] x y; discriminate]|]. intros (_ & E & _). now destruct r.
  - split; [discriminate|intros [E _]; discriminate].
  - split; [discriminate|intros [E _]; discriminate].
  - split.
    + destruct (f x y) as [z|] eqn:Ef; [|discriminate]. destruct (traverse2 f l l') as [r0|] eqn:Et; [|discriminate]. intros [= <-]. destruct (proj1 (IH l' r0) Et) as (L & L' & H).
      split; [cbn [length]; lia|]. split; [cbn [length]; lia|]. intros [|i] x0 y0; cbn [nth_error]; [intros [= <-] [= <-]; eauto|apply H].
    + intros (L & L' & H). destruct r as [|z r]; [discriminate|]. destruct (H 0%nat x y eq_refl eq_refl) as (z' & Ez & [= <-]). rewrite Ez.
      rewrite (proj2 (IH l' r)); [reflexivity|]. cbn [length] in *. split; [lia|]. split; [lia|]. intros i x0 y0 Hx Hy. exact (H (S i) x0 y0 Hx Hy).
Qed.
Lemma strict_operations :
  (forall s r, copyS (Some s) = Some r <-> pixelwise (fun s => pdB machine Copy true true 65535 s black) s r) /\
  (forall k b md op s d r, blendS k = Some b -> m_get list_eqb blendModes k = Some md ->
     (b op (Some s) (Some d) = Some r <-> pixelwise2 (fun s d => blend8 machine md (op mod 256) s d) s d r)) /\
  (forall m d r, destInMS m (Some d) = Some r <-> pixelwise2 (fun s d => pdA machine DestIn true 65535 s d) m d r) /\
  (forall m d r, destOutMS m (Some d) = Some r <-> pixelwise2 (fun s d => pdA machine DestOut true 65535 s d) m d r) /\
  (forall s d r, destInS (Some s) (Some d) = Some r <-> pixelwise2 (fun s d => pdB machine DestIn true true 65535 s d) s d r) /\
  (forall s d r, destOverS (Some s) (Some d) = Some r <-> pixelwise2 (fun s d => pdB machine DestOver true true 65535 s d) s d r).
Proof.
  split; [intros s r; apply traverse_iff|]. split; [|split; [|split; [|split]]; intros; apply traverse2_iff].
  intros k b md op s d r Hb Hm. unfold blendS in Hb. rewrite Hm in Hb. injection Hb as <-. apply traverse2_iff.
Qed.
