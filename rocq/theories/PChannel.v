(** Proofs: the modes that do not mix the colours treat every colour by itself, and all in the same way. *)
From Coq Require Import String.
From Verif Require Import Base BaseFacts SUtil SConfig MRect MPicker MConfig MReader MLayer MApi SCompress SRecord SLayer XRecord PRecord3 PRecord4
  MSched MBlend MPorter SBlend PBlend PLum PBlend3 PHsl SPorter PPorter MWait MRender SRender MRenderAll SRenderAll MRenderPx PRenderPx
  MDraw MTile STile MLoad SLoad MPipe SPipe PPipe2 PPipe4 PPipe5 SSharp PSharp2 PSharp3 SGlass PGlass1 PGlass2 PGlass4 PTop SLook PLook SChannel.
Close Scope string_scope.
Open Scope Z_scope.

(** ** The operators *)
(** One colour of a blended pixel *)
Definition blendLevel (m : mode) (alpha sa da x y : Z) : option Z :=
  let al := mul machine alpha 32897 in
  let tmp := mul machine (Z.shiftr (mul machine sa al) 23) 32897 in
  if tmp =? 0 then Some y else
  let a1 := Z.shiftr (mul machine tmp da) 23 in
  let a2 := Z.shiftr (mul machine tmp (sub machine 255 da)) 23 in
  let a3 := Z.shiftr (mul machine (sub machine 8388735 tmp) da) 23 in
  let a := add machine (add machine a1 a2) a3 in
  if a =? 0 then Some y else
  let? r := chan machine W8 m x y in
  let? q := udiv (wsum machine a1 a2 a3 r x y) a in
  Some (w8 machine (if overmax m then clip W8 q else q)).
Definition blendAlpha (alpha sa da : Z) : Z :=
  let al := mul machine alpha 32897 in
  let tmp := mul machine (Z.shiftr (mul machine sa al) 23) 32897 in
  if tmp =? 0 then da else
  let a1 := Z.shiftr (mul machine tmp da) 23 in
  let a2 := Z.shiftr (mul machine tmp (sub machine 255 da)) 23 in
  let a3 := Z.shiftr (mul machine (sub machine 8388735 tmp) da) 23 in
  let a := add machine (add machine a1 a2) a3 in
  if a =? 0 then da else w8 machine a.
Lemma mix_separable m s d : separable m -> mix machine W8 m s d =
  (let '(sr, sg, sb) := s in let '(dr, dg, db) := d in
   let? r := chan machine W8 m sr dr in let? g := chan machine W8 m sg dg in let? b := chan machine W8 m sb db in Some (r, g, b)).
Proof. destruct m; try reflexivity; intros []. Qed.
Lemma blend8_level m op s d p : separable m -> blend8 machine m op s d = Some p ->
  (forall c, blendLevel m op (pa s) (pa d) (level c s) (level c d) = Some (level c p)) /\ pa p = blendAlpha op (pa s) (pa d).
Proof.
  intros S. unfold blend8, blendLevel, blendAlpha. cbv zeta. destruct (_ =? 0); [intros [= <-]; split; reflexivity|]. destruct (_ =? 0); [intros [= <-]; split; reflexivity|].
  rewrite mix_separable by exact S. destruct (chan machine W8 m (pr s) (pr d)) as [r|] eqn:Er; [|discriminate]. destruct (chan machine W8 m (pg s) (pg d)) as [g|] eqn:Eg; [|discriminate].
  destruct (chan machine W8 m (pb s) (pb d)) as [b|] eqn:Eb; [|discriminate].
  destruct (udiv (wsum machine _ _ _ r _ _) _) as [r'|] eqn:Fr; [|discriminate]. destruct (udiv (wsum machine _ _ _ g _ _) _) as [g'|] eqn:Fg; [|discriminate].
  destruct (udiv (wsum machine _ _ _ b _ _) _) as [b'|] eqn:Fb; [|discriminate]. intros [= <-]. split; [|reflexivity].
  intros []; cbn [level pr pg pb]; [rewrite Er, Fr|rewrite Eg, Fg|rewrite Eb, Fb]; reflexivity.
Qed.

Section colours.
Variables c c' : colour.
Definition sim (v v' : px) : Prop := same_level c c' v v' /\ pixel_ok v /\ pixel_ok v'.
Lemma blended_sim m op s d s' d' : separable m -> byte op -> sim s s' -> sim d d' -> sim (blended m op s d) (blended m op s' d').
Proof.
  intros M Ho ((L & Sa) & Hs & Hs') ((L2 & Da) & Hd & Hd'). split; [|split; apply blended_eq; assumption]. unfold byte in Ho. unfold blended.
  destruct (blend8_range m op s d Ho Hs Hd) as (p & E & _). destruct (blend8_range m op s' d' Ho Hs' Hd') as (p' & E' & _). rewrite E, E'.
  destruct (blend8_level _ _ _ _ _ M E) as [H1 H2]. destruct (blend8_level _ _ _ _ _ M E') as [H1' H2']. split.
  - specialize (H1 c). specialize (H1' c'). rewrite L, L2, Sa, Da, H1' in H1. now injection H1.
  - now rewrite H2, H2', Sa, Da.
Qed.
Lemma out16_level v v' : same_level c c' v v' -> same_level c c' (out16 true v) (out16 true v').
Proof. intros [L E]. unfold out16, unmulx. rewrite <- E. destruct (pa v =? 0); [split; [now destruct c, c'|reflexivity]|]. destruct c, c'; cbn [level pr pg pb pa low8] in *; rewrite L, E; split; reflexivity. Qed.
Lemma textbook_level op s d s' d' : same_level c c' s s' -> same_level c c' d d' -> same_level c c' (textbook op s d) (textbook op s' d').
Proof. intros [L E] [L2 E2]. unfold textbook. cbv zeta. rewrite E, E2. split; [|reflexivity]. destruct c, c'; cbn [level pr pg pb] in *; now rewrite L, L2. Qed.
Lemma src16_level v v' : same_level c c' v v' -> same_level c c' (src16 true v) (src16 true v').
Proof. intros [L E]. unfold src16, premulx, wide. cbn [pr pg pb pa]. rewrite E. split; [|reflexivity]. destruct c, c'; cbn [level pr pg pb] in *; now rewrite L. Qed.
Lemma pdpx_sim op s d s' d' : sim s s' -> sim d d' -> sim (pdpx op s d) (pdpx op s' d').
Proof. intros (L & Hs & Hs') (L2 & Hd & Hd'). split; [|split; apply pdpx_eq; assumption]. apply out16_level, textbook_level; now apply src16_level. Qed.
Lemma pdmask_sim op m d d' : byte m -> sim d d' -> sim (pdmask op m d) (pdmask op m d').
Proof. intros Hm (L & Hd & Hd'). split; [|split; apply pdmask_eq; assumption]. apply out16_level, textbook_level; [split; [now destruct c, c'|reflexivity]|now apply src16_level]. Qed.
Lemma nothing_sim : sim nothing nothing. Proof. split; [split; [now destruct c, c'|reflexivity]|split; exact nothing_ok]. Qed.
Lemma stored_sim v v' : sim v v' -> sim (stored v) (stored v'). Proof. intros H. exact (pdpx_sim Copy v nothing v' nothing H nothing_sim). Qed.
Lemma opaque_sim v v' : sim v v' -> sim (opaque v) (opaque v').
Proof. intros ((L & E) & H & H'). split; [|split; now apply opaque_ok]. split; [|reflexivity]. destruct c, c'; exact L. Qed.

(** ** Trees *)
Definition both (t t' : stree) : Prop := alike c c' t t' /\ glass_tree t /\ glass_tree t'.
Lemma alike_rec t t' : alike c c' t t' -> same_switches (rec_of t) (rec_of t'). Proof. now destruct 1. Qed.
Lemma alike_clips t t' : alike c c' t t' -> clips t' = clips t.
Proof. intros H. apply alike_rec in H. destruct H as (_ & _ & H & _). unfold clips. f_equal. destruct (Z.eqb_spec (sl_clip (rec_of t)) 0), (Z.eqb_spec (sl_clip (rec_of t')) 0); tauto. Qed.
Lemma alike_mode t t' m : alike c c' t t' -> mode_of t m <-> mode_of t' m.
Proof. destruct 1 as [l l' _ _ L _ _|dv f ts dv' f' ts' _ _ L _ _]; cbn [mode_of]; [destruct m; [apply L|tauto]|apply L]. Qed.
Lemma alike_separable t t' m : alike c c' t t' -> mode_of t (Some m) -> separable m.
Proof. destruct 1 as [l l' _ _ _ L _|dv f ts dv' f' ts' _ _ _ L _]; cbn [mode_of]; apply L. Qed.
Lemma alike_hidden t t' : alike c c' t t' -> hidden (rec_of t') = hidden (rec_of t). Proof. intros H. apply alike_rec in H. symmetry. apply H. Qed.
Lemma alike_opacity t t' : alike c c' t t' -> sl_opacity (rec_of t') = sl_opacity (rec_of t). Proof. intros H. apply alike_rec in H. symmetry. apply H. Qed.
Lemma alike_blends t t' : alike c c' t t' -> blends_group (rec_of t') = blends_group (rec_of t). Proof. intros H. apply alike_rec in H. symmetry. apply H. Qed.
Lemma both_folder dv f ts dv' f' ts' : both (SFolder dv f ts) (SFolder dv' f' ts') -> Forall2 both ts ts'.
Proof.
  intros (H & G & G'). inversion H as [|? ? ? ? ? ? _ _ _ _ F]; subst. inversion G as [|? ? ? ? _ _ _ Q _]; subst. inversion G' as [|? ? ? ? _ _ _ Q' _]; subst. clear -F Q Q'.
  induction F; constructor; inversion Q; inversion Q'; subst; [repeat split; assumption|auto].
Qed.

Definition bothG (g g' : stree * list stree) : Prop := both (fst g) (fst g') /\ Forall2 both (snd g) (snd g').
Lemma both_grouped ts gs : layers_grouped ts gs -> forall ts', Forall2 both ts ts' -> exists gs', layers_grouped ts' gs' /\ Forall2 bothG gs gs'.
Proof.
  induction 1 as [|t ts gs E _ IH|t cs ts gs E F N _ IH]; intros ts' H.
  - inversion H; subst. exists []. split; constructor.
  - inversion H as [|? t' ? ts1 Ht Hs]; subst. destruct (IH _ Hs) as (gs' & G & K). exists gs'. split; [|exact K]. constructor; [now rewrite (alike_clips _ _ (proj1 Ht))|exact G].
  - inversion H as [|? t' ? ts1 Ht Hs]; subst. apply Forall2_app_inv_l in Hs. destruct Hs as (cs' & ts2 & Hc & Hs & ->). destruct (IH _ Hs) as (gs' & G & K).
    exists ((t', cs') :: gs'). split; [|constructor; [split; assumption|exact K]]. apply lg_base; [now rewrite (alike_clips _ _ (proj1 Ht))| | |exact G].
    + clear -F Hc. induction Hc as [|x x' cs cs' H _ IH]; constructor; inversion F; subst; [now rewrite (alike_clips _ _ (proj1 H))|auto].
    + destruct Hs as [|u u' us us' Hu _]; [exact I|]. now rewrite (alike_clips _ _ (proj1 Hu)).
Qed.
Lemma bothG_in gs gs' : Forall2 bothG gs gs' -> forall t cs, In (t, cs) gs -> exists t' cs', In (t', cs') gs' /\ both t t'.
Proof.
  induction 1 as [|[u us] [u' us'] gs gs' [H _] _ IH]; intros t cs Hi; [destruct Hi|]. destruct Hi as [[= <- <-]|Hi]; [exists u', us'; split; [now left|exact H]|].
  destruct (IH _ _ Hi) as (t' & cs' & Hi' & L). exists t', cs'. split; [now right|exact L].
Qed.
Lemma leaf_visible l q v : leaf_value l q v -> v <> nothing <-> pa v <> 0.
Proof.
  unfold leaf_value. destruct (pt_in q (sl_rect l)); [|intros ->; split; intros H; destruct H; reflexivity]. cbv zeta. intros (dr & dg & db & r & g & b & a & _ & _ & _ & _ & _ & _ & _ & ->).
  destruct (Z.eqb_spec a 0); [split; intros H; destruct H; reflexivity|]. split; [auto|]. intros H E. apply H. now rewrite E.
Qed.
End colours.

Lemma alike_ind2 c c' (P : stree -> stree -> Prop) :
  (forall l l', same_switches l l' -> same_mask False l l' -> (forall m, leaf_mode l m <-> leaf_mode l' m) -> (forall m, leaf_mode l m -> separable m) ->
    (forall q, in_sight q -> exists v v', leaf_value l q v /\ leaf_value l' q v' /\ same_level c c' v v') -> P (SLeaf l) (SLeaf l')) ->
  (forall dv f ts dv' f' ts', same_switches f f' -> same_mask (folder_mode f None) f f' -> (forall m, folder_mode f m <-> folder_mode f' m) -> (forall m, folder_mode f (Some m) -> separable m) ->
    Forall2 P ts ts' -> P (SFolder dv f ts) (SFolder dv' f' ts')) ->
  forall t t', alike c c' t t' -> P t t'.
Proof.
  intros H1 H2. fix F 3. intros t t' [l l' A B C D E|dv f ts dv' f' ts' A B C D E]; [now apply H1|]. apply H2; auto. clear -E F. induction E; constructor; auto.
Qed.
Lemma alike_sym c c' t t' : alike c c' t t' -> alike c' c t' t.
Proof.
  revert t t'. apply alike_ind2.
  - intros l l' S M L Sp V. apply alike_leaf; [now apply switches_sym|now apply (mask_sym False)|intros m; symmetry; auto|intros m Hm; now apply Sp, L|].
    intros q Q. destruct (V q Q) as (v & v' & H & H' & K & K'). exists v', v. split; [exact H'|]. split; [exact H|]. split; symmetry; assumption.
  - intros dv f ts dv' f' ts' S M L Sp IH. apply alike_folder; [now apply switches_sym|apply (mask_sym (folder_mode f None)); [apply L|exact M]|intros m; symmetry; auto|intros m Hm; now apply Sp, L|].
    clear -IH. induction IH; constructor; auto.
Qed.
Lemma both_sym c c' t t' : both c c' t t' -> both c' c t' t.
Proof. intros (H & G & G'). split; [now apply alike_sym|split; assumption]. Qed.

(** ** Pictures *)
Section square.
  Variable A : point -> Prop.
  Hypothesis sight : forall q, A q -> in_sight q.
  Lemma both_touches c c' t op : touches A t op -> forall t', both c c' t t' -> touches A t' op.
  Proof.
    induction 1 as [l op q v H O Q V N|dv f ts m op gs t cs H O M G Hin T IH]; intros t' L.
    - pose proof (alike_hidden _ _ _ _ (proj1 L)) as E. destruct L as (L & _ & _). inversion L as [? l' _ _ _ _ K|]; subst. destruct (K q (sight q Q)) as (v0 & v' & V0 & V' & _ & Ea).
      apply (touches_leaf A l' op q v'); auto; [now rewrite <- H|]. apply (leaf_visible l' q v' V'). rewrite <- Ea. rewrite (leaf_only _ _ _ _ V0 V). now apply (leaf_visible l q v V).
    - pose proof (alike_hidden _ _ _ _ (proj1 L)) as E. pose proof (proj1 L) as La. inversion La as [|? ? ? dv' f' ts' _ _ K _ _]; subst.
      destruct (both_grouped c c' _ _ G _ (both_folder _ _ _ _ _ _ _ _ L)) as (gs' & G' & Hg). destruct (bothG_in _ _ _ _ Hg _ _ Hin) as (u & us & Hu & Lu).
      apply (touches_folder A dv' f' ts' m op gs' u us); auto; [now rewrite <- H|now apply K|]. rewrite (alike_opacity _ _ _ _ (proj1 Lu)). auto.
  Qed.
  Variables c c' : colour.
  Notation sim := (sim c c'). Notation both := (both c c').
  Lemma masked_sim (T : Prop) l l' p th gm d s v d' s' : (th = true -> T) -> A p -> glass_mask l gm -> same_mask T l l' -> masked A p l th d s v -> sim d d' -> sim s s' ->
    exists v', masked A p l' th d' s' v' /\ sim v v'.
  Proof.
    intros Hth Ap Gm Sm Hm Hd Hs. assert (exists v', masked A p l th d' s' v' /\ sim v v') as (v' & Hv & Sv); [|exists v'; split; [now apply (looks_masked A sight T l)|exact Sv]].
    revert Hm. unfold masked. destruct (has_mask l) eqn:M; [|intros ->; now exists s']. intros (m & x & Ma & H & ->).
    assert (byte m) as Hb. { apply (mask_byte l gm p m Gm); [|exact Ma]. unfold has_mask in M. now apply andb_prop in M. }
    assert (exists x', sim x x' /\ (mask_colour l = 0 /\ x' = pdmask DestIn m s' \/
         mask_colour l <> 0 /\ ((exists q m', A q /\ mask_at l q m' /\ m' <> 255) /\ x' = pdmask DestOut (255 - m) s' \/ (forall q, A q -> mask_at l q 255) /\ x' = s'))) as (x' & Sx & Hx).
    { destruct H as [[C ->]|[C [[W ->]|[W ->]]]]; eexists; (split; [|first [left; split; [exact C|reflexivity]|right; split; [exact C|left; split; [exact W|reflexivity]]|right; split; [exact C|right; split; [exact W|reflexivity]]]]).
      - now apply pdmask_sim.
      - apply pdmask_sim; [unfold byte in *; lia|exact Hs].
      - exact Hs. }
    exists (if th then pdpx DestOver d' x' else x'). split; [exists m, x'; auto|]. destruct th; [now apply pdpx_sim|exact Sx].
  Qed.

  Variable p : point.
  Hypothesis here : A p.
  Lemma all_sim :
    (forall t op d v, image A p t op d v -> forall t' d', both t t' -> byte op -> sim d d' -> exists v', image A p t' op d' v' /\ sim v v') /\
    (forall t cs op d e, put A p t cs op d e -> forall t' cs' d', both t t' -> Forall2 both cs cs' -> byte op -> sim d d' -> exists e', put A p t' cs' op d' e' /\ sim e e') /\
    (forall t cs v e, topped A p t cs v e -> forall t' cs' v', both t t' -> Forall2 both cs cs' -> sim v v' -> exists e', topped A p t' cs' v' e' /\ sim e e') /\
    (forall cs x y, clips_on A p cs x y -> forall cs' x', Forall2 both cs cs' -> sim x x' -> exists y', clips_on A p cs' x' y' /\ sim y y') /\
    (forall op ts d e, laid A p op ts d e -> forall ts' d', Forall2 both ts ts' -> opB op -> sim d d' -> exists e', laid A p op ts' d' e' /\ sim e e') /\
    (forall op gs d e, heaped A p op gs d e -> forall gs' d', Forall2 (bothG c c') gs gs' -> opB op -> sim d d' -> exists e', heaped A p op gs' d' e' /\ sim e e').
  Proof.
    apply (glass_ind A p (fun t op d v _ => forall t' d', both t t' -> byte op -> sim d d' -> exists v', image A p t' op d' v' /\ sim v v')
      (fun t cs op d e _ => forall t' cs' d', both t t' -> Forall2 both cs cs' -> byte op -> sim d d' -> exists e', put A p t' cs' op d' e' /\ sim e e')
      (fun t cs v e _ => forall t' cs' v', both t t' -> Forall2 both cs cs' -> sim v v' -> exists e', topped A p t' cs' v' e' /\ sim e e')
      (fun cs x y _ => forall cs' x', Forall2 both cs cs' -> sim x x' -> exists y', clips_on A p cs' x' y' /\ sim y y')
      (fun op ts d e _ => forall ts' d', Forall2 both ts ts' -> opB op -> sim d d' -> exists e', laid A p op ts' d' e' /\ sim e e')
      (fun op gs d e _ => forall gs' d', Forall2 (bothG c c') gs gs' -> opB op -> sim d d' -> exists e', heaped A p op gs' d' e' /\ sim e e')).
    - intros l op d s v Hl Hm t' d' (L & G & G') Ho Hd. inversion L as [? l' _ M _ _ V|]; subst. inversion G as [? _ Gm Gp|]; subst. inversion G' as [? _ _ Gp'|]; subst.
      destruct (V p (sight p here)) as (s0 & s' & H0 & H' & K). rewrite (leaf_only _ _ _ _ H0 Hl) in K.
      destruct (masked_sim False l l' p false false d (stored s) v d' (stored s')) as (v' & Hv & Sv); try assumption; [discriminate|apply stored_sim; split; [exact K|split; [exact (leaf_ok _ _ _ Gp Hl)|exact (leaf_ok _ _ _ Gp' H')]]|].
      exists v'. split; [exact (image_leaf A p l' op d' s' v' H' Hv)|exact Sv].
    - intros dv f ts m op d s v Hf La IH Hm t' d' B Ho Hd. pose proof B as (L & G & _). inversion L as [|? ? ? dv' f' ts' _ M K _ _]; subst. inversion G as [|? ? ? gm _ _ Gm _ _]; subst.
      pose proof (both_folder c c' dv f ts dv' f' ts' B) as Bf. destruct (IH ts' nothing Bf) as (s' & Ls & Ss); [exact Logic.I|apply nothing_sim|].
      destruct (masked_sim (folder_mode f None) f f' p false _ d s v d' s' (fun E => ltac:(discriminate E)) here Gm M Hm Hd Ss) as (v' & Hv & Sv).
      exists v'. split; [|exact Sv]. apply (image_folder A p dv' f' ts' m op d' s' v'); [now apply K|exact Ls|exact Hv].
    - intros dv f ts op d s v Hf La IH Hm t' d' B Ho Hd. pose proof B as (L & G & _). inversion L as [|? ? ? dv' f' ts' _ M K _ _]; subst. inversion G as [|? ? ? gm _ _ Gm _ _]; subst.
      pose proof (both_folder c c' dv f ts dv' f' ts' B) as Bf. destruct (IH ts' (stored d') Bf) as (s' & Ls & Ss); [exact Ho|now apply stored_sim|].
      destruct (masked_sim (folder_mode f None) f f' p true _ d s v d' s' (fun _ => Hf) here Gm M Hm Hd Ss) as (v' & Hv & Sv).
      exists v'. split; [|exact Sv]. apply (image_through A p dv' f' ts' op d' s' v'); [now apply K|exact Ls|exact Hv].
    - intros t cs op d H t' cs' d' B _ _ Hd. exists d'. split; [|exact Hd]. apply put_unseen. now rewrite (alike_hidden _ _ _ _ (proj1 B)).
    - intros t cs m op d v v1 H O M Im IH1 Tp IH2 t' cs' d' B C Ho Hd. destruct (IH1 t' d' B Ho Hd) as (w & Iw & Sw). destruct (IH2 t' cs' w B C Sw) as (w1 & Tw & Sw1).
      exists (blended m op w1 d'). split; [|apply blended_sim; try assumption; exact (alike_separable _ _ _ _ _ (proj1 B) M)].
      apply (put_over A p t' cs' m op d' w w1); auto; [now rewrite (alike_hidden _ _ _ _ (proj1 B))|now apply (alike_mode _ _ _ _ _ (proj1 B))].
    - intros t cs op d v v1 H O M T Im IH1 Tp IH2 t' cs' d' B C Ho Hd. destruct (IH1 t' d' B Ho Hd) as (w & Iw & Sw). destruct (IH2 t' cs' w B C Sw) as (w1 & Tw & Sw1).
      exists (stored w1). split; [|now apply stored_sim].
      apply (put_through A p t' cs' op d' w w1); auto; [now rewrite (alike_hidden _ _ _ _ (proj1 B))|now apply (alike_mode _ _ _ _ _ (proj1 B))|exact (both_touches c c' _ _ T _ B)].
    - intros t cs op d M N t' cs' d' B C Ho Hd. exists d'. split; [|exact Hd]. apply put_away; [now apply (alike_mode _ _ _ _ _ (proj1 B))|]. intros T. apply N. exact (both_touches c' c _ _ T _ (both_sym _ _ _ _ B)).
    - intros t cs v H t' cs' v' B C Sv. exists v'. split; [|exact Sv]. apply topped_alone. rewrite (alike_blends _ _ _ _ (proj1 B)). destruct H as [-> |H]; [left; now inversion C|now right].
    - intros t cs v x N Bg Cl IH t' cs' v' B C Sv. destruct (IH cs' (opaque (stored v')) C) as (x' & Cx & Sx); [now apply opaque_sim, stored_sim|].
      exists (pdpx DestIn v' x'). split; [|now apply pdpx_sim]. apply topped_group; [intros ->; apply N; now inversion C|now rewrite (alike_blends _ _ _ _ (proj1 B))|exact Cx].
    - intros x cs' x' C Sx. inversion C; subst. exists x'. split; [constructor|exact Sx].
    - intros t cs x y z P IH1 Cl IH2 cs' x' C Sx. inversion C as [|? t' ? cs1 B C']; subst. destruct (IH1 t' [] x' B) as (y' & Py & Sy); [constructor|apply glass_opacity, B|exact Sx|].
      destruct (IH2 cs1 y' C' Sy) as (z' & Cz & Sz). exists z'. split; [|exact Sz]. apply (clips_next A p t' cs1 x' y' z'); [|exact Cz]. now rewrite (alike_opacity _ _ _ _ (proj1 B)).
    - intros op ts gs d e G H IH ts' d' C Ho Hd. destruct (both_grouped c c' _ _ G _ C) as (gs' & G' & K). destruct (IH gs' d' K Ho Hd) as (e' & He & Se).
      exists e'. split; [|exact Se]. exact (laid_groups A p op ts' gs' d' e' G' He).
    - intros op d gs' d' C Ho Hd. inversion C; subst. exists d'. split; [constructor|exact Hd].
    - intros op t cs gs d1 d2 d3 P IH1 H IH2 gs' d' C Ho Hd. inversion C as [|? [t' cs'] ? gs1 [B Bc] C']; subst. cbn [fst snd] in *.
      destruct (IH1 t' cs' d' B Bc) as (e2 & P2 & S2); [apply within_byte; [exact Ho|apply glass_opacity, B]|exact Hd|]. destruct (IH2 gs1 e2 C' Ho S2) as (e3 & H3 & S3).
      exists e3. split; [|exact S3]. apply (heaped_cons A p op t' cs' gs1 d' e2 e3); [|exact H3]. now rewrite (alike_opacity _ _ _ _ (proj1 B)).
  Qed.
End square.

(** ** From the bytes to the pixels *)
Lemma alike_shown inflate kind procs h rsv cmd res neg pl sf pad gmask bs tail rest inflate' kind' procs' h' rsv' cmd' res' neg' pl' sf' pad' gmask' bs' tail' rest' cpus cpus1 ts c c' :
  (1 <= procs)%nat -> (1 <= procs')%nat -> (1 <= cpus)%nat -> (1 <= cpus1)%nat -> 0 < ts ->
  header_valid h -> h_mode h = 3 -> h_depth h = 8 -> zlen rsv = 6 -> zlen cmd < 4294967296 ->
  Forall rblock_valid res -> zlen (enc_rblocks res) < 4294967296 ->
  header_valid h' -> h_mode h' = 3 -> h_depth h' = 8 -> zlen rsv' = 6 -> zlen cmd' < 4294967296 ->
  Forall rblock_valid res' -> zlen (enc_rblocks res') < 4294967296 ->
  let large := h_version h =? 2 in let large' := h_version h' =? 2 in
  section_valid inflate large neg 8 3 pl (flat_map sflatten sf) pad gmask bs tail -> Forall stree_valid sf -> glass_forest sf ->
  section_valid inflate' large' neg' 8 3 pl' (flat_map sflatten sf') pad' gmask' bs' tail' -> Forall stree_valid sf' -> glass_forest sf' ->
  Forall2 (alike c c') sf sf' ->
  let enc := enc_config h rsv cmd res ++ enc_section large neg pl (flat_map sflatten sf) pad gmask bs tail in
  let enc' := enc_config h' rsv' cmd' res' ++ enc_section large' neg' pl' (flat_map sflatten sf') pad' gmask' bs' tail' in
  exists f evs f' evs', Decode inflate kind procs newOptions (enc ++ rest) = (Ok (f, zlen enc, rest), evs) /\ Decode inflate' kind' procs' newOptions (enc' ++ rest') = (Ok (f', zlen enc', rest'), evs') /\
    forall st st', MWait.steps (lstep cpus ts) (lstart (map (fun e => playerOf (ev_layer e)) evs)) st -> lended st ->
    MWait.steps (lstep cpus1 ts) (lstart (map (fun e => playerOf (ev_layer e)) evs')) st' -> lended st' ->
    forall n n' r r' w0 w1 w0' w1', (1 <= n)%nat -> (1 <= n')%nat -> new w0 -> new w0' ->
    renderedPx ts (ldImages st) n ts r false (rootOf (ldCopied st) (f_layer f)) w0 w1 ->
    renderedPx ts (ldImages st') n' ts r' false (rootOf (ldCopied st') (f_layer f')) w0' w1' ->
    forall q p, tileOf ts r q -> tileOf ts r' q -> in_tile ts q p -> 0 <= MRect.px p -> 0 <= py p ->
    exists u t u' t' v v', w1 q = Some (u, t) /\ w1' q = Some (u', t') /\ tile_at ts q t p = Some v /\ tile_at ts q t' p = Some v' /\ level c v = level c' v' /\ pa v = pa v'.
Proof.
  intros Hp Hp' Hc Hc1 Ht Hh Hm Hdp Hr Hcm Hres Hrl Hh' Hm' Hdp' Hr' Hcm' Hres' Hrl' large large' Sv Tv Gl Sv' Tv' Gl' T enc enc'.
  destruct (glass_shown inflate kind procs h rsv cmd res neg pl sf pad gmask bs tail rest cpus ts Hp Hc Ht Hh Hm Hdp Hr Hcm Hres Hrl Sv Tv Gl) as (f & evs & D & _ & K).
  destruct (glass_shown inflate' kind' procs' h' rsv' cmd' res' neg' pl' sf' pad' gmask' bs' tail' rest' cpus1 ts Hp' Hc1 Ht Hh' Hm' Hdp' Hr' Hcm' Hres' Hrl' Sv' Tv' Gl') as (f' & evs' & D' & _ & K').
  exists f, evs, f', evs'. split; [exact D|]. split; [exact D'|]. clear D D'.
  intros st st' S L S' L' n n' r r' w0 w1 w0' w1' Hn Hn' W W' R R' q p Tq Tq' Hin P1 P2.
  destruct (K st S L n r w0 w1 Hn W R q p Tq Hin P1 P2) as (u & t & x & E & Lc & V). destruct (K' st' S' L' n' r' w0' w1' Hn' W' R' q p Tq' Hin P1 P2) as (u' & t' & x' & E' & Lc' & V').
  exists u, t, u', t', (stored (stored x)), (stored (stored x')). split; [exact E|]. split; [exact E'|]. split; [exact V|]. split; [exact V'|].
  destruct (all_sim (square ts q)) with (p := p) (c := c) (c' := c') as (_ & _ & _ & _ & Kl & _); [intros q' (_ & Q); exact Q|exact (conj Hin (conj P1 P2))|].
  destruct (Kl None sf nothing x) with (ts' := sf') (d' := nothing) as (y & Ly & Sy); [now apply Lc| |exact Logic.I|apply nothing_sim|].
  - clear -T Gl Gl'. destruct Gl as [Gl _], Gl' as [Gl' _]. induction T; constructor; inversion Gl; inversion Gl'; subst; [repeat split; assumption|auto].
  - apply Lc' in Ly. subst y. destruct (stored_sim _ _ _ _ (stored_sim _ _ _ _ Sy)) as [H _]. exact H.
Qed.
