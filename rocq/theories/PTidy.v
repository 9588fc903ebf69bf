(** Proofs: trees without their invisible layers, and with layers that do not overlap in another
    order, show the same picture. *)
From Coq Require Import String.
From Verif Require Import Base BaseFacts SUtil SConfig MRect MPicker MConfig MReader MLayer MApi SCompress SRecord SLayer XRecord PRecord3 PRecord4
  MSched MBlend MPorter SBlend PLum SPorter PPorter MWait MRender SRender MRenderAll SRenderAll MRenderPx PRenderPx
  MDraw MTile STile MLoad SLoad MPipe SPipe PPipe2 PPipe4 PPipe5 SSharp PSharp2 PSharp3 SGlass PGlass1 PGlass2 PGlass4 PTop SFrame PFrame STidy.
Close Scope string_scope.
Open Scope Z_scope.

Scheme tidied_tree_ind2 := Induction for tidied_tree Sort Prop with tidied_ind2 := Induction for tidied Sort Prop.
Combined Scheme tidied_both from tidied_tree_ind2, tidied_ind2.

(** ** Groups *)
Inductive tidied_groups : list (stree * list stree) -> list (stree * list stree) -> Prop :=
| tg_nil : tidied_groups [] []
| tg_keep t t' cs cs' gs gs' : tidied_tree t t' -> Forall2 tidied_tree cs cs' -> tidied_groups gs gs' -> tidied_groups ((t, cs) :: gs) ((t', cs') :: gs')
| tg_drop t cs gs gs' : invisible t -> tidied_groups gs gs' -> tidied_groups ((t, cs) :: gs) gs'
| tg_swap t1 cs1 t2 cs2 gs gs' : ~ mode_of t1 None -> ~ mode_of t2 None -> apart t1 t2 -> tidied_groups gs gs' ->
    tidied_groups ((t1, cs1) :: (t2, cs2) :: gs) ((t2, cs2) :: (t1, cs1) :: gs').

Lemma tt_rec t t' : tidied_tree t t' -> rec_of t' = rec_of t. Proof. now destruct 1. Qed.
Lemma tt_clips t t' : tidied_tree t t' -> clips t' = clips t. Proof. intros H. unfold clips. now rewrite (tt_rec _ _ H). Qed.
Lemma tt_mode t t' m : tidied_tree t t' -> mode_of t m -> mode_of t' m. Proof. destruct 1; auto. Qed.

Lemma lg_skip cs ts gs : all_clip cs -> layers_grouped ts gs -> layers_grouped (cs ++ ts) gs.
Proof. induction 1; intros H'; [exact H'|]. cbn [app]. constructor; auto. Qed.
Lemma lg_skip' cs ts gs : all_clip cs -> layers_grouped (cs ++ ts) gs -> layers_grouped ts gs.
Proof. induction 1 as [|c cs E _ IH]; intros H'; [exact H'|]. apply IH. inversion H'; subst; [assumption|congruence]. Qed.
Lemma lg_split t cs ts gs : clips t = false -> all_clip cs -> starts ts -> layers_grouped (t :: cs ++ ts) gs -> exists gs', gs = (t, cs) :: gs' /\ layers_grouped ts gs'.
Proof.
  intros E F N H. destruct (lg_exists (length ts) ts (le_n _)) as [gs' G]. exists gs'. split; [|exact G]. exact (lg_fun _ _ H _ (lg_base _ _ _ _ E F N G)).
Qed.
Lemma tidied_starts ts ts' : tidied ts ts' -> starts ts -> starts ts'.
Proof.
  induction 1 as [|t t' ts ts' H _ _|t cs ts ts' E F N I _ IH|]; intros S; cbn [starts] in *; auto. now rewrite (tt_clips _ _ H).
Qed.
Lemma tidied_clips cs : all_clip cs -> forall ts u, tidied (cs ++ ts) u -> exists cs' ts', u = cs' ++ ts' /\ Forall2 tidied_tree cs cs' /\ tidied ts ts'.
Proof.
  induction 1 as [|c cs E _ IH]; intros ts u H; [exists [], u; repeat split; [constructor|exact H]|]. cbn [app] in H. inversion H as [|? t' ? ts' Ht Hs|? ? ? ? E'|? ? ? ? ? ? E']; subst; try congruence.
  destruct (IH _ _ Hs) as (cs' & ts1 & -> & F & T). exists (t' :: cs'), ts1. repeat split; [now constructor|exact T].
Qed.
Lemma tt_all_clip cs cs' : Forall2 tidied_tree cs cs' -> all_clip cs -> all_clip cs'.
Proof. induction 1 as [|c c' cs cs' H _ IH]; intros F; constructor; inversion F; subst; [now rewrite (tt_clips _ _ H)|]. now apply IH. Qed.

Lemma tidied_grouped ts ts' : tidied ts ts' -> forall gs, layers_grouped ts gs -> exists gs', layers_grouped ts' gs' /\ tidied_groups gs gs'.
Proof.
  induction 1 as [|t t' ts ts' H Hs IH|t cs ts ts' E F N I _ IH|t1 cs1 t2 cs2 ts ts' E1 F1 E2 F2 N M1 M2 Ap T IH]; intros gs G.
  - inversion G; subst. exists []. split; constructor.
  - inversion G as [|? ? ? E G'|? cs ts0 gs0 E F N G']; subst.
    + destruct (IH _ G') as (gs' & G1 & G2). exists gs'. split; [|exact G2]. constructor; [now rewrite (tt_clips _ _ H)|exact G1].
    + destruct (IH gs0 (lg_skip _ _ _ F G')) as (gs' & G1 & G2). destruct (tidied_clips _ F _ _ Hs) as (cs' & ts1 & -> & Fc & Ts).
      pose proof (tt_all_clip _ _ Fc F) as F'. exists ((t', cs') :: gs'). split; [|now constructor].
      apply lg_base; [now rewrite (tt_clips _ _ H)|exact F'|exact (tidied_starts _ _ Ts N)|exact (lg_skip' _ _ _ F' G1)].
  - destruct (lg_split _ _ _ _ E F N G) as (gs' & -> & G'). destruct (IH _ G') as (gs2 & G1 & G2). exists gs2. split; [exact G1|now constructor].
  - destruct (lg_split _ _ _ _ E1 F1 (E2 : starts (t2 :: cs2 ++ ts)) G) as (gs1 & -> & G'). destruct (lg_split _ _ _ _ E2 F2 N G') as (gs2 & -> & G2).
    destruct (IH _ G2) as (gs' & G3 & G4). exists ((t2, cs2) :: (t1, cs1) :: gs'). split; [|now constructor].
    apply (lg_base t2 cs2 (t1 :: cs1 ++ ts')); [exact E2|exact F2|exact E1|]. apply lg_base; [exact E1|exact F1|exact (tidied_starts _ _ T N)|exact G3].
Qed.

Lemma tidied_refl t : tidied_tree t t.
Proof.
  induction t as [l|dv f c IH] using stree_ind2; constructor. induction IH; constructor; auto.
Qed.
Lemma clips_refl cs : Forall2 tidied_tree cs cs. Proof. induction cs; constructor; auto using tidied_refl. Qed.

(** ** What is drawn in the square *)
Lemma within_0 op : within op 0 = 0. Proof. now destruct op. Qed.
Lemma touches_picture A t op : touches A t op -> exists l q v, picture_in l t /\ leaf_value l q v /\ v <> nothing.
Proof.
  induction 1 as [l op q v _ _ _ H N|dv f c m op gs t cs _ _ _ G Hin _ (l & q & v & P & H & N)]; [exists l, q, v; repeat split; auto; constructor|].
  exists l, q, v. repeat split; auto. econstructor; [|exact P].
  revert Hin. clear -G. induction G as [|u ts gs E _ IH|u cs0 ts gs E F N _ IH]; intros Hin; [destruct Hin|right; auto|].
  destruct Hin as [[= -> ->]|Hin]; [now left|]. right. apply in_or_app. right. auto.
Qed.
Lemma touches_seen A t op : touches A t op -> hidden (rec_of t) = false /\ op <> 0.
Proof. destruct 1; auto. Qed.
Lemma invisible_no A t op : invisible t -> ~ touches A t (within op (sl_opacity (rec_of t))).
Proof.
  intros [H|[H|H]] T.
  - apply touches_seen in T. destruct T. congruence.
  - rewrite H, within_0 in T. apply touches_seen in T. now destruct T.
  - apply touches_picture in T. destruct T as (l & q & v & P & V & N). exact (N (H _ _ _ P V)).
Qed.

Lemma tg_forth gs gs' : tidied_groups gs gs' -> forall t cs, In (t, cs) gs -> invisible t \/ exists t' cs', In (t', cs') gs' /\ (tidied_tree t t' \/ t = t').
Proof.
  induction 1 as [|t t' cs cs' gs gs' H _ _ IH|t cs gs gs' I _ IH|t1 cs1 t2 cs2 gs gs' _ _ _ _ IH]; intros u us Hin.
  - destruct Hin.
  - destruct Hin as [[= <- <-]|Hin]; [right; exists t', cs'; split; [now left|now left]|]. destruct (IH _ _ Hin) as [X|(v & vs & X & Y)]; [now left|]. right. exists v, vs. split; [now right|exact Y].
  - destruct Hin as [[= <- <-]|Hin]; [now left|]. eauto.
  - destruct Hin as [[= <- <-]|[[= <- <-]|Hin]].
    + right. exists t1, cs1. split; [right; now left|now right].
    + right. exists t2, cs2. split; [now left|now right].
    + destruct (IH _ _ Hin) as [X|(v & vs & X & Y)]; [now left|]. right. exists v, vs. split; [right; now right|exact Y].
Qed.
Lemma tg_back gs gs' : tidied_groups gs gs' -> forall t cs, In (t, cs) gs' -> exists t' cs', In (t', cs') gs /\ (tidied_tree t' t \/ t = t').
Proof.
  induction 1 as [|t t' cs cs' gs gs' H _ _ IH|t cs gs gs' I _ IH|t1 cs1 t2 cs2 gs gs' _ _ _ _ IH]; intros u us Hin.
  - destruct Hin.
  - destruct Hin as [[= <- <-]|Hin]; [exists t, cs; split; [now left|now left]|]. destruct (IH _ _ Hin) as (v & vs & X & Y). exists v, vs. split; [now right|exact Y].
  - destruct (IH _ _ Hin) as (v & vs & X & Y). exists v, vs. split; [now right|exact Y].
  - destruct Hin as [[= <- <-]|[[= <- <-]|Hin]].
    + exists t2, cs2. split; [right; now left|now right].
    + exists t1, cs1. split; [now left|now right].
    + destruct (IH _ _ Hin) as (v & vs & X & Y). exists v, vs. split; [right; now right|exact Y].
Qed.
Lemma touches_forth A t op : touches A t op -> forall t', tidied_tree t t' -> touches A t' op.
Proof.
  induction 1 as [l op q v H O Q V N|dv f c m op gs t cs H O M G Hin T IH]; intros t' Ht; inversion Ht as [|? ? ? c' Hc]; subst; [now apply (touches_leaf A l op q v)|].
  destruct (tidied_grouped _ _ Hc _ G) as (gs' & G' & Tg). destruct (tg_forth _ _ Tg _ _ Hin) as [I|(u & us & Hu & [Y|<-])].
  - now apply invisible_no in T.
  - apply (touches_folder A dv f c' m op gs' u us); auto. rewrite (tt_rec _ _ Y). auto.
  - now apply (touches_folder A dv f c' m op gs' t us).
Qed.
Lemma touches_back A t op : touches A t op -> forall t', tidied_tree t' t -> touches A t' op.
Proof.
  induction 1 as [l op q v H O Q V N|dv f c' m op gs' t cs H O M G Hin T IH]; intros t' Ht; inversion Ht as [|? ? c ? Hc]; subst; [now apply (touches_leaf A l op q v)|].
  destruct (lg_exists (length c) c (le_n _)) as [gs G1]. destruct (tidied_grouped _ _ Hc _ G1) as (gs2 & G' & Tg). rewrite (lg_fun _ _ G _ G') in Hin.
  destruct (tg_back _ _ Tg _ _ Hin) as (u & us & Hu & [Y|<-]).
  - apply (touches_folder A dv f c m op gs u us); auto. rewrite <- (tt_rec _ _ Y). auto.
  - now apply (touches_folder A dv f c m op gs t us).
Qed.

(** ** What is not seen *)
Lemma masked_hide A p l d v : masked A p l false d nothing v -> v = nothing.
Proof.
  unfold masked. destruct (has_mask l); [|auto]. intros (m & s' & _ & H & ->).
  destruct H as [[_ ->]|[_ [[_ ->]|[_ ->]]]]; auto using pdmask_nothing.
Qed.
Lemma blank_image A p t op d v m : blank_at p t -> glass_tree t -> image A p t op d v -> mode_of t (Some m) -> v = nothing.
Proof.
  intros B G Im M. destruct Im as [l op d s v Hl Hm|dv f c m' op d s v Hf L Hm|dv f c op d s v Hf L Hm].
  - rewrite (B l s) in Hm by (constructor || exact Hl). rewrite stored_nothing in Hm. now apply masked_hide in Hm.
  - inversion G; subst. rewrite (blank_laid A p _ _ _ _ L (blank_content _ _ _ _ B)) in Hm; auto; [now apply masked_hide in Hm|exact I].
  - exfalso. cbn [mode_of] in M. pose proof (folder_mode_fun _ _ _ Hf M). discriminate.
Qed.
Lemma topped_nothing A p t cs v : topped A p t cs nothing v -> v = nothing.
Proof. inversion 1; subst; [reflexivity|]. apply pdpx_in_nothing. Qed.
(** What has no pixel at the point leaves everything as it is. *)
Lemma put_blank A p t cs op d d' : blank_at p t -> glass_tree t -> byte op -> pixel_ok d -> (mode_of t None -> ~ touches A t op) -> put A p t cs op d d' -> d' = d.
Proof.
  intros B G Ho Hd N. destruct 1 as [|t cs m op d v v' _ _ M Im Tp|t cs op d v v' _ _ M T|]; auto.
  - rewrite (blank_image _ _ _ _ _ _ _ B G Im M) in Tp. rewrite (topped_nothing _ _ _ _ _ Tp). now apply blended_nothing.
  - now destruct (N M).
Qed.
(** It does so with any picture below. *)
Lemma put_blank_any A p t cs op d d' e : blank_at p t -> glass_tree t -> byte op -> pixel_ok e -> ~ mode_of t None -> put A p t cs op d d' -> put A p t cs op e e.
Proof.
  intros B G Ho He N. destruct 1 as [|t cs m op d v v' H O M Im Tp|t cs op d v v' _ _ M T|t cs op d M]; [now apply put_unseen| |easy|easy].
  pose proof (blank_image _ _ _ _ _ _ _ B G Im M) as ->. pose proof (topped_nothing _ _ _ _ _ Tp) as ->.
  rewrite <- (blended_nothing m op e Ho He) at 2. apply (put_over A p t cs m op e nothing nothing); auto.
  destruct Im as [l op d s v Hl Hm|dv f c m' op d s v Hf L Hm|dv f c op d s v Hf L Hm].
  - econstructor; [exact Hl|exact Hm].
  - eapply image_folder; [exact Hf|exact L|exact Hm].
  - destruct (N Hf).
Qed.
Lemma picture_dec p t : {exists l, picture_in l t /\ pt_in p (sl_rect l) = true} + {forall l, picture_in l t -> pt_in p (sl_rect l) = false}.
Proof.
  revert t. fix F 1. intros [l|dv f c].
  - destruct (pt_in p (sl_rect l)) eqn:E; [left; exists l; split; [constructor|exact E]|]. right. intros l' H. inversion H; subst. exact E.
  - assert (G : {exists t l, In t c /\ picture_in l t /\ pt_in p (sl_rect l) = true} + {forall t l, In t c -> picture_in l t -> pt_in p (sl_rect l) = false}).
    { induction c as [|t c IH]; [right; intros t l []|]. destruct (F t) as [Y|Y]; [left; destruct Y as (l & Y); exists t, l; split; [now left|exact Y]|].
      destruct IH as [Z|Z]; [left; destruct Z as (u & l & Z1 & Z2); exists u, l; split; [now right|exact Z2]|]. right. intros u l [<-|Hin]; [apply Y|now apply (Z u)]. }
    destruct G as [Y|Y].
    + left. destruct Y as (t & l & Hin & P & E). exists l. split; [|exact E]. econstructor; [exact Hin|exact P].
    + right. intros l H. inversion H; subst. eauto.
Defined.
Lemma apart_blank p t1 t2 : apart t1 t2 -> blank_at p t1 \/ blank_at p t2.
Proof.
  intros H. assert (out : forall t, (forall l, picture_in l t -> pt_in p (sl_rect l) = false) -> blank_at p t).
  { intros t K l v P V. unfold leaf_value in V. rewrite (K _ P) in V. exact V. }
  destruct (picture_dec p t1) as [(l & P & E)|N]; [|left; now apply out]. right. apply out. intros l' P'. destruct (pt_in p (sl_rect l')) eqn:E'; [|reflexivity]. destruct (H l l' p P P' E E').
Qed.

(** ** The pictures *)
Lemma all_tidied (A : point -> Prop) p :
  (forall t op d v, image A p t op d v -> glass_tree t -> byte op -> pixel_ok d -> forall t', tidied_tree t t' -> image A p t' op d v) /\
  (forall t cs op d d', put A p t cs op d d' -> glass_tree t -> Forall glass_tree cs -> byte op -> pixel_ok d -> forall t' cs', tidied_tree t t' -> Forall2 tidied_tree cs cs' -> put A p t' cs' op d d') /\
  (forall t cs v v', topped A p t cs v v' -> Forall glass_tree cs -> pixel_ok v -> forall t' cs', tidied_tree t t' -> Forall2 tidied_tree cs cs' -> topped A p t' cs' v v') /\
  (forall cs x y, clips_on A p cs x y -> Forall glass_tree cs -> pixel_ok x -> forall cs', Forall2 tidied_tree cs cs' -> clips_on A p cs' x y) /\
  (forall op ts d d', laid A p op ts d d' -> Forall glass_tree ts -> opB op -> pixel_ok d -> forall ts', tidied ts ts' -> laid A p op ts' d d') /\
  (forall op gs d d', heaped A p op gs d d' -> (forall t cs, In (t, cs) gs -> glass_tree t /\ Forall glass_tree cs) -> opB op -> pixel_ok d -> forall gs', tidied_groups gs gs' -> heaped A p op gs' d d').
Proof.
  destruct (all_ok A p) as (Ki & Kp & Kt & Kc & Kl & Kh).
  apply (glass_ind A p (fun t op d v _ => glass_tree t -> byte op -> pixel_ok d -> forall t', tidied_tree t t' -> image A p t' op d v)
    (fun t cs op d d' _ => glass_tree t -> Forall glass_tree cs -> byte op -> pixel_ok d -> forall t' cs', tidied_tree t t' -> Forall2 tidied_tree cs cs' -> put A p t' cs' op d d')
    (fun t cs v v' _ => Forall glass_tree cs -> pixel_ok v -> forall t' cs', tidied_tree t t' -> Forall2 tidied_tree cs cs' -> topped A p t' cs' v v')
    (fun cs x y _ => Forall glass_tree cs -> pixel_ok x -> forall cs', Forall2 tidied_tree cs cs' -> clips_on A p cs' x y)
    (fun op ts d d' _ => Forall glass_tree ts -> opB op -> pixel_ok d -> forall ts', tidied ts ts' -> laid A p op ts' d d')
    (fun op gs d d' _ => (forall t cs, In (t, cs) gs -> glass_tree t /\ Forall glass_tree cs) -> opB op -> pixel_ok d -> forall gs', tidied_groups gs gs' -> heaped A p op gs' d d')).
  - intros l op d s v Hl Hm G Ho Hd t' Ht. inversion Ht; subst. eapply image_leaf; eauto.
  - intros dv f c m op d s v Hf L IH Hm G Ho Hd t' Ht. inversion Ht as [|? ? ? c' Hc]; subst. inversion G; subst. eapply image_folder; [exact Hf| |exact Hm]. apply IH; auto; [exact I|exact nothing_ok].
  - intros dv f c op d s v Hf L IH Hm G Ho Hd t' Ht. inversion Ht as [|? ? ? c' Hc]; subst. inversion G; subst. eapply image_through; [exact Hf| |exact Hm]. apply IH; auto. now apply stored_ok.
  - intros t cs op d H G Gc Ho Hd t' cs' Ht _. apply put_unseen. now rewrite (tt_rec _ _ Ht).
  - intros t cs m op d v v' H O M Im IH1 Tp IH2 G Gc Ho Hd t' cs' Ht Hc. apply (put_over A p t' cs' m op d v v'); auto; [now rewrite (tt_rec _ _ Ht)|now apply (tt_mode _ _ _ Ht)|].
    apply IH2; auto. exact (Ki _ _ _ _ Im G Ho Hd).
  - intros t cs op d v v' H O M T Im IH1 Tp IH2 G Gc Ho Hd t' cs' Ht Hc. apply (put_through A p t' cs' op d v v'); auto; [now rewrite (tt_rec _ _ Ht)|now apply (tt_mode _ _ _ Ht)|exact (touches_forth _ _ _ T _ Ht)|].
    apply IH2; auto. exact (Ki _ _ _ _ Im G Ho Hd).
  - intros t cs op d M N G Gc Ho Hd t' cs' Ht Hc. apply put_away; [now apply (tt_mode _ _ _ Ht)|]. intros T. apply N. exact (touches_back _ _ _ T _ Ht).
  - intros t cs v H G Hv t' cs' Ht Hc. apply topped_alone. rewrite (tt_rec _ _ Ht). destruct H as [-> |H]; [left; now inversion Hc|now right].
  - intros t cs v x N Bg Cl IH G Hv t' cs' Ht Hc. apply topped_group; [intros ->; apply N; now inversion Hc|now rewrite (tt_rec _ _ Ht)|]. apply IH; auto. now apply opaque_ok, stored_ok.
  - intros x G Hx cs' Hc. inversion Hc; subst. constructor.
  - intros t cs x y z P IH1 C IH2 G Hx cs' Hc. inversion Hc as [|? t' ? cs1 Ht Hc']; subst. apply Forall_cons_iff in G. destruct G as [G1 G2].
    apply (clips_next A p t' cs1 x y z); [|apply IH2; auto; exact (Kp _ _ _ _ _ P G1 (Forall_nil _) (glass_opacity _ G1) Hx)]. rewrite (tt_rec _ _ Ht). apply IH1; auto. now apply glass_opacity.
  - intros op ts gs d d' L H IH G Ho Hd ts' Ht. destruct (tidied_grouped _ _ Ht _ L) as (gs' & L' & Tg). apply (laid_groups A p op ts' gs'); [exact L'|]. apply IH; auto. eapply grouped_glass; eauto.
  - intros op d G Ho Hd gs' Tg. inversion Tg; subst. constructor.
  - intros op t cs gs d1 d2 d3 P IH1 H IH2 G Ho Hd gs' Tg.
    destruct (G t cs (or_introl eq_refl)) as [G1 G2]. assert (Bo : byte (within op (sl_opacity (rec_of t)))) by (apply within_byte; [exact Ho|apply (glass_opacity _ G1)]).
    pose proof (Kp _ _ _ _ _ P G1 G2 Bo Hd) as Hd2. assert (Gr : forall t' cs', In (t', cs') gs -> glass_tree t' /\ Forall glass_tree cs') by (intros; apply G; now right).
    inversion Tg as [|? t' ? cs' ? gs1 Ht Hc Tg'|? ? ? ? I Tg'|? ? t2 cs2 gs0 gs1 M1 M2 Ap Tg']; subst.
    + apply (heaped_cons A p op t' cs' gs1 d1 d2 d3); [|auto]. rewrite (tt_rec _ _ Ht). auto.
    + assert (d2 = d1) as ->; [|auto]. destruct I as [I|[I|I]].
      * inversion P; subst; congruence.
      * rewrite I, within_0 in P. inversion P; subst; congruence.
      * apply (put_blank A p t cs _ _ _ (fun l v => I l p v) G1 Bo Hd) in P; [exact P|]. intros _. apply invisible_no. right. now right.
    + destruct (G t2 cs2 (or_intror (or_introl eq_refl))) as [G3 G4]. assert (Bo2 : byte (within op (sl_opacity (rec_of t2)))) by (apply within_byte; [exact Ho|apply (glass_opacity _ G3)]).
      assert (Tr : tidied_groups ((t2, cs2) :: gs0) ((t2, cs2) :: gs1)) by (constructor; [apply tidied_refl|apply clips_refl|exact Tg']).
      specialize (IH2 Gr Ho Hd2 _ Tr). inversion IH2 as [|? ? ? ? ? e ? P2 H2]; subst. pose proof (Kp _ _ _ _ _ P2 G3 G4 Bo2 Hd2) as He.
      destruct (apart_blank p _ _ Ap) as [B|B].
      * pose proof (put_blank _ _ _ _ _ _ _ B G1 Bo Hd (fun M => False_ind _ (M1 M)) P). subst d2.
        apply (heaped_cons A p op t2 cs2 _ d1 e d3); [exact P2|]. apply (heaped_cons A p op t cs gs1 e e d3); [|exact H2]. exact (put_blank_any _ _ _ _ _ _ _ e B G1 Bo He M1 P).
      * pose proof (put_blank _ _ _ _ _ _ _ B G3 Bo2 Hd2 (fun M => False_ind _ (M2 M)) P2). subst e.
        apply (heaped_cons A p op t2 cs2 _ d1 d1 d3); [exact (put_blank_any _ _ _ _ _ _ _ d1 B G3 Bo2 Hd M2 P2)|]. apply (heaped_cons A p op t cs gs1 d1 d2 d3); [exact P|exact H2].
Qed.

(** ** From the bytes to the pixels *)
Lemma tidy_shown inflate kind procs h rsv cmd res neg pl sf pad gmask bs tail rest inflate' kind' procs' h' rsv' cmd' res' neg' pl' sf' pad' gmask' bs' tail' rest' cpus cpus1 ts :
  (1 <= procs)%nat -> (1 <= procs')%nat -> (1 <= cpus)%nat -> (1 <= cpus1)%nat -> 0 < ts ->
  header_valid h -> h_mode h = 3 -> h_depth h = 8 -> zlen rsv = 6 -> zlen cmd < 4294967296 ->
  Forall rblock_valid res -> zlen (enc_rblocks res) < 4294967296 ->
  header_valid h' -> h_mode h' = 3 -> h_depth h' = 8 -> zlen rsv' = 6 -> zlen cmd' < 4294967296 ->
  Forall rblock_valid res' -> zlen (enc_rblocks res') < 4294967296 ->
  let large := h_version h =? 2 in let large' := h_version h' =? 2 in
  section_valid inflate large neg 8 3 pl (flat_map sflatten sf) pad gmask bs tail -> Forall stree_valid sf -> glass_forest sf ->
  section_valid inflate' large' neg' 8 3 pl' (flat_map sflatten sf') pad' gmask' bs' tail' -> Forall stree_valid sf' -> glass_forest sf' ->
  tidied sf sf' ->
  let enc := enc_config h rsv cmd res ++ enc_section large neg pl (flat_map sflatten sf) pad gmask bs tail in
  let enc' := enc_config h' rsv' cmd' res' ++ enc_section large' neg' pl' (flat_map sflatten sf') pad' gmask' bs' tail' in
  exists f evs f' evs', Decode inflate kind procs newOptions (enc ++ rest) = (Ok (f, zlen enc, rest), evs) /\ Decode inflate' kind' procs' newOptions (enc' ++ rest') = (Ok (f', zlen enc', rest'), evs') /\
    forall st st', MWait.steps (lstep cpus ts) (lstart (map (fun e => playerOf (ev_layer e)) evs)) st -> lended st ->
    MWait.steps (lstep cpus1 ts) (lstart (map (fun e => playerOf (ev_layer e)) evs')) st' -> lended st' ->
    forall n n' r r' w0 w1 w0' w1', (1 <= n)%nat -> (1 <= n')%nat -> new w0 -> new w0' ->
    renderedPx ts (ldImages st) n ts r false (rootOf (ldCopied st) (f_layer f)) w0 w1 ->
    renderedPx ts (ldImages st') n' ts r' false (rootOf (ldCopied st') (f_layer f')) w0' w1' ->
    forall q p, tileOf ts r q -> tileOf ts r' q -> in_tile ts q p -> 0 <= MRect.px p -> 0 <= py p ->
    exists u t u' t' v, w1 q = Some (u, t) /\ w1' q = Some (u', t') /\ tile_at ts q t p = Some v /\ tile_at ts q t' p = Some v.
Proof.
  intros Hp Hp' Hc Hc1 Ht Hh Hm Hdp Hr Hcm Hres Hrl Hh' Hm' Hdp' Hr' Hcm' Hres' Hrl' large large' Sv Tv Gl Sv' Tv' Gl' T enc enc'.
  destruct (glass_shown inflate kind procs h rsv cmd res neg pl sf pad gmask bs tail rest cpus ts Hp Hc Ht Hh Hm Hdp Hr Hcm Hres Hrl Sv Tv Gl) as (f & evs & D & _ & K).
  destruct (glass_shown inflate' kind' procs' h' rsv' cmd' res' neg' pl' sf' pad' gmask' bs' tail' rest' cpus1 ts Hp' Hc1 Ht Hh' Hm' Hdp' Hr' Hcm' Hres' Hrl' Sv' Tv' Gl') as (f' & evs' & D' & _ & K').
  exists f, evs, f', evs'. split; [exact D|]. split; [exact D'|]. clear D D'.
  intros st st' S L S' L' n n' r r' w0 w1 w0' w1' Hn Hn' W W' R R' q p Tq Tq' Hin P1 P2.
  destruct (K st S L n r w0 w1 Hn W R q p Tq Hin P1 P2) as (u & t & c & E & Lc & V). destruct (K' st' S' L' n' r' w0' w1' Hn' W' R' q p Tq' Hin P1 P2) as (u' & t' & c' & E' & Lc' & V').
  exists u, t, u', t', (stored (stored c)). split; [exact E|]. split; [exact E'|]. split; [exact V|].
  assert (c = c') as ->; [|exact V']. apply Lc'. destruct (all_tidied (square ts q) p) as (_ & _ & _ & _ & Kl & _).
  apply (Kl None sf nothing c); [now apply Lc|exact (proj1 Gl)|exact I|exact nothing_ok|exact T].
Qed.
