(** Proofs: files whose layers show the same look the same. *)
From Coq Require Import String.
From Verif Require Import Base BaseFacts SUtil SConfig MRect MPicker MConfig MReader MLayer MApi SCompress SRecord SLayer XRecord PRecord3 PRecord4
  MSched MBlend MPorter SBlend PLum SPorter PPorter MWait MRender SRender MRenderAll SRenderAll MRenderPx PRenderPx
  MDraw MTile STile MLoad SLoad MPipe SPipe PPipe2 PPipe4 PPipe5 SSharp PSharp2 PSharp3 SGlass PGlass1 PGlass2 PGlass4 PTop SLook.
Close Scope string_scope.
Open Scope Z_scope.

Lemma looks_ind2 (P : stree -> stree -> Prop) :
  (forall l l', same_switches l l' -> same_mask False l l' -> (forall m, leaf_mode l m <-> leaf_mode l' m) -> (forall q v, in_sight q -> leaf_value l q v <-> leaf_value l' q v) -> P (SLeaf l) (SLeaf l')) ->
  (forall dv f c dv' f' c', same_switches f f' -> same_mask (folder_mode f None) f f' -> (forall m, folder_mode f m <-> folder_mode f' m) -> Forall2 looks c c' -> Forall2 P c c' -> P (SFolder dv f c) (SFolder dv' f' c')) ->
  forall t t', looks t t' -> P t t'.
Proof.
  intros H1 H2. fix F 3. intros t t' [l l' A B C D|dv f c dv' f' c' A B C D]; [now apply H1|]. apply H2; auto. clear -D F. induction D; constructor; auto.
Qed.
Lemma switches_sym l l' : same_switches l l' -> same_switches l' l.
Proof. unfold same_switches. intuition. Qed.
Lemma mask_sym (T T' : Prop) l l' : (T' -> T) -> same_mask T l l' -> same_mask T' l' l.
Proof.
  intros E [[H K]|(N & H & K)]; [left|right; tauto]. split; [now rewrite H|]. intros M. rewrite <- H in M. destruct (K M) as [C V]. split; [tauto|]. intros q v S. symmetry. auto.
Qed.
Lemma looks_sym t t' : looks t t' -> looks t' t.
Proof.
  revert t t'. apply looks_ind2.
  - intros l l' S M L V. apply looks_leaf; [now apply switches_sym|now apply (mask_sym False)|intros m; symmetry; auto|intros q v Q; symmetry; auto].
  - intros dv f c dv' f' c' S M L _ IH. apply looks_folder; [now apply switches_sym|apply (mask_sym (folder_mode f None)); [apply L|exact M]|intros m; symmetry; auto|].
    clear -IH. induction IH; constructor; auto.
Qed.
Lemma looks_rec t t' : looks t t' -> same_switches (rec_of t) (rec_of t'). Proof. now destruct 1. Qed.
Lemma looks_clips t t' : looks t t' -> clips t' = clips t.
Proof. intros H. apply looks_rec in H. destruct H as (_ & _ & H & _). unfold clips. f_equal. destruct (Z.eqb_spec (sl_clip (rec_of t)) 0), (Z.eqb_spec (sl_clip (rec_of t')) 0); tauto. Qed.
Lemma looks_mode t t' m : looks t t' -> mode_of t m -> mode_of t' m.
Proof. destruct 1 as [l l' _ _ L _|dv f c dv' f' c' _ _ L _]; cbn [mode_of]; [destruct m; [apply L|auto]|apply L]. Qed.
Lemma looks_hidden t t' : looks t t' -> hidden (rec_of t') = hidden (rec_of t). Proof. intros H. apply looks_rec in H. symmetry. apply H. Qed.
Lemma looks_opacity t t' : looks t t' -> sl_opacity (rec_of t') = sl_opacity (rec_of t). Proof. intros H. apply looks_rec in H. symmetry. apply H. Qed.
Lemma looks_blends t t' : looks t t' -> blends_group (rec_of t') = blends_group (rec_of t). Proof. intros H. apply looks_rec in H. symmetry. apply H. Qed.

(** ** Groups *)
Definition looksG (g g' : stree * list stree) : Prop := looks (fst g) (fst g') /\ Forall2 looks (snd g) (snd g').
Lemma looks_grouped ts gs : layers_grouped ts gs -> forall ts', Forall2 looks ts ts' -> exists gs', layers_grouped ts' gs' /\ Forall2 looksG gs gs'.
Proof.
  induction 1 as [|t ts gs E _ IH|t cs ts gs E F N _ IH]; intros ts' H.
  - inversion H; subst. exists []. split; constructor.
  - inversion H as [|? t' ? ts1 Ht Hs]; subst. destruct (IH _ Hs) as (gs' & G & K). exists gs'. split; [|exact K]. constructor; [now rewrite (looks_clips _ _ Ht)|exact G].
  - inversion H as [|? t' ? ts1 Ht Hs]; subst. apply Forall2_app_inv_l in Hs. destruct Hs as (cs' & ts2 & Hc & Hs & ->). destruct (IH _ Hs) as (gs' & G & K).
    exists ((t', cs') :: gs'). split; [|constructor; [split; assumption|exact K]]. apply lg_base; [now rewrite (looks_clips _ _ Ht)| | |exact G].
    + clear -F Hc. induction Hc as [|c c' cs cs' H _ IH]; constructor; inversion F; subst; [now rewrite (looks_clips _ _ H)|auto].
    + destruct Hs as [|u u' us us' Hu _]; [exact I|]. now rewrite (looks_clips _ _ Hu).
Qed.
Lemma looksG_in gs gs' : Forall2 looksG gs gs' -> forall t cs, In (t, cs) gs -> exists t' cs', In (t', cs') gs' /\ looks t t'.
Proof.
  induction 1 as [|[u us] [u' us'] gs gs' [H _] _ IH]; intros t cs Hi; [destruct Hi|]. destruct Hi as [[= <- <-]|Hi]; [exists u', us'; split; [now left|exact H]|].
  destruct (IH _ _ Hi) as (t' & cs' & Hi' & L). exists t', cs'. split; [now right|exact L].
Qed.

(** ** Pictures *)
Section square.
  Variable A : point -> Prop.
  Hypothesis sight : forall q, A q -> in_sight q.
  Lemma looks_touches t op : touches A t op -> forall t', looks t t' -> touches A t' op.
  Proof.
    induction 1 as [l op q v H O Q V N|dv f c m op gs t cs H O M G Hin T IH]; intros t' L.
    - pose proof (looks_hidden _ _ L) as E. inversion L as [? l' _ _ _ K|]; subst. apply (touches_leaf A l' op q v); auto; [now rewrite <- H|]. apply K; auto.
    - pose proof (looks_hidden _ _ L) as E. inversion L as [|? ? ? dv' f' c' _ _ K C]; subst. destruct (looks_grouped _ _ G _ C) as (gs' & G' & Hg). destruct (looksG_in _ _ Hg _ _ Hin) as (u & us & Hu & Lu).
      apply (touches_folder A dv' f' c' m op gs' u us); auto; [now rewrite <- H|now apply K|]. rewrite (looks_opacity _ _ Lu). auto.
  Qed.
  Lemma lets_all_masked l p d s v : A p -> lets_all l -> masked A p l false d s v <-> v = s.
  Proof.
    intros Ap La. unfold masked. destruct (has_mask l) eqn:M; [|tauto]. destruct (La M) as [C W]. split.
    - intros (m & s' & _ & H & ->). destruct H as [[C' _]|[_ [[(q & m' & Q & K & N) _]|[_ ->]]]]; [congruence| |reflexivity]. destruct N. exact (mask_only _ _ _ _ K (W q (sight q Q))).
    - intros ->. exists 255, s. split; [auto|]. split; [|reflexivity]. right. split; [exact C|]. right. split; auto.
  Qed.
  Lemma looks_masked (T : Prop) l l' p th d s v : (th = true -> T) -> A p -> same_mask T l l' -> masked A p l th d s v -> masked A p l' th d s v.
  Proof.
    intros Hth Ap [[E K]|(N & L & L')].
    - unfold masked. rewrite <- E. destruct (has_mask l); [|auto]. destruct (K eq_refl) as [C V]. intros (m & s' & M & H & ->). exists m, s'. split; [apply V; auto|]. split; [|reflexivity].
      destruct H as [[C' ->]|[C' [[(q & m' & Q & K' & N) ->]|[W ->]]]]; [left; tauto| |]; (right; split; [tauto|]); [left|right].
      + split; [|reflexivity]. exists q, m'. split; [exact Q|]. split; [|exact N]. apply V; auto.
      + split; [|reflexivity]. intros q Q. apply V; auto.
    - destruct th; [destruct (N (Hth eq_refl))|]. rewrite !lets_all_masked by assumption. auto.
  Qed.

  Variable p : point.
  Hypothesis here : A p.
  Lemma all_looks :
    (forall t op d v, image A p t op d v -> forall t', looks t t' -> image A p t' op d v) /\
    (forall t cs op d d', put A p t cs op d d' -> forall t' cs', looks t t' -> Forall2 looks cs cs' -> put A p t' cs' op d d') /\
    (forall t cs v v', topped A p t cs v v' -> forall t' cs', looks t t' -> Forall2 looks cs cs' -> topped A p t' cs' v v') /\
    (forall cs x y, clips_on A p cs x y -> forall cs', Forall2 looks cs cs' -> clips_on A p cs' x y) /\
    (forall op ts d d', laid A p op ts d d' -> forall ts', Forall2 looks ts ts' -> laid A p op ts' d d') /\
    (forall op gs d d', heaped A p op gs d d' -> forall gs', Forall2 looksG gs gs' -> heaped A p op gs' d d').
  Proof.
    apply (glass_ind A p (fun t op d v _ => forall t', looks t t' -> image A p t' op d v)
      (fun t cs op d d' _ => forall t' cs', looks t t' -> Forall2 looks cs cs' -> put A p t' cs' op d d')
      (fun t cs v v' _ => forall t' cs', looks t t' -> Forall2 looks cs cs' -> topped A p t' cs' v v')
      (fun cs x y _ => forall cs', Forall2 looks cs cs' -> clips_on A p cs' x y)
      (fun op ts d d' _ => forall ts', Forall2 looks ts ts' -> laid A p op ts' d d')
      (fun op gs d d' _ => forall gs', Forall2 looksG gs gs' -> heaped A p op gs' d d')).
    - intros l op d s v Hl Hm t' L. inversion L as [? l' _ M _ V|]; subst. apply (image_leaf A p l' op d s v); [apply V; auto|]. eapply looks_masked; [|exact here|exact M|exact Hm]. discriminate.
    - intros dv f c m op d s v Hf La IH Hm t' L. inversion L as [|? ? ? dv' f' c' _ M K C]; subst. apply (image_folder A p dv' f' c' m op d s v); [now apply K|auto|]. eapply looks_masked; [|exact here|exact M|exact Hm]. discriminate.
    - intros dv f c op d s v Hf La IH Hm t' L. inversion L as [|? ? ? dv' f' c' _ M K C]; subst. apply (image_through A p dv' f' c' op d s v); [now apply K|auto|]. eapply looks_masked; [|exact here|exact M|exact Hm]. auto.
    - intros t cs op d H t' cs' L _. apply put_unseen. now rewrite (looks_hidden _ _ L).
    - intros t cs m op d v v' H O M Im IH1 Tp IH2 t' cs' L C. apply (put_over A p t' cs' m op d v v'); auto; [now rewrite (looks_hidden _ _ L)|now apply (looks_mode _ _ _ L)].
    - intros t cs op d v v' H O M T Im IH1 Tp IH2 t' cs' L C. apply (put_through A p t' cs' op d v v'); auto; [now rewrite (looks_hidden _ _ L)|now apply (looks_mode _ _ _ L)|exact (looks_touches _ _ T _ L)].
    - intros t cs op d M N t' cs' L C. apply put_away; [now apply (looks_mode _ _ _ L)|]. intros T. apply N. exact (looks_touches _ _ T _ (looks_sym _ _ L)).
    - intros t cs v H t' cs' L C. apply topped_alone. rewrite (looks_blends _ _ L). destruct H as [-> |H]; [left; now inversion C|now right].
    - intros t cs v x N B Cl IH t' cs' L C. apply topped_group; [intros ->; apply N; now inversion C|now rewrite (looks_blends _ _ L)|auto].
    - intros x cs' C. inversion C; subst. constructor.
    - intros t cs x y z P IH1 Cl IH2 cs' C. inversion C as [|? t' ? cs1 L C']; subst. apply (clips_next A p t' cs1 x y z); [|auto]. rewrite (looks_opacity _ _ L). auto.
    - intros op ts gs d d' G H IH ts' C. destruct (looks_grouped _ _ G _ C) as (gs' & G' & K). exact (laid_groups A p op ts' gs' d d' G' (IH _ K)).
    - intros op d gs' C. inversion C; subst. constructor.
    - intros op t cs gs d1 d2 d3 P IH1 H IH2 gs' C. inversion C as [|? [t' cs'] ? gs1 [L Lc] C']; subst. cbn [fst snd] in *.
      apply (heaped_cons A p op t' cs' gs1 d1 d2 d3); [|auto]. rewrite (looks_opacity _ _ L). auto.
  Qed.
End square.

(** ** From the bytes to the pixels *)
Lemma looks_shown inflate kind procs h rsv cmd res neg pl sf pad gmask bs tail rest inflate' kind' procs' h' rsv' cmd' res' neg' pl' sf' pad' gmask' bs' tail' rest' cpus cpus1 ts :
  (1 <= procs)%nat -> (1 <= procs')%nat -> (1 <= cpus)%nat -> (1 <= cpus1)%nat -> 0 < ts ->
  header_valid h -> h_mode h = 3 -> h_depth h = 8 -> zlen rsv = 6 -> zlen cmd < 4294967296 ->
  Forall rblock_valid res -> zlen (enc_rblocks res) < 4294967296 ->
  header_valid h' -> h_mode h' = 3 -> h_depth h' = 8 -> zlen rsv' = 6 -> zlen cmd' < 4294967296 ->
  Forall rblock_valid res' -> zlen (enc_rblocks res') < 4294967296 ->
  let large := h_version h =? 2 in let large' := h_version h' =? 2 in
  section_valid inflate large neg 8 3 pl (flat_map sflatten sf) pad gmask bs tail -> Forall stree_valid sf -> glass_forest sf ->
  section_valid inflate' large' neg' 8 3 pl' (flat_map sflatten sf') pad' gmask' bs' tail' -> Forall stree_valid sf' -> glass_forest sf' ->
  Forall2 looks sf sf' ->
  let enc := enc_config h rsv cmd res ++ enc_section large neg pl (flat_map sflatten sf) pad gmask bs tail in
  let enc' := enc_config h' rsv' cmd' res' ++ enc_section large' neg' pl' (flat_map sflatten sf') pad' gmask' bs' tail' in
  exists f evs f' evs', Decode inflate kind procs newOptions (enc ++ rest) = (Ok (f, zlen enc, rest), evs) /\ Decode inflate' kind' procs' newOptions (enc' ++ rest') = (Ok (f', zlen enc', rest'), evs') /\
    forall st st', MWait.steps (lstep cpus ts) (lstart (map (fun e => playerOf (ev_layer e)) evs)) st -> lended st ->
    MWait.steps (lstep cpus1 ts) (lstart (map (fun e => playerOf (ev_layer e)) evs')) st' -> lended st' ->
    forall n n' r r' w0 w1 w0' w1', (1 <= n)%nat -> (1 <= n')%nat -> new w0 -> new w0' ->
    renderedPx ts (ldImages st) n ts r false (rootOf (ldCopied st) (f_layer f)) w0 w1 ->
    renderedPx ts (ldImages st') n' ts r' false (rootOf (ldCopied st') (f_layer f')) w0' w1' ->
    forall q p, tileOf ts r q -> tileOf ts r' q -> in_tile ts q p -> 0 <= MRect.px p -> 0 <= py p ->
    exists u t u' t' v, w1 q = Some (u, t) /\ w1' q = Some (u', t') /\ tile_at ts q t p = Some v /\ tile_at ts q t' p = Some v.
Proof.
  intros Hp Hp' Hc Hc1 Ht Hh Hm Hdp Hr Hcm Hres Hrl Hh' Hm' Hdp' Hr' Hcm' Hres' Hrl' large large' Sv Tv Gl Sv' Tv' Gl' T enc enc'.
  destruct (glass_shown inflate kind procs h rsv cmd res neg pl sf pad gmask bs tail rest cpus ts Hp Hc Ht Hh Hm Hdp Hr Hcm Hres Hrl Sv Tv Gl) as (f & evs & D & _ & K).
  destruct (glass_shown inflate' kind' procs' h' rsv' cmd' res' neg' pl' sf' pad' gmask' bs' tail' rest' cpus1 ts Hp' Hc1 Ht Hh' Hm' Hdp' Hr' Hcm' Hres' Hrl' Sv' Tv' Gl') as (f' & evs' & D' & _ & K').
  exists f, evs, f', evs'. split; [exact D|]. split; [exact D'|]. clear D D'.
  intros st st' S L S' L' n n' r r' w0 w1 w0' w1' Hn Hn' W W' R R' q p Tq Tq' Hin P1 P2.
  destruct (K st S L n r w0 w1 Hn W R q p Tq Hin P1 P2) as (u & t & c & E & Lc & V). destruct (K' st' S' L' n' r' w0' w1' Hn' W' R' q p Tq' Hin P1 P2) as (u' & t' & c' & E' & Lc' & V').
  exists u, t, u', t', (stored (stored c)). split; [exact E|]. split; [exact E'|]. split; [exact V|].
  assert (c = c') as ->; [|exact V']. apply Lc'. destruct (all_looks (square ts q)) with (p := p) as (_ & _ & _ & _ & Kl & _); [intros q' (_ & Q); exact Q|exact (conj Hin (conj P1 P2))|].
  apply (Kl None sf nothing c); [now apply Lc|exact T].
Qed.
