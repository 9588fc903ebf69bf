(** Proofs: a pass-through folder over an opaque picture can be dissolved. *)
From Coq Require Import String.
From Verif Require Import Base BaseFacts SUtil SConfig MRect MPicker MConfig MReader MLayer MApi SCompress SRecord SLayer XRecord PRecord3 PRecord4
  MSched MBlend MPorter SBlend PLum SPorter PPorter MWait MRender SRender MRenderAll SRenderAll MRenderPx PRenderPx
  MDraw MTile STile MLoad SLoad MPipe SPipe PPipe2 PPipe4 PPipe5 SSharp PSharp2 PSharp3 SGlass PGlass1 PGlass2 PGlass4 PTop PCover SFrame PFrame STidy PTidy SDissolve.
Close Scope string_scope.
Open Scope Z_scope.

(** ** The pictures of SGlass are determined. *)
Lemma masked_fun A p l th d s v v' : masked A p l th d s v -> masked A p l th d s v' -> v = v'.
Proof.
  unfold masked. destruct (has_mask l); [|congruence]. intros (m & x & M & H & ->) (m' & x' & M' & H' & ->). pose proof (mask_only _ _ _ _ M M') as <-.
  assert (x = x') as ->; [|reflexivity].
  destruct H as [[C ->]|[C [[(q & m1 & Q & K & N) ->]|[K ->]]]]; destruct H' as [[C' ->]|[C' [[(q' & m1' & Q' & K' & N') ->]|[K' ->]]]]; try congruence.
  - destruct N. exact (mask_only _ _ _ _ K (K' q Q)).
  - destruct N'. exact (mask_only _ _ _ _ K' (K q' Q')).
Qed.
Lemma mode_fun t m m' : mode_of t m -> mode_of t m' -> m = m'.
Proof. destruct t as [l|dv f c]; cbn [mode_of]; [|apply folder_mode_fun]. destruct m, m'; try easy. intros H H'. f_equal. exact (leaf_mode_fun _ _ _ H H'). Qed.
Lemma all_fun A p :
  (forall t op d v, image A p t op d v -> forall v', image A p t op d v' -> v = v') /\
  (forall t cs op d d', put A p t cs op d d' -> forall e, put A p t cs op d e -> d' = e) /\
  (forall t cs v v', topped A p t cs v v' -> forall v2, topped A p t cs v v2 -> v' = v2) /\
  (forall cs x y, clips_on A p cs x y -> forall z, clips_on A p cs x z -> y = z) /\
  (forall op ts d d', laid A p op ts d d' -> forall e, laid A p op ts d e -> d' = e) /\
  (forall op gs d d', heaped A p op gs d d' -> forall e, heaped A p op gs d e -> d' = e).
Proof.
  apply (glass_ind A p (fun t op d v _ => forall v', image A p t op d v' -> v = v') (fun t cs op d d' _ => forall e, put A p t cs op d e -> d' = e)
    (fun t cs v v' _ => forall v2, topped A p t cs v v2 -> v' = v2) (fun cs x y _ => forall z, clips_on A p cs x z -> y = z)
    (fun op ts d d' _ => forall e, laid A p op ts d e -> d' = e) (fun op gs d d' _ => forall e, heaped A p op gs d e -> d' = e)).
  - intros l op d s v Hl Hm v' H. inversion H as [? ? ? s' ? Hl' Hm'| |]; subst. rewrite (leaf_only _ _ _ _ Hl Hl') in Hm. exact (masked_fun _ _ _ _ _ _ _ _ Hm Hm').
  - intros dv f c m op d s v Hf L IH Hm v' H. inversion H as [|? ? ? ? ? ? s' ? Hf' L' Hm'|? ? ? ? ? s' ? Hf' L' Hm']; subst.
    + rewrite (IH _ L') in Hm. exact (masked_fun _ _ _ _ _ _ _ _ Hm Hm').
    + discriminate (folder_mode_fun _ _ _ Hf Hf').
  - intros dv f c op d s v Hf L IH Hm v' H. inversion H as [|? ? ? ? ? ? s' ? Hf' L' Hm'|? ? ? ? ? s' ? Hf' L' Hm']; subst.
    + discriminate (folder_mode_fun _ _ _ Hf Hf').
    + rewrite (IH _ L') in Hm. exact (masked_fun _ _ _ _ _ _ _ _ Hm Hm').
  - intros t cs op d H e P. inversion P; subst; try reflexivity; exfalso; destruct H; congruence.
  - intros t cs m op d v v' H O M Im IH1 Tp IH2 e P. inversion P as [? ? ? ? H'|? ? m' ? ? v1 v1' _ _ M' Im' Tp'|? ? ? ? v1 v1' _ _ M' _ _ _|? ? ? ? M']; subst.
    + destruct H'; congruence.
    + pose proof (mode_fun _ _ _ M M') as [= <-]. rewrite <- (IH1 _ Im') in Tp'. now rewrite (IH2 _ Tp').
    + discriminate (mode_fun _ _ _ M M').
    + discriminate (mode_fun _ _ _ M M').
  - intros t cs op d v v' H O M T Im IH1 Tp IH2 e P. inversion P as [? ? ? ? H'|? ? m' ? ? v1 v1' _ _ M' Im' Tp'|? ? ? ? v1 v1' _ _ M' _ Im' Tp'|? ? ? ? M' N]; subst.
    + destruct H'; congruence.
    + discriminate (mode_fun _ _ _ M M').
    + rewrite <- (IH1 _ Im') in Tp'. now rewrite (IH2 _ Tp').
    + destruct (N T).
  - intros t cs op d M N e P. inversion P as [|? ? m' ? ? v1 v1' _ _ M'|? ? ? ? v1 v1' _ _ M' T|]; subst; try reflexivity; [discriminate (mode_fun _ _ _ M M')|destruct (N T)].
  - intros t cs v H v2 P. inversion P; subst; [reflexivity|]. destruct H; congruence.
  - intros t cs v x N B C IH v2 P. inversion P as [? ? ? H|? ? ? x' _ _ C']; subst; [destruct H; congruence|]. now rewrite (IH _ C').
  - intros x z H. inversion H; subst; reflexivity.
  - intros t cs x y z P IH1 C IH2 w H. inversion H as [|? ? ? y' ? P' C']; subst. rewrite <- (IH1 _ P') in C'. exact (IH2 _ C').
  - intros op ts gs d d' G H IH e L. inversion L as [? ? gs' ? ? G' H']; subst. rewrite <- (lg_fun _ _ G _ G') in H'. exact (IH _ H').
  - intros op d e H. inversion H; subst; reflexivity.
  - intros op t cs gs d1 d2 d3 P IH1 H IH2 e H'. inversion H' as [|? ? ? ? ? d2' ? P' H2]; subst. rewrite <- (IH1 _ P') in H2. exact (IH2 _ H2).
Qed.

(** ** What does not touch the square changes nothing. *)
Lemma all_away (A : point -> Prop) p : A p ->
  (forall t op d v, image A p t op d v -> glass_tree t -> hidden (rec_of t) = false -> op <> 0 -> ~ mode_of t None -> ~ touches A t op -> v = nothing) /\
  (forall t cs op d d', put A p t cs op d d' -> glass_tree t -> byte op -> pixel_ok d -> ~ touches A t op -> d' = d) /\
  (forall t cs v v', topped A p t cs v v' -> v = nothing -> v' = nothing) /\
  (forall cs x y, clips_on A p cs x y -> True) /\
  (forall op ts d d', laid A p op ts d d' -> Forall glass_tree ts -> opB op -> pixel_ok d -> (forall gs t cs, layers_grouped ts gs -> In (t, cs) gs -> ~ touches A t (within op (sl_opacity (rec_of t)))) -> d' = d) /\
  (forall op gs d d', heaped A p op gs d d' -> (forall t cs, In (t, cs) gs -> glass_tree t) -> opB op -> pixel_ok d -> (forall t cs, In (t, cs) gs -> ~ touches A t (within op (sl_opacity (rec_of t)))) -> d' = d).
Proof.
  intros Ap.
  apply (glass_ind A p (fun t op d v _ => glass_tree t -> hidden (rec_of t) = false -> op <> 0 -> ~ mode_of t None -> ~ touches A t op -> v = nothing)
    (fun t cs op d d' _ => glass_tree t -> byte op -> pixel_ok d -> ~ touches A t op -> d' = d) (fun t cs v v' _ => v = nothing -> v' = nothing) (fun cs x y _ => True)
    (fun op ts d d' _ => Forall glass_tree ts -> opB op -> pixel_ok d -> (forall gs t cs, layers_grouped ts gs -> In (t, cs) gs -> ~ touches A t (within op (sl_opacity (rec_of t)))) -> d' = d)
    (fun op gs d d' _ => (forall t cs, In (t, cs) gs -> glass_tree t) -> opB op -> pixel_ok d -> (forall t cs, In (t, cs) gs -> ~ touches A t (within op (sl_opacity (rec_of t)))) -> d' = d)); auto.
  - intros l op d s v Hl Hm G H O _ N. destruct (px_dec s nothing) as [-> |Ns]; [|exfalso; apply N; eapply touches_leaf; eauto]. rewrite stored_nothing in Hm. now apply masked_hide in Hm.
  - intros dv f c m op d s v Hf L IH Hm G H O _ N. inversion G; subst. rewrite IH in Hm; [now apply masked_hide in Hm|assumption|exact I|exact nothing_ok|].
    intros gs t cs Lg Hi T. apply N. exact (touches_folder A dv f c (Some m) op gs t cs H O Hf Lg Hi T).
  - intros dv f c op d s v Hf L IH Hm G H O M N. destruct (M Hf).
  - intros t cs m op d v v' H O M Im IH1 Tp IH2 G Ho Hd N. rewrite (IH2 (IH1 G H O (fun M' => ltac:(discriminate (mode_fun _ _ _ M M'))) N)). now apply blended_nothing.
  - intros t cs op d v v' H O M T Im IH1 Tp IH2 G Ho Hd N. destruct (N T).
  - intros t cs v x _ _ _ _ ->. apply pdpx_in_nothing.
  - intros op ts gs d d' Lg H IH G Ho Hd N. apply IH; auto; [intros t cs Hi; exact (grouped_in _ _ _ Lg G _ _ Hi)|eauto].
  - intros op t cs gs d1 d2 d3 P IH1 H IH2 G Ho Hd N.
    assert (d2 = d1) as ->.
    { apply IH1; [exact (G _ _ (or_introl eq_refl))| |exact Hd|exact (N _ _ (or_introl eq_refl))]. apply within_byte; [exact Ho|]. apply glass_opacity. exact (G _ _ (or_introl eq_refl)). }
    apply IH2; auto; [intros t' cs' Hi; apply (G t' cs'); now right|intros t' cs' Hi; apply (N t' cs'); now right].
Qed.

(** ** The content with other opacities *)
Lemma faded_clips op t : clips (faded op t) = clips t.
Proof. unfold faded. destruct (clips t) eqn:E; [exact E|]. destruct t; exact E. Qed.
Lemma faded_opacity op t : clips t = false -> sl_opacity (rec_of (faded op t)) = sl_opacity (rec_of t) * op / 255.
Proof. unfold faded. intros ->. now destruct t. Qed.
Lemma faded_hidden op t : hidden (rec_of (faded op t)) = hidden (rec_of t).
Proof. unfold faded. destruct (clips t); [reflexivity|]. now destruct t. Qed.
Lemma faded_mode op t m : mode_of (faded op t) m -> mode_of t m.
Proof. unfold faded. destruct (clips t); [auto|]. destruct t; auto. Qed.
Lemma faded_blends op t : blends_group (rec_of (faded op t)) = blends_group (rec_of t).
Proof. unfold faded. destruct (clips t); [reflexivity|]. now destruct t. Qed.
Lemma faded_touches A op t o : touches A (faded op t) o <-> touches A t o.
Proof.
  unfold faded. destruct (clips t); [tauto|]. destruct t as [l|dv f c]; split; intros T; inversion T; subst.
  - now apply (touches_leaf A l o q v).
  - now apply (touches_leaf A _ o q v).
  - now apply (touches_folder A dv f c m o gs t cs).
  - now apply (touches_folder A dv _ c m o gs t cs).
Qed.
Lemma faded_image A p op t o d v : image A p (faded op t) o d v -> image A p t o d v.
Proof.
  unfold faded. destruct (clips t); [auto|]. destruct t as [l|dv f c]; intros H; inversion H; subst.
  - eapply image_leaf; eauto.
  - eapply image_folder; eauto.
  - eapply image_through; eauto.
Qed.
Lemma faded_topped A p op t cs v v' : topped A p (faded op t) cs v v' -> topped A p t cs v v'.
Proof.
  intros H. inversion H as [? ? ? H0|? ? ? x N B C]; subst.
  - apply topped_alone. now rewrite faded_blends in H0.
  - apply topped_group; auto. now rewrite faded_blends in B.
Qed.
Lemma faded_put A p op t cs o d d' : put A p (faded op t) cs o d d' -> put A p t cs o d d'.
Proof.
  intros H. inversion H as [? ? ? ? H'|? ? m ? ? v v' H1 O M Im Tp|? ? ? ? v v' H1 O M T Im Tp|? ? ? ? M N]; subst.
  - apply put_unseen. now rewrite faded_hidden in H'.
  - rewrite faded_hidden in H1. apply (put_over A p t cs m o d v v'); eauto using faded_mode, faded_image, faded_topped.
  - rewrite faded_hidden in H1. apply (put_through A p t cs o d v v'); eauto using faded_mode, faded_image, faded_topped. now apply faded_touches in T.
  - apply put_away; [eauto using faded_mode|]. intros T. apply N. now apply faded_touches.
Qed.
Definition fadedG (op : Z) (g : stree * list stree) : stree * list stree := (faded op (fst g), snd g).
Lemma faded_grouped op ts gs : layers_grouped ts gs -> layers_grouped (map (faded op) ts) (map (fadedG op) gs).
Proof.
  induction 1 as [|t ts gs E _ IH|t cs ts gs E F N _ IH]; cbn [map]; [constructor|constructor; [now rewrite faded_clips|exact IH]|].
  rewrite map_app. assert (map (faded op) cs = cs) as ->.
  { clear -F. induction F as [|c cs E _ IH]; [reflexivity|]. cbn [map]. rewrite IH. unfold faded. now rewrite E. }
  apply lg_base; [now rewrite faded_clips|exact F| |exact IH]. destruct ts as [|u ts]; [exact I|]. cbn [map]. now rewrite faded_clips.
Qed.
Lemma base_clips ts gs : layers_grouped ts gs -> forall t cs, In (t, cs) gs -> clips t = false.
Proof. induction 1 as [|t ts gs E _ IH|t cs ts gs E F N _ IH]; intros u us Hi; [destruct Hi|eauto|]. destruct Hi as [[= <- <-]|Hi]; eauto. Qed.
Lemma faded_heaped A p op gs : (forall t cs, In (t, cs) gs -> clips t = false) -> forall d d', heaped A p None (map (fadedG op) gs) d d' -> heaped A p (Some op) gs d d'.
Proof.
  induction gs as [|[t cs] gs IH]; intros B d d' H; cbn [map fadedG fst snd] in H; inversion H as [|? ? ? ? ? d2 ? P H']; subst; [constructor|].
  apply (heaped_cons A p (Some op) t cs gs d d2 d'); [|apply IH; [intros u us Hi; apply (B u us); now right|exact H']].
  cbn [within] in *. rewrite faded_opacity in P by exact (B _ _ (or_introl eq_refl)). exact (faded_put _ _ _ _ _ _ _ _ P).
Qed.

(** ** Lists *)
Lemma lg_app a b ga gb : layers_grouped a ga -> layers_grouped b gb -> starts b -> layers_grouped (a ++ b) (ga ++ gb).
Proof.
  intros Ga Gb S. induction Ga as [|t ts gs E _ IH|t cs ts gs E F N _ IH]; cbn [app]; [exact Gb|constructor; auto|].
  rewrite <- app_assoc. apply lg_base; auto. destruct ts; [exact S|exact N].
Qed.
Lemma heaped_split A p op a b d e : heaped A p op (a ++ b) d e -> exists x, heaped A p op a d x /\ heaped A p op b x e.
Proof.
  revert d. induction a as [|[t cs] a IH]; intros d H; cbn [app] in H; [exists d; split; [constructor|exact H]|].
  inversion H as [|? ? ? ? ? d2 ? P H']; subst. destruct (IH _ H') as (x & X & Y). exists x. split; [|exact Y]. exact (heaped_cons A p op t cs a d d2 x P X).
Qed.
Lemma laid_app A p op a b d e : starts b -> laid A p op (a ++ b) d e <-> exists x, laid A p op a d x /\ laid A p op b x e.
Proof.
  intros S. destruct (lg_exists (length a) a (le_n _)) as [ga Ga]. destruct (lg_exists (length b) b (le_n _)) as [gb Gb]. pose proof (lg_app _ _ _ _ Ga Gb S) as G. split.
  - intros L. inversion L as [? ? gs ? ? G' H]; subst. rewrite <- (lg_fun _ _ G _ G') in H. destruct (heaped_split _ _ _ _ _ _ _ H) as (x & X & Y).
    exists x. split; [exact (laid_groups A p op a ga d x Ga X)|exact (laid_groups A p op b gb x e Gb Y)].
  - intros (x & X & Y). inversion X as [? ? ga' ? ? Ga' HX]; subst. inversion Y as [? ? gb' ? ? Gb' HY]; subst. rewrite <- (lg_fun _ _ Ga _ Ga') in HX. rewrite <- (lg_fun _ _ Gb _ Gb') in HY.
    exact (laid_groups A p op (a ++ b) (ga ++ gb) d e G (heaped_app _ _ _ _ _ _ _ _ HX HY)).
Qed.

(** ** Dissolving *)
Lemma dissolved (A : point -> Prop) p dv f c post d e : A p -> dissolvable f c post -> glass_tree (SFolder dv f c) -> pixel_ok d -> pa d = 255 -> Forall glass_tree (map (faded (sl_opacity f)) c) ->
  laid A p None (map (faded (sl_opacity f)) c) d e -> ~ ~ put A p (SFolder dv f c) [] (sl_opacity f) d e.
Proof.
  intros Ap (Hh & Hc & Hf & Hm & S1 & S2) G Hd Ad Gf L NP. set (op := sl_opacity f) in *.
  assert (Bo : byte op) by exact (glass_opacity _ G). inversion G as [|? ? ? fm _ Hfm _ Gc _]; subst.
  destruct (lg_exists (length c) c (le_n _)) as [gs Lg].
  assert (H : heaped A p (Some op) gs d e).
  { apply faded_heaped; [exact (base_clips _ _ Lg)|]. inversion L as [? ? gs' ? ? G' H]; subst. rewrite (lg_fun _ _ (faded_grouped op _ _ Lg) _ G'). exact H. }
  assert (Lc : laid A p (Some op) c d e) by exact (laid_groups A p (Some op) c gs d e Lg H).
  destruct (all_full A p) as (_ & _ & _ & _ & Kf & _). destruct (all_ok A p) as (_ & _ & _ & _ & Ko & _).
  pose proof (Kf _ _ _ _ Lc Gc Bo Hd Ad) as Ae. pose proof (Ko _ _ _ _ Lc Gc Bo Hd) as He.
  destruct (all_away A p Ap) as (_ & _ & _ & _ & Ka & _).
  destruct (Z.eq_dec op 0) as [O|O].
  - apply NP. assert (e = d) as ->; [|apply put_unseen; now right]. apply (Ka _ _ _ _ Lc Gc Bo Hd). intros gs' t cs _ _ T. rewrite O in T. cbn [within] in T. rewrite Z.mul_0_r in T. apply touches_seen in T. now destruct T.
  - assert (NT : ~ touches A (SFolder dv f c) op).
    { intros T. apply NP. rewrite <- (stored_same e He) by lia. apply (put_through A p _ [] op d e e); [exact Hh|exact O|exact Hf|exact T| |apply topped_alone; now left].
      apply (image_through A p dv f c op d e e); [exact Hf|now rewrite (stored_same d Hd) by lia|]. unfold masked. now rewrite Hm. }
    apply NP. assert (e = d) as ->; [|apply put_away; [exact Hf|exact NT]]. apply (Ka _ _ _ _ Lc Gc Bo Hd). intros gs' t cs Lg' Hi T. apply NT. exact (touches_folder A dv f c None op gs' t cs Hh O Hf Lg' Hi T).
Qed.

Lemma dissolve_shown inflate kind procs h rsv cmd res neg pl pre dv fo c post pad gmask bs tail rest inflate' kind' procs' h' rsv' cmd' res' neg' pl' pad' gmask' bs' tail' rest' cpus cpus1 ts :
  (1 <= procs)%nat -> (1 <= procs')%nat -> (1 <= cpus)%nat -> (1 <= cpus1)%nat -> 0 < ts ->
  header_valid h -> h_mode h = 3 -> h_depth h = 8 -> zlen rsv = 6 -> zlen cmd < 4294967296 ->
  Forall rblock_valid res -> zlen (enc_rblocks res) < 4294967296 ->
  header_valid h' -> h_mode h' = 3 -> h_depth h' = 8 -> zlen rsv' = 6 -> zlen cmd' < 4294967296 ->
  Forall rblock_valid res' -> zlen (enc_rblocks res') < 4294967296 ->
  let large := h_version h =? 2 in let large' := h_version h' =? 2 in
  let sf := pre ++ SFolder dv fo c :: post in let sf' := pre ++ map (faded (sl_opacity fo)) c ++ post in
  section_valid inflate large neg 8 3 pl (flat_map sflatten sf) pad gmask bs tail -> Forall stree_valid sf -> glass_forest sf ->
  section_valid inflate' large' neg' 8 3 pl' (flat_map sflatten sf') pad' gmask' bs' tail' -> Forall stree_valid sf' -> glass_forest sf' ->
  dissolvable fo c post ->
  let enc := enc_config h rsv cmd res ++ enc_section large neg pl (flat_map sflatten sf) pad gmask bs tail in
  let enc' := enc_config h' rsv' cmd' res' ++ enc_section large' neg' pl' (flat_map sflatten sf') pad' gmask' bs' tail' in
  exists f evs f' evs', Decode inflate kind procs newOptions (enc ++ rest) = (Ok (f, zlen enc, rest), evs) /\ Decode inflate' kind' procs' newOptions (enc' ++ rest') = (Ok (f', zlen enc', rest'), evs') /\
    forall st st', MWait.steps (lstep cpus ts) (lstart (map (fun e => playerOf (ev_layer e)) evs)) st -> lended st ->
    MWait.steps (lstep cpus1 ts) (lstart (map (fun e => playerOf (ev_layer e)) evs')) st' -> lended st' ->
    forall n n' r r' w0 w1 w0' w1', (1 <= n)%nat -> (1 <= n')%nat -> new w0 -> new w0' ->
    renderedPx ts (ldImages st) n ts r false (rootOf (ldCopied st) (f_layer f)) w0 w1 ->
    renderedPx ts (ldImages st') n' ts r' false (rootOf (ldCopied st') (f_layer f')) w0' w1' ->
    forall q p d, tileOf ts r q -> tileOf ts r' q -> in_tile ts q p -> 0 <= MRect.px p -> 0 <= py p ->
    laid (square ts q) p None pre nothing d -> pa d = 255 ->
    exists u t u' t' v, w1 q = Some (u, t) /\ w1' q = Some (u', t') /\ tile_at ts q t p = Some v /\ tile_at ts q t' p = Some v.
Proof.
  intros Hp Hp' Hc Hc1 Ht Hh Hm Hdp Hr Hcm Hres Hrl Hh' Hm' Hdp' Hr' Hcm' Hres' Hrl' large large' sf sf' Sv Tv Gl Sv' Tv' Gl' Ds enc enc'.
  destruct (glass_shown inflate kind procs h rsv cmd res neg pl sf pad gmask bs tail rest cpus ts Hp Hc Ht Hh Hm Hdp Hr Hcm Hres Hrl Sv Tv Gl) as (f & evs & D & _ & K).
  destruct (glass_shown inflate' kind' procs' h' rsv' cmd' res' neg' pl' sf' pad' gmask' bs' tail' rest' cpus1 ts Hp' Hc1 Ht Hh' Hm' Hdp' Hr' Hcm' Hres' Hrl' Sv' Tv' Gl') as (f' & evs' & D' & _ & K').
  exists f, evs, f', evs'. split; [exact D|]. split; [exact D'|]. clear D D'.
  intros st st' S L S' L' n n' r r' w0 w1 w0' w1' Hn Hn' W W' R R' q p d Tq Tq' Hin P1 P2 Ld Ad.
  destruct (K st S L n r w0 w1 Hn W R q p Tq Hin P1 P2) as (u & t & x & E & Lc & V). destruct (K' st' S' L' n' r' w0' w1' Hn' W' R' q p Tq' Hin P1 P2) as (u' & t' & x' & E' & Lc' & V').
  exists u, t, u', t', (stored (stored x)). split; [exact E|]. split; [exact E'|]. split; [exact V|].
  assert (x = x') as ->; [|exact V']. destruct (px_dec x x') as [Ex|Nx]; [exact Ex|exfalso].
  pose proof Ds as (_ & Kc & _ & _ & S1 & S2).
  assert (St : starts (map (faded (sl_opacity fo)) c ++ post)). { destruct c as [|t0 c0]; [exact S2|]. cbn [map app starts]. rewrite faded_clips. exact S1. }
  assert (Sf : starts (SFolder dv fo c :: post)). { cbn [starts]. unfold clips. cbn [rec_of]. now rewrite Kc. }
  pose proof (proj2 (Lc' x') eq_refl) as Lx. apply (laid_app _ _ _ _ _ _ _ St) in Lx. destruct Lx as (d0 & Ld0 & Lx).
  destruct (all_fun (square ts q) p) as (_ & _ & _ & _ & Kf & _). rewrite <- (Kf _ _ _ _ Ld _ Ld0) in Lx. clear d0 Ld0.
  apply (laid_app _ _ _ _ _ _ _ S2) in Lx. destruct Lx as (e & Le & Lp).
  destruct Gl as [Gl _]. apply Forall_app in Gl. destruct Gl as [G1 G2]. apply Forall_cons_iff in G2. destruct G2 as [G2 G3].
  destruct Gl' as [Gl' _]. apply Forall_app in Gl'. destruct Gl' as [_ Gl']. apply Forall_app in Gl'. destruct Gl' as [Gf _].
  destruct (all_ok (square ts q) p) as (_ & _ & _ & _ & Ko & _). pose proof (Ko _ _ _ _ Ld G1 I nothing_ok) as Hd.
  apply (dissolved (square ts q) p dv fo c post d e (conj Hin (conj P1 P2)) Ds G2 Hd Ad Gf Le). intros Pt. apply Nx. symmetry. apply Lc.
  apply (laid_app _ _ _ _ _ _ _ Sf). exists d. split; [exact Ld|].
  apply (laid_app _ _ _ [SFolder dv fo c] post d x' S2). exists e. split; [|exact Lp].
  apply (laid_groups _ _ None _ [(SFolder dv fo c, [])]).
  - apply (lg_base _ [] []); [exact Sf|constructor|exact I|constructor].
  - apply (heaped_cons _ _ None _ [] [] d e e); [exact Pt|constructor].
Qed.

(** ** In other folders *)
Lemma within_255 o : within (Some 255) o = o. Proof. cbn [within]. apply Z.div_mul. lia. Qed.
Lemma laid_255 A p ts d v : laid A p (Some 255) ts d v <-> laid A p None ts d v.
Proof.
  assert (H : forall gs d v, heaped A p (Some 255) gs d v <-> heaped A p None gs d v).
  { induction gs as [|[t cs] gs IH]; intros e v'; split; intros H; inversion H as [|? ? ? ? ? d2 ? P H']; subst; try constructor.
    - apply (heaped_cons A p None t cs gs e d2 v'); [now rewrite within_255 in P|now apply IH].
    - apply (heaped_cons A p (Some 255) t cs gs e d2 v'); [now rewrite within_255|now apply IH]. }
  split; intros L; inversion L as [? ? gs ? ? G K]; subst; exact (laid_groups A p _ ts gs d v G (proj1 (H _ _ _) K)) || exact (laid_groups A p _ ts gs d v G (proj2 (H _ _ _) K)).
Qed.
Lemma topped_rec A p t t' cs v v' : rec_of t = rec_of t' -> topped A p t cs v v' -> topped A p t' cs v v'.
Proof. intros E H. inversion H as [? ? ? K|? ? ? x N B K]; subst; [apply topped_alone; now rewrite <- E|apply topped_group; auto; now rewrite <- E]. Qed.
Lemma in_groups ts gs : layers_grouped ts gs -> forall t, In t ts -> clips t = false -> exists cs, In (t, cs) gs.
Proof.
  induction 1 as [|u ts gs E _ IH|u cs ts gs E F N _ IH]; intros t Hi C; [destruct Hi| |].
  - destruct Hi as [->|Hi]; [congruence|auto].
  - destruct Hi as [->|Hi]; [exists cs; now left|]. apply in_app_or in Hi. destruct Hi as [Hi|Hi].
    + rewrite Forall_forall in F. rewrite (F _ Hi) in C. discriminate.
    + destruct (IH _ Hi C) as [cs' H']. exists cs'. now right.
Qed.
Definition touched (A : point -> Prop) (op : option Z) (ts : list stree) : Prop := exists t, In t ts /\ clips t = false /\ touches A t (within op (sl_opacity (rec_of t))).
Lemma touches_iff A dv f c m op : folder_mode f m -> touches A (SFolder dv f c) op <-> hidden f = false /\ op <> 0 /\ touched A (inside m op) c.
Proof.
  intros M. split.
  - intros T. inversion T as [|? ? ? m' ? gs t cs H O M' G Hi T']; subst. split; [exact H|]. split; [exact O|]. pose proof (mode_fun (SFolder dv f c) _ _ M M') as <-.
    exists t. split; [refine (grouped_in (fun u => In u c) c gs G _ t cs Hi); now apply Forall_forall|]. split; [exact (base_clips _ _ G _ _ Hi)|exact T'].
  - intros (H & O & t & Hi & C & T). destruct (lg_exists (length c) c (le_n _)) as [gs G]. destruct (in_groups _ _ G _ Hi C) as [cs Hg]. exact (touches_folder A dv f c m op gs t cs H O M G Hg T).
Qed.
Lemma touched_255 A ts : touched A (Some 255) ts <-> touched A None ts.
Proof. unfold touched. split; intros (t & H); exists t; rewrite within_255 in *; exact H. Qed.
Lemma touched_app A op a b : touched A op (a ++ b) <-> touched A op a \/ touched A op b.
Proof. split; [intros (t & H & K); apply in_app_or in H; destruct H; [left|right]; now exists t|]. intros [(t & H & K)|(t & H & K)]; exists t; (split; [apply in_or_app|]); auto. Qed.
Lemma touched_cons A op t b : clips t = false -> touched A op (t :: b) <-> touches A t (within op (sl_opacity (rec_of t))) \/ touched A op b.
Proof. intros C. split; [intros (u & [<-|H] & K); [left; apply K|right; now exists u]|]. intros [H|(u & H & K)]; [exists t; split; [now left|auto]|exists u; split; [now right|exact K]]. Qed.
Lemma clip_0 dv f c : sl_clip f = 0 -> clips (SFolder dv f c) = false.
Proof. intros H. unfold clips. cbn [rec_of]. now rewrite H. Qed.
Lemma opened_touched A p d ts ts' : opened A p d ts ts' -> touched A None ts <-> touched A None ts'.
Proof.
  induction 1 as [pre dv f c post d x Ds _ _|pre dv f c c' post m d C M _ IH|pre dv f c c' post d x C M O _ _ IH]; rewrite !touched_app.
  - destruct Ds as (Hh & Hc & Hf & _). rewrite touched_cons by now apply clip_0. cbn [rec_of within]. rewrite (touches_iff A dv f c None _ Hf). cbn [inside].
    enough (E : (hidden f = false /\ sl_opacity f <> 0 /\ touched A (Some (sl_opacity f)) c) <-> touched A None (map (faded (sl_opacity f)) c)) by (rewrite E; tauto).
    split.
    + intros (_ & _ & t & Hi & K & T). exists (faded (sl_opacity f) t). split; [now apply in_map|]. rewrite faded_clips. split; [exact K|]. rewrite faded_opacity by exact K. now apply faded_touches.
    + intros (t' & Hi & K & T). apply in_map_iff in Hi. destruct Hi as (t & <- & Hi). rewrite faded_clips in K. cbn [within] in T. rewrite faded_opacity in T by exact K. apply faded_touches in T.
      split; [exact Hh|]. split; [|exists t; auto]. intros O. rewrite O, Z.mul_0_r in T. apply touches_seen in T. now destruct T.
  - rewrite !touched_cons by now apply clip_0. cbn [rec_of within]. rewrite !(touches_iff A dv f _ (Some m) _ M). cbn [inside]. tauto.
  - rewrite !touched_cons by now apply clip_0. cbn [rec_of within]. rewrite !(touches_iff A dv f _ None _ M). cbn [inside]. rewrite O, !touched_255. tauto.
Qed.
(** The folder around it *)
Lemma around_put (A : point -> Prop) p dv f c c' m cs d e : folder_mode f m -> (m = None -> sl_opacity f = 255) -> (touched A None c <-> touched A None c') ->
  (forall s, laid A p None c' (match m with Some _ => nothing | None => stored d end) s -> ~ ~ laid A p None c (match m with Some _ => nothing | None => stored d end) s) ->
  put A p (SFolder dv f c') cs (sl_opacity f) d e -> ~ ~ put A p (SFolder dv f c) cs (sl_opacity f) d e.
Proof.
  intros M O T IH P N.
  assert (Ti : touches A (SFolder dv f c) (sl_opacity f) <-> touches A (SFolder dv f c') (sl_opacity f)).
  { rewrite !(touches_iff A dv f _ m _ M). destruct m; cbn [inside]; [now rewrite T|]. rewrite (O eq_refl), !touched_255. now rewrite T. }
  inversion P as [? ? ? ? H|? ? m' ? ? v v' H Z M' I Tp|? ? ? ? v v' H Z M' To I Tp|? ? ? ? M' To]; subst.
  - apply N. now apply put_unseen.
  - pose proof (mode_fun (SFolder dv f c') _ _ M M') as ->. inversion I as [|? ? ? m2 ? ? s ? M2 L K|? ? ? ? ? s ? M2 L K]; subst; [|discriminate (mode_fun (SFolder dv f c') _ _ M M2)].
    apply (IH s L). intros L'. apply N. apply (put_over A p (SFolder dv f c) cs m' (sl_opacity f) d v v'); [exact H|exact Z|exact M| |eapply topped_rec; [|exact Tp]; reflexivity].
    exact (image_folder A p dv f c m' _ d s v M L' K).
  - pose proof (mode_fun (SFolder dv f c') _ _ M M') as ->. inversion I as [|? ? ? m2 ? ? s ? M2 L K|? ? ? ? ? s ? M2 L K]; subst; [discriminate (mode_fun (SFolder dv f c') _ _ M M2)|].
    rewrite (O eq_refl) in L. apply laid_255 in L. apply (IH s L). intros L'. apply N.
    apply (put_through A p (SFolder dv f c) cs (sl_opacity f) d v v'); [exact H|exact Z|exact M|now apply Ti| |eapply topped_rec; [|exact Tp]; reflexivity].
    apply (image_through A p dv f c (sl_opacity f) d s v M); [rewrite (O eq_refl); now apply laid_255|exact K].
  - apply N. apply put_away; [exact M'|now rewrite Ti].
Qed.
Lemma around_laid (A : point -> Prop) p dv f c c' m post d e : sl_clip f = 0 -> folder_mode f m -> (m = None -> sl_opacity f = 255) -> (touched A None c <-> touched A None c') ->
  (forall s, laid A p None c' (match m with Some _ => nothing | None => stored d end) s -> ~ ~ laid A p None c (match m with Some _ => nothing | None => stored d end) s) ->
  laid A p None (SFolder dv f c' :: post) d e -> ~ ~ laid A p None (SFolder dv f c :: post) d e.
Proof.
  intros C M O T IH L N. inversion L as [? ? gs ? ? G H]; subst.
  inversion G as [|? ? ? E|? cs ts gs0 E F S G0]; subst; [rewrite clip_0 in E by exact C; discriminate|].
  inversion H as [|? ? ? ? ? d2 ? P H']; subst. apply (around_put A p dv f c c' m cs d d2 M O T IH P). intros P'. apply N.
  apply (laid_groups A p None _ ((SFolder dv f c, cs) :: gs0)); [apply lg_base; auto; now apply clip_0|]. exact (heaped_cons A p None _ cs gs0 d d2 e P' H').
Qed.
Lemma here_laid (A : point -> Prop) p pre dv fo c post d0 d x' : A p -> dissolvable fo c post -> pixel_ok d0 -> laid A p None pre d0 d -> pa d = 255 ->
  Forall glass_tree (pre ++ SFolder dv fo c :: post) -> Forall glass_tree (pre ++ map (faded (sl_opacity fo)) c ++ post) ->
  laid A p None (pre ++ map (faded (sl_opacity fo)) c ++ post) d0 x' -> ~ ~ laid A p None (pre ++ SFolder dv fo c :: post) d0 x'.
Proof.
  intros Ap Ds H0 Ld Ad Gl Gl' Lx N. pose proof Ds as (_ & Kc & _ & _ & S1 & S2).
  assert (St : starts (map (faded (sl_opacity fo)) c ++ post)). { destruct c as [|t0 c0]; [exact S2|]. cbn [map app starts]. rewrite faded_clips. exact S1. }
  assert (Sf : starts (SFolder dv fo c :: post)) by (cbn [starts]; now apply clip_0).
  apply (laid_app _ _ _ _ _ _ _ St) in Lx. destruct Lx as (d1 & Ld1 & Lx).
  destruct (all_fun A p) as (_ & _ & _ & _ & Kf & _). rewrite <- (Kf _ _ _ _ Ld _ Ld1) in Lx. clear d1 Ld1.
  apply (laid_app _ _ _ _ _ _ _ S2) in Lx. destruct Lx as (e & Le & Lp).
  apply Forall_app in Gl. destruct Gl as [G1 G2]. apply Forall_cons_iff in G2. destruct G2 as [G2 G3].
  apply Forall_app in Gl'. destruct Gl' as [_ Gl']. apply Forall_app in Gl'. destruct Gl' as [Gf _].
  destruct (all_ok A p) as (_ & _ & _ & _ & Ko & _). pose proof (Ko _ _ _ _ Ld G1 I H0) as Hd.
  apply (dissolved A p dv fo c post d e Ap Ds G2 Hd Ad Gf Le). intros Pt. apply N.
  apply (laid_app _ _ _ _ _ _ _ Sf). exists d. split; [exact Ld|].
  apply (laid_app _ _ _ [SFolder dv fo c] post d x' S2). exists e. split; [|exact Lp].
  apply (laid_groups _ _ None _ [(SFolder dv fo c, [])]).
  - apply (lg_base _ [] []); [exact Sf|constructor|exact I|constructor].
  - apply (heaped_cons _ _ None _ [] [] d e e); [exact Pt|constructor].
Qed.
Lemma folder_glass dv f c : glass_tree (SFolder dv f c) -> Forall glass_tree c. Proof. intros H. now inversion H. Qed.
Lemma opened_laid (A : point -> Prop) p d ts ts' : A p -> opened A p d ts ts' -> pixel_ok d -> Forall glass_tree ts -> Forall glass_tree ts' ->
  forall v, laid A p None ts' d v -> ~ ~ laid A p None ts d v.
Proof.
  intros Ap. induction 1 as [pre dv f c post d x Ds L Ox|pre dv f c c' post m d C M K IH|pre dv f c c' post d x C M O L K IH]; intros Hd G G' v Lv.
  - exact (here_laid A p pre dv f c post d x v Ap Ds Hd L Ox G G' Lv).
  - intros N. apply (laid_app _ _ _ pre (SFolder dv f c' :: post) _ _ (clip_0 dv f c' C)) in Lv. destruct Lv as (y & Ly & Lv).
    apply Forall_app in G. destruct G as [G1 G2]. apply Forall_cons_iff in G2. destruct G2 as [G2 _]. apply Forall_app in G'. destruct G' as [_ G']. apply Forall_cons_iff in G'. destruct G' as [G3 _].
    apply (around_laid A p dv f c c' (Some m) post y v C M ltac:(discriminate) (opened_touched _ _ _ _ _ K)) in Lv; [apply Lv; intros Lv'|].
    + apply N. apply (laid_app _ _ _ pre (SFolder dv f c :: post) _ _ (clip_0 dv f c C)). now exists y.
    + intros s. apply IH; [exact nothing_ok|exact (folder_glass _ _ _ G2)|exact (folder_glass _ _ _ G3)].
  - intros N. apply (laid_app _ _ _ pre (SFolder dv f c' :: post) _ _ (clip_0 dv f c' C)) in Lv. destruct Lv as (y & Ly & Lv).
    destruct (all_fun A p) as (_ & _ & _ & _ & Kf & _). rewrite <- (Kf _ _ _ _ L _ Ly) in Lv. clear y Ly.
    apply Forall_app in G. destruct G as [G1 G2]. apply Forall_cons_iff in G2. destruct G2 as [G2 _]. apply Forall_app in G'. destruct G' as [_ G']. apply Forall_cons_iff in G'. destruct G' as [G3 _].
    destruct (all_ok A p) as (_ & _ & _ & _ & Ko & _). pose proof (Ko _ _ _ _ L G1 I Hd) as Hx.
    apply (around_laid A p dv f c c' None post x v C M (fun _ => O) (opened_touched _ _ _ _ _ K)) in Lv; [apply Lv; intros Lv'|].
    + apply N. apply (laid_app _ _ _ pre (SFolder dv f c :: post) _ _ (clip_0 dv f c C)). now exists x.
    + intros s. apply IH; [now apply stored_ok|exact (folder_glass _ _ _ G2)|exact (folder_glass _ _ _ G3)].
Qed.

Lemma open_shown inflate kind procs h rsv cmd res neg pl sf pad gmask bs tail rest inflate' kind' procs' h' rsv' cmd' res' neg' pl' sf' pad' gmask' bs' tail' rest' cpus cpus1 ts :
  (1 <= procs)%nat -> (1 <= procs')%nat -> (1 <= cpus)%nat -> (1 <= cpus1)%nat -> 0 < ts ->
  header_valid h -> h_mode h = 3 -> h_depth h = 8 -> zlen rsv = 6 -> zlen cmd < 4294967296 ->
  Forall rblock_valid res -> zlen (enc_rblocks res) < 4294967296 ->
  header_valid h' -> h_mode h' = 3 -> h_depth h' = 8 -> zlen rsv' = 6 -> zlen cmd' < 4294967296 ->
  Forall rblock_valid res' -> zlen (enc_rblocks res') < 4294967296 ->
  let large := h_version h =? 2 in let large' := h_version h' =? 2 in
  section_valid inflate large neg 8 3 pl (flat_map sflatten sf) pad gmask bs tail -> Forall stree_valid sf -> glass_forest sf ->
  section_valid inflate' large' neg' 8 3 pl' (flat_map sflatten sf') pad' gmask' bs' tail' -> Forall stree_valid sf' -> glass_forest sf' ->
  let enc := enc_config h rsv cmd res ++ enc_section large neg pl (flat_map sflatten sf) pad gmask bs tail in
  let enc' := enc_config h' rsv' cmd' res' ++ enc_section large' neg' pl' (flat_map sflatten sf') pad' gmask' bs' tail' in
  exists f evs f' evs', Decode inflate kind procs newOptions (enc ++ rest) = (Ok (f, zlen enc, rest), evs) /\ Decode inflate' kind' procs' newOptions (enc' ++ rest') = (Ok (f', zlen enc', rest'), evs') /\
    forall st st', MWait.steps (lstep cpus ts) (lstart (map (fun e => playerOf (ev_layer e)) evs)) st -> lended st ->
    MWait.steps (lstep cpus1 ts) (lstart (map (fun e => playerOf (ev_layer e)) evs')) st' -> lended st' ->
    forall n n' r r' w0 w1 w0' w1', (1 <= n)%nat -> (1 <= n')%nat -> new w0 -> new w0' ->
    renderedPx ts (ldImages st) n ts r false (rootOf (ldCopied st) (f_layer f)) w0 w1 ->
    renderedPx ts (ldImages st') n' ts r' false (rootOf (ldCopied st') (f_layer f')) w0' w1' ->
    forall q p, tileOf ts r q -> tileOf ts r' q -> in_tile ts q p -> 0 <= MRect.px p -> 0 <= py p ->
    opened (square ts q) p nothing sf sf' ->
    exists u t u' t' v, w1 q = Some (u, t) /\ w1' q = Some (u', t') /\ tile_at ts q t p = Some v /\ tile_at ts q t' p = Some v.
Proof.
  intros Hp Hp' Hc Hc1 Ht Hh Hm Hdp Hr Hcm Hres Hrl Hh' Hm' Hdp' Hr' Hcm' Hres' Hrl' large large' Sv Tv Gl Sv' Tv' Gl' enc enc'.
  destruct (glass_shown inflate kind procs h rsv cmd res neg pl sf pad gmask bs tail rest cpus ts Hp Hc Ht Hh Hm Hdp Hr Hcm Hres Hrl Sv Tv Gl) as (f & evs & D & _ & K).
  destruct (glass_shown inflate' kind' procs' h' rsv' cmd' res' neg' pl' sf' pad' gmask' bs' tail' rest' cpus1 ts Hp' Hc1 Ht Hh' Hm' Hdp' Hr' Hcm' Hres' Hrl' Sv' Tv' Gl') as (f' & evs' & D' & _ & K').
  exists f, evs, f', evs'. split; [exact D|]. split; [exact D'|]. clear D D'.
  intros st st' S L S' L' n n' r r' w0 w1 w0' w1' Hn Hn' W W' R R' q p Tq Tq' Hin P1 P2 Op.
  destruct (K st S L n r w0 w1 Hn W R q p Tq Hin P1 P2) as (u & t & x & E & Lc & V). destruct (K' st' S' L' n' r' w0' w1' Hn' W' R' q p Tq' Hin P1 P2) as (u' & t' & x' & E' & Lc' & V').
  exists u, t, u', t', (stored (stored x)). split; [exact E|]. split; [exact E'|]. split; [exact V|].
  assert (x = x') as ->; [|exact V']. destruct (px_dec x x') as [Ex|Nx]; [exact Ex|exfalso].
  apply (opened_laid (square ts q) p nothing sf sf' (conj Hin (conj P1 P2)) Op nothing_ok (proj1 Gl) (proj1 Gl') x'); [now apply Lc'|]. intros Lx. apply Nx. symmetry. now apply Lc.
Qed.
