(** Proofs: an opaque layer hides what is below it. *)
From Coq Require Import String.
From Verif Require Import Base BaseFacts SUtil SConfig MRect MPicker MConfig MReader MLayer MApi SCompress SRecord SLayer XRecord PRecord3 PRecord4
  MSched MBlend MPorter SBlend PLum SPorter PPorter PBlend3 MWait MRender SRender MRenderAll SRenderAll MRenderPx PRenderPx
  MDraw MTile STile MLoad SLoad MPipe SPipe PPipe2 PPipe4 PPipe5 SSharp PSharp2 PSharp3 SGlass PGlass1 PGlass2 PGlass4 PTop PCover SFrame PFrame STidy PTidy SDissolve PDissolve SBelow.
Close Scope string_scope.
Open Scope Z_scope.

Lemma masked_free A p l d d' s v : masked A p l false d s v -> masked A p l false d' s v.
Proof. exact (fun H => H). Qed.
Lemma image_free A p t m op d d' v : mode_of t (Some m) -> image A p t op d v -> image A p t op d' v.
Proof.
  intros M H. inversion H as [l ? ? s ? V K|dv f c m' ? ? s ? M' L K|dv f c ? ? s ? M' L K]; subst.
  - exact (image_leaf A p l op d' s v V K).
  - exact (image_folder A p dv f c m' op d' s v M' L K).
  - discriminate (mode_fun (SFolder dv f c) _ _ M M').
Qed.
Lemma blended_hides x d : pixel_ok x -> pixel_ok d -> pa x = 255 -> blended Normal 255 x d = x.
Proof. intros Hx Hd Ha. unfold blended. now rewrite blend8_normal. Qed.
Lemma put_opaque A p t cs d e v v' : glass_tree t -> Forall glass_tree cs -> pixel_ok d -> hidden (rec_of t) = false -> mode_of t (Some Normal) ->
  image A p t 255 nothing v -> topped A p t cs v v' -> pa v' = 255 -> put A p t cs 255 d e -> e = v'.
Proof.
  intros G Gc Hd Hh M I Tp O P. destruct (all_fun A p) as (Fi & _ & Ft & _). destruct (all_ok A p) as (Ki & _ & Kt & _).
  assert (B : byte 255) by (unfold byte; lia). pose proof (Kt _ _ _ _ Tp Gc (Ki _ _ _ _ I G B nothing_ok)) as Hv.
  inversion P as [? ? ? ? H|? ? m ? ? w w' H Z M' I' Tp'|? ? ? ? w w' H Z M' To I' Tp'|? ? ? ? M' To]; subst.
  - destruct H; congruence.
  - pose proof (mode_fun _ _ _ M M') as [= <-]. rewrite (Fi _ _ _ _ I' _ (image_free A p t Normal 255 nothing d v M I)) in Tp'. rewrite <- (Ft _ _ _ _ Tp _ Tp'). now apply blended_hides.
  - discriminate (mode_fun _ _ _ M M').
  - discriminate (mode_fun _ _ _ M M').
Qed.
Lemma laid_first A p op t cs post d e : clips t = false -> all_clip cs -> starts post -> laid A p op (t :: cs ++ post) d e ->
  exists x, put A p t cs (within op (sl_opacity (rec_of t))) d x /\ laid A p op post x e.
Proof.
  intros C F S L. destruct (lg_exists (length post) post (le_n _)) as [gp Gp]. inversion L as [? ? gs ? ? G H]; subst.
  rewrite <- (lg_fun _ _ (lg_base t cs post gp C F S Gp) _ G) in H. inversion H as [|? ? ? ? ? d2 ? P H']; subst. exists d2. split; [exact P|exact (laid_groups A p op post gp d2 e Gp H')].
Qed.
Lemma folder_first A p dv f c post d e : sl_clip f = 0 -> laid A p None (SFolder dv f c :: post) d e ->
  exists cs gs y, Forall (fun t => clips t = true) cs /\ (forall c', layers_grouped (SFolder dv f c' :: post) ((SFolder dv f c', cs) :: gs)) /\ put A p (SFolder dv f c) cs (sl_opacity f) d y /\ heaped A p None gs y e.
Proof.
  intros C L. inversion L as [? ? gs ? ? Lg H]; subst. inversion Lg as [|? ? ? E|? cs ts gs0 E F N Lg0]; subst; [rewrite clip_0 in E by exact C; discriminate|].
  inversion H as [|? ? ? ? ? y ? P H1]; subst. exists cs, gs0, y. split; [exact F|]. split; [|split; [exact P|exact H1]]. intros c'. apply lg_base; auto using clip_0.
Qed.
Lemma folder_next A p dv f c' post cs gs d e : layers_grouped (SFolder dv f c' :: post) ((SFolder dv f c', cs) :: gs) -> laid A p None (SFolder dv f c' :: post) d e ->
  exists y, put A p (SFolder dv f c') cs (sl_opacity f) d y /\ heaped A p None gs y e.
Proof.
  intros G L. inversion L as [? ? gs' ? ? Lg H]; subst. rewrite (lg_fun _ _ Lg _ G) in H. inversion H as [|? ? ? ? ? y ? P H1]; subst. exists y. split; assumption.
Qed.
Lemma cut_touched (A : point -> Prop) p ts ts' : A p -> cut_off A p ts ts' -> Forall glass_tree ts -> Forall glass_tree ts' -> ~ ~ touched A None ts /\ ~ ~ touched A None ts'.
Proof.
  intros Ap. destruct (all_away A p Ap) as (Ka & _ & Kt & _).
  induction 1 as [pre pre' t cs post C F S (Hh & Ho & M & w & w' & I & Tp & Ow)|pre pre' dv f c c' post Hh C Ho M N K IH]; intros G G'; apply Forall_app in G, G'; destruct G as [_ G], G' as [_ G'];
    apply Forall_cons_iff in G, G'; destruct G as [G _], G' as [G' _].
  - assert (T : ~ ~ touches A t 255).
    { intros NT. assert (w = nothing) as E. { apply (Ka _ _ _ _ I G Hh); [discriminate|intros M'; discriminate (mode_fun _ _ _ M M')|exact NT]. }
      rewrite (Kt _ _ _ _ Tp E) in Ow. discriminate. }
    split; intros H; apply T; intros T'; apply H; apply touched_app; right; (apply touched_cons; [exact C|]); left; cbn [within]; now rewrite Ho.
  - destruct (IH (folder_glass _ _ _ G) (folder_glass _ _ _ G')) as [T T'].
    split; intros H; [apply T|apply T']; intros X; apply H; apply touched_app; right; (apply touched_cons; [now apply clip_0|]); left; cbn [within rec_of];
      rewrite (touches_iff A dv f _ None _ M), Ho; cbn [inside]; rewrite touched_255; (split; [exact Hh|]; split; [discriminate|exact X]).
Qed.
Lemma through_put (A : point -> Prop) p dv f c cs d e : A p -> hidden f = false -> sl_opacity f = 255 -> folder_mode f None -> has_mask f = false -> ~ ~ touched A None c ->
  put A p (SFolder dv f c) cs (sl_opacity f) d e -> exists s v, laid A p None c (stored d) s /\ topped A p (SFolder dv f c) cs s v /\ e = stored v.
Proof.
  intros Ap Hh Ho M N T P.
  inversion P as [? ? ? ? Hu|? ? m1 ? ? w w' Hh' Z M1 I Tp|? ? ? ? w w' Hh' Z M1 To I Tp|? ? ? ? M1 To]; subst.
  - destruct Hu as [Hu|Hu]; cbn [rec_of] in *; [congruence|rewrite Ho in Hu; discriminate].
  - discriminate (mode_fun (SFolder dv f c) _ _ M M1).
  - inversion I as [|? ? ? m2 ? ? s ? M2 _ _|? ? ? ? ? s ? _ L K]; subst; [discriminate (mode_fun (SFolder dv f c) _ _ M M2)|].
    unfold masked in K. rewrite N in K. subst w. exists s, w'. split; [rewrite Ho in L; now apply laid_255|]. split; [exact Tp|reflexivity].
  - destruct T. intros X. apply To. rewrite (touches_iff A dv f c None _ M), Ho. cbn [inside]. rewrite touched_255. split; [exact Hh|]. split; [discriminate|exact X].
Qed.
Lemma cut_laid (A : point -> Prop) p ts ts' : A p -> cut_off A p ts ts' -> Forall glass_tree ts -> Forall glass_tree ts' ->
  forall d d' v v', pixel_ok d -> pixel_ok d' -> laid A p None ts d v -> laid A p None ts' d' v' -> v = v'.
Proof.
  intros Ap. destruct (all_fun A p) as (Fi & Fp & Ft & Fc & Fl & Fh). destruct (all_ok A p) as (_ & _ & _ & _ & Ko & _).
  induction 1 as [pre pre' t cs post C F S (Hh & Ho & M & w & w' & I & Tp & Ow)|pre pre' dv f c c' post Hh C Ho M N K IH]; intros G G' d d' v v' Hd Hd' L L'.
  - assert (St : starts (t :: cs ++ post)) by exact C.
    apply (laid_app _ _ _ _ _ _ _ St) in L. destruct L as (x & L1 & L2). apply (laid_app _ _ _ _ _ _ _ St) in L'. destruct L' as (x' & L1' & L2').
    apply Forall_app in G. destruct G as [G1 G2]. apply Forall_cons_iff in G2. destruct G2 as [G2 G3]. apply Forall_app in G3. destruct G3 as [G3 _]. apply Forall_app in G'. destruct G' as [G4 _].
    apply laid_first in L2; auto. apply laid_first in L2'; auto. destruct L2 as (y & P & L2), L2' as (y' & P' & L2'). cbn [within] in P, P'. rewrite Ho in P, P'.
    rewrite (put_opaque A p t cs x y w w' G2 G3 (Ko _ _ _ _ L1 G1 Logic.I Hd) Hh M I Tp Ow P) in L2.
    rewrite (put_opaque A p t cs x' y' w w' G2 G3 (Ko _ _ _ _ L1' G4 Logic.I Hd') Hh M I Tp Ow P') in L2'. exact (Fl _ _ _ _ L2 _ L2').
  - apply (laid_app _ _ _ pre (SFolder dv f c :: post) _ _ (clip_0 dv f c C)) in L. destruct L as (x & L1 & L2).
    apply (laid_app _ _ _ pre' (SFolder dv f c' :: post) _ _ (clip_0 dv f c' C)) in L'. destruct L' as (x' & L1' & L2').
    apply Forall_app in G. destruct G as [G1 G]. apply Forall_cons_iff in G. destruct G as [G _]. apply Forall_app in G'. destruct G' as [G1' G']. apply Forall_cons_iff in G'. destruct G' as [G' _].
    destruct (cut_touched A p c c' Ap K (folder_glass _ _ _ G) (folder_glass _ _ _ G')) as [T T'].
    destruct (folder_first A p dv f c post x v C L2) as (cs & gs & y & F & Lg & P & H). destruct (folder_next A p dv f c' post cs gs x' v' (Lg c') L2') as (y' & P' & H').
    apply through_put in P; auto. apply through_put in P'; auto. destruct P as (s & u & Ls & Tp & ->), P' as (s' & u' & Ls' & Tp' & ->).
    pose proof (stored_ok _ (Ko _ _ _ _ L1 G1 I Hd)) as Hx. pose proof (stored_ok _ (Ko _ _ _ _ L1' G1' I Hd')) as Hx'.
    rewrite <- (IH (folder_glass _ _ _ G) (folder_glass _ _ _ G') _ _ s s' Hx Hx' Ls Ls') in Tp'.
    rewrite <- (Ft _ _ _ _ Tp _ (topped_rec A p (SFolder dv f c') (SFolder dv f c) cs s u' eq_refl Tp')) in H'. exact (Fh _ _ _ _ H _ H').
Qed.
Lemma same_above_laid (A : point -> Prop) p ts ts' : A p -> same_above A p ts ts' -> Forall glass_tree ts -> Forall glass_tree ts' ->
  forall d v v', pixel_ok d -> laid A p None ts d v -> laid A p None ts' d v' -> v = v'.
Proof.
  intros Ap. destruct (all_fun A p) as (Fi & Fp & Ft & Fc & Fl & Fh). destruct (all_ok A p) as (_ & _ & _ & _ & Ko & _).
  induction 1 as [ts ts' K|pre dv f c c' m post C M K IH]; intros G G' d v v' Hd L L'.
  - exact (cut_laid A p ts ts' Ap K G G' d d v v' Hd Hd L L').
  - apply (laid_app _ _ _ pre (SFolder dv f c :: post) _ _ (clip_0 dv f c C)) in L. destruct L as (x & L1 & L2).
    apply (laid_app _ _ _ pre (SFolder dv f c' :: post) _ _ (clip_0 dv f c' C)) in L'. destruct L' as (x' & L1' & L2'). rewrite <- (Fl _ _ _ _ L1 _ L1') in L2'. clear x' L1'.
    apply Forall_app in G. destruct G as [_ G]. apply Forall_cons_iff in G. destruct G as [G _]. apply Forall_app in G'. destruct G' as [_ G']. apply Forall_cons_iff in G'. destruct G' as [G' _].
    inversion L2 as [? ? gs ? ? Lg H]; subst. inversion Lg as [|? ? ? E|? cs ts gs0 E F N Lg0]; subst; [rewrite clip_0 in E by exact C; discriminate|].
    inversion L2' as [? ? gs' ? ? Lg' H']; subst. rewrite (lg_fun _ _ Lg' _ (lg_base (SFolder dv f c') cs ts gs0 (clip_0 dv f c' C) F N Lg0)) in H'.
    inversion H as [|? ? ? ? ? y ? P H1]; subst. inversion H' as [|? ? ? ? ? y' ? P' H1']; subst. enough (y = y') as <- by exact (Fh _ _ _ _ H1 _ H1').
    cbn [within rec_of] in P, P'. clear - Fi Ft M IH G G' P P'.
    inversion P as [? ? ? ? Hu|? ? m1 ? ? w w' Hh Z M1 I T|? ? ? ? w w' Hh Z M1 To I T|? ? ? ? M1 To]; subst; try discriminate (mode_fun (SFolder dv f c) _ _ M M1);
      (inversion P' as [? ? ? ? Hu'|? ? m2 ? ? z z' Hh' Z' M2 I' T'|? ? ? ? z z' Hh' Z' M2 To' I' T'|? ? ? ? M2 To']; subst; try discriminate (mode_fun (SFolder dv f c') _ _ M M2)).
    + reflexivity.
    + destruct Hu as [Hu|Hu]; cbn [rec_of] in *; congruence.
    + destruct Hu' as [Hu'|Hu']; cbn [rec_of] in *; congruence.
    + pose proof (mode_fun (SFolder dv f c) _ (Some m2) M1 M2) as [= <-]. f_equal.
      inversion I as [|? ? ? ? ? ? s ? _ Ls K|? ? ? ? ? s ? M3 _ _]; subst; [|discriminate (mode_fun (SFolder dv f c) _ _ M M3)].
      inversion I' as [|? ? ? ? ? ? s' ? _ Ls' K'|? ? ? ? ? s' ? M3 _ _]; subst; [|discriminate (mode_fun (SFolder dv f c') _ _ M M3)].
      rewrite <- (IH (folder_glass _ _ _ G) (folder_glass _ _ _ G') nothing s s' nothing_ok Ls Ls') in K'. pose proof (masked_fun _ _ _ _ _ _ _ _ K K') as <-.
      exact (Ft _ _ _ _ T _ (topped_rec A p (SFolder dv f c') (SFolder dv f c) cs w z' eq_refl T')).
Qed.

Lemma picture_opaque (A : point -> Prop) p l v : glass_tree (SLeaf l) -> hidden l = false -> sl_opacity l = 255 -> leaf_mode l Normal -> has_mask l = false ->
  leaf_value l p v -> pa v = 255 -> opaque_here A p (SLeaf l) [].
Proof.
  intros G Hh Ho M N V O. split; [exact Hh|]. split; [exact Ho|]. split; [exact M|]. exists (stored v), (stored v).
  inversion G as [? _ _ Gp|]; subst. assert (E : stored v = v) by (apply stored_same; [exact (leaf_ok _ _ _ Gp V)|lia]).
  split; [|split; [apply topped_alone; now left|now rewrite E]]. apply (image_leaf A p l 255 nothing v (stored v) V). unfold masked. now rewrite N.
Qed.

(** ** From the bytes to the pixels *)
Lemma below_shown inflate kind procs h rsv cmd res neg pl sf pad gmask bs tail rest inflate' kind' procs' h' rsv' cmd' res' neg' pl' sf' pad' gmask' bs' tail' rest' cpus cpus1 ts :
  (1 <= procs)%nat -> (1 <= procs')%nat -> (1 <= cpus)%nat -> (1 <= cpus1)%nat -> 0 < ts ->
  header_valid h -> h_mode h = 3 -> h_depth h = 8 -> zlen rsv = 6 -> zlen cmd < 4294967296 ->
  Forall rblock_valid res -> zlen (enc_rblocks res) < 4294967296 ->
  header_valid h' -> h_mode h' = 3 -> h_depth h' = 8 -> zlen rsv' = 6 -> zlen cmd' < 4294967296 ->
  Forall rblock_valid res' -> zlen (enc_rblocks res') < 4294967296 ->
  let large := h_version h =? 2 in let large' := h_version h' =? 2 in
  section_valid inflate large neg 8 3 pl (flat_map sflatten sf) pad gmask bs tail -> Forall stree_valid sf -> glass_forest sf ->
  section_valid inflate' large' neg' 8 3 pl' (flat_map sflatten sf') pad' gmask' bs' tail' -> Forall stree_valid sf' -> glass_forest sf' ->
  let enc := enc_config h rsv cmd res ++ enc_section large neg pl (flat_map sflatten sf) pad gmask bs tail in
  let enc' := enc_config h' rsv' cmd' res' ++ enc_section large' neg' pl' (flat_map sflatten sf') pad' gmask' bs' tail' in
  exists f evs f' evs', Decode inflate kind procs newOptions (enc ++ rest) = (Ok (f, zlen enc, rest), evs) /\ Decode inflate' kind' procs' newOptions (enc' ++ rest') = (Ok (f', zlen enc', rest'), evs') /\
    forall st st', MWait.steps (lstep cpus ts) (lstart (map (fun e => playerOf (ev_layer e)) evs)) st -> lended st ->
    MWait.steps (lstep cpus1 ts) (lstart (map (fun e => playerOf (ev_layer e)) evs')) st' -> lended st' ->
    forall n n' r r' w0 w1 w0' w1', (1 <= n)%nat -> (1 <= n')%nat -> new w0 -> new w0' ->
    renderedPx ts (ldImages st) n ts r false (rootOf (ldCopied st) (f_layer f)) w0 w1 ->
    renderedPx ts (ldImages st') n' ts r' false (rootOf (ldCopied st') (f_layer f')) w0' w1' ->
    forall q p, tileOf ts r q -> tileOf ts r' q -> in_tile ts q p -> 0 <= MRect.px p -> 0 <= py p ->
    same_above (square ts q) p sf sf' ->
    exists u t u' t' v, w1 q = Some (u, t) /\ w1' q = Some (u', t') /\ tile_at ts q t p = Some v /\ tile_at ts q t' p = Some v.
Proof.
  intros Hp Hp' Hc Hc1 Ht Hh Hm Hdp Hr Hcm Hres Hrl Hh' Hm' Hdp' Hr' Hcm' Hres' Hrl' large large' Sv Tv Gl Sv' Tv' Gl' enc enc'.
  destruct (glass_shown inflate kind procs h rsv cmd res neg pl sf pad gmask bs tail rest cpus ts Hp Hc Ht Hh Hm Hdp Hr Hcm Hres Hrl Sv Tv Gl) as (f & evs & D & _ & K).
  destruct (glass_shown inflate' kind' procs' h' rsv' cmd' res' neg' pl' sf' pad' gmask' bs' tail' rest' cpus1 ts Hp' Hc1 Ht Hh' Hm' Hdp' Hr' Hcm' Hres' Hrl' Sv' Tv' Gl') as (f' & evs' & D' & _ & K').
  exists f, evs, f', evs'. split; [exact D|]. split; [exact D'|]. clear D D'.
  intros st st' S L S' L' n n' r r' w0 w1 w0' w1' Hn Hn' W W' R R' q p Tq Tq' Hin P1 P2 Op.
  destruct (K st S L n r w0 w1 Hn W R q p Tq Hin P1 P2) as (u & t & x & E & Lc & V). destruct (K' st' S' L' n' r' w0' w1' Hn' W' R' q p Tq' Hin P1 P2) as (u' & t' & x' & E' & Lc' & V').
  exists u, t, u', t', (stored (stored x)). split; [exact E|]. split; [exact E'|]. split; [exact V|].
  assert (x = x') as ->; [|exact V'].
  exact (same_above_laid (square ts q) p sf sf' (conj Hin (conj P1 P2)) Op (proj1 Gl) (proj1 Gl') nothing x x' nothing_ok (proj2 (Lc x) eq_refl) (proj2 (Lc' x') eq_refl)).
Qed.
