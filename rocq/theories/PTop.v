(** Proofs about the layer on top of a file. *)
From Coq Require Import String.
From Verif Require Import Base BaseFacts SUtil SConfig MRect MPicker MConfig MReader MLayer MApi SCompress SRecord SLayer XRecord PRecord3
  MSched MBlend MPorter SBlend PBlend PLum PBlend3 SPorter PPorter MWait MRender SRender MRenderAll SRenderAll MRenderPx PRenderPx
  MDraw MTile STile MLoad SLoad MPipe SPipe PPipe5 SSharp PSharp3 SGlass PGlass1 PGlass4 SOver POver.
Close Scope string_scope.
Open Scope Z_scope.

Definition opB (op : option Z) : Prop := match op with Some o => byte o | None => True end.
Lemma within_byte op o : opB op -> byte o -> byte (within op o).
Proof.
  unfold within, byte. destruct op as [p|]; cbn [opB]; [|auto]. unfold byte. intros Hp Ho. split; [apply Z.div_pos; nia|]. apply Z.div_le_upper_bound; nia.
Qed.
Lemma isb x : is_byte x -> byte x. Proof. unfold is_byte, byte. lia. Qed.
Lemma glass_opacity t : glass_tree t -> byte (sl_opacity (rec_of t)).
Proof. inversion 1; subst; cbn [rec_of]; now apply isb. Qed.
Lemma nth_byte d i v : bytes_ok d -> nth_error d i = Some v -> byte v.
Proof. intros H E. apply nth_error_In in E. unfold bytes_ok in H. rewrite Forall_forall in H. apply isb. auto. Qed.
Lemma nothing_ok : pixel_ok nothing.
Proof. unfold pixel_ok, nothing. cbn. lia. Qed.
Lemma leaf_ok l p v : glass_picture l -> leaf_value l p v -> pixel_ok v.
Proof.
  intros (_ & _ & (d0 & E0 & B0) & (d1 & E1 & B1) & (d2 & E2 & B2) & B3). unfold leaf_value. destruct (pt_in p (sl_rect l)); [|intros ->; exact nothing_ok].
  intros (dr & dg & db & r & g & b & a & H0 & H1 & H2 & N0 & N1 & N2 & N3 & ->). rewrite E0 in H0. rewrite E1 in H1. rewrite E2 in H2. injection H0 as <-. injection H1 as <-. injection H2 as <-.
  destruct (a =? 0); [exact nothing_ok|]. pose proof (nth_byte _ _ _ B0 N0). pose proof (nth_byte _ _ _ B1 N1). pose proof (nth_byte _ _ _ B2 N2).
  assert (byte a) by (destruct (chan_data l 8 (-1)); [exact (nth_byte _ _ _ B3 N3)|subst a; unfold byte; lia]). unfold pixel_ok, byte in *. cbn. lia.
Qed.
Lemma mask_byte l th p v : glass_mask l th -> mask_on l = true -> mask_at l p v -> byte v.
Proof.
  intros G O. destruct (G O) as (_ & (d & E & B) & C & _). unfold mask_at. destruct (pt_in p (mask_rect l)).
  - intros (d' & E' & N). rewrite E in E'. injection E' as <-. exact (nth_byte _ _ _ B N).
  - intros ->. unfold byte. destruct C as [-> | ->]; lia.
Qed.
Lemma masked_ok A p l th gm d s v : glass_mask l gm -> pixel_ok d -> pixel_ok s -> masked A p l th d s v -> pixel_ok v.
Proof.
  intros G Hd Hs. unfold masked, has_mask. destruct (mask_on l) eqn:O; cbn [andb]; [|now intros ->]. destruct (rempty (mask_rect l)); cbn [negb]; [now intros ->|].
  intros (m & s' & M & H & ->). pose proof (mask_byte l gm p m G O M) as Hm.
  assert (pixel_ok s').
  { destruct H as [[_ ->]|[_ [[_ ->]|[_ ->]]]]; [apply pdmask_eq; auto|apply pdmask_eq; auto; unfold byte in *; lia|exact Hs]. }
  destruct th; [apply pdpx_eq; auto|auto].
Qed.
Lemma grouped_glass ts gs : layers_grouped ts gs -> Forall glass_tree ts -> forall t cs, In (t, cs) gs -> glass_tree t /\ Forall glass_tree cs.
Proof.
  induction 1 as [|t ts gs E _ IH|t cs ts gs E F N _ IH]; intros H t' cs' Hin.
  - destruct Hin.
  - inversion H; subst. eauto.
  - inversion H as [|? ? H1 H2]; subst. apply Forall_app in H2. destruct H2 as [H2 H3]. destruct Hin as [[= <- <-]|Hin]; [auto|eauto].
Qed.
Lemma all_ok A p :
  (forall t op d v, image A p t op d v -> glass_tree t -> byte op -> pixel_ok d -> pixel_ok v) /\
  (forall t cs op d d', put A p t cs op d d' -> glass_tree t -> Forall glass_tree cs -> byte op -> pixel_ok d -> pixel_ok d') /\
  (forall t cs v v', topped A p t cs v v' -> Forall glass_tree cs -> pixel_ok v -> pixel_ok v') /\
  (forall cs x y, clips_on A p cs x y -> Forall glass_tree cs -> pixel_ok x -> pixel_ok y) /\
  (forall op ts d d', laid A p op ts d d' -> Forall glass_tree ts -> opB op -> pixel_ok d -> pixel_ok d') /\
  (forall op gs d d', heaped A p op gs d d' -> (forall t cs, In (t, cs) gs -> glass_tree t /\ Forall glass_tree cs) -> opB op -> pixel_ok d -> pixel_ok d').
Proof.
  apply (glass_ind A p (fun t op d v _ => glass_tree t -> byte op -> pixel_ok d -> pixel_ok v) (fun t cs op d d' _ => glass_tree t -> Forall glass_tree cs -> byte op -> pixel_ok d -> pixel_ok d')
    (fun t cs v v' _ => Forall glass_tree cs -> pixel_ok v -> pixel_ok v') (fun cs x y _ => Forall glass_tree cs -> pixel_ok x -> pixel_ok y)
    (fun op ts d d' _ => Forall glass_tree ts -> opB op -> pixel_ok d -> pixel_ok d')
    (fun op gs d d' _ => (forall t cs, In (t, cs) gs -> glass_tree t /\ Forall glass_tree cs) -> opB op -> pixel_ok d -> pixel_ok d')).
  - intros l op d s v Hl Hm G Ho Hd. inversion G as [? Hb Hg Hp|]; subst. eapply masked_ok; [exact Hg|exact Hd| |exact Hm]. apply stored_ok. eapply leaf_ok; eauto.
  - intros dv f c m op d s v Hf _ IH Hm G Ho Hd. inversion G; subst. eapply masked_ok; [eassumption|exact Hd| |exact Hm]. apply IH; [assumption|exact I|exact nothing_ok].
  - intros dv f c op d s v Hf _ IH Hm G Ho Hd. inversion G; subst. eapply masked_ok; [eassumption|exact Hd| |exact Hm]. apply IH; [assumption|exact Ho|now apply stored_ok].
  - auto.
  - intros t cs m op d v v' _ _ _ _ IH1 _ IH2 G Gc Ho Hd. apply blended_eq; auto.
  - intros t cs op d v v' _ _ _ _ _ IH1 _ IH2 G Gc Ho Hd. apply stored_ok. auto.
  - auto.
  - auto.
  - intros t cs v x _ _ _ IH G Hv. apply pdpx_eq; [exact Hv|]. apply IH; [exact G|]. apply opaque_ok, stored_ok, Hv.
  - auto.
  - intros t cs x y z _ IH1 _ IH2 G Hx. apply Forall_cons_iff in G. destruct G as [G1 G2]. apply IH2; [exact G2|]. apply IH1; auto. now apply glass_opacity.
  - intros op ts gs d d' L _ IH G. apply IH. eapply grouped_glass; eauto.
  - auto.
  - intros op t cs gs d1 d2 d3 _ IH1 _ IH2 G Ho Hd. destruct (G t cs (or_introl eq_refl)) as [G1 G2]. apply IH2; [intros t' cs' X; apply G; now right|exact Ho|].
    apply IH1; auto. apply within_byte; [exact Ho|now apply glass_opacity].
Qed.

Lemma heaped_app A p op gs gs' d1 d2 d3 : heaped A p op gs d1 d2 -> heaped A p op gs' d2 d3 -> heaped A p op (gs ++ gs') d1 d3.
Proof. induction 1 as [|op t cs gs d1 d2 d3' Hp _ IH]; intros H'; [exact H'|]. cbn [app]. econstructor; [exact Hp|]. now apply IH. Qed.
Lemma grouped_top ts gs t : layers_grouped ts gs -> clips t = false -> layers_grouped (ts ++ [t]) (gs ++ [(t, [])]).
Proof.
  intros G Ht. induction G as [|u ts gs E _ IH|u cs ts gs E F N G IH]; cbn [app].
  - apply (lg_base _ [] []); [exact Ht|constructor|exact I|constructor].
  - now constructor.
  - rewrite <- app_assoc. apply lg_base; [exact E|exact F| |exact IH]. destruct ts; [exact Ht|exact N].
Qed.

(** A picture without a mask that is put over the others *)
Lemma laid_top A p sf l m s d : laid A p None sf nothing d -> sl_clip l = 0 -> hidden l = false -> sl_opacity l <> 0 -> has_mask l = false ->
  leaf_mode l m -> leaf_value l p s -> laid A p None (sf ++ [SLeaf l]) nothing (blended m (sl_opacity l) (stored s) d).
Proof.
  intros L C H O M Lm Lv. inversion L as [? ? gs ? ? G Hp]; subst. econstructor; [apply grouped_top; [exact G|unfold clips; cbn [rec_of]; now rewrite C]|].
  eapply heaped_app; [exact Hp|]. econstructor; [|constructor]. cbn [within rec_of]. eapply put_over; [exact H|exact O|exact Lm| |].
  - econstructor; [exact Lv|]. unfold masked. now rewrite M.
  - apply topped_alone. now left.
Qed.
Lemma laid_top' A p sf l m s d : laid A p None sf nothing d -> sl_clip l = 0 -> hidden l = false -> has_mask l = false ->
  leaf_mode l m -> leaf_value l p s -> pixel_ok s -> pixel_ok d -> laid A p None (sf ++ [SLeaf l]) nothing (blended m (sl_opacity l) (stored s) d).
Proof.
  intros L C H M Lm Lv Hs Hd. destruct (Z.eq_dec (sl_opacity l) 0) as [O|O]; [|now apply laid_top].
  rewrite O, blended_op0 by (auto using stored_ok). inversion L as [? ? gs ? ? G Hp]; subst. econstructor; [apply grouped_top; [exact G|unfold clips; cbn [rec_of]; now rewrite C]|].
  eapply heaped_app; [exact Hp|]. econstructor; [|constructor]. cbn [within rec_of]. apply put_unseen. now right.
Qed.
Lemma stored_same s : pixel_ok s -> 128 <= pa s -> stored s = s.
Proof.
  intros Hs E. destruct (straight_copy s nothing Hs nothing_ok) as (p & X & _ & _ & _ & Y). destruct (pdpx_eq Copy s nothing Hs nothing_ok) as [Z _].
  change (stored s) with (pdpx Copy s nothing). rewrite X in Z. injection Z as <-. apply Y. lia.
Qed.

Lemma top_shown inflate kind procs h rsv cmd res neg pl sf l pad gmask bs tail rest cpus ts : (1 <= procs)%nat -> (1 <= cpus)%nat -> 0 < ts ->
  header_valid h -> h_mode h = 3 -> h_depth h = 8 -> zlen rsv = 6 -> zlen cmd < 4294967296 ->
  Forall rblock_valid res -> zlen (enc_rblocks res) < 4294967296 ->
  let large := h_version h =? 2 in
  section_valid inflate large neg 8 3 pl (flat_map sflatten (sf ++ [SLeaf l])) pad gmask bs tail ->
  Forall stree_valid (sf ++ [SLeaf l]) -> glass_forest (sf ++ [SLeaf l]) ->
  hidden l = false -> has_mask l = false -> sl_clip l = 0 ->
  let enc := enc_config h rsv cmd res ++ enc_section large neg pl (flat_map sflatten (sf ++ [SLeaf l])) pad gmask bs tail in
  exists f evs, Decode inflate kind procs newOptions (enc ++ rest) = (Ok (f, zlen enc, rest), evs) /\
    forall st, MWait.steps (lstep cpus ts) (lstart (map (fun e => playerOf (ev_layer e)) evs)) st -> lended st ->
    forall cpus' r' w0 w1, (1 <= cpus')%nat -> new w0 ->
    renderedPx ts (ldImages st) cpus' ts r' false (rootOf (ldCopied st) (f_layer f)) w0 w1 ->
    forall q p m s d, tileOf ts r' q -> in_tile ts q p -> 0 <= MRect.px p -> 0 <= py p ->
    leaf_mode l m -> leaf_value l p s -> 128 <= pa s -> laid (square ts q) p None sf nothing d ->
    exists u t r g b c, w1 q = Some (u, t) /\ doc_colour m (pr s, pg s, pb s) (pr d, pg d, pb d) (r, g, b) /\
      let a := pa s * sl_opacity l / 255 in
      rounded_down (compositing a (pa d) (pr s) (pr d) r) (pa c) (pr c) /\
      rounded_down (compositing a (pa d) (pg s) (pg d) g) (pa c) (pg c) /\
      rounded_down (compositing a (pa d) (pb s) (pb d) b) (pa c) (pb c) /\
      (pa d = 255 -> c = Px (between a (pr d) r) (between a (pg d) g) (between a (pb d) b) 255) /\
      tile_at ts q t p = Some (stored (stored c)) /\ (128 <= pa c -> tile_at ts q t p = Some c).
Proof.
  intros Hp Hc Ht Hh Hm Hdp Hr Hcm Hres Hrl large Sv Tv Gl Hid Hmk Hcl enc.
  destruct (glass_shown inflate kind procs h rsv cmd res neg pl (sf ++ [SLeaf l]) pad gmask bs tail rest cpus ts Hp Hc Ht Hh Hm Hdp Hr Hcm Hres Hrl Sv Tv Gl) as (f & evs & D & _ & K).
  exists f, evs. split; [exact D|]. intros st St Le cpus' r' w0 w1 Hc' Nw Rn q p m s d Hq Hi Hx Hy Lm Lv Hs128 L.
  destruct (K st St Le cpus' r' w0 w1 Hc' Nw Rn q p Hq Hi Hx Hy) as (u & t & c & Ew & Un & Et).
  destruct Gl as [Gl _]. apply Forall_app in Gl. destruct Gl as [Gsf Gl]. apply Forall_cons_iff in Gl. destruct Gl as [Gl _]. inversion Gl as [? Ob Gm Gp|]; subst.
  assert (Hs : pixel_ok s) by (eapply leaf_ok; eauto).
  assert (Hd : pixel_ok d). { destruct (all_ok (square ts q) p) as (_ & _ & _ & _ & X & _). apply (X None sf nothing d L Gsf I nothing_ok). }
  pose proof (laid_top' _ _ _ _ _ _ _ L Hcl Hid Hmk Lm Lv Hs Hd) as T. apply Un in T. rewrite stored_same in T by auto.
  destruct (blend_composited m (sl_opacity l) s d (isb _ Ob) Hs Hd) as (r & g & b & c' & Dc & Eb & R1 & R2 & R3 & Bt). cbv zeta in R1, R2, R3, Bt.
  unfold blended in T. rewrite Eb in T. subst c'.
  assert (Hcok : pixel_ok c). { destruct (blend8_range m (sl_opacity l) s d (isb _ Ob) Hs Hd) as (c' & E' & _ & X). congruence. }
  exists u, t, r, g, b, c. split; [exact Ew|]. split; [exact Dc|]. cbv zeta. repeat (split; [assumption|]). intros Hc128. rewrite Et. now rewrite !stored_same by (rewrite ?stored_same; auto).
Qed.
