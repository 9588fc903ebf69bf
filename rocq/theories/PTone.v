(** Proofs: layers that only darken or only lighten. *)
From Coq Require Import String.
From Verif Require Import Base BaseFacts SUtil SConfig MRect MPicker MConfig MReader MLayer MApi SCompress SRecord SLayer XRecord PRecord3 PRecord4
  MSched MBlend MPorter SBlend PBlend PLum PBlend3 PHsl SPorter PPorter SOver PBlend2 POver MWait MRender SRender MRenderAll SRenderAll MRenderPx PRenderPx
  MDraw MTile STile MLoad SLoad MPipe SPipe PPipe2 PPipe4 PPipe5 SSharp PSharp2 PSharp3 SGlass PGlass1 PGlass2 PGlass4 PTop PCover STidy SDissolve PDissolve STone.
Close Scope string_scope.
Open Scope Z_scope.

(** ** The modes *)
Definition tonedZ (e : tone) (d c : Z) : Prop := match e with Darker => c <= d | Lighter => d <= c end.
Lemma burn_le d s : 0 <= d <= 255 -> 0 < s <= 255 -> 255 - clip W8 ((255 - d) * 255 / s) <= d.
Proof. intros Hd Hs. unfold clip. cbn [maxv]. assert (255 - d <= (255 - d) * 255 / s) by (apply Z.div_le_lower_bound; nia). destruct (_ <? 255); lia. Qed.
Lemma dodge_ge d t : 0 <= d <= 255 -> 0 < t <= 255 -> d <= clip W8 (d * 255 / t).
Proof. intros Hd Ht. unfold clip. cbn [maxv]. assert (d <= d * 255 / t) by (apply Z.div_le_lower_bound; nia). destruct (_ <? 255); lia. Qed.
Lemma chan_tones e m s d c : tones e m -> byte s -> byte d -> chan machine W8 m s d = Some c -> tonedZ e d c.
Proof.
  intros T Hs Hd E. assert (is_separable m = true) as Hm by (destruct e, m; easy). unfold byte in *.
  destruct (chan_ok W8 m s d) as (c' & E1 & E2 & R); [exact Hm|unfold in_width; cbn; lia|unfold in_width; cbn; lia|]. rewrite E in E1. injection E1 as <-. clear E.
  destruct (mulmax_eq W8 s d) as [_ Mx]; [unfold in_width; cbn; lia|unfold in_width; cbn; lia|]. destruct (div_max W8 s d) as [D0 D1]; [unfold in_width; cbn; lia|unfold in_width; cbn; lia|].
  destruct e, m; try destruct T; cbn [chan maxv] in E2; rewrite ?Mx in E2; cbn [maxv] in *; openar; cbn [tonedZ].
  - injection E2 as <-. destruct (Z.ltb_spec s d); lia.
  - injection E2 as <-. lia.
  - destruct (Z.eqb_spec d 255); [injection E2 as <-; lia|]. destruct (Z.eqb_spec s 0); [injection E2 as <-; lia|]. rewrite udiv_pos in E2 by lia. injection E2 as <-. apply burn_le; lia.
  - injection E2 as <-. destruct (Z.ltb_spec 255 (d + s)); lia.
  - injection E2 as <-. destruct (Z.ltb_spec d s); lia.
  - injection E2 as <-. destruct (Z.ltb_spec d s); lia.
  - injection E2 as <-. lia.
  - destruct (Z.eqb_spec d 0); [injection E2 as <-; lia|]. destruct (Z.eqb_spec s 255); [injection E2 as <-; lia|]. rewrite udiv_pos in E2 by lia. injection E2 as <-. apply dodge_ge; lia.
  - injection E2 as <-. unfold clip. cbn [maxv]. destruct (Z.ltb_spec (s + d) 255); lia.
  - injection E2 as <-. lia.
  - destruct (Z.eqb_spec d 0); [injection E2 as <-; lia|]. destruct (Z.eqb_spec s 0); [injection E2 as <-; lia|]. rewrite udiv_pos in E2 by lia. injection E2 as <-. apply dodge_ge; lia.
Qed.
Lemma between_tones e t d b : 0 <= t <= 255 -> 0 <= d <= 255 -> tonedZ e d b -> tonedZ e d (between t d b).
Proof.
  intros Ht Hd. unfold between. destruct e; cbn [tonedZ]; intros H.
  - assert ((t * b + (255 - t) * d) / 255 <= d) by (apply Z.div_le_upper_bound; nia). lia.
  - assert (d <= (t * b + (255 - t) * d) / 255) by (apply Z.div_le_lower_bound; nia). lia.
Qed.
Lemma toned_levels e v v' : toned e v v' <-> (tonedZ e (pr v) (pr v') /\ tonedZ e (pg v) (pg v') /\ tonedZ e (pb v) (pb v')) /\ pa v' = pa v.
Proof. destruct e; reflexivity. Qed.
Lemma toned_refl e v : toned e v v.
Proof. destruct e; unfold toned; lia. Qed.
Lemma toned_trans e u v w : toned e u v -> toned e v w -> toned e u w.
Proof. destruct e; unfold toned; lia. Qed.
Lemma blended_tones e m op s d : tones e m -> byte op -> pixel_ok s -> pixel_ok d -> pa d = 255 -> toned e d (blended m op s d).
Proof.
  intros T Ho Hs Hd Ha. destruct (blend_between1 m op s d Ho Hs Hd Ha) as (r & g & b & M & E). cbv zeta in E. unfold blended. rewrite E. apply toned_levels. cbn [pr pg pb pa]. split; [|now symmetry].
  assert (0 <= pa s * op / 255 <= 255) as Ht. { unfold byte, pixel_ok in *. split; [apply Z.div_pos; nia|apply Z.div_le_upper_bound; nia]. }
  assert (mix machine W8 m (px_rgb s) (px_rgb d) = (let? r := chan machine W8 m (pr s) (pr d) in let? g := chan machine W8 m (pg s) (pg d) in let? b := chan machine W8 m (pb s) (pb d) in Some (r, g, b))) as X
    by (destruct e, m; try destruct T; reflexivity).
  rewrite X in M. unfold pixel_ok in *. destruct (chan machine W8 m (pr s) (pr d)) as [r0|] eqn:Er; [|discriminate]. destruct (chan machine W8 m (pg s) (pg d)) as [g0|] eqn:Eg; [|discriminate].
  destruct (chan machine W8 m (pb s) (pb d)) as [b0|] eqn:Eb; [|discriminate]. injection M as -> -> ->.
  repeat split; apply between_tones; try lia; (eapply (chan_tones e m); [exact T| | |eassumption]; unfold byte; lia).
Qed.

(** ** Pictures *)
Lemma heaped_tones A p e gs : forall d d', heaped A p None gs d d' ->
  (forall t cs, In (t, cs) gs -> glass_tree t /\ Forall glass_tree cs) -> (forall t cs, In (t, cs) gs -> exists m, mode_of t (Some m) /\ tones e m) ->
  pixel_ok d -> pa d = 255 -> toned e d d'.
Proof.
  destruct (all_ok A p) as (Ki & Kp & Kt & _). induction gs as [|[t cs] gs IH]; intros d d' H G M Hd Ha; inversion H as [|? ? ? ? ? d2 ? P H']; subst; [apply toned_refl|].
  destruct (G t cs (or_introl eq_refl)) as [G1 G2]. pose proof (glass_opacity t G1) as Ho. destruct (M t cs (or_introl eq_refl)) as (m & Hm & T).
  assert (toned e d d2) as T2.
  { inversion P as [|? ? m' ? ? w w' _ _ M' I Tp|? ? ? ? w w' _ _ M' _ _ _|? ? ? ? M' _]; subst.
    - apply toned_refl.
    - pose proof (mode_fun _ _ _ Hm M') as [= <-]. apply blended_tones; auto. apply (Kt _ _ _ _ Tp G2). exact (Ki _ _ _ _ I G1 Ho Hd).
    - discriminate (mode_fun _ _ _ Hm M').
    - discriminate (mode_fun _ _ _ Hm M'). }
  apply (toned_trans e d d2 d'); [exact T2|]. apply IH; [exact H'|intros u us Hu; apply G; now right|intros u us Hu; apply (M u us); now right|exact (Kp _ _ _ _ _ P G1 G2 Ho Hd)|].
  destruct T2 as [_ ->]. exact Ha.
Qed.
Lemma laid_tones A p e add d d' : laid A p None add d d' -> Forall glass_tree add -> toning e add -> pixel_ok d -> pa d = 255 -> toned e d d'.
Proof.
  intros L G [_ T] Hd Ha. inversion L as [? ? gs ? ? Lg H]; subst. apply (heaped_tones A p e gs d d' H); auto.
  - exact (grouped_glass _ _ Lg G).
  - intros t cs Hi. apply T; [|exact (base_clips _ _ Lg _ _ Hi)]. clear -Lg Hi. induction Lg as [|u ts gs E _ IH|u us ts gs E F N _ IH]; [destruct Hi|right; auto|].
    destruct Hi as [[= <- <-]|Hi]; [now left|right; apply in_or_app; right; auto].
Qed.

(** ** From the bytes to the pixels *)
Lemma toned_shown inflate kind procs h rsv cmd res neg pl sf pad gmask bs tail rest inflate' kind' procs' h' rsv' cmd' res' neg' pl' add pad' gmask' bs' tail' rest' cpus cpus1 ts e :
  (1 <= procs)%nat -> (1 <= procs')%nat -> (1 <= cpus)%nat -> (1 <= cpus1)%nat -> 0 < ts ->
  header_valid h -> h_mode h = 3 -> h_depth h = 8 -> zlen rsv = 6 -> zlen cmd < 4294967296 ->
  Forall rblock_valid res -> zlen (enc_rblocks res) < 4294967296 ->
  header_valid h' -> h_mode h' = 3 -> h_depth h' = 8 -> zlen rsv' = 6 -> zlen cmd' < 4294967296 ->
  Forall rblock_valid res' -> zlen (enc_rblocks res') < 4294967296 ->
  let large := h_version h =? 2 in let large' := h_version h' =? 2 in
  section_valid inflate large neg 8 3 pl (flat_map sflatten sf) pad gmask bs tail -> Forall stree_valid sf -> glass_forest sf ->
  section_valid inflate' large' neg' 8 3 pl' (flat_map sflatten (sf ++ add)) pad' gmask' bs' tail' -> Forall stree_valid (sf ++ add) -> glass_forest (sf ++ add) ->
  toning e add ->
  let enc := enc_config h rsv cmd res ++ enc_section large neg pl (flat_map sflatten sf) pad gmask bs tail in
  let enc' := enc_config h' rsv' cmd' res' ++ enc_section large' neg' pl' (flat_map sflatten (sf ++ add)) pad' gmask' bs' tail' in
  exists f evs f' evs', Decode inflate kind procs newOptions (enc ++ rest) = (Ok (f, zlen enc, rest), evs) /\ Decode inflate' kind' procs' newOptions (enc' ++ rest') = (Ok (f', zlen enc', rest'), evs') /\
    forall st st', MWait.steps (lstep cpus ts) (lstart (map (fun e => playerOf (ev_layer e)) evs)) st -> lended st ->
    MWait.steps (lstep cpus1 ts) (lstart (map (fun e => playerOf (ev_layer e)) evs')) st' -> lended st' ->
    forall n n' r r' w0 w1 w0' w1', (1 <= n)%nat -> (1 <= n')%nat -> new w0 -> new w0' ->
    renderedPx ts (ldImages st) n ts r false (rootOf (ldCopied st) (f_layer f)) w0 w1 ->
    renderedPx ts (ldImages st') n' ts r' false (rootOf (ldCopied st') (f_layer f')) w0' w1' ->
    forall q p, tileOf ts r q -> tileOf ts r' q -> in_tile ts q p -> 0 <= MRect.px p -> 0 <= py p ->
    exists u t u' t' v v', w1 q = Some (u, t) /\ w1' q = Some (u', t') /\ tile_at ts q t p = Some v /\ tile_at ts q t' p = Some v' /\ (pa v = 255 -> toned e v v').
Proof.
  intros Hp Hp' Hc Hc1 Ht Hh Hm Hdp Hr Hcm Hres Hrl Hh' Hm' Hdp' Hr' Hcm' Hres' Hrl' large large' Sv Tv Gl Sv' Tv' Gl' T enc enc'.
  destruct (glass_shown inflate kind procs h rsv cmd res neg pl sf pad gmask bs tail rest cpus ts Hp Hc Ht Hh Hm Hdp Hr Hcm Hres Hrl Sv Tv Gl) as (f & evs & D & _ & K).
  destruct (glass_shown inflate' kind' procs' h' rsv' cmd' res' neg' pl' (sf ++ add) pad' gmask' bs' tail' rest' cpus1 ts Hp' Hc1 Ht Hh' Hm' Hdp' Hr' Hcm' Hres' Hrl' Sv' Tv' Gl') as (f' & evs' & D' & _ & K').
  exists f, evs, f', evs'. split; [exact D|]. split; [exact D'|]. clear D D'.
  intros st st' S L S' L' n n' r r' w0 w1 w0' w1' Hn Hn' W W' R R' q p Tq Tq' Hin P1 P2.
  destruct (K st S L n r w0 w1 Hn W R q p Tq Hin P1 P2) as (u & t & x & E & Lc & V). destruct (K' st' S' L' n' r' w0' w1' Hn' W' R' q p Tq' Hin P1 P2) as (u' & t' & x' & E' & Lc' & V').
  exists u, t, u', t', (stored (stored x)), (stored (stored x')). split; [exact E|]. split; [exact E'|]. split; [exact V|]. split; [exact V'|].
  destruct Gl' as [G' _]. apply Forall_app in G'. destruct G' as [G1 G2]. destruct (all_ok (square ts q) p) as (_ & _ & _ & _ & Ko & _).
  assert (pixel_ok x) as Hx by (apply (Ko None sf nothing x); [now apply Lc|exact G1|exact Logic.I|exact nothing_ok]).
  rewrite !stored_alpha by (try apply stored_ok; exact Hx). intros Ha.
  assert (laid (square ts q) p None (sf ++ add) nothing x') as La by now apply Lc'. apply laid_app in La; [|apply T]. destruct La as (y & Ly & La). apply Lc in Ly. subst y.
  pose proof (laid_tones _ _ e _ _ _ La G2 T Hx Ha) as Tn. assert (pixel_ok x') as Hx' by (apply (Ko None add x x'); [exact La|exact G2|exact Logic.I|exact Hx]).
  assert (pa x' = 255) as Ha' by (destruct Tn as [_ ->]; exact Ha). rewrite !stored_same; try lia; auto. 
  all: rewrite ?stored_same; try lia; auto.
Qed.
