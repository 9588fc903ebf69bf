(** The picture of a sharp file does not depend on the size of the tiles. *)
From Coq Require Import String.
From Verif Require Import Base SUtil SConfig MRect MConfig MReader MLayer MApi SCompress SRecord SLayer
  MSched MBlend MPorter SBlend MWait MRender SRender MRenderAll SRenderAll MRenderPx
  MDraw MTile STile MLoad SLoad MPipe SPipe SSharp PPipe5 PSharp3.
Close Scope string_scope.
Open Scope Z_scope.

(** Some way of loading the layers and of rendering them shows the pixel [v] at [p]. *)
Definition shownBy (f : psdfile) (evs : list event) (p : point) (v : px) : Prop :=
  exists cpus cpus' ts st r w0 w1 q s t, (1 <= cpus)%nat /\ (1 <= cpus')%nat /\ 0 < ts /\
    MWait.steps (lstep cpus ts) (lstart (map (fun e => playerOf (ev_layer e)) evs)) st /\ lended st /\ new w0 /\
    renderedPx ts (ldImages st) cpus' ts r false (rootOf (ldCopied st) (f_layer f)) w0 w1 /\
    tileOf ts r q /\ in_tile ts q p /\ w1 q = Some (s, t) /\ tile_at ts q t p = Some v.

Lemma tile_size_free inflate kind procs h rsv cmd res neg pl sf pad gmask bs tail rest : (1 <= procs)%nat ->
  header_valid h -> h_mode h = 3 -> h_depth h = 8 -> zlen rsv = 6 -> zlen cmd < 4294967296 ->
  Forall rblock_valid res -> zlen (enc_rblocks res) < 4294967296 ->
  let large := h_version h =? 2 in
  section_valid inflate large neg 8 3 pl (flat_map sflatten sf) pad gmask bs tail ->
  Forall stree_valid sf -> sharp_forest sf ->
  let enc := enc_config h rsv cmd res ++ enc_section large neg pl (flat_map sflatten sf) pad gmask bs tail in
  exists f evs, Decode inflate kind procs newOptions (enc ++ rest) = (Ok (f, zlen enc, rest), evs) /\
    forall p v v', 0 <= MRect.px p -> 0 <= py p -> shownBy f evs p v -> shownBy f evs p v' -> v = v'.
Proof.
  intros Hp Hh Hm Hd Hr Hc Hres Hrl large Hs HV HS enc.
  destruct (sharp_shown inflate kind procs h rsv cmd res neg pl sf pad gmask bs tail rest 1 1 Hp (le_n _) ltac:(lia) Hh Hm Hd Hr Hc Hres Hrl Hs HV HS) as (f & evs & ED & _).
  exists f, evs. split; [exact ED|].
  assert (One : forall p v, 0 <= MRect.px p -> 0 <= py p -> shownBy f evs p v -> exists c, (forall c', painted p sf None c' <-> c' = c) /\ v = shown_as c).
  { intros p v Hx Hy (cpus & cpus' & ts & st & r & w0 & w1 & q & s & t & C & C' & T & St & L & N & R & Q & I & W & V).
    destruct (sharp_shown inflate kind procs h rsv cmd res neg pl sf pad gmask bs tail rest cpus ts Hp C T Hh Hm Hd Hr Hc Hres Hrl Hs HV HS) as (f' & evs' & ED' & _ & Sh).
    rewrite ED in ED'. injection ED' as <- <-. destruct (Sh st St L cpus' r w0 w1 C' N R q p Q I Hx Hy) as (s' & t' & c & W' & U & V'). rewrite W in W'. injection W' as <- <-.
    exists c. split; [exact U|]. congruence. }
  intros p v v' Hx Hy H H'. destruct (One p v Hx Hy H) as (c & U & ->), (One p v' Hx Hy H') as (c' & U' & ->). f_equal. apply U'. now apply U.
Qed.
