(** The topmost pixel is seen, if all modes are normal. *)
From Coq Require Import String.
From Verif Require Import Base BaseFacts SUtil PUtil MRect MBlend SBlend PLum PBlend PBlend2 PBlend3 SRecord PRecord4 STile SPipe MRenderPx PPipe PPipe2 PPipe3.
Close Scope string_scope.
Open Scope Z_scope.

Lemma mix_normal s d : okc (Some s) -> okc d -> over Normal (Some s) d = Some s.
Proof.
  intros [Hs As] Hd. destruct d as [d|]; [|reflexivity]. destruct Hd as [Hd _]. cbn [over]. unfold opaque_mix.
  rewrite (blend8_normal s d Hs Hd As). reflexivity.
Qed.
Definition el (s d : option px) : option px := match s with Some _ => s | None => d end.
Lemma over_el s d : okc s -> okc d -> over Normal s d = el s d.
Proof. destruct s as [s|]; [intros; now apply mix_normal|reflexivity]. Qed.
Lemma el_none s : el s None = s.
Proof. now destruct s. Qed.
Lemma el_assoc a b d : el a (el b d) = el (el a b) d.
Proof. now destruct a. Qed.

Lemma leaf_okc l p s : plain_leaf l -> leaf_px l p s -> okc s.
Proof.
  intros (_ & _ & _ & (dr & Er & Br) & (dg & Eg & Bg) & (db & Eb & Bb) & _). unfold leaf_px. destruct (pt_in p (sl_rect l)); [|intros ->; exact I]. cbv zeta.
  intros (dr' & dg' & db' & r & g & b & a & E1 & E2 & E3 & N1 & N2 & N3 & _ & ->).
  rewrite Er in E1. rewrite Eg in E2. rewrite Eb in E3. injection E1 as <-. injection E2 as <-. injection E3 as <-.
  apply nth_error_In in N1, N2, N3. unfold bytes_ok in *. rewrite Forall_forall in Br, Bg, Bb. apply Br in N1. apply Bg in N2. apply Bb in N3. unfold is_byte in *.
  destruct (a =? 255); [|exact I]. split; [|reflexivity]. unfold pixel_ok. cbn. lia.
Qed.

Lemma leaf_mode_fun l m m' : leaf_mode l m -> leaf_mode l m' -> m = m'.
Proof.
  assert (K : forall k m, key_is k m -> k <> ascii "pass") by (intros k m0 H ->; apply key_not_pass in H; discriminate H).
  assert (F : forall k m m', key_is k m -> key_is k m' -> m = m') by (intros k m0 m1 H H'; apply key_get in H; apply key_get in H'; congruence).
  intros [H|[H ->]] [H'|[H' ->]]; [eapply F; eauto|exfalso; eapply K; eauto|exfalso; eapply K; eauto|reflexivity].
Qed.

Lemma app_head {A} : forall (a b c d : list A), zlen a = zlen b -> a ++ c = b ++ d -> a = b /\ c = d.
Proof.
  unfold zlen. induction a as [|x a IH]; intros [|y b] c d L E; cbn [length app] in *; try lia; [auto|]. injection E as -> E. destruct (IH b c d) as [-> ->]; [lia|exact E|auto].
Qed.
Lemma divider_mode d typ bm sub typ' bm' sub' : divider_is d typ bm sub -> divider_is d typ' bm' sub' -> bm = bm'.
Proof.
  assert (L4 : forall v, zlen (be 4 v) = 4) by (intros v; rewrite zlen_be; lia).
  assert (L8 : zlen (ascii "8BIM") = 4) by reflexivity.
  assert (C : forall v b t v' b' t', zlen b = 4 -> zlen b' = 4 -> be 4 v ++ ascii "8BIM" ++ b ++ t = be 4 v' ++ ascii "8BIM" ++ b' ++ t' -> b = b').
  { intros v b t v' b' t' Hb Hb' E. apply app_head in E; [|now rewrite !L4]. destruct E as [_ E]. apply app_head in E; [|reflexivity]. destruct E as [_ E]. apply app_head in E; [tauto|lia]. }
  assert (S : forall v t v' b t', zlen t < 8 -> zlen b = 4 -> be 4 v ++ t = be 4 v' ++ ascii "8BIM" ++ b ++ t' -> False).
  { intros v t v' b t' Ht Hb E. apply (f_equal zlen) in E. rewrite !zlen_app, !L4, L8, Hb in E. pose proof (zlen_nonneg t'). lia. }
  intros (_ & H) (_ & H').
  destruct H as [(-> & _ & t & Ht & E)|[(b & t & -> & _ & Hb & _ & E)|(b & t & -> & _ & Hb & E)]];
    destruct H' as [(-> & _ & t' & Ht' & E')|[(b' & t' & -> & _ & Hb' & _ & E')|(b' & t' & -> & _ & Hb' & E')]];
    rewrite E in E'; try reflexivity; try (f_equal; eapply C; eauto; fail); exfalso;
    first [eapply S; [| |exact E']; assumption|symmetry in E'; eapply S; [| |exact E']; assumption].
Qed.
Lemma folder_mode_fun l m m' : folder_mode l m -> folder_mode l m' -> m = m'.
Proof.
  intros (k & (d & ty & bm & sb & Ed & Hd & Ek) & Hm) (k' & (d' & ty' & bm' & sb' & Ed' & Hd' & Ek') & Hm').
  rewrite Ed in Ed'. injection Ed' as <-. pose proof (divider_mode _ _ _ _ _ _ _ Hd Hd') as ->. rewrite <- Ek' in Ek. subst k'. subst k.
  destruct m as [m|], m' as [m'|]; try reflexivity.
  - apply key_get in Hm. apply key_get in Hm'. congruence.
  - rewrite Hm' in Hm. apply key_not_pass in Hm. discriminate Hm.
  - rewrite Hm in Hm'. apply key_not_pass in Hm'. discriminate Hm'.
Qed.

Lemma paint_top p : forall n sf, (list_sum (map ssize sf) <= n)%nat -> Forall plain_tree sf -> Forall all_normal sf ->
  (forall d c, okc d -> paint_trees p sf d c -> okc c /\ exists s, topmost p sf s /\ okc s /\ c = el s d) /\
  (forall d s, okc d -> topmost p sf s -> okc s /\ paint_trees p sf d (el s d)).
Proof.
  induction n as [|n IH]; intros sf Hsz HP HN.
  { destruct sf as [|[l|d f c] sf]; cbn in Hsz; try lia. split; intros d c Hd; inversion 1; subst; [split; [exact Hd|exists None; repeat constructor]|repeat constructor]. }
  destruct sf as [|t sf].
  { split; intros d c Hd; inversion 1; subst; [split; [exact Hd|exists None; repeat constructor]|repeat constructor]. }
  inversion HP as [|? ? P1 P2]; subst. inversion HN as [|? ? N1 N2]; subst.
  assert (Hs1 : (ssize t + list_sum (map ssize sf) <= S n)%nat) by exact Hsz.
  assert (Hs2 : (list_sum (map ssize sf) <= n)%nat) by (destruct t; cbn [ssize] in Hs1; lia).
  destruct (IH sf Hs2 P2 N2) as [A B].
  assert (T : (forall d c, okc d -> paint_tree p t d c -> okc c /\ exists s, top_of p t s /\ okc s /\ c = el s d) /\
              (forall d s, okc d -> top_of p t s -> okc s /\ paint_tree p t d (el s d))).
  { destruct t as [l|dv fo ct].
    - inversion P1 as [? Pl|]; subst. inversion N1 as [? Nl|]; subst. split.
      + intros d c Hd. inversion 1 as [? ? Hh|? ? ? ? Hh|? m s ? Hh Hm Hp| |]; subst.
        * split; [exact Hd|]. exists None. repeat constructor. exact Hh.
        * pose proof (leaf_mode_fun _ _ _ Hm Nl) as ->. pose proof (leaf_okc _ _ _ Pl Hp) as Hs. split; [now apply over_ok|]. exists s. split; [now constructor|]. split; [exact Hs|now apply over_el].
      + intros d s Hd. inversion 1 as [? Hh| |? ? Hh Hp|]; subst.
        * split; [exact I|]. now constructor.
        * pose proof (leaf_okc _ _ _ Pl Hp) as Hs. split; [exact Hs|]. rewrite <- over_el by assumption. now constructor.
    - inversion P1 as [|? ? ? fm Pn Hfm Pc']; subst. inversion N1 as [|? ? ? nm Hnm Hor Nc]; subst. cbn [ssize] in Hs1.
      destruct (IH ct ltac:(lia) Pc' Nc) as [A' B'].
      assert (Only : forall m, folder_mode fo m -> m = nm).
      { intros m Hm. exact (folder_mode_fun _ _ _ Hm Hnm). }
      split.
      + intros d c Hd. inversion 1 as [|? ? ? ? Hh| |? ? ? ? ? Hh Hm Hp|? ? ? m s ? Hh Hm Hp]; subst.
        * split; [exact Hd|]. exists None. repeat constructor. exact Hh.
        * destruct (A' _ _ Hd Hp) as (Hc & s & Ht & Hs & ->). split; [exact Hc|]. exists s. split; [now constructor|]. auto.
        * destruct (A' None s I Hp) as (Hs & s' & Ht & Hs' & E). rewrite el_none in E. subst s'. apply Only in Hm. destruct Hor as [->| ->]; [|discriminate]. injection Hm as ->.
          split; [now apply over_ok|]. exists s. split; [now constructor|]. split; [exact Hs|now apply over_el].
      + intros d s Hd. inversion 1 as [|? ? ? Hh| |? ? ? ? Hh Ht]; subst.
        * split; [exact I|]. now constructor.
        * destruct Hor as [->| ->].
          -- destruct (B' None s I Ht) as [Hs Hp]. rewrite el_none in Hp. split; [exact Hs|]. rewrite <- over_el by assumption. now constructor.
          -- destruct (B' d s Hd Ht) as [Hs Hp]. split; [exact Hs|]. now constructor. }
  destruct T as [T1 T2]. split.
  - intros d c Hd. inversion 1 as [|? ? ? d2 ? H1 H2]; subst. destruct (T1 _ _ Hd H1) as (O2 & s1 & Ht1 & Os1 & ->). destruct (A _ _ O2 H2) as (Oc & s2 & Ht2 & Os2 & ->).
    split; [exact Oc|]. exists (el s2 s1). rewrite el_assoc. split; [|split; [destruct s2; assumption|reflexivity]].
    destruct s2 as [c2|]; [now apply topmost_above with (o := s1)|]. destruct s1 as [c1|]; [now apply topmost_here|now apply topmost_neither].
  - intros d s Hd. inversion 1 as [|? ? c H1 H2|? ? H1 H2|? ? o c H1 H2]; subst.
    + destruct (T2 d _ Hd H1) as [O1 Q1]. split; [exact O1|]. econstructor; [exact Q1|]. exact (proj2 (B (Some c) None O1 H2)).
    + destruct (T2 d _ Hd H1) as [O1 Q1]. split; [exact I|]. econstructor; [exact Q1|]. exact (proj2 (B d None Hd H2)).
    + destruct (T2 d _ Hd H1) as [O1 Q1]. assert (Oo : okc (el o d)) by (destruct o; assumption). destruct (B _ _ Oo H2) as [O2 Q2]. split; [exact O2|]. econstructor; [exact Q1|exact Q2].
Qed.

Lemma topmost_only p sf c : Forall plain_tree sf -> Forall all_normal sf -> (forall c', paint_trees p sf None c' <-> c' = c) -> forall c', topmost p sf c' <-> c' = c.
Proof.
  intros HP HN H c'. destruct (paint_top p _ sf (le_n _) HP HN) as [A B]. split.
  - intros Ht. destruct (B None c' I Ht) as [_ Q]. rewrite el_none in Q. now apply H.
  - intros ->. destruct (A None c I (proj2 (H c) eq_refl)) as (_ & s & Ht & _ & E). rewrite el_none in E. now subst s.
Qed.
