(** Two trees with the same layers and images that agree at a point each: the pixels are the same. *)
From Verif Require Import Base BaseFacts MRect MBlend MPorter SBlend SPorter PLum PBlend PBlend2 PBlend3 PHsl PPorter
  MRender SRender PRender PRender2 MRenderPx PRenderPx SPipe PPipe SGlass PGlass1.
Open Scope Z_scope.

(** All layers of a tree *)
Inductive allL (P : lattr -> Prop) : layer -> Prop :=
| AllL a ks cs : P a -> Forall (allL P) ks -> Forall (allL P) cs -> allL P (Lay a ks cs).
Lemma allL_impl (P Q : lattr -> Prop) : (forall a, P a -> Q a) -> forall l, allL P l -> allL Q l.
Proof.
  intros H. induction l as [a ks cs Hk Hc] using layer_rec'. inversion 1 as [? ? ? Pa Pk Pc]; subst. constructor; [now apply H| |]; rewrite Forall_forall in *; auto.
Qed.

Section two.
  Variables (n : nat) (canvas canvas' : Z -> option tile) (mask mask' : Z -> option mtile) (i i' : nat).
  Definition still (a : lattr) : Prop := isPT a = false /\ cellG canvas (lseq a) i = cellG canvas' (lseq a) i' /\ forall d s, maskG mask a i d s = maskG mask' a i' d s.

  Definition sameV (l : layer) : Prop := forall op d, valG canvas mask i l op d = valG canvas' mask' i' l op d.
  Lemma comp_same l op d : allL still l -> sameV l -> compG canvas mask i l op d = compG canvas' mask' i' l op d.
  Proof. intros A V. unfold compG. rewrite V. unfold putG. destruct (alive (latt l) op); [|reflexivity]. inversion A as [a ks cs (P & _) _ _]; subst. cbn [latt]. now rewrite P. Qed.
  Lemma kids_same ks : Forall (allL still) ks -> Forall sameV ks -> forall c d, kidsG canvas mask i c ks d = kidsG canvas' mask' i' c ks d.
  Proof.
    intros A V c. induction V as [|k ks V _ IH]; intros d; [reflexivity|]. inversion A; subst. unfold kidsG. cbn [fold_left]. unfold kidG at 2 4.
    rewrite (comp_same k _ d) by assumption. now apply IH.
  Qed.
  Lemma clips_same cs : Forall (allL still) cs -> Forall sameV cs -> forall d, clipsG canvas mask i cs d = clipsG canvas' mask' i' cs d.
  Proof.
    intros A V. induction V as [|k ks V _ IH]; intros d; [reflexivity|]. inversion A; subst. unfold clipsG. cbn [fold_left]. rewrite (comp_same k _ d) by assumption. now apply IH.
  Qed.
  Lemma val_same l : allL still l -> sameV l.
  Proof.
    induction l as [a ks cs Hk Hc] using layer_rec'. inversion 1 as [? ? ? (P & C & M) Ak Ac]; subst. intros op d. rewrite !valG_eq.
    assert (Vk : Forall sameV ks) by (rewrite Forall_forall in *; auto). assert (Vc : Forall sameV cs) by (rewrite Forall_forall in *; auto).
    assert (E : preG canvas mask i a ks op d = preG canvas' mask' i' a ks op d).
    { unfold preG. rewrite P. destruct ks; [now rewrite C|]. now apply kids_same. }
    rewrite E, M. unfold grpG. destruct cs; [reflexivity|]. now rewrite clips_same.
  Qed.
  Lemma list_same ks : Forall (allL still) ks -> forall c d, kidsG canvas mask i c ks d = kidsG canvas' mask' i' c ks d.
  Proof. intros A. apply kids_same; [exact A|]. eapply Forall_impl; [exact val_same|exact A]. Qed.
End two.

(** The conditions for drawing carry over. *)
Lemma glass_other n canvas mask canvas' mask' l : glassL n canvas mask l -> allL (fun a => isPT a = false /\ maskFits n mask' a) l -> glassL n canvas' mask' l.
Proof.
  induction l as [a ks cs Hk Hc] using layer_rec'. inversion 1 as [? ? ? Hb Hm Hmode Hleaf Hks Hcs]; subst. inversion 1 as [? ? ? (P & M) Ak Ac]; subst.
  constructor; auto; [congruence| |]; rewrite Forall_forall in *; auto.
Qed.
Lemma wf_other h h' l : lwf blendPx h l -> (forall s, h s = h' s) -> lwf blendPx h' l.
Proof.
  intros H E. induction l as [a ks cs Hk Hc] using layer_rec'. inversion H as [? ? ? W1 W2 W3 W4 W5 W6]; subst. constructor; auto; [now rewrite <- E| |]; rewrite Forall_forall in *; auto.
Qed.
(** Without any canvas nothing is drawn. *)
Lemma untouched l op : touchL (fun _ => None) l op = false.
Proof.
  revert op. induction l as [a ks cs Hk _] using layer_rec'. intros op. rewrite touchL_eq. destruct ks as [|k ks]; cbn [SRender.isNil]; [apply andb_false_r|].
  destruct (alive a op); [|reflexivity]. cbn [andb]. generalize (k :: ks) Hk. clear Hk k ks. intros ks Hk. induction Hk as [|k ks H _ IH]; [reflexivity|]. cbn [existsb]. rewrite IH, orb_false_r.
  unfold touchK. rewrite H. apply andb_false_r.
Qed.
Lemma empty_kids n mask i ks : Forall (glassL n (fun _ => None) mask) ks -> kidsG (fun _ => None) mask i None ks nothing = nothing.
Proof.
  intros G. apply (kids_quiet n (fun _ => None) mask); auto; [|exact I|exact black_ok|].
  - apply Forall_forall. intros k _. apply quiet.
  - clear. induction ks as [|k ks IH]; [reflexivity|]. cbn [existsb]. rewrite IH, orb_false_r. unfold touchK. rewrite untouched. apply andb_false_r.
Qed.
