(** Rendering depends only on the tiles that the renderer finds. *)
From Verif Require Import Base BaseFacts MRect MSched MDraw MTile MRender SRender PRender MRenderAll.
Open Scope Z_scope.

Inductive allA (P : lattr -> Prop) : layer -> Prop :=
| AllA a ks cs : P a -> Forall (allA P) ks -> Forall (allA P) cs -> allA P (Lay a ks cs).

Section congr.
  Context {img msk : Type}.
  Variable zero : img.
  Variable copyT : img -> img.
  Variable blendOf : bytes -> option (Z -> img -> img -> img).
  Variable destInM destOutM : msk -> img -> img.
  Variable destInT destOverT : img -> img -> img.
  Variable clearT removeAlpha : img -> img.
  Section tile.
    Variables (canvas canvas' : Z -> option img) (mask mask' : Z -> option msk).
    Hypothesis Hcan : forall s, canvas s = canvas' s.
    Notation D := (drawLayer zero copyT blendOf destInM destOutM destInT destOverT clearT removeAlpha canvas mask).
    Notation D' := (drawLayer zero copyT blendOf destInM destOutM destInT destOverT clearT removeAlpha canvas' mask').
    Definition agree (a : lattr) : Prop := lmen a = true -> mask (lseq a) = mask' (lseq a).
    Definition sameD (l : layer) : Prop := forall st b op f, D st b l op f = D' st b l op f.
    Lemma draw_congr l : allA agree l -> sameD l.
    Proof.
      induction l as [a ks cs Hk Hc] using layer_rec'. inversion 1 as [? ? ? Ha Ak Ac]; subst. intros st b op f. rewrite !drawLayer_eq.
      assert (Vk : Forall sameD ks) by (rewrite Forall_forall in *; auto). assert (Vc : Forall sameD cs) by (rewrite Forall_forall in *; auto). clear Hk Hc Ak Ac.
      assert (Ec : forall st x, clips zero copyT blendOf destInM destOutM destInT destOverT clearT removeAlpha canvas mask cs st x =
        clips zero copyT blendOf destInM destOutM destInT destOverT clearT removeAlpha canvas' mask' cs st x).
      { clear H. induction Vc as [|c cs V _ IH]; intros s x; [reflexivity|]. rewrite !clips_cons, V. destruct (D' s x c (lopa (latt c)) true) as [[[s' x'] d]|]; [|reflexivity]. apply IH. }
      assert (Ed : forall al st x d, draws zero copyT blendOf destInM destOutM destInT destOverT clearT removeAlpha canvas mask al ks st x d =
        draws zero copyT blendOf destInM destOutM destInT destOverT clearT removeAlpha canvas' mask' al ks st x d).
      { intros al. clear H. induction Vk as [|k ks V _ IH]; intros s x d; [reflexivity|]. rewrite !draws_cons, V.
        destruct (D' s x k (Z.shiftr (lopa (latt k) * al) 23) false) as [[[s' x'] dr]|]; [|reflexivity]. apply IH. }
      assert (Em : forall x, applyMask destInM destOutM destOverT clearT mask a b x = applyMask destInM destOutM destOverT clearT mask' a b x).
      { intros x. unfold applyMask. destruct (lmen a) eqn:L; [|reflexivity]. now rewrite (Ha L). }
      assert (Ef : forall st x c, finish zero copyT blendOf destInM destOutM destInT destOverT clearT removeAlpha canvas mask a cs op b st x c =
        finish zero copyT blendOf destInM destOutM destInT destOverT clearT removeAlpha canvas' mask' a cs op b st x c).
      { intros s x c. unfold finish. rewrite Em. destruct cs; [reflexivity|]. now rewrite Ec. }
      rewrite Hcan. destruct (negb (lvis a) || (op =? 0)); [reflexivity|]. destruct (lclipping a && negb f); [reflexivity|].
      destruct (isNil ks).
      - destruct (canvas' (lseq a)); [apply Ef|reflexivity].
      - destruct (m_get Z.eqb (tent st) (lseq a)) as [[ci|]|]; try reflexivity. rewrite Ed.
        destruct (draws zero copyT blendOf destInM destOutM destInT destOverT clearT removeAlpha canvas' mask' (alphaOf a op) ks st (startBuf zero copyT a b) false) as [[[s x] [|]]|]; try reflexivity. apply Ef.
    Qed.
    Lemma render_congr diffOnly root st d : allA agree root ->
      renderTile zero copyT blendOf destInM destOutM destInT destOverT clearT removeAlpha canvas mask diffOnly root st d =
      renderTile zero copyT blendOf destInM destOutM destInT destOverT clearT removeAlpha canvas' mask' diffOnly root st d.
    Proof.
      intros A. inversion A as [a ks cs _ Ak _]; subst. assert (E : forall st x d, drawTop zero copyT blendOf destInM destOutM destInT destOverT clearT removeAlpha canvas mask ks st x d =
        drawTop zero copyT blendOf destInM destOutM destInT destOverT clearT removeAlpha canvas' mask' ks st x d).
      { clear A. induction Ak as [|k ks V _ IH]; intros s x d0; [reflexivity|]. cbn [drawTop]. rewrite (draw_congr k V).
        destruct (D' s x k (lopa (latt k)) false) as [[[s' x'] dr]|]; [|reflexivity]. apply IH. }
      unfold renderTile, updateTile. cbn [lkids latt]. destruct (m_get Z.eqb (tent st) (lseq a)); [reflexivity|]. now rewrite E.
    Qed.
  End tile.
  Variables (canvas canvas' : point -> Z -> option img) (mask mask' : point -> Z -> option msk).
  Lemma rendered_congr cpus ts r diffOnly root w w1 : (forall q s, canvas q s = canvas' q s) -> allA (fun a => lmen a = true -> forall q, mask q (lseq a) = mask' q (lseq a)) root ->
    rendered zero copyT blendOf destInM destOutM destInT destOverT clearT removeAlpha canvas mask cpus ts r diffOnly root w w1 ->
    rendered zero copyT blendOf destInM destOutM destInT destOverT clearT removeAlpha canvas' mask' cpus ts r diffOnly root w w1.
  Proof.
    intros Hcan A H. destruct H as [w' H]. constructor. destruct H as [m sched S I]. apply (Ran _ _ _ _ _ _ _ _ _ _ _ _ _ _ _ m); [|exact I]. intros pt x. rewrite (S pt x).
    destruct x as [[st d]|]; [|reflexivity]. cbn [tileAct]. apply render_congr; [apply Hcan|].
    revert A. clear. induction root as [a ks cs Hk Hc] using layer_rec'. inversion 1 as [? ? ? Ha Ak Ac]; subst. constructor.
    - intros L. now apply Ha.
    - rewrite Forall_forall in *; auto.
    - rewrite Forall_forall in *; auto.
  Qed.
End congr.
