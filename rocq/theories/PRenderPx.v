(** Facts about the drawing operations on real tiles, and sequential renders for examples. *)
From Verif Require Import Base BaseFacts MRect MSched PSched MBlend MPorter SBlend PLum PBlend PBlend2 PBlend3 PHsl PPorter MDraw MTile MRender SRender MRenderAll MRenderPx.

(** Copying does not depend on the destination *)
Lemma copy_dest s d d' : pdB machine Copy true true 65535 s d = pdB machine Copy true true 65535 s d'.
Proof. reflexivity. Qed.

(** For bytes no operation on a pixel panics, and the results are bytes *)
Lemma w8_range x : 0 <= w8 machine x <= 255.
Proof. change (w8 machine x) with (x mod 256). pose proof (Z.mod_pos_bound x 256). lia. Qed.
Lemma setNRGBA_ok p : exists q, setNRGBA machine p = Some q /\ pixel_ok q.
Proof.
  unfold setNRGBA. destruct (pa p =? 65535).
  - eexists. split; [reflexivity|]. repeat split; cbn [pr pg pb pa]; apply w8_range.
  - destruct (Z.eqb_spec (pa p) 0) as [E|E].
    + eexists. split; [reflexivity|]. split; [cbn; lia|]. split; [cbn; lia|]. split; [cbn; lia|]. cbn [pa]. apply w8_range.
    + unfold udiv. destruct (Z.eqb_spec (pa p) 0); [contradiction|]. eexists. split; [reflexivity|]. repeat split; cbn [pr pg pb pa]; apply w8_range.
Qed.
Lemma pdB_ok op s d : exists q, pdB machine op true true 65535 s d = Some q /\ pixel_ok q.
Proof. apply setNRGBA_ok. Qed.
Lemma pdA_ok op s d : exists q, pdA machine op true 65535 s d = Some q /\ pixel_ok q.
Proof. apply setNRGBA_ok. Qed.
Lemma blend_ok md op s d : pixel_ok s -> pixel_ok d -> exists q, blend8 machine md (op mod 256) s d = Some q /\ pixel_ok q.
Proof.
  intros Hs Hd. assert (0 <= op mod 256 <= 255) by (pose proof (Z.mod_pos_bound op 256); lia).
  destruct (blend8_range md (op mod 256) s d) as (q & E & _ & O); auto. eauto.
Qed.

(** A renderer whose workers run one after the other, each tile in one step *)
Section seq.
  Context {img msk : Type}.
  Variable zero : img.
  Variable copyT : img -> img.
  Variable blendOf : bytes -> option (Z -> img -> img -> img).
  Variable destInM destOutM : msk -> img -> img.
  Variable destInT destOverT : img -> img -> img.
  Variable clearT removeAlpha : img -> img.
  Variable canvas : point -> Z -> option img.
  Variable mask : point -> Z -> option msk.
  Notation tileAct := (tileAct zero copyT blendOf destInM destOutM destInT destOverT clearT removeAlpha canvas mask).
  Definition runRows (rows : list (list (list point))) (dO : bool) (root : layer) (w : world img) : world img :=
    exec act (concat (map (workerActs (fun pt => [tileAct dO root pt])) rows)) (start w).
  Definition seqRender (cpus : nat) (ts : Z) (r : rect) (dO : bool) (root : layer) (w : world img) : world img :=
    runRows (workerRows cpus ts r) dO root w.
  Lemma runRows_ran rows dO root w :
    ran zero copyT blendOf destInM destOutM destInT destOverT clearT removeAlpha canvas mask dO root rows (start w) (runRows rows dO root w).
  Proof. apply (Ran _ _ _ _ _ _ _ _ _ _ _ _ _ _ _ (fun pt => [tileAct dO root pt])); [intros pt x; reflexivity|apply interleave_concat]. Qed.
  Lemma seqRender_rendered cpus ts r dO root w :
    rendered zero copyT blendOf destInM destOutM destInT destOverT clearT removeAlpha canvas mask cpus ts r dO root w (seqRender cpus ts r dO root w).
  Proof. constructor. apply runRows_ran. Qed.
End seq.
