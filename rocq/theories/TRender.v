(** Theorems about the renderer (properties C48 - C51, C57). *)
From Coq Require Import String.
From Verif Require Import Base BaseFacts MRect MSched PSched MBlend MPorter MDraw MTile MRender SRender PRender PRender2 PRender3 PRender4 MRenderAll SRenderAll PRenderAll MRenderPx PRenderPx.
Close Scope string_scope.
Open Scope Z_scope.

(** The theorems hold for any drawing operations on tiles. *)
Section renderer.
  Context {img msk : Type}.
  Variable zero : img.
  Variable copyT : img -> img.
  Variable blendOf : bytes -> option (Z -> img -> img -> img).
  Variable destInM destOutM : msk -> img -> img.
  Variable destInT destOverT : img -> img -> img.
  Variable clearT removeAlpha : img -> img.
  Variable canvas : point -> Z -> option img.
  Variable hasCanvas : Z -> bool.
  Variable mask : point -> Z -> option msk.
  Notation tileAct := (tileAct zero copyT blendOf destInM destOutM destInT destOverT clearT removeAlpha canvas mask).
  Notation rendered := (rendered zero copyT blendOf destInM destOutM destInT destOverT clearT removeAlpha canvas mask).
  Notation aborted := (aborted zero copyT blendOf destInM destOutM destInT destOverT clearT removeAlpha canvas mask).
  Notation history := (history zero copyT blendOf destInM destOutM destInT destOverT clearT removeAlpha canvas hasCanvas mask).
  Notation shown q := (shown zero copyT blendOf destInM destOutM destInT destOverT clearT removeAlpha (canvas q) (mask q)).
  Notation okTree := (okTree blendOf hasCanvas).
  Notation okDraw := (okDraw zero copyT blendOf destInM destOutM destInT destOverT clearT removeAlpha canvas mask).

  (** * C51: schedules *)

  (** Whatever the number of workers, the division of their work into steps and the order
      of the steps: each tile of the rectangle is drawn exactly once, and nothing else is
      changed. *)
Theorem C51_every_tile_once : forall cpus ts r diffOnly root w w', (1 <= cpus)%nat -> 0 < ts ->
    rendered cpus ts r diffOnly root w w' -> forall q,
    (tileOf ts r q -> w' q = tileAct diffOnly root q (start w q)) /\ (~ tileOf ts r q -> w' q = start w q).
  Proof.
    intros cpus ts r dO root w w' Hc Ht R q. rewrite (rendered_at _ _ _ _ _ _ _ _ _ _ _ _ _ _ _ _ _ _ q Hc Ht R).
    rewrite (tileOf_grid ts r q Ht), <- existsb_pt. destruct (existsb _ _); split; intros H; congruence.
  Qed.
  (** So any two renders end with the same pixels and the same caches. *)
Theorem C51_schedule : forall cpus cpus' ts r diffOnly root w w1 w2, (1 <= cpus)%nat -> (1 <= cpus')%nat -> 0 < ts ->
    rendered cpus ts r diffOnly root w w1 -> rendered cpus' ts r diffOnly root w w2 -> forall q, w1 q = w2 q.
  Proof.
    intros cpus cpus' ts r dO root w w1 w2 H1 H2 Ht R1 R2 q.
    rewrite (rendered_at _ _ _ _ _ _ _ _ _ _ _ _ _ _ _ _ _ _ q H1 Ht R1), (rendered_at _ _ _ _ _ _ _ _ _ _ _ _ _ _ _ _ _ _ q H2 Ht R2). reflexivity.
  Qed.

  (** * C50: aborted renders *)

  (** Wherever the workers stopped, every cache is as it was before the render. *)
Theorem C50_caches : forall cpus ts r diffOnly root w w', (1 <= cpus)%nat -> 0 < ts -> aborted cpus ts r diffOnly root w w' ->
    forall q st d st' d', w q = Some (st, d) -> w' q = Some (st', d') ->
    forall s, m_get Z.eqb (tent st') s = m_get Z.eqb (tent st) s.
  Proof.
    intros cpus ts r dO root w w' Hc Ht HA q st d st' d' E E' s.
    destruct (aborted_entries _ _ _ _ _ _ _ _ _ _ _ _ _ _ _ _ _ _ q st d Hc Ht HA E) as [N|(st2 & d2 & E2 & S & _)]; [congruence|].
    rewrite E' in E2. injection E2 as -> ->. symmetry. apply S.
  Qed.
  (** So the next render, also of a changed tree, gives what it would give without the
      aborted render. (A panic has ended the program.) *)
Theorem C50_next_render : forall cpus cpus1 cpus2 ts r diffOnly root root' w w' w1 w2,
    (1 <= cpus)%nat -> (1 <= cpus1)%nat -> (1 <= cpus2)%nat -> 0 < ts -> (forall d d', clearT d = clearT d') ->
    aborted cpus ts r diffOnly root w w' ->
    rendered cpus1 ts r false root' w' w1 -> rendered cpus2 ts r false root' w w2 ->
    forall q, w' q <> None -> tileOf ts r q -> sameAt (w1 q) (w2 q).
  Proof.
    intros. apply simO_sameAt. apply (abort_harmless zero copyT blendOf destInM destOutM destInT destOverT clearT removeAlpha canvas mask cpus cpus1 cpus2 ts r r diffOnly root root' w w' w1 w2 q); auto. now apply tileOf_grid.
  Qed.

  (** * C49: RenderDiff *)

  (** After any history of announced changes (of any kind, in trees with or without Parent
      links), successful and aborted diff renders into one image, a successful
      RenderDiff leaves the same pixels (and caches) as a full Render with these caches
      into any image. *)
Theorem C49_diff : forall ts r top anyChange anyTree anyTree' root w w0 cpus cpus' w1 w2, 0 < ts -> (forall d d', clearT d = clearT d') ->
    history ts r top false (eq true) anyChange anyTree anyTree' root w -> (1 <= cpus)%nat -> (1 <= cpus')%nat ->
    (forall q, option_map fst (w0 q) = option_map fst (w q)) ->
    rendered cpus ts r true root w w1 -> rendered cpus' ts r false root w0 w2 ->
    forall q, tileOf ts r q -> w1 q = w2 q.
  Proof.
    intros. apply (diff_full zero copyT blendOf destInM destOutM destInT destOverT clearT removeAlpha canvas hasCanvas mask ts r top anyChange anyTree anyTree' root w w0 cpus cpus' w1 w2 q); auto.
    now apply tileOf_grid.
  Qed.

  (** * C48: Render after a history *)

  (** In trees with right Parent links (as Clone makes them): after any history of changes
      (one or several announced together), renders, diff renders and aborted renders, into
      any images, Render shows the same pixels as a new renderer does, namely those of the
      tree drawn without caches, and does not panic. The conditions: well-formed trees
      without unknown blend modes ([okTree]); no change of a pass-through folder
      with pass-through children into another mode ([okChange]); buffers that are not
      damaged by the copy into the cache ([okDraw]). Missing for C48: exactly these,
      and trees of New, all refuted below. Renders between a change and its announcement
      are in TLate.v. *)
Theorem C48_history_partial : forall ts r root w w0 r' cpus cpus' w1 w2, 0 < ts -> (1 <= cpus)%nat -> (1 <= cpus')%nat ->
    (forall q s, hasCanvas s = false -> canvas q s = None) -> (forall d d', clearT d = clearT d') ->
    history ts r false true (fun _ => True) okChange okTree okDraw root w -> okDraw root -> new w0 ->
    rendered cpus ts r' false root w w1 -> rendered cpus' ts r' false root w0 w2 ->
    forall q, tileOf ts r' q -> exists st1 st2 d, w1 q = Some (st1, d) /\ w2 q = Some (st2, d) /\ forall d0, d = shown q root d0.
  Proof.
    intros. apply (history_fresh zero copyT blendOf destInM destOutM destInT destOverT clearT removeAlpha canvas hasCanvas mask) with (ts := ts) (r := r) (newDest := true) (kind := fun _ => True)
      (w := w) (w0 := w0) (r' := r') (cpus := cpus) (cpus' := cpus'); auto. now apply tileOf_grid.
  Qed.

  (** If copying a tile is exact, all buffers are fit for the cache. *)
Theorem C48_exact_copy_partial : (forall i, copyT i = i) -> forall root, okDraw root.
  Proof. intros C root q. now apply stable_exact. Qed.

  (** * C57: panics *)

  (** A tile is drawn without panic if every layer has a blend mode that the table
      contains, or is pass-through (and then has no group that is blended separately).
      Missing for C57: other blend modes; see below. *)
Theorem C57_known_modes_partial : forall diffOnly root q x, Forall (modesOK blendOf) (lkids root) ->
    x <> None -> tileAct diffOnly root q x <> None.
  Proof. intros dO root q [[st d]|] H N; [|congruence]. now apply renderTile_some. Qed.
End renderer.
Print Assumptions C51_every_tile_once.
Print Assumptions C51_schedule.
Print Assumptions C50_caches.
Print Assumptions C50_next_render.
Print Assumptions C49_diff.
Print Assumptions C48_history_partial.
Print Assumptions C48_exact_copy_partial.
Print Assumptions C57_known_modes_partial.
