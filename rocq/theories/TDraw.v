(** Theorems about drawing (properties C32 - C34, part of C44). *)
From Verif Require Import Base BaseFacts MRect MSched PSched MDraw SDraw PDraw PDraw2 PDraw3 PDraw4 MBlend MPorter SBlend PBlend PBlend2 PBlend3 PWide2 PDraw5.
Open Scope Z_scope.

(** * C32: clipping *)

(** The clipped rectangle is the set of points to be drawn, and the source and mask
    points stay aligned. *)
Theorem C32_clip : forall db r sb sp mb mp r' sp' mp',
  clipRect db r sb sp mb mp = (r', sp', mp') ->
  (forall p, pt_in p r' = true <-> in_clip db r sb sp mb mp p) /\
  (forall p, aligned r' sp' p = aligned r sp p /\ aligned r' mp' p = aligned r mp p).
Proof.
  intros db r sb sp mb mp r' sp' mp' H. split.
  - intros p. rewrite <- clip_points, H. reflexivity.
  - exact (clip_aligned _ _ _ _ _ _ _ _ _ H).
Qed.
Print Assumptions C32_clip.

Example C32_clip_used :
  clipRect (Rct 0 0 8 8) (Rct (-3) (-2) 20 20) (Rct 1 1 6 4) (Pt 0 0) (Some (Rct 0 0 5 5)) (Pt 0 0) = (Rct 0 0 2 2, Pt 3 2, Pt 3 2).
Proof. reflexivity. Qed.

(** Every memory access of every worker is in range, and the workers write the
    pixels of the clipped rectangle and read the aligned source pixels: nothing
    else, and all of them. *)
Theorem C32_accesses : forall cpus ss dst src r sp (h : list Z) mp,
  (1 <= cpus)%nat -> ss = 4 \/ ss = 1 -> view_ok 4 dst (zlen h) -> view_ok ss src (zlen h) -> separate dst src ->
  exists ls, drawPix cpus ss dst src r sp None mp (fun _ => false) = Some ls /\
    forall a, In a (concat ls) <-> exists p, in_clip (vrect dst) r (vrect src) sp None mp p /\
      a = PA (paddr 4 dst p) (addrs (paddr ss src (aligned r sp p)) ss) true.
Proof.
  intros cpus ss dst src r sp h mp Hc Hss Hd Hs Hsep.
  destruct (drawPix_drawn cpus ss dst src r sp None mp (fun _ => false) (fun _ d => Some d) h Hc Hss Hd Hs (or_introl Hsep)) as (ls & E & Hall & _).
  - intros p s d _ _ [Hl _]. exists d. auto.
  - exists ls. split; [exact E|]. intros a. rewrite Hall. split; intros (p & Hp & ->); exists p; tauto.
Qed.
Print Assumptions C32_accesses.

Theorem C32_fallback_accesses : forall cpus dst src mask r sp mp (h : list Z),
  (1 <= cpus)%nat -> view_ok 1 dst (zlen h) -> view_ok 1 src (zlen h) ->
  match mask with None => True | Some m => view_ok 1 m (zlen h) /\ separate dst m end -> separate dst src ->
  exists ls, drawFallback cpus false dst src r sp mask mp = Some ls /\
    forall a, In a (concat ls) <-> exists p, in_clip (vrect dst) r (vrect src) sp (match mask with None => None | Some m => Some (vrect m) end) mp p /\
      a = PA (paddr 1 dst p) (paddr 1 src (aligned r sp p) :: match mask with None => [] | Some m => [paddr 1 m (aligned r mp p)] end) true.
Proof.
  intros cpus dst src mask r sp mp h Hc Hd Hs Hm Hsep.
  destruct (drawFallback_drawn cpus false dst src r sp mask mp (fun _ d => Some d) h Hc Hd Hs Hm (or_introl Hsep)) as (ls & E & Hall & _).
  - intros p s d _ _ [Hl _]. exists d. auto.
  - exists ls. split; [exact E|exact Hall].
Qed.
Print Assumptions C32_fallback_accesses.

(** * C33: drawing is pointwise and does not depend on workers and schedules *)

(** For all images of bytes, pixel functions, processor counts and schedules: one
    result, and it is the pixelwise one. *)
Theorem C33_pixels : forall (ss : Z) dst src r sp mask mp zero f (h : list Z),
  (ss = 4 \/ ss = 1) -> view_ok 4 dst (zlen h) -> view_ok ss src (zlen h) -> separate dst src ->
  let mb := match mask with None => None | Some _ => Some uniformBounds end in
  let area := fun p => in_clip (vrect dst) r (vrect src) sp mb mp p /\ match mask with None => True | Some a => zero a = false end in
  defined_on 4 f area (fun p l => pixel_is h ss src (aligned r sp p) l) dst h ->
  exists h', drawn 4 f area (fun p l => pixel_is h ss src (aligned r sp p) l) dst h h' /\
    forall cpus, (1 <= cpus)%nat -> exists ls, drawPix cpus ss dst src r sp mask mp zero = Some ls /\
      forall run, interleave ls run -> exec (step 4 f) run (Some h) = Some h'.
Proof. intros. now apply drawPix_unique. Qed.
Print Assumptions C33_pixels.

(** All blend modes between image.NRGBA images (genblend.go:446-461), with and without
    a uniform mask. *)
Theorem C33_blend_modes : forall m dst src r sp mask mp (h : list Z),
  view_ok 4 dst (zlen h) -> view_ok 4 src (zlen h) -> separate dst src -> bytes_ok h ->
  match mask with None => True | Some a => 0 <= a <= 65535 end ->
  let alpha := match mask with None => 255 | Some a => Z.shiftr a 8 end in
  let zero := fun a => Z.shiftr a 8 =? 0 in
  let mb := match mask with None => None | Some _ => Some uniformBounds end in
  let area := fun p => in_clip (vrect dst) r (vrect src) sp mb mp p /\ match mask with None => True | Some a => zero a = false end in
  let f := onBytes (blend8 machine m alpha) in
  exists h', drawn 4 f area (fun p l => pixel_is h 4 src (aligned r sp p) l) dst h h' /\
    forall cpus, (1 <= cpus)%nat -> exists ls, drawPix cpus 4 dst src r sp mask mp zero = Some ls /\
      forall run, interleave ls run -> exec (step 4 f) run (Some h) = Some h'.
Proof.
  intros m dst src r sp mask mp h Hd Hs Hsep Hh Hm alpha zero mb area f.
  apply (drawPix_unique 4 dst src r sp mask mp zero f h (or_introl eq_refl) Hd Hs Hsep).
  intros p s d _ Es Ed. eapply onBytes_ok; [exact Hh|exact Es|exact Ed|].
  intros s' d' Ps Pd. destruct (blend8_range m alpha s' d') as (o & E & _); [|assumption|assumption|eauto].
  unfold alpha, PLum.byte. clear -Hm. destruct mask as [a|]; cbv iota in *; [|lia]. rewrite Z.shiftr_div_pow2 by lia. change (2 ^ 8) with 256. lia.
Qed.
Print Assumptions C33_blend_modes.

(** The Porter-Duff operators between image.RGBA and image.NRGBA images. *)
Theorem C33_porter_duff : forall op sn dn dst src r sp (h : list Z),
  view_ok 4 dst (zlen h) -> view_ok 4 src (zlen h) -> separate dst src -> bytes_ok h ->
  let f := onBytes (pdB machine op sn dn 65535) in
  let area := fun p => in_clip (vrect dst) r (vrect src) sp None (Pt 0 0) p /\ True in
  exists h', drawn 4 f area (fun p l => pixel_is h 4 src (aligned r sp p) l) dst h h' /\
    forall cpus, (1 <= cpus)%nat -> exists ls, drawPix cpus 4 dst src r sp None (Pt 0 0) (fun _ => false) = Some ls /\
      forall run, interleave ls run -> exec (step 4 f) run (Some h) = Some h'.
Proof.
  intros op sn dn dst src r sp h Hd Hs Hsep Hh f area.
  apply (drawPix_unique 4 dst src r sp None (Pt 0 0) (fun _ => false) f h (or_introl eq_refl) Hd Hs Hsep).
  intros p s d _ Es Ed. eapply onBytes_ok; [exact Hh|exact Es|exact Ed|]. intros; apply pdB_total.
Qed.
Print Assumptions C33_porter_duff.

(** A uniform source (Porter-Duff). *)
Theorem C33_uniform : forall cpus dst r sp f (h : list Z),
  (1 <= cpus)%nat -> view_ok 4 dst (zlen h) ->
  defined_on 4 f (in_clip (vrect dst) r uniformBounds sp None (Pt 0 0)) (fun p l => l = []) dst h ->
  exists ls, drawUniform cpus dst r sp = Some ls /\
    all_runs 4 f ls h (drawn 4 f (in_clip (vrect dst) r uniformBounds sp None (Pt 0 0)) (fun p l => l = []) dst h).
Proof. intros cpus dst r sp f h. apply drawUniform_drawn. Qed.
Print Assumptions C33_uniform.

(** Generic images with or without a mask image: a cell is a pixel of any type. *)
Theorem C33_fallback : forall (V : Type) cpus dst src mask r sp mp f (h : list V),
  (1 <= cpus)%nat -> view_ok 1 dst (zlen h) -> view_ok 1 src (zlen h) ->
  match mask with None => True | Some m => view_ok 1 m (zlen h) /\ separate dst m end -> separate dst src ->
  let mb := match mask with None => None | Some m => Some (vrect m) end in
  defined_on 1 f (in_clip (vrect dst) r (vrect src) sp mb mp) (fsources h src mask r sp mp) dst h ->
  exists ls, drawFallback cpus false dst src r sp mask mp = Some ls /\
    all_runs 1 f ls h (drawn 1 f (in_clip (vrect dst) r (vrect src) sp mb mp) (fsources h src mask r sp mp) dst h).
Proof.
  intros V cpus dst src mask r sp mp f h Hc Hd Hs Hm Hsep mb Hf.
  destruct (drawFallback_drawn cpus false dst src r sp mask mp f h Hc Hd Hs Hm (or_introl Hsep) Hf) as (ls & E & _ & H). eauto.
Qed.
Print Assumptions C33_fallback.

(** A case: two images of 3 x 6 pixels with different strides and corners; six rows
    on three processors are three workers. *)
Definition dstV : view := View 0 80 13 (Rct 1 1 4 7).
Definition srcV : view := View 100 92 16 (Rct (-2) 0 1 6).
Definition heapV : list Z := map (fun k => k mod 251) (zseq 192).
Example C33_used : view_ok 4 dstV (zlen heapV) /\ view_ok 4 srcV (zlen heapV) /\ separate dstV srcV /\ bytes_ok heapV /\
  in_clip (vrect dstV) (Rct 2 1 9 9) (vrect srcV) (Pt (-1) 0) None (Pt 0 0) (Pt 3 5) /\
  (exists ls, drawPix 3 4 dstV srcV (Rct 2 1 9 9) (Pt (-1) 0) None (Pt 0 0) (fun _ => false) = Some ls /\ map (@length _) ls = [4; 4; 4]%nat).
Proof.
  split; [unfold view_ok, rdx, rdy; vm_compute; repeat split; intros; discriminate|].
  split; [unfold view_ok, rdx, rdy; vm_compute; repeat split; intros; discriminate|].
  split; [left; vm_compute; discriminate|].
  split. { unfold bytes_ok, heapV. apply Forall_forall. intros x Hx. apply in_map_iff in Hx. destruct Hx as (k & <- & _). unfold is_byte. pose proof (Z.mod_pos_bound k 251 ltac:(lia)). lia. }
  split; [repeat split; reflexivity|]. eexists. split; vm_compute; reflexivity.
Qed.

(** * C34: drawing an image onto itself *)

Definition selfV : view := View 0 20 4 (Rct 0 0 1 5).
Definition selfH : list Z := [10;10;10;255; 11;11;11;255; 12;12;12;255; 13;13;13;255; 14;14;14;255].

(** The property is false: moving a column of five pixels up by one on two
    processors, with the second worker running first. *)
Theorem C34_parallel_refuted : exists cpus dst r sp h ls run h',
  view_ok 4 dst (zlen h) /\ bytes_ok h /\
  drawPix cpus 4 dst dst r sp None (Pt 0 0) (fun _ => false) = Some ls /\ interleave ls run /\
  exec (step 4 (onBytes (pdB machine Copy false false 65535))) run (Some h) = Some h' /\
  ~ drawn 4 (onBytes (pdB machine Copy false false 65535)) (in_clip (vrect dst) r (vrect dst) sp None (Pt 0 0))
      (fun p l => pixel_is h 4 dst (aligned r sp p) l) dst h h'.
Proof.
  exists 2%nat, selfV, (Rct 0 0 1 4), (Pt 0 1), selfH.
  eexists; eexists; eexists. split; [|split; [|split; [vm_compute; reflexivity|split; [|split]]]].
  - unfold view_ok, rdx, rdy; vm_compute. repeat split; intros; discriminate.
  - repeat constructor; unfold is_byte; lia.
  - apply (il_step [_] _ _ []). apply (il_step [_] _ _ []). apply (il_step [] _ _ [_]). apply (il_step [] _ _ [_]).
    constructor. repeat constructor.
  - vm_compute. reflexivity.
  - intros (_ & H & _). specialize (H (Pt 0 1) [12;12;12;255] [11;11;11;255]). destruct H as (o & E & P).
    + repeat split; reflexivity.
    + split; [reflexivity|]. intros k Hk. assert (k = 0 \/ k = 1 \/ k = 2 \/ k = 3) as [-> |[-> |[-> | ->]]] by lia; reflexivity.
    + split; [reflexivity|]. intros k Hk. assert (k = 0 \/ k = 1 \/ k = 2 \/ k = 3) as [-> |[-> |[-> | ->]]] by lia; reflexivity.
    + vm_compute in E. injection E as <-. destruct P as [_ P]. specialize (P 0 ltac:(lia)). vm_compute in P. discriminate.
Qed.
Print Assumptions C34_parallel_refuted.

(** What holds: with one processor, with fewer than four rows, or when the rows stay
    where they are, the result is that of a snapshot. *)
Theorem C34_snapshot : forall cpus dst r sp mp f (h : list Z),
  (1 <= cpus)%nat -> view_ok 4 dst (zlen h) -> cpus = 1%nat \/ rdy r < 4 \/ py sp = ry0 r ->
  let area := fun p => in_clip (vrect dst) r (vrect dst) sp None mp p /\ True in
  let sources := fun p l => pixel_is h 4 dst (aligned r sp p) l in
  defined_on 4 f area sources dst h ->
  exists ls, drawPix cpus 4 dst dst r sp None mp (fun _ => false) = Some ls /\
    all_runs 4 f ls h (drawn 4 f area sources dst h).
Proof.
  intros cpus dst r sp mp f h Hc Hd Hcase area sources Hf.
  assert ((fitWorkers cpus (rdy (fst (fst (clipRect (vrect dst) r (vrect dst) sp None mp)))) = 1%nat \/ py sp = ry0 r) \/
    rempty (fst (fst (clipRect (vrect dst) r (vrect dst) sp None mp))) = true) as [H|He].
  { destruct Hcase as [H|[H|H]]; [destruct (few_rows (vrect dst) r (vrect dst) sp None mp cpus Hc (or_introl H)); tauto
      |destruct (few_rows (vrect dst) r (vrect dst) sp None mp cpus Hc (or_intror H)); tauto|tauto]. }
  - destruct (drawPix_drawn cpus 4 dst dst r sp None mp (fun _ => false) f h Hc (or_introl eq_refl) Hd Hd) as (ls & E & _ & Hr);
      [right; tauto|exact Hf|]. eauto.
  - exists []. split.
    + unfold drawPix. destruct (clipRect (vrect dst) r (vrect dst) sp None mp) as [[R ?] ?]. cbn [fst] in He. now rewrite He.
    + apply no_draw. intros p [Hp _]. apply clip_points in Hp. rewrite pt_in_spec in Hp. unfold rempty in He. lia.
Qed.
Print Assumptions C34_snapshot.

(** The same for generic images; the mask is another image. *)
Theorem C34_fallback_snapshot : forall (V : Type) cpus dst mask r sp mp f (h : list V),
  (1 <= cpus)%nat -> view_ok 1 dst (zlen h) ->
  match mask with None => True | Some m => view_ok 1 m (zlen h) /\ separate dst m end ->
  cpus = 1%nat \/ rdy r < 4 \/ py sp = ry0 r ->
  let mb := match mask with None => None | Some m => Some (vrect m) end in
  let area := in_clip (vrect dst) r (vrect dst) sp mb mp in
  defined_on 1 f area (fsources h dst mask r sp mp) dst h ->
  exists ls, drawFallback cpus true dst dst r sp mask mp = Some ls /\
    all_runs 1 f ls h (drawn 1 f area (fsources h dst mask r sp mp) dst h).
Proof.
  intros V cpus dst mask r sp mp f h Hc Hd Hm Hcase mb area Hf.
  assert ((fitWorkers cpus (rdy (fst (fst (clipRect (vrect dst) r (vrect dst) sp mb mp)))) = 1%nat \/ py sp = ry0 r) \/
    rempty (fst (fst (clipRect (vrect dst) r (vrect dst) sp mb mp))) = true) as [H|He].
  { destruct Hcase as [H|[H|H]]; [destruct (few_rows (vrect dst) r (vrect dst) sp mb mp cpus Hc (or_introl H)); tauto
      |destruct (few_rows (vrect dst) r (vrect dst) sp mb mp cpus Hc (or_intror H)); tauto|tauto]. }
  - destruct (drawFallback_drawn cpus true dst dst r sp mask mp f h Hc Hd Hd Hm) as (ls & E & _ & Hr); [right; tauto|exact Hf|]. eauto.
  - exists []. split.
    + unfold drawFallback. fold mb. destruct (clipRect (vrect dst) r (vrect dst) sp mb mp) as [[R ?] ?]. cbn [fst] in He. now rewrite He.
    + apply no_draw. intros p Hp. apply clip_points in Hp. rewrite pt_in_spec in Hp. unfold rempty in He. lia.
Qed.
Print Assumptions C34_fallback_snapshot.

(** Moving the column on one processor. *)
Example C34_used : view_ok 4 selfV (zlen selfH) /\
  exists ls, drawPix 1 4 selfV selfV (Rct 0 0 1 4) (Pt 0 1) None (Pt 0 0) (fun _ => false) = Some ls /\
  exec (step 4 (onBytes (pdB machine Copy false false 65535))) (concat ls) (Some selfH) =
  Some [11;11;11;255; 12;12;12;255; 13;13;13;255; 14;14;14;255; 14;14;14;255].
Proof.
  split; [unfold view_ok, rdx, rdy; vm_compute; repeat split; intros; discriminate|]. eexists. split; [vm_compute; reflexivity|vm_compute; reflexivity].
Qed.

(** * C44, drawing: the rows are split without gaps and overlaps *)

(** [row d0 s0] is whatever is done for the row at [d0], [s0]: the workers together
    do each of the [y] rows once and in order. *)
Theorem C44_drawing : forall cpus y row d0 s0 dyD syD, (1 <= cpus)%nat -> 0 < y ->
  exists wss, parallel cpus y row d0 s0 dyD syD = map (@concat pact) wss /\
    concat wss = map (fun k => row (d0 + k * dyD) (s0 + k * syD)) (zseq (Z.to_nat y)) /\
    (1 <= length wss <= cpus)%nat.
Proof.
  intros cpus y row d0 s0 dyD syD Hc Hy. destruct (parallel_rows cpus y row d0 s0 dyD syD Hc ltac:(lia)) as (wss & E1 & E2 & E3).
  exists wss. split; [exact E1|]. split; [now rewrite E2, rows_eq|]. rewrite E3. apply fitWorkers_spec. exact Hc.
Qed.
Print Assumptions C44_drawing.
