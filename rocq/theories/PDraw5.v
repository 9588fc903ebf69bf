From Verif Require Import Base BaseFacts MRect MSched PSched MDraw SDraw PDraw PDraw2 PDraw3 PDraw4 MBlend MPorter SBlend PBlend2 PBlend3 PWide2.
Open Scope Z_scope.

(** The area is finite: whether an address belongs to a drawn pixel is decidable. *)
Lemma area_dec db r sb sp mb mp ds dst a :
  (exists p, in_clip db r sb sp mb mp p /\ paddr ds dst p <= a < paddr ds dst p + ds) \/
  (forall p, in_clip db r sb sp mb mp p -> ~ (paddr ds dst p <= a < paddr ds dst p + ds)).
Proof.
  set (R := fst (fst (clipRect db r sb sp mb mp))).
  destruct (rempty R) eqn:He.
  - right. intros p Hp. apply clip_points in Hp. fold R in Hp. unfold rempty in He. rewrite pt_in_spec in Hp. lia.
  - set (L := concat (map (fun k => map (fun t => gpt true R k t) (zseq (Z.to_nat (rdx R)))) (zseq (Z.to_nat (rdy R))))).
    assert (forall p, in_clip db r sb sp mb mp p <-> In p L) as HL.
    { intros p. rewrite <- clip_points. fold R. rewrite (gpt_range true) by assumption. unfold L. rewrite in_concat. split.
      - intros (k & t & Hk & Ht & ->). eexists. split; [apply in_map_iff; exists k; split; [reflexivity|now apply in_zseq]|].
        apply in_map_iff. exists t. split; [reflexivity|now apply in_zseq].
      - intros (l & Hl & Hp). apply in_map_iff in Hl. destruct Hl as (k & <- & Hk). apply in_map_iff in Hp. destruct Hp as (t & <- & Ht).
        apply in_zseq in Hk, Ht. eauto 10. }
    destruct (existsb (fun p => (paddr ds dst p <=? a) && (a <? paddr ds dst p + ds)) L) eqn:E.
    + left. apply existsb_exists in E. destruct E as (p & Hp & E). exists p. split; [now apply HL|lia].
    + right. intros p Hp Hc. apply HL in Hp. assert (existsb (fun p => (paddr ds dst p <=? a) && (a <? paddr ds dst p + ds)) L = true); [|congruence].
      apply existsb_exists. exists p. split; [assumption|lia].
Qed.

(** The pixels say all. *)
Lemma drawn_unique {V} ds (f : list V -> list V -> option (list V)) (area : point -> Prop) sources dst (h h1 h2 : list V) :
  (forall a, (exists p, area p /\ paddr ds dst p <= a < paddr ds dst p + ds) \/
             (forall p, area p -> ~ (paddr ds dst p <= a < paddr ds dst p + ds))) ->
  (forall p, area p -> exists s d, sources p s /\ pixel_is h ds dst p d) ->
  drawn ds f area sources dst h h1 -> drawn ds f area sources dst h h2 -> h1 = h2.
Proof.
  intros Hdec Hdef (A1 & A2 & A3) (B1 & B2 & B3). apply idx_ext. intros a. destruct (Hdec a) as [(p & Hp & Ha)|Hno].
  - destruct (Hdef p Hp) as (s & d & Hs & Hd).
    destruct (A2 p s d Hp Hs Hd) as (o1 & F1 & P1). destruct (B2 p s d Hp Hs Hd) as (o2 & F2 & P2).
    rewrite F1 in F2. injection F2 as <-. destruct P1 as [_ P1], P2 as [_ P2].
    specialize (P1 (a - paddr ds dst p) ltac:(lia)). specialize (P2 (a - paddr ds dst p) ltac:(lia)).
    replace (paddr ds dst p + (a - paddr ds dst p)) with a in * by lia. congruence.
  - now rewrite A3, B3.
Qed.

Lemma pixel_exists {V} (h : list V) bpp v p : 0 <= bpp -> view_ok bpp v (zlen h) -> pt_in p (vrect v) = true -> exists l, pixel_is h bpp v p l.
Proof.
  intros Hb Hv Hp. destruct (reads_ok h (addrs (paddr bpp v p) bpp)) as (l & E1 & E2).
  { intros x Hx. apply in_addrs in Hx. pose proof (paddr_bounds _ _ _ _ Hb Hv Hp). destruct Hv as (? & ? & ? & _). lia. }
  exists l. apply pixel_is_reads. split; [|exact E1]. rewrite E2. now apply zlen_addrs.
Qed.

Theorem drawPix_unique {V} ss dst src r sp mask mp zero f (h : list V) :
  (ss = 4 \/ ss = 1) -> view_ok 4 dst (zlen h) -> view_ok ss src (zlen h) -> separate dst src ->
  let mb := match mask with None => None | Some _ => Some uniformBounds end in
  let area := fun p => in_clip (vrect dst) r (vrect src) sp mb mp p /\ match mask with None => True | Some a => zero a = false end in
  defined_on 4 f area (fun p l => pixel_is h ss src (aligned r sp p) l) dst h ->
  exists h', drawn 4 f area (fun p l => pixel_is h ss src (aligned r sp p) l) dst h h' /\
    forall cpus, (1 <= cpus)%nat -> exists ls, drawPix cpus ss dst src r sp mask mp zero = Some ls /\
      forall run, interleave ls run -> exec (step 4 f) run (Some h) = Some h'.
Proof.
  intros Hss Hd Hs Hsep mb area Hf.
  destruct (drawPix_drawn 1 ss dst src r sp mask mp zero f h (le_n 1) Hss Hd Hs (or_introl Hsep) Hf) as (ls & E1 & _ & E2).
  destruct (E2 _ (interleave_concat ls)) as (h' & E3 & E4). exists h'. split; [exact E4|].
  intros cpus Hc. destruct (drawPix_drawn cpus ss dst src r sp mask mp zero f h Hc Hss Hd Hs (or_introl Hsep) Hf) as (ls' & E1' & _ & E2').
  exists ls'. split; [exact E1'|]. intros run Hrun. destruct (E2' run Hrun) as (h'' & E3' & E4'). rewrite E3'. f_equal.
  apply (drawn_unique 4 f area (fun p l => pixel_is h ss src (aligned r sp p) l) dst h); [| |exact E4'|exact E4].
  - intros a. destruct mask as [m|]; unfold area.
    + destruct (zero m) eqn:Ez; [right; intros p [_ Hp]; congruence|]. destruct (area_dec (vrect dst) r (vrect src) sp mb mp 4 dst a) as [(p & Hp & Ha)|Hno].
      * left. eauto 10.
      * right. intros p [Hp _]. now apply Hno.
    + destruct (area_dec (vrect dst) r (vrect src) sp mb mp 4 dst a) as [(p & Hp & Ha)|Hno].
      * left. eauto 10.
      * right. intros p [Hp _]. now apply Hno.
  - intros p [(_ & Hp & Hq & _) _]. destruct (pixel_exists h ss src (aligned r sp p)) as (s & Es); [lia|assumption|assumption|].
    destruct (pixel_exists h 4 dst p) as (d & Ed); [lia|assumption|assumption|]. eauto.
Qed.

(** Pixel functions on bytes in the order of image.RGBA and image.NRGBA. *)
Definition onBytes (g : px -> px -> option px) (s d : list Z) : option (list Z) :=
  match s, d with
  | [sr; sg; sb; sa], [dr; dg; db; da] =>
      match g (Px sr sg sb sa) (Px dr dg db da) with Some p => Some [pr p; pg p; pb p; pa p] | None => None end
  | _, _ => None
  end.

Lemma four {V} (l : list V) : zlen l = 4 -> exists a b c d, l = [a; b; c; d].
Proof.
  intros H. destruct l as [|a [|b [|c [|d [|e l]]]]]; unfold zlen in H; cbn in H; try lia. eauto.
Qed.

Lemma pixel_bytes (h : list Z) v p l : bytes_ok h -> pixel_is h 4 v p l -> Forall is_byte l.
Proof.
  intros Hh Hl. apply Forall_forall. intros x Hx. apply In_nth_error in Hx. destruct Hx as [n Hn].
  assert (idx l (Z.of_nat n) = Some x) as E by (unfold idx; replace (Z.of_nat n <? 0) with false by lia; now rewrite Nat2Z.id).
  destruct Hl as [Hl1 Hl2]. pose proof (idx_some_lt _ _ _ E). rewrite <- Hl2 in E by lia. exact (Forall_idx is_byte h _ _ Hh E).
Qed.

Lemma onBytes_ok g (h : list Z) s d (v w : view) p q : bytes_ok h -> pixel_is h 4 v p s -> pixel_is h 4 w q d ->
  (forall s d, pixel_ok s -> pixel_ok d -> exists o, g s d = Some o) ->
  exists o, onBytes g s d = Some o /\ zlen o = 4.
Proof.
  intros Hh Hs Hd Hg. pose proof (pixel_bytes _ _ _ _ Hh Hs) as Bs. pose proof (pixel_bytes _ _ _ _ Hh Hd) as Bd.
  destruct (four s (proj1 Hs)) as (a & b & c & e & ->). destruct (four d (proj1 Hd)) as (a' & b' & c' & e' & ->).
  repeat match goal with H : Forall _ (_ :: _) |- _ => inversion H; clear H; subst end. unfold is_byte in *.
  cbn [onBytes]. destruct (Hg (Px a b c e) (Px a' b' c' e')) as (o & ->); [unfold pixel_ok; cbn [pr pg pb pa]; lia..|].
  eexists. split; [reflexivity|]. reflexivity.
Qed.

Lemma pdB_total op sn dn alpha s d : exists o, pdB machine op sn dn alpha s d = Some o.
Proof.
  unfold pdB. set (q := pd machine op _ _). unfold setPx. destruct dn; [|eauto]. unfold setNRGBA, udiv.
  destruct (pa q =? 65535); [eauto|]. destruct (pa q =? 0); eauto.
Qed.

Lemma few_rows db r sb sp mb mp cpus : (1 <= cpus)%nat -> cpus = 1%nat \/ rdy r < 4 ->
  fitWorkers cpus (rdy (fst (fst (clipRect db r sb sp mb mp)))) = 1%nat \/
  rempty (fst (fst (clipRect db r sb sp mb mp))) = true.
Proof.
  intros Hc [-> |Hr]; [now left|]. set (R := fst (fst (clipRect db r sb sp mb mp))).
  destruct (rempty R) eqn:He; [now right|left].
  assert (rdy R <= rdy r) as Hle.
  { assert (pt_in (rmin R) R = true) as H1 by now apply corner_in.
    assert (pt_in (Pt (rx0 R) (ry1 R - 1)) R = true) as H2 by (unfold rempty in He; rewrite pt_in_spec; cbn; lia).
    apply clip_points in H1, H2. destruct H1 as [H1 _], H2 as [H2 _]. rewrite pt_in_spec in H1, H2. unfold rmin in *. cbn in *. unfold rdy. lia. }
  destruct (fitWorkers_spec cpus (rdy R) Hc) as [_ [H|H]]; [exact H|].
  destruct (fitWorkers cpus (rdy R)) as [|[|n]] eqn:E; [|reflexivity|lia].
  pose proof (fitWorkers_spec cpus (rdy R) Hc). lia.
Qed.
