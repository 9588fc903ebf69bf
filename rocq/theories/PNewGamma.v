(** Proofs: New with an offset and a gamma. *)
From Coq Require Import QArith SpecFloat.
From Verif Require Import Base BaseFacts MRect MThumb SThumb MSched PSched MBlend SBlend MRender MWait MTile STile MLoad SLoad MTileRender STileRender MScale SScale PScale MMove SMove MLoadBy PLoadBy PMoveLoad.
Open Scope Z_scope.

Lemma new_gamma rnd lib cpus ts mm dx dy pow gamma ls st :
  SThumb.rounding rnd -> good_library lib -> (1 <= cpus)%nat -> 0 < ts -> moves_by mm dx dy -> NoDup (map pseq ls) ->
  let gt := option_map (makeGammaTable pow) gamma in
  let f c := match gt with Some t => if (dx =? 0) && (dy =? 0) then c else T16 t (T8 t c) | None => c end in
  MWait.steps (lstepBy rnd lib cpus ts (newMatrix mm) gt) (lstart ls) st -> lended st ->
  forall l, In l ls -> ptype l = 0 -> moderate (prect l) dx dy -> plane_ok (prect l) 1 (pr_ l) -> plane_ok (prect l) 1 (pg_ l) -> plane_ok (prect l) 1 (pb_ l) ->
  match pa_ l with Some a => plane_ok (prect l) 1 a | None => True end ->
  exists t m, m_get Z.eqb (ldImages st) (pseq l) = Some (LI (Some t) m) /\ well_tiled ts t /\
    (forall p v, pt_in p (prect l) = true -> 0 <= MRect.px p + dx -> 0 <= py p + dy -> source_px (pr_ l) (pg_ l) (pb_ l) (pa_ l) (sample_pos (prect l) 1 p) v -> pa v = 255 ->
       shows ts z4 t (shifted p dx dy) (Px (f (pr v)) (f (pg v)) (f (pb v)) 255)) /\
    (forall p v, pt_in p (prect l) = true -> source_px (pr_ l) (pg_ l) (pb_ l) (pa_ l) (sample_pos (prect l) 1 p) v -> pa v = 0 -> shows ts z4 t (shifted p dx dy) z4) /\
    (forall p, pt_in p (prect l) = false -> shows ts z4 t (shifted p dx dy) z4).
Proof.
  intros Hr Hl Hc Ht Hmv Nd gt f Hs He l Hin Ty Hm P1 P2 P3 P4. rewrite (newMatrix_moves mm dx dy Hmv) in Hs.
  destruct (In_nth_error _ _ Hin) as [i Hi]. destruct (inv_endBy rnd lib cpus ts (translation dx dy) gt ls Nd st Hs He) as (A & _). destruct (A i l Hi) as (l' & c & m & G & (l1 & C & _)).
  unfold canvasOfBy, hasImage in C. rewrite Ty in C. assert (rempty (prect l) = false) as R by (unfold moderate, rempty in *; lia). rewrite R in C. cbn [Z.eqb negb andb] in C. destruct C as (t & r & B & _ & -> & _).
  exists t, m. split; [exact G|].
  destruct gamma as [g|]; subst f gt; cbn [option_map] in *; [destruct ((dx =? 0) && (dy =? 0)) eqn:Z0|].
  - assert (newScaledTiledImage rnd lib cpus ts (prect l) (pr_ l) (pg_ l) (pb_ l) (pa_ l) 1 (translation dx dy) (Some (makeGammaTable pow g)) =
            newScaledTiledImage rnd lib cpus ts (prect l) (pr_ l) (pg_ l) (pb_ l) (pa_ l) 1 (translation dx dy) None) as E by (unfold newScaledTiledImage; rewrite isIdentity_shift, Z0; reflexivity).
    rewrite E in B. destruct (shift_plain rnd lib cpus ts Hr Hl Hc Ht (prect l) dx dy Hm (pr_ l) (pg_ l) (pb_ l) (pa_ l) 1 ltac:(lia) P1 P2 P3 P4 ltac:(lia)) as [_ M]. destruct (M t B) as (M1 & M2 & M3 & M4).
    split; [exact M1|]. split; [|split; [exact M3|exact M4]]. intros p v H1 H2 H3 H4 H5. specialize (M2 p v H1 H2 H3 H4 H5). destruct v; cbn in *; now subst.
  - destruct (shift_gamma rnd lib cpus ts Hr Hl Hc Ht (prect l) dx dy Hm (pr_ l) (pg_ l) (pb_ l) (pa_ l) 1 ltac:(lia) P1 P2 P3 P4 (makeGammaTable pow g) (table_range pow g) ltac:(lia)) as [_ M].
    exact (M t B).
  - destruct (shift_plain rnd lib cpus ts Hr Hl Hc Ht (prect l) dx dy Hm (pr_ l) (pg_ l) (pb_ l) (pa_ l) 1 ltac:(lia) P1 P2 P3 P4 ltac:(lia)) as [_ M]. destruct (M t B) as (M1 & M2 & M3 & M4).
    split; [exact M1|]. split; [|split; [exact M3|exact M4]]. intros p v H1 H2 H3 H4 H5. specialize (M2 p v H1 H2 H3 H4 H5). destruct v; cbn in *; now subst.
Qed.
