(** Model of the loader of composite/layer.go (see MLoad) for any transformation and gamma. *)
From Verif Require Import Base MRect MThumb MSched MBlend MTile MLoad MScale.
Open Scope Z_scope.

Section loader.
  (** See MScale for [rnd] and [lib]; GOMAXPROCS, the tile size, the matrix and the gamma table of the options *)
  Variables (rnd : QArith_base.Q -> QArith_base.Q) (lib : library) (cpus : nat) (ts : Z) (m : aff) (gt : option gammaTable).

  (** layer.go:291-303 *)
  Definition canvasOfBy (l : player) (l' : player) (c : option (tilemap px)) : Prop :=
    if hasImage l && negb (rempty (prect l)) then
      exists t r, built (newScaledTiledImage rnd lib cpus ts (prect l) (pr_ l) (pg_ l) (pb_ l) (pa_ l) 1 m gt) t /\ tilesRect ts t r /\ c = Some t /\ l' = setRect l r
    else c = None /\ l' = l.
  (** layer.go:304-313 *)
  Definition maskOfBy (l : player) (l' : player) (c : option (tilemap Z)) : Prop :=
    if negb (rempty (pmrect l)) then
      match pmchan l with
      | Some a => exists t r, built (newScaledTiledMask rnd lib cpus ts (pmrect l) a (pmdc l) m) t /\ tilesRect ts t r /\ c = Some t /\ l' = setMaskRect l r
      | None => c = None /\ l' = l
      end
    else c = None /\ l' = l.

  (** The steps of the loader as in MLoad: layer.go:252-319 and layer.go:205 of package psd. *)
  Inductive lstepBy : loader -> loader -> Prop :=
  | LB_send ls n js ims cs : (n < length ls)%nat -> (length js < cpus)%nat ->
      lstepBy (LD ls n js ims cs) (LD ls (S n) (js ++ [JCanvas n]) ims cs)
  | LB_canvas ls n j1 i j2 ims cs l l' c : nth_error ls i = Some l -> canvasOfBy l l' c ->
      lstepBy (LD ls n (j1 ++ JCanvas i :: j2) ims cs) (LD (setNth i l' ls) n (j1 ++ JMask i c :: j2) ims cs)
  | LB_mask ls n j1 i c j2 ims cs l l' k : nth_error ls i = Some l -> maskOfBy l l' k ->
      lstepBy (LD ls n (j1 ++ JMask i c :: j2) ims cs) (LD (setNth i l' ls) n (j1 ++ JStore i (LI c k) :: j2) ims cs)
  | LB_store ls n j1 i ld j2 ims cs l : nth_error ls i = Some l ->
      lstepBy (LD ls n (j1 ++ JStore i ld :: j2) ims cs) (LD ls n (j1 ++ j2) (m_set Z.eqb ims (pseq l) ld) cs)
  | LB_copy ls js ims cs l : nth_error ls (length cs) = Some l ->
      lstepBy (LD ls (length ls) js ims cs) (LD ls (length ls) js ims (cs ++ [l])).
End loader.

(** layer.go:198-203: New replaces zeros in the diagonal of the matrix; layer.go:204-207: no gamma table if Gamma is 0. *)
Definition newMatrix (m : aff) : aff :=
  let z q := QArith_base.Qeq_bool q (QArith_base.inject_Z 0) in
  Aff (if z (a0 m) then QArith_base.inject_Z 1 else a0 m) (a1 m) (a2 m) (a3 m) (if z (a4 m) then QArith_base.inject_Z 1 else a4 m) (a5 m).
