(** What loading a file means: images that are the same, layers that are the same up to
    their rectangles, masks. *)
From Verif Require Import Base MRect MBlend MRender MRenderPx MTile STile MLoad.
Open Scope Z_scope.

(** The same tiles at the same places *)
Definition sameTiles {V} (m m' : option (tilemap V)) : Prop :=
  match m, m' with
  | None, None => True
  | Some m, Some m' => forall k, m_get pt_eqb m k = m_get pt_eqb m' k
  | _, _ => False
  end.
Definition sameImages (o o' : option limage) : Prop :=
  match o, o' with
  | None, None => True
  | Some i, Some i' => sameTiles (liCanvas i) (liCanvas i') /\ sameTiles (liMask i) (liMask i')
  | _, _ => False
  end.

(** Nothing but the rectangles differs. *)
Definition sameButRects (l l' : player) : Prop := l' = setMaskRect (setRect l (prect l')) (pmrect l').

(** The smallest rectangle around the tiles of the map *)
Definition bounds {V} (ts : Z) (m : tilemap V) (r : rect) : Prop :=
  (forall k c p, m_get pt_eqb m k = Some c -> in_tile ts k p -> pt_in p r = true) /\
  (forall r', (forall k c p, m_get pt_eqb m k = Some c -> in_tile ts k p -> pt_in p r' = true) -> forall p, pt_in p r = true -> pt_in p r' = true).

(** The value of the mask of a layer at a point: the plane, the default colour outside *)
Definition maskAt (l : player) (a : bytes) (p : point) (v : Z) : Prop :=
  if pt_in p (pmrect l) then idx a (sample_pos (pmrect l) 1 p) = Some v else v = pmdc l.
