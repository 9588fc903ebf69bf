(** What thumbnails should show. *)
From Verif Require Import Base MRect MThumb MBlend SBlend MRender MTile STile MLoad MTileRender STileRender MThumbs.
Open Scope Z_scope.

(** The tiles show something at the point. *)
Definition visible_at (ts : Z) (m : tilemap px) (p : point) : Prop := exists v, shows ts (Px 0 0 0 0) m p v /\ 0 < pa v.
(** No tile is blank. *)
Definition no_blank (m : tilemap px) : Prop := forall k c, m_get pt_eqb m k = Some c -> exists v, In v c /\ 0 < pa v.
(** The visible points lie between the corners of [b], which is as small as possible. *)
Definition tight (ts : Z) (m : tilemap px) (b : rect) : Prop :=
  (forall p, visible_at ts m p -> rx0 b <= MRect.px p <= rx1 b /\ ry0 b <= py p <= ry1 b) /\
  (exists y, visible_at ts m (Pt (rx0 b) y)) /\ (exists y, visible_at ts m (Pt (rx1 b) y)) /\
  (exists x, visible_at ts m (Pt x (ry0 b))) /\ (exists x, visible_at ts m (Pt x (ry1 b))).
(** The image [i] shows the part of the layer inside [b] (C62 explains [nearly]). *)
Definition cut_out (ts : Z) (m : tilemap px) (b : rect) (i : img) : Prop :=
  iw i = rdx b /\ ih i = rdy b /\ istride i = iw i * 4 /\ zlen (ipix i) = iw i * ih i * 4 /\
  forall p, pt_in p b = true -> exists v w, shows ts (Px 0 0 0 0) m p v /\ nearly v w /\
    let o := (py p - ry0 b) * istride i + (MRect.px p - rx0 b) * 4 in
    idx (ipix i) o = Some (pr w) /\ idx (ipix i) (o + 1) = Some (pg w) /\ idx (ipix i) (o + 2) = Some (pb w) /\ idx (ipix i) (o + 3) = Some (pa w).
(** The size of the thumbnail: the longer side is [size]. *)
Definition fitted (size w h : Z) : rect := if h <? w then Rct 0 0 size (h * size / w) else Rct 0 0 (w * size / h) size.
Definition scaled (downscale : rect -> img -> option (list px)) (size : Z) (b : rect) (i : img) : thumb :=
  match downscale (fitted size (rdx b) (rdy b)) i with Some p => ThOk (Pic (fitted size (rdx b) (rdy b)) p) | None => ThScaleError end.

(** The layers of a tree *)
Inductive layer_in (l : layer) : layer -> Prop :=
| li_self : layer_in l l
| li_kid a ks cs k : In k ks -> layer_in l k -> layer_in l (Lay a ks cs)
| li_group a ks cs k : In k cs -> layer_in l k -> layer_in l (Lay a ks cs).

(** A sheet of side [side] shows the thumbnail inside [pic]. *)
Definition sheet_shows (side : Z) (im : list px) (p : picture) (pic : rect) : Prop :=
  rdx pic = rdx (picRect p) /\ rdy pic = rdy (picRect p) /\
  forall q, pt_in q pic = true -> exists v w, nearly v w /\ image_at (Rct 0 0 side side) im q w /\
    image_at (picRect p) (picPix p) (Pt (MRect.px q - rx0 pic) (py q - ry0 pic)) v.
(** Every thumbnail is an image of bytes that is complete and not larger than [size]. *)
Definition good_picture (size : Z) (p : picture) : Prop :=
  rx0 (picRect p) = 0 /\ ry0 (picRect p) = 0 /\ 0 <= rx1 (picRect p) <= size /\ 0 <= ry1 (picRect p) <= size /\
  zlen (picPix p) = rx1 (picRect p) * ry1 (picRect p) /\ Forall pixel_ok (picPix p).
