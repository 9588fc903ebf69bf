(** What a file looks like whose layers have sharp edges: every pixel opaque or invisible,
    masks of black and white, clipping groups, layers that are switched off by their opacity. *)
From Coq Require Import String.
From Verif Require Import Base MRect MLayer SRecord SBlend MBlend STile SPipe.
Close Scope string_scope.
Open Scope Z_scope.

Definition rec_of (t : stree) : slayer := match t with SLeaf l => l | SFolder _ f _ => f end.
Definition unseen (l : slayer) : bool := hidden l || (sl_opacity l =? 0).
(** [None]: pass through *)
Definition mode_of (t : stree) (m : option mode) : Prop :=
  match t with
  | SLeaf l => match m with Some m => leaf_mode l m | None => False end
  | SFolder _ f _ => folder_mode f m
  end.

(** ** Masks *)
(** There is a mask and it is not switched off. *)
Definition mask_on (l : slayer) : bool :=
  match sl_mask l with SNone => false | SShort _ _ f _ _ | SLong _ _ f _ _ _ _ => negb (Z.testbit f 1) end.
Definition mask_rect (l : slayer) : rect := match sl_mask l with SNone => ZR | SShort r _ _ _ _ | SLong r _ _ _ _ _ _ => r end.
Definition mask_colour (l : slayer) : Z := match sl_mask l with SNone => 0 | SShort _ c _ _ _ | SLong _ c _ _ _ _ _ => c end.
Definition mask_params (l : slayer) : option sparams := match sl_mask l with SNone => None | SShort _ _ _ p _ | SLong _ _ _ p _ _ _ => p end.
(** The value at a point: the plane holds the rectangle of the mask row by row; outside of it
    the mask has its default colour. *)
Definition mask_at (l : slayer) (p : point) (v : Z) : Prop :=
  let r := mask_rect l in
  if pt_in p r then exists d, chan_data l 8 (-2) = Some d /\ nth_error d (Z.to_nat ((py p - ry0 r) * rdx r + (MRect.px p - rx0 r))) = Some v
  else v = mask_colour l.
(** Whether the mask lets the layer be seen at a point: it is white there. *)
Definition mask_shows (l : slayer) (p : point) (b : bool) : Prop :=
  if mask_on l then exists v, mask_at l p v /\ b = (v =? 255) else b = true.

(** ** Clipping groups *)
Definition clips (t : stree) : bool := negb (sl_clip (rec_of t) =? 0).
(** Layers from the bottom to the top: a layer that is not clipping, with the clipping layers
    directly above it. Clipping layers with nothing below them are not seen. *)
Inductive layers_grouped : list stree -> list (stree * list stree) -> Prop :=
| lg_nil : layers_grouped [] []
| lg_alone t ts gs : clips t = true -> layers_grouped ts gs -> layers_grouped (t :: ts) gs
| lg_base t cs ts gs : clips t = false -> Forall (fun c => clips c = true) cs -> match ts with t' :: _ => clips t' = false | [] => True end ->
    layers_grouped ts gs -> layers_grouped (t :: cs ++ ts) ((t, cs) :: gs).
(** The switch "blend clipped layers as group"; it is on unless the file says otherwise. *)
Definition blends_group (l : slayer) : bool := match last_info (sl_info l) (ascii "clbl"%string) with Some (c :: _) => negb (c =? 0) | _ => true end.

(** ** Painting *)
(** [picture p t d s]: what the layer shows at the point through its mask. [d]: what lies below
    it; only a pass-through folder sees it.
    [placed p t cs d d']: the layer with the layers clipped to it makes [d'] of [d].
    [clipped p cs s s']: the layers [cs] change the picture [s] where there is one. *)
Inductive picture (p : point) : stree -> option MBlend.px -> option MBlend.px -> Prop :=
| picture_leaf l d s b : leaf_px l p s -> mask_shows l p b -> picture p (SLeaf l) d (if b then s else None)
| picture_folder dv f c m d s b : folder_mode f (Some m) -> painted p c None s -> mask_shows f p b ->
    picture p (SFolder dv f c) d (if b then s else None)
| picture_through dv f c d s b : folder_mode f None -> painted p c d s -> mask_shows f p b ->
    picture p (SFolder dv f c) d (if b then s else d)
with placed (p : point) : stree -> list stree -> option MBlend.px -> option MBlend.px -> Prop :=
| placed_unseen t cs d : unseen (rec_of t) = true -> placed p t cs d d
| placed_through t d s : unseen (rec_of t) = false -> mode_of t None -> picture p t d s -> placed p t [] d s
| placed_over t cs m d s s' : unseen (rec_of t) = false -> mode_of t (Some m) -> picture p t d s -> clipped p cs s s' ->
    placed p t cs d (over m s' d)
with clipped (p : point) : list stree -> option MBlend.px -> option MBlend.px -> Prop :=
| clipped_nothing cs : clipped p cs None None
| clipped_done c : clipped p [] (Some c) (Some c)
| clipped_next t cs c s s' : placed p t [] (Some c) s -> clipped p cs s s' -> clipped p (t :: cs) (Some c) s'
with painted (p : point) : list stree -> option MBlend.px -> option MBlend.px -> Prop :=
| painted_groups ts gs d d' : layers_grouped ts gs -> stacked p gs d d' -> painted p ts d d'
with stacked (p : point) : list (stree * list stree) -> option MBlend.px -> option MBlend.px -> Prop :=
| stacked_nil d : stacked p [] d d
| stacked_cons t cs gs d1 d2 d3 : placed p t cs d1 d2 -> stacked p gs d2 d3 -> stacked p ((t, cs) :: gs) d1 d3.

(** ** The files considered *)
(** A mask that is on is black and white, has no density or feather, and does not hide everything
    (for such masks see C60). *)
Definition sharp_mask (l : slayer) : Prop := mask_on l = true ->
  mask_params l = None /\ (exists d, chan_data l 8 (-2) = Some d /\ Forall (fun v => v = 0 \/ v = 255) d) /\
  (mask_colour l = 255 \/ mask_colour l = 0 /\ exists p, 0 <= MRect.px p /\ 0 <= py p /\ pt_in p (mask_rect l) = true /\ mask_at l p 255).
Definition sharp (l : slayer) : Prop := (sl_opacity l = 0 \/ sl_opacity l = 255) /\ sharp_mask l.
(** Layers are not clipped to pass-through folders, and groups are blended as groups. *)
Definition groups_ok (ts : list stree) : Prop := forall gs t cs, layers_grouped ts gs -> In (t, cs) gs ->
  cs = [] \/ (blends_group (rec_of t) = true /\ ~ mode_of t None).
Inductive sharp_tree : stree -> Prop :=
| sharp_sleaf l : sharp l -> picture_ok l -> sharp_tree (SLeaf l)
| sharp_sfolder dv f c m : sharp f -> folder_mode f m -> Forall sharp_tree c -> groups_ok c -> sharp_tree (SFolder dv f c).
Definition sharp_forest (ts : list stree) : Prop := Forall sharp_tree ts /\ groups_ok ts.
