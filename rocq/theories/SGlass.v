(** What a file looks like whose layers have any transparency: pixels, masks and opacities of
    all values, clipping groups, pass-through folders. *)
From Coq Require Import String.
From Verif Require Import Base MRect MLayer SRecord SBlend MBlend MPorter SPorter STile SPipe SSharp.
Close Scope string_scope.
Open Scope Z_scope.

(** ** Pixels *)
Definition nothing : px := Px 0 0 0 0.
(** The Porter-Duff operators on pixels that are not premultiplied (see C42), and with a mask
    value as source *)
Definition pdpx (op : pdop) (s d : px) : px := out16 true (textbook op (src16 true s) (src16 true d)).
Definition pdmask (op : pdop) (m : Z) (d : px) : px := out16 true (textbook op (Px 0 0 0 (m * 257)) (src16 true d)).
(** A pixel after it was copied to another buffer: faint pixels lose a little (see C62). *)
Definition stored (v : px) : px := pdpx Copy v nothing.
Definition opaque (v : px) : px := Px (pr v) (pg v) (pb v) 255.
(** The blend modes: see C36 - C40 *)
Definition blended (m : mode) (op : Z) (s d : px) : px := match blend8 machine m op s d with Some p => p | None => d end.

(** ** Layers *)
(** The pixel of a picture at a point; invisible pixels have no colour. *)
Definition leaf_value (l : slayer) (p : point) (v : px) : Prop :=
  if pt_in p (sl_rect l) then
    let i := (py p - ry0 (sl_rect l)) * rdx (sl_rect l) + (MRect.px p - rx0 (sl_rect l)) in
    exists dr dg db r g b a,
      chan_data l 8 0 = Some dr /\ chan_data l 8 1 = Some dg /\ chan_data l 8 2 = Some db /\
      nth_error dr (Z.to_nat i) = Some r /\ nth_error dg (Z.to_nat i) = Some g /\ nth_error db (Z.to_nat i) = Some b /\
      match chan_data l 8 (-1) with Some da => nth_error da (Z.to_nat i) = Some a | None => a = 255 end /\
      v = if a =? 0 then nothing else Px r g b a
  else v = nothing.
(** The opacity of a layer in a folder that passes through with the opacity [op] *)
Definition within (op : option Z) (o : Z) : Z := match op with Some op => o * op / 255 | None => o end.
Definition inside (m : option mode) (op : Z) : option Z := match m with Some _ => None | None => Some op end.

Section square.
  (** The points of the square that is drawn at a time *)
  Variable A : point -> Prop.

  (** Some pixel in the square is drawn. *)
  Inductive touches : stree -> Z -> Prop :=
  | touches_leaf l op q v : hidden l = false -> op <> 0 -> A q -> leaf_value l q v -> v <> nothing -> touches (SLeaf l) op
  | touches_folder dv f c m op gs t cs : hidden f = false -> op <> 0 -> folder_mode f m -> layers_grouped c gs -> In (t, cs) gs ->
      touches t (within (inside m op) (sl_opacity (rec_of t))) -> touches (SFolder dv f c) op.

  Variable p : point.
  (** [s] seen through the mask of the layer; [through]: a pass-through folder lies over [d], which
      is put below what the mask has left. A mask whose default colour is white changes nothing in
      a square that is all white. *)
  Definition has_mask (l : slayer) : bool := mask_on l && negb (rempty (mask_rect l)).
  Definition masked (l : slayer) (through : bool) (d s v : px) : Prop :=
    if has_mask l then
      exists m s', mask_at l p m /\
        (mask_colour l = 0 /\ s' = pdmask DestIn m s \/
         mask_colour l <> 0 /\ ((exists q m', A q /\ mask_at l q m' /\ m' <> 255) /\ s' = pdmask DestOut (255 - m) s \/
                                (forall q, A q -> mask_at l q 255) /\ s' = s)) /\
        v = if through then pdpx DestOver d s' else s'
    else v = s.

  (** [image t op d v]: what the layer shows through its mask.
      [put t cs op d d']: the layer, with the layers [cs] clipped to it, makes [d'] of [d].
      [topped t cs v v']: the layers clipped to the layer change its picture [v] to [v'].
      [laid op ts d d']: all the layers of a list make [d'] of [d]. *)
  Inductive image : stree -> Z -> px -> px -> Prop :=
  | image_leaf l op d s v : leaf_value l p s -> masked l false d (stored s) v -> image (SLeaf l) op d v
  | image_folder dv f c m op d s v : folder_mode f (Some m) -> laid None c nothing s -> masked f false d s v -> image (SFolder dv f c) op d v
  | image_through dv f c op d s v : folder_mode f None -> laid (Some op) c (stored d) s -> masked f true d s v -> image (SFolder dv f c) op d v
  with put : stree -> list stree -> Z -> px -> px -> Prop :=
  | put_unseen t cs op d : hidden (rec_of t) = true \/ op = 0 -> put t cs op d d
  | put_over t cs m op d v v' : hidden (rec_of t) = false -> op <> 0 -> mode_of t (Some m) -> image t op d v -> topped t cs v v' ->
      put t cs op d (blended m op v' d)
  | put_through t cs op d v v' : hidden (rec_of t) = false -> op <> 0 -> mode_of t None -> touches t op -> image t op d v -> topped t cs v v' ->
      put t cs op d (stored v')
  | put_away t cs op d : mode_of t None -> ~ touches t op -> put t cs op d d
  with topped : stree -> list stree -> px -> px -> Prop :=
  | topped_alone t cs v : cs = [] \/ blends_group (rec_of t) = false -> topped t cs v v
  | topped_group t cs v x : cs <> [] -> blends_group (rec_of t) = true -> clips_on cs (opaque (stored v)) x -> topped t cs v (pdpx DestIn v x)
  with clips_on : list stree -> px -> px -> Prop :=
  | clips_done x : clips_on [] x x
  | clips_next t cs x y z : put t [] (sl_opacity (rec_of t)) x y -> clips_on cs y z -> clips_on (t :: cs) x z
  with laid : option Z -> list stree -> px -> px -> Prop :=
  | laid_groups op ts gs d d' : layers_grouped ts gs -> heaped op gs d d' -> laid op ts d d'
  with heaped : option Z -> list (stree * list stree) -> px -> px -> Prop :=
  | heaped_nil op d : heaped op [] d d
  | heaped_cons op t cs gs d1 d2 d3 : put t cs (within op (sl_opacity (rec_of t))) d1 d2 -> heaped op gs d2 d3 -> heaped op ((t, cs) :: gs) d1 d3.
End square.

(** ** The files considered: RGB, 8 bits *)
Definition glass_picture (l : slayer) : Prop :=
  has_type l 0 /\ (exists m, leaf_mode l m) /\
  plane_bytes_ok l 0 /\ plane_bytes_ok l 1 /\ plane_bytes_ok l 2 /\
  match chan_data l 8 (-1) with Some da => bytes_ok da | None => True end.
(** A mask that is on has no density or feather; it is not the same everywhere (such masks may be
    lost or not, see C60), unless it is white and the layer is not a pass-through folder or
    it has no pixels. *)
Definition glass_mask (l : slayer) (through : bool) : Prop := mask_on l = true ->
  mask_params l = None /\ (exists d, chan_data l 8 (-2) = Some d /\ bytes_ok d) /\ (mask_colour l = 0 \/ mask_colour l = 255) /\
  (mask_colour l = 255 /\ (rempty (mask_rect l) = true \/ through = false) \/
   exists q v, 0 <= MRect.px q /\ 0 <= py q /\ pt_in q (mask_rect l) = true /\ mask_at l q v /\ v <> mask_colour l).
(** If something is clipped to a pass-through folder, groups are blended as groups there
    (otherwise the renderer panics). *)
Definition glass_groups (ts : list stree) : Prop := forall gs t cs, layers_grouped ts gs -> In (t, cs) gs ->
  cs = [] \/ blends_group (rec_of t) = true \/ ~ mode_of t None.
Inductive glass_tree : stree -> Prop :=
| glass_sleaf l : is_byte (sl_opacity l) -> glass_mask l false -> glass_picture l -> glass_tree (SLeaf l)
| glass_sfolder dv f c m : is_byte (sl_opacity f) -> folder_mode f m -> glass_mask f (match m with None => true | Some _ => false end) ->
    Forall glass_tree c -> glass_groups c -> glass_tree (SFolder dv f c).
Definition glass_forest (ts : list stree) : Prop := Forall glass_tree ts /\ glass_groups ts.

(** Files without pass-through folders and without masks whose default colour is white *)
Definition steady (l : slayer) : Prop := has_mask l = true -> mask_colour l = 0.
Inductive steady_tree : stree -> Prop :=
| steady_sleaf l : steady l -> steady_tree (SLeaf l)
| steady_sfolder dv f c : steady f -> ~ folder_mode f None -> Forall steady_tree c -> steady_tree (SFolder dv f c).

(** The points of the image in the tile at [q] *)
Definition square (ts : Z) (q p : point) : Prop := in_tile ts q p /\ 0 <= MRect.px p /\ 0 <= py p.
