(** What a file with opaque pixels looks like: the layers painted one over the other, from
    the bottom to the top. *)
From Coq Require Import String.
From Verif Require Import Base MRect SRecord SBlend MBlend STile.
Close Scope string_scope.
Open Scope Z_scope.

(** ** Pixels: nothing, or an opaque colour *)
(** The colour that package blend makes of two opaque colours: see C36 - C40. *)
Definition opaque_mix (m : mode) (s d : MBlend.px) : MBlend.px :=
  match blend8 machine m 255 s d with Some p => p | None => d end.
Definition over (m : mode) (s d : option MBlend.px) : option MBlend.px :=
  match s, d with
  | None, _ => d
  | Some s, None => Some s
  | Some s, Some d => Some (opaque_mix m s d)
  end.
(** Nothing is shown as transparent black. *)
Definition shown_as (c : option MBlend.px) : MBlend.px := match c with Some c => c | None => Px 0 0 0 0 end.

(** The keys of the blend modes (Adobe file format document) *)
Definition mode_keys : list (bytes * mode) :=
  map (fun '(k, m) => (ascii k, m))
  [("norm"%string, Normal);
   ("dark"%string, Darken); ("mul "%string, Multiply); ("idiv"%string, ColorBurn); ("lbrn"%string, LinearBurn); ("dkCl"%string, DarkerColor);
   ("lite"%string, Lighten); ("scrn"%string, Screen); ("div "%string, ColorDodge); ("lddg"%string, Add); ("lgCl"%string, LighterColor);
   ("over"%string, Overlay); ("sLit"%string, SoftLight); ("hLit"%string, HardLight); ("lLit"%string, LinearLight); ("vLit"%string, VividLight);
   ("pLit"%string, PinLight); ("hMix"%string, HardMix);
   ("diff"%string, Difference); ("smud"%string, Exclusion); ("fsub"%string, Subtract); ("fdiv"%string, Divide);
   ("hue "%string, Hue); ("sat "%string, Saturation); ("colr"%string, Color); ("lum "%string, Luminosity)].
Definition key_is (k : bytes) (m : mode) : Prop := In (k, m) mode_keys.

(** ** Layers *)
(** The mode of a picture; "pass through" means normal there. *)
Definition leaf_mode (l : slayer) (m : mode) : Prop :=
  key_is (sl_blend l) m \/ (sl_blend l = ascii "pass" /\ m = Normal).
(** The mode of a folder is that of its section divider setting, or else that of the
    record; [None]: pass through. *)
Definition folder_key (l : slayer) (k : bytes) : Prop :=
  exists d typ bm sub, divider_info (sl_info l) = Some d /\ divider_is d typ bm sub /\ k = match bm with Some b => b | None => sl_blend l end.
Definition folder_mode (l : slayer) (m : option mode) : Prop :=
  exists k, folder_key l k /\ match m with Some m => key_is k m | None => k = ascii "pass" end.
Definition hidden (l : slayer) : bool := Z.testbit (sl_flags l) 1.

(** The pixel of the layer at a point: the planes hold the rectangle row by row; without
    an alpha plane everything is opaque. *)
Definition leaf_px (l : slayer) (p : point) (c : option MBlend.px) : Prop :=
  if pt_in p (sl_rect l) then
    let i := (py p - ry0 (sl_rect l)) * rdx (sl_rect l) + (MRect.px p - rx0 (sl_rect l)) in
    exists dr dg db r g b a,
      chan_data l 8 0 = Some dr /\ chan_data l 8 1 = Some dg /\ chan_data l 8 2 = Some db /\
      nth_error dr (Z.to_nat i) = Some r /\ nth_error dg (Z.to_nat i) = Some g /\ nth_error db (Z.to_nat i) = Some b /\
      match chan_data l 8 (-1) with Some da => nth_error da (Z.to_nat i) = Some a | None => a = 255 end /\
      c = if a =? 255 then Some (Px r g b 255) else None
  else c = None.

(** The picture of a layer over what lies below it. *)
Inductive paint_tree (p : point) : stree -> option MBlend.px -> option MBlend.px -> Prop :=
| paint_hidden_leaf l d : hidden l = true -> paint_tree p (SLeaf l) d d
| paint_hidden_folder dv f c d : hidden f = true -> paint_tree p (SFolder dv f c) d d
| paint_leaf l m s d : hidden l = false -> leaf_mode l m -> leaf_px l p s -> paint_tree p (SLeaf l) d (over m s d)
| paint_through dv f c d d' : hidden f = false -> folder_mode f None -> paint_trees p c d d' -> paint_tree p (SFolder dv f c) d d'
| paint_folder dv f c m s d : hidden f = false -> folder_mode f (Some m) -> paint_trees p c None s ->
    paint_tree p (SFolder dv f c) d (over m s d)
with paint_trees (p : point) : list stree -> option MBlend.px -> option MBlend.px -> Prop :=
| paint_nil d : paint_trees p [] d d
| paint_cons t ts d1 d2 d3 : paint_tree p t d1 d2 -> paint_trees p ts d2 d3 -> paint_trees p (t :: ts) d1 d3.

(** The files considered: RGB, 8 bits; no masks, no clipping groups, full opacity; every pixel
    opaque or invisible. *)
Definition plain (l : slayer) : Prop := sl_clip l = 0 /\ sl_mask l = SNone /\ sl_opacity l = 255.
Definition plane_bytes_ok (l : slayer) (id : Z) : Prop := exists d, chan_data l 8 id = Some d /\ bytes_ok d.
Definition picture_ok (l : slayer) : Prop :=
  has_type l 0 /\ (exists m, leaf_mode l m) /\
  plane_bytes_ok l 0 /\ plane_bytes_ok l 1 /\ plane_bytes_ok l 2 /\
  match chan_data l 8 (-1) with Some da => Forall (fun a => a = 0 \/ a = 255) da | None => True end.
Definition plain_leaf (l : slayer) : Prop := plain l /\ picture_ok l.
Inductive plain_tree : stree -> Prop :=
| plain_sleaf l : plain_leaf l -> plain_tree (SLeaf l)
| plain_sfolder dv f c m : plain f -> folder_mode f m -> Forall plain_tree c -> plain_tree (SFolder dv f c).

(** If everything is drawn in the mode normal, the topmost visible pixel is seen. *)
Inductive top_of (p : point) : stree -> option MBlend.px -> Prop :=
| top_hidden_leaf l : hidden l = true -> top_of p (SLeaf l) None
| top_hidden_folder dv f c : hidden f = true -> top_of p (SFolder dv f c) None
| top_leaf l s : hidden l = false -> leaf_px l p s -> top_of p (SLeaf l) s
| top_folder dv f c s : hidden f = false -> topmost p c s -> top_of p (SFolder dv f c) s
with topmost (p : point) : list stree -> option MBlend.px -> Prop :=
| topmost_none : topmost p [] None
| topmost_here t ts c : top_of p t (Some c) -> topmost p ts None -> topmost p (t :: ts) (Some c)
| topmost_neither t ts : top_of p t None -> topmost p ts None -> topmost p (t :: ts) None
| topmost_above t ts o c : top_of p t o -> topmost p ts (Some c) -> topmost p (t :: ts) (Some c).
Inductive all_normal : stree -> Prop :=
| normal_leaf l : leaf_mode l Normal -> all_normal (SLeaf l)
| normal_folder dv f c m : folder_mode f m -> m = Some Normal \/ m = None -> Forall all_normal c -> all_normal (SFolder dv f c).
