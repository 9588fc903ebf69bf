(** The files that psdexporter should write for the layers of a file. *)
From Coq Require Import String.
From Verif Require Import Base MRect MPicker SUtil SUtf16 SRecord.
Open Scope string_scope.
Open Scope list_scope.
Open Scope Z_scope.

(** A decimal numeral of at least three digits, with zeros in front only to make it three *)
Definition numeral (s : bytes) (i : N) : Prop :=
  (3 <= length s)%nat /\ Forall (fun c => 48 <= c <= 57) s /\ fold_left (fun v c => 10 * v + (c - 48)) s 0 = Z.of_N i /\
  ((3 < length s)%nat -> exists c s', s = c :: s' /\ c <> 48).
(** A path: the index of a layer of the file, of a layer in it, and so on. The name of its file *)
Inductive base_name : list N -> bytes -> Prop :=
| base_last i s : numeral s i -> base_name [i] s
| base_in i s path b : numeral s i -> base_name path b -> base_name (i :: path) (s ++ ascii "_" ++ b).
Definition file_name (path : list N) (n : bytes) : Prop := exists b, base_name path b /\ n = b ++ ascii ".png".

(** The name of a layer: its Unicode name, or else the other one *)
Definition own_name (sl : slayer) (n : bytes) : Prop :=
  match last_info (sl_info sl) (ascii "luni") with
  | None | Some [] => n = sl_name sl
  | Some d => exists rs, luni_is d rs /\ n = flat_map utf8_of rs
  end.
(** The picture at a path, with the names of the folders around it *)
Inductive picture_at : list stree -> list N -> slayer -> bytes -> Prop :=
| at_leaf sf i sl n : nth_error sf (N.to_nat i) = Some (SLeaf sl) -> has_type sl 0 -> own_name sl n -> picture_at sf [i] sl n
| at_content sf i d f c n path sl label : nth_error sf (N.to_nat i) = Some (SFolder d f c) -> own_name f n ->
    picture_at c path sl label -> picture_at sf (i :: path) sl (n ++ ascii "/" ++ label).

(** The image of a layer: the planes of its channels (see C25 for the colours) *)
Definition picture_of (mode depth nch : Z) (sl : slayer) : picker :=
  let alpha := match chan_data sl depth (-1) with Some d => [d] | None => [] end in
  Picker (layer_kind mode depth match alpha with [] => false | _ => true end) (sl_rect sl)
    (map (fun i => match chan_data sl depth i with Some d => d | None => [] end) (zseq (Z.to_nat nch)) ++ alpha).

(** The names of the blend modes; those of W3C's "Compositing and Blending" where it has the mode *)
Definition mode_name (k n : string) : Prop :=
  In (k, n)
  [("pass", "pass-through"); ("norm", "normal"); ("diss", "dissolve");
   ("dark", "darken"); ("mul ", "multiply"); ("idiv", "color-burn"); ("lbrn", "linear-burn"); ("dkCl", "darker-color");
   ("lite", "lighten"); ("scrn", "screen"); ("div ", "color-dodge"); ("lddg", "linear-dodge"); ("lgCl", "lighter-color");
   ("over", "overlay"); ("sLit", "soft-light"); ("hLit", "hard-light"); ("vLit", "vivid-light"); ("lLit", "linear-light");
   ("pLit", "pin-light"); ("hMix", "hard-mix"); ("diff", "difference"); ("smud", "exclusion"); ("fsub", "subtract"); ("fdiv", "divide");
   ("hue ", "hue"); ("sat ", "saturation"); ("colr", "color"); ("lum ", "luminosity")].
