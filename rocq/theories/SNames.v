(** What New says about the layers of a file: their names and attributes. *)
From Coq Require Import String.
From Verif Require Import Base MRect MConfig MLayer SUtil SUtf16 SCompress SRecord MRender MNames.
Open Scope string_scope.
Open Scope list_scope.
Open Scope Z_scope.

(** The Unicode name that the file has for a layer; empty if it has none *)
Definition unicode_name (sl : slayer) (u : bytes) : Prop :=
  match last_info (sl_info sl) (ascii "luni") with
  | None | Some [] => u = []
  | Some d => exists rs, luni_is d rs /\ u = flat_map utf8_of rs
  end.
(** The names in the encoding of the author's system, bottom to top, folders before their content *)
Fixpoint legacy_names (t : stree) : list bytes :=
  match t with
  | SLeaf l => [sl_name l]
  | SFolder _ f c => sl_name f :: flat_map legacy_names c
  end.

(** The name shown for a layer: the Unicode name if there is one, else the other name
    after decoding, as it is stored if it cannot be decoded. *)
Definition shown_name (decode : bytes -> option bytes) (sl : slayer) (n : bytes) : Prop :=
  exists u, unicode_name sl u /\
    ((u <> [] /\ n = u) \/
     (u = [] /\ sl_name sl = [] /\ n = []) \/
     (u = [] /\ sl_name sl <> [] /\ decode (sl_name sl) = Some n) \/
     (u = [] /\ sl_name sl <> [] /\ decode (sl_name sl) = None /\ n = sl_name sl)).
(** A name that has to be decoded *)
Definition legacy_only (sl : slayer) : Prop := unicode_name sl [] /\ sl_name sl <> [].
Inductive in_tree (sl : slayer) : stree -> Prop :=
| in_leaf : in_tree sl (SLeaf sl)
| in_folder d c : in_tree sl (SFolder d sl c)
| in_content d f c t : In t c -> in_tree sl t -> in_tree sl (SFolder d f c).

(** The encoding in use: what the detector says about all names together, none without a detector *)
Definition used_encoding {Enc} (nop : Enc) (d : option (nat -> bytes -> option Enc)) (names : bytes) (e : Enc) : Prop :=
  match d with Some f => f 0%nat names = Some e | None => e = nop end.

(** Type of the layer, blend mode of folders *)
Definition type_is (sl : slayer) (typ : Z) (fbm : bytes) : Prop :=
  match divider_info (sl_info sl) with
  | None => typ = 0 /\ fbm = sl_blend sl
  | Some d => exists bm sub, divider_is d typ bm sub /\ fbm = match bm with Some b => b | None => sl_blend sl end
  end.

(** The layer [i] of the file as New presents it *)
Definition presented (decode : bytes -> option bytes) (i : Z) (sl : slayer) (folder : bool) (a : battr) : Prop :=
  shown_name decode sl (ba_name a) /\
  lseq (ba_attr a) = i /\
  lopa (ba_attr a) = sl_opacity sl /\
  lclipping (ba_attr a) = negb (sl_clip sl =? 0) /\
  lbce (ba_attr a) = match last_info (sl_info sl) (ascii "clbl") with Some (c :: _) => negb (c =? 0) | _ => true end /\
  (lvis (ba_attr a) = true <-> sl_flags sl / 2 mod 2 = 0) /\
  ba_folder a = folder /\
  ba_mask a = mk_color (mask_of (sl_mask sl)) /\
  lmdc (ba_attr a) = (ba_mask a =? 255) /\
  (lmen (ba_attr a) = true -> mk_flags (mask_of (sl_mask sl)) / 2 mod 2 = 0 /\ rempty (mk_rect (mask_of (sl_mask sl))) = false) /\
  exists typ fbm, type_is sl typ fbm /\
    (ba_open a = true <-> typ = 1) /\
    (folder = true -> lbm (ba_attr a) = fbm) /\
    (folder = false -> (sl_blend sl = ascii "pass" -> lbm (ba_attr a) = ascii "norm") /\
                       (sl_blend sl <> ascii "pass" -> lbm (ba_attr a) = sl_blend sl)).
Inductive presents (decode : bytes -> option bytes) : Z -> stree -> btree -> Prop :=
| P_leaf i sl a : presented decode i sl false a -> presents decode i (SLeaf sl) (BT a [])
| P_folder i d f c a ts : presented decode (i + 1 + zlen (flat_map sflatten c)) f true a -> presents_all decode (i + 1) c ts ->
    presents decode i (SFolder d f c) (BT a ts)
with presents_all (decode : bytes -> option bytes) : Z -> list stree -> list btree -> Prop :=
| P_nil i : presents_all decode i [] []
| P_cons i s ss t ts : presents decode i s t -> presents_all decode (i + zlen (sflatten s)) ss ts -> presents_all decode i (s :: ss) (t :: ts).
