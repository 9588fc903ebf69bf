(** Notions for the statements about all tiles and histories of a renderer. *)
From Verif Require Import Base MRect MDraw MTile MRender SRender MRenderAll.

(** The tiles of a rectangle, by their upper left point: multiples of the tile size, the
    first column (row) starts at the multiple that is next to the left (top) side in
    the direction of 0. *)
Definition tileOf (ts : Z) (r : rect) (q : point) : Prop :=
  exists i j, px q = i * ts /\ py q = j * ts /\ Z.quot (rx0 r) ts <= i /\ Z.quot (ry0 r) ts <= j /\
    px q < rx1 r /\ py q < ry1 r.

(** Two results at a point: both panics, or the same pixels and the same caches *)
Definition sameAt {img} (x y : local img) : Prop :=
  match x, y with
  | Some (st, d), Some (st', d') => d = d' /\ forall s, m_get Z.eqb (tent st) s = m_get Z.eqb (tent st') s
  | None, None => True
  | _, _ => False
  end.

Section conditions.
  Context {img msk : Type}.
  Variable zero : img.
  Variable copyT : img -> img.
  Variable blendOf : bytes -> option (Z -> img -> img -> img).
  Variable destInM destOutM : msk -> img -> img.
  Variable destInT destOverT : img -> img -> img.
  Variable clearT removeAlpha : img -> img.
  Variable canvas : point -> Z -> option img.
  Variable hasCanvas : Z -> bool.
  Variable mask : point -> Z -> option msk.
  (** Well-formed trees whose layers have different SeqIDs *)
  Definition okTree (root : layer) : Prop :=
    lwf blendOf hasCanvas root /\ NoDup (lseq (latt root) :: flat_map seqs (lkids root)).
  (** At no tile the buffers suffer from being copied *)
  Definition okDraw (root : layer) : Prop :=
    forall q, stableRoot zero copyT blendOf destInM destOutM destInT destOverT clearT removeAlpha (canvas q) (mask q) root.
End conditions.
