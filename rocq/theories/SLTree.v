(** What is meant by clipping groups, copies of trees and parent links: stated on
    paths and indices, without the functions of the model. *)
From Verif Require Import Base MLTree.

(** Layer [j] is the nearest non-clipping layer below layer [i] (a list goes from
    bottom to top). *)
Definition base_below (flags : list bool) (j i : Z) : Prop :=
  0 <= j < i /\ idx flags j = Some false /\ forall k, j < k <= i -> idx flags k = Some true.
Definition increasing (l : list Z) : Prop := forall i j a b, i < j -> idx l i = Some a -> idx l j = Some b -> a < b.

(** The layer at a path *)
Fixpoint lat {A} (t : ltree A) (p : list nat) : option (node A) :=
  match t, p with
  | LT n _, [] => Some n
  | LT _ cs, i :: p => match nth_error cs i with Some c => lat c p | None => None end
  end.
Fixpoint pat {A} (ts : list (ptree A)) (p : list nat) : option (ptree A) :=
  match p with
  | [] => None
  | [i] => nth_error ts i
  | i :: p => match nth_error ts i with Some (PT _ cs) => pat cs p | None => None end
  end.
(** The paths of the siblings lists of a tree of flags *)
Fixpoint fat (t : ftree) (p : list nat) : option (list ftree) :=
  match t, p with
  | FT _ cs, [] => Some cs
  | FT _ cs, i :: p => match nth_error cs i with Some c => fat c p | None => None end
  end.
Fixpoint sat (ss : list stree) (p : list nat) : option (list stree) :=
  match p with
  | [] => Some ss
  | i :: p => match nth_error ss i with Some (ST _ cs) => sat cs p | None => None end
  end.

(** The layers of a tree have distinct SeqIDs *)
Definition distinct {A} (t : ltree A) : Prop :=
  forall p q n n', lat t p = Some n -> lat t q = Some n' -> nseq n = nseq n' -> p = q.
(** A pointer of the original to a layer that has the SeqID of a layer of the tree *)
Definition src_ok {A} (seqOf : Z -> Z) (t : ltree A) (r : option ref) : Prop :=
  exists a q n, r = Some (Src a) /\ lat t q = Some n /\ nseq n = seqOf a.
Definition refs_ok {A} (seqOf : Z -> Z) (t : ltree A) : Prop :=
  forall p n, lat t p = Some n -> (nby n = None \/ src_ok seqOf t (nby n)) /\ Forall (src_ok seqOf t) (ngroup n).
(** The pointer [r'] of the copy corresponds to the pointer [r] of the original: it
    points to the layer of the copy at the path of the layer with that SeqID. *)
Definition corresponds {A} (seqOf : Z -> Z) (t : ltree A) (r r' : option ref) : Prop :=
  exists a q n, r = Some (Src a) /\ r' = Some (Dst q) /\ lat t q = Some n /\ nseq n = seqOf a.
(** [d] is a copy of [t] *)
Definition copy_of {A} (seqOf : Z -> Z) (t d : ltree A) : Prop :=
  forall p,
    (lat t p = None <-> lat d p = None) /\
    forall n n', lat t p = Some n -> lat d p = Some n' ->
      nseq n' = nseq n /\ nat_ n' = nat_ n /\
      (p = [] -> nparent n' = nparent n) /\
      (forall q i, p = q ++ [i] -> nparent n' = Some (Dst q)) /\
      ((nby n = None /\ nby n' = None) \/ corresponds seqOf t (nby n) (nby n')) /\
      Forall2 (corresponds seqOf t) (ngroup n) (ngroup n').
