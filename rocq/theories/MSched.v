(** Schedules of goroutines as interleavings of their atomic actions. *)
From Verif Require Import Base.

(** [interleave ls r]: [r] contains the actions of all lists [ls], the actions
    of each list in their order. *)
Inductive interleave {A} : list (list A) -> list A -> Prop :=
| il_done ls : Forall (fun l => l = []) ls -> interleave ls []
| il_step l1 a t l2 r : interleave (l1 ++ t :: l2) r -> interleave (l1 ++ (a :: t) :: l2) (a :: r).

(** Executing actions from left to right. *)
Definition exec {A S} (act : A -> S -> S) (r : list A) (s : S) : S := fold_left (fun s a => act a s) r s.

(** Stores [(position, value)] into a shared slice. *)
Definition store {V} (w : Z * V) (m : list V) : list V :=
  if (0 <=? fst w) && (fst w <? zlen m) then upd_nat m (Z.to_nat (fst w)) (snd w) else m.

(** Stores of consecutive values from [pos] on. *)
Fixpoint seq_stores {V} (pos : Z) (vs : list V) : list (Z * V) :=
  match vs with [] => [] | v :: t => (pos, v) :: seq_stores (pos + 1) t end.
