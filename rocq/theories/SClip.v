(** Which layers are clipped to which layer: C45. *)
From Verif Require Import Base MRender.

(** The [n] layers from position [i] are clipping, the next one is not (or there is none). *)
Definition clip_run (cl : list bool) (i n : nat) : Prop :=
  (forall k, (i <= k < i + n)%nat -> nth_error cl k = Some true) /\ nth_error cl (i + n) <> Some true.
(** The layer at [j] is clipped to the layer at [i]: all layers from above [i] up to [j] are
    clipping, [i] is not. *)
Definition clipped_to (cl : list bool) (j i : nat) : Prop :=
  (i < j)%nat /\ nth_error cl i = Some false /\ forall k, (i < k <= j)%nat -> nth_error cl k = Some true.

(** Layers from the bottom to the top. Clipping layers with nothing below them are not
    clipped; a layer that is not clipping holds the clipping layers directly above it. *)
Inductive grouped : list layer -> list layer -> Prop :=
| grouped_nil : grouped [] []
| grouped_first k ks ks' : lclipping (latt k) = true -> grouped ks ks' -> grouped (k :: ks) (Lay (latt k) (lkids k) [] :: ks')
| grouped_base ks ks' : based ks ks' -> grouped ks ks'
with based : list layer -> list layer -> Prop :=
| based_nil : based [] []
| based_cons k cs ks ks' : lclipping (latt k) = false -> Forall (fun c => lclipping (latt c) = true) cs -> based ks ks' ->
    based (k :: cs ++ ks) (Lay (latt k) (lkids k) cs :: ks').
