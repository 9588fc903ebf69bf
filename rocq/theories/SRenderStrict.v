(** Tiles and masks of [n] bytes; caches with such tiles; the same caches for the strict
    operations. *)
From Verif Require Import Base MBlend SBlend MRender MRenderPx MRenderStrict.

Definition tileOK (n : nat) (t : tile) : Prop := length t = n /\ Forall pixel_ok t.
Definition mtileOK (n : nat) (m : mtile) : Prop := length m = n /\ Forall (fun a => 0 <= a <= 255) m.
Definition stateOK (n : nat) (st : tstate tile) : Prop := forall k t, In (k, Some t) (tent st) -> tileOK n t.
Definition strictS (st : tstate tile) : tstate stile := Tst (map (fun '(k, v) => (k, option_map Some v)) (tent st)) (tlog st).

(** The result of an operation on all pixels of a tile, or of two tiles of the same size, none of
    which panics *)
Definition pixelwise {A B} (f : A -> option B) (l : list A) (r : list B) : Prop :=
  length r = length l /\ forall i x, nth_error l i = Some x -> exists z, f x = Some z /\ nth_error r i = Some z.
Definition pixelwise2 {A B C} (f : A -> B -> option C) (l : list A) (l' : list B) (r : list C) : Prop :=
  length l = length l' /\ length r = length l /\ forall i x y, nth_error l i = Some x -> nth_error l' i = Some y -> exists z, f x y = Some z /\ nth_error r i = Some z.
