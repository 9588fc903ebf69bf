(** Layers that only darken, or only lighten, the picture below them. *)
From Verif Require Import Base MRect MLayer SRecord MBlend SPipe SSharp SGlass STidy.
Open Scope Z_scope.

Inductive tone := Darker | Lighter.
(** The modes whose documented colour is never above the backdrop's, or never below it *)
Definition tones (e : tone) (m : mode) : Prop :=
  match e, m with
  | Darker, (Darken | Multiply | ColorBurn | LinearBurn | Subtract) => True
  | Lighter, (Lighten | Screen | ColorDodge | LinearDodge | Add | Divide) => True
  | _, _ => False
  end.
(** The second pixel has no colour that is brighter, or none that is darker, than in the first; the alphas are the same. *)
Definition toned (e : tone) (v v' : px) : Prop :=
  match e with
  | Darker => pr v' <= pr v /\ pg v' <= pg v /\ pb v' <= pb v
  | Lighter => pr v <= pr v' /\ pg v <= pg v' /\ pb v <= pb v'
  end /\ pa v' = pa v.
(** Layers to put on top of others: those that are not clipped (to one of these layers) have such modes. *)
Definition toning (e : tone) (ts : list stree) : Prop :=
  starts ts /\ forall t, In t ts -> clips t = false -> exists m, mode_of t (Some m) /\ tones e m.
