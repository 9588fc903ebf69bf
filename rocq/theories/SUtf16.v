(** UTF-16 with errors (Unicode standard, section 3.9, and RFC 2781, section 2.2): what a
    sequence of code units means. Independent of the model. *)
From Verif Require Import Base SUtil.

Definition is_unit (u : Z) : Prop := 0 <= u < 65536.
Definition is_low (u : Z) : Prop := 56320 <= u < 57344.
(** [us] stands for the scalar values [rs]: an encoded scalar value stands for itself, and a
    surrogate that is not part of a pair for U+FFFD. A high surrogate (below 56320) with a
    low one behind it is part of a pair. *)
Inductive means16 : list Z -> list Z -> Prop :=
| m_nil : means16 [] []
| m_char r us rs : is_scalar r -> means16 us rs -> means16 (utf16_of r ++ us) (r :: rs)
| m_lone u us rs : 55296 <= u < 57344 -> (u < 56320 -> forall v t, us = v :: t -> ~ is_low v) ->
    means16 us rs -> means16 (u :: us) (65533 :: rs).
