(** Theorem: Unicode strings with any code units (part of C16). *)
From Verif Require Import Base MUtil SUtil SUtf16 PUtf16.
Open Scope Z_scope.

(** Every sequence of code units has exactly one meaning, in which surrogates without
    partner are U+FFFD, and the string is read as the UTF-8 encoding of it. *)
Theorem C16_any_units : forall us post, Forall is_unit us -> zlen us < 4294967296 ->
  exists rs, means16 us rs /\ (forall rs', means16 us rs' -> rs' = rs) /\
    readUnicodeString (be 4 (zlen us) ++ flat_map (be 2) us ++ post) = Some (flat_map utf8_of rs).
Proof. exact readUnicodeString_any. Qed.
Print Assumptions C16_any_units.

(** A high surrogate in front of a pair, a low one behind it, a letter, a high one at the end. *)
Example C16_any_units_example :
  let us := [55357; 55357; 56832; 56832; 97; 55296] in
  Forall is_unit us /\
  readUnicodeString (be 4 6 ++ flat_map (be 2) us) = Some (flat_map utf8_of [65533; 128512; 65533; 97; 65533]).
Proof. split; [repeat constructor; unfold is_unit; lia|vm_compute; reflexivity]. Qed.
