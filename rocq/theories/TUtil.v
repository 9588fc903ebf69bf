(** Theorems: integer formatting (C29) and Unicode strings (part of C16). *)
From Verif Require Import Base MUtil SUtil PUtil.

(** C29. *)
Theorem C29_itoa_canonical :
  forall x, -9223372036854775808 < x < 9223372036854775808 ->
  exists s, itoa x = Some s /\ canonical_decimal x s.
Proof. exact itoa_correct. Qed.
Print Assumptions C29_itoa_canonical.

(** "-1203": a negative number with an inner zero. *)
Example C29_example : itoa (-1203) = Some [45; 49; 50; 48; 51].
Proof. vm_compute. reflexivity. Qed.
(** The excluded value is formatted as "-0". *)
Example C29_excluded : itoa (-9223372036854775808) = Some [45; 48].
Proof. vm_compute. reflexivity. Qed.

(** C16, string part: the UTF-16 data of a scalar string is converted to its
    UTF-8 encoding, whatever follows the code units. *)
Theorem C16_unicode_string :
  forall rs post, Forall is_scalar rs ->
  let us := flat_map utf16_of rs in
  zlen us < 4294967296 ->
  readUnicodeString (be 4 (zlen us) ++ flat_map (be 2) us ++ post) = Some (flat_map utf8_of rs).
Proof. exact readUnicodeString_correct. Qed.
Print Assumptions C16_unicode_string.

(** "aé€😀": one, two, three and four byte sequences. *)
Example C16_unicode_string_example :
  Forall is_scalar [97; 233; 8364; 128512] /\
  readUnicodeString (be 4 5 ++ flat_map (be 2) (flat_map utf16_of [97; 233; 8364; 128512])) =
    Some [97; 195; 169; 226; 130; 172; 240; 159; 152; 128].
Proof. split; [repeat constructor; unfold is_scalar; lia | vm_compute; reflexivity]. Qed.

(** The exact inputs on which the conversion panics (used for C24). *)
Theorem C16_unicode_string_panics :
  forall b, bytes_ok b ->
  (readUnicodeString b = None <->
   zlen b < 4 \/ exists ln, readUint32 b 0 = Some ln /\ zlen b < 4 + 2 * ln /\ ln <> 0).
Proof. exact readUnicodeString_panics. Qed.
Print Assumptions C16_unicode_string_panics.

Example C16_unicode_string_panics_example : readUnicodeString [0; 0; 0; 2; 0; 65] = None.
Proof. vm_compute. reflexivity. Qed.
