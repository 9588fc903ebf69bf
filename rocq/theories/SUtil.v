(** Specification vocabulary for util.go: decimal notation, big endian
    numbers, UTF-16 and UTF-8. Independent of the model. *)
From Verif Require Import Base.

(** Value of a decimal digit string (most significant digit first). *)
Fixpoint dec_value (ds : bytes) (acc : Z) : Z :=
  match ds with
  | [] => acc
  | d :: t => dec_value t (10 * acc + (d - 48))
  end.

Definition is_digit (c : Z) : Prop := 48 <= c <= 57.

(** [s] is the canonical decimal notation of [x]: optional minus, digits, no
    superfluous leading zero, no "-0". *)
Definition canonical_decimal (x : Z) (s : bytes) : Prop :=
  exists ds, Forall is_digit ds /\ ds <> [] /\
    (forall d t, ds = d :: t -> d = 48 -> t = []) /\
    dec_value ds 0 = Z.abs x /\
    s = if x <? 0 then 45 :: ds else ds.

(** Value of big endian bytes. *)
Fixpoint be_value (bs : bytes) (acc : Z) : Z :=
  match bs with
  | [] => acc
  | b :: t => be_value t (256 * acc + b)
  end.

(** Big endian encoding of the low [n] bytes of [v]. *)
Fixpoint be (n : nat) (v : Z) : bytes :=
  match n with
  | O => []
  | S m => (v / 256 ^ Z.of_nat m) mod 256 :: be m v
  end.

(** Unicode scalar values. *)
Definition is_scalar (r : Z) : Prop := 0 <= r < 55296 \/ 57344 <= r <= 1114111.

(** UTF-16 encoding of a scalar value (RFC 2781). *)
Definition utf16_of (r : Z) : list Z :=
  if r <? 65536 then [r]
  else [55296 + (r - 65536) / 1024; 56320 + (r - 65536) mod 1024].

(** UTF-8 encoding of a scalar value (RFC 3629, table in section 3). *)
Definition utf8_of (r : Z) : bytes :=
  if r <? 128 then [r]
  else if r <? 2048 then [192 + r / 64; 128 + r mod 64]
  else if r <? 65536 then [224 + r / 4096; 128 + r / 64 mod 64; 128 + r mod 64]
  else [240 + r / 262144; 128 + r / 4096 mod 64; 128 + r / 64 mod 64; 128 + r mod 64].
