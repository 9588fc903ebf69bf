(** Common vocabulary of the model: Go integers as [Z] with explicit wrap
    around, slices as lists with checked indexing, results with explicit
    errors and panics. *)
From Coq Require Export ZArith List Bool Lia.
From Coq Require Export ZifyBool ZifyNat.
Export ListNotations.
Global Open Scope Z_scope.

Ltac Zify.zify_post_hook ::= Z.div_mod_to_equations.

(** Keep arithmetic folded during simplification. *)
#[global] Arguments Z.lor : simpl never.
#[global] Arguments Z.land : simpl never.
#[global] Arguments Z.lxor : simpl never.
#[global] Arguments Z.shiftl : simpl never.
#[global] Arguments Z.shiftr : simpl never.
#[global] Arguments Z.add : simpl never.
#[global] Arguments Z.sub : simpl never.
#[global] Arguments Z.mul : simpl never.
#[global] Arguments Z.opp : simpl never.
#[global] Arguments Z.div : simpl never.
#[global] Arguments Z.modulo : simpl never.
#[global] Arguments Z.quot : simpl never.
#[global] Arguments Z.rem : simpl never.
#[global] Arguments Z.pow : simpl never.

(** * Go integers *)

(** Conversion to the unsigned types (Go spec, "Conversions": truncation). *)
Definition u8 (x : Z) : Z := x mod 256.
Definition u16 (x : Z) : Z := x mod 65536.
Definition u32 (x : Z) : Z := x mod 4294967296.
Definition u64 (x : Z) : Z := x mod 18446744073709551616.

(** Conversion to the signed types (two's complement). *)
Definition i16 (x : Z) : Z := (x + 32768) mod 65536 - 32768.
Definition i32 (x : Z) : Z := (x + 2147483648) mod 4294967296 - 2147483648.
(** [int] is 64 bits wide on the modelled platforms (amd64, arm64). *)
Definition i64 (x : Z) : Z :=
  (x + 9223372036854775808) mod 18446744073709551616 - 9223372036854775808.

Definition is_byte (b : Z) : Prop := 0 <= b < 256.
Definition bytes := list Z.
Definition bytes_ok (l : bytes) : Prop := Forall is_byte l.

(** * Slices *)

Definition zlen {A} (l : list A) : Z := Z.of_nat (length l).

(** [l[i]] : [None] is an index-out-of-range panic. *)
Definition idx {A} (l : list A) (i : Z) : option A :=
  if i <? 0 then None else nth_error l (Z.to_nat i).

(** [l[lo:hi]] on the length (not the capacity): [None] is a panic. *)
Definition slice {A} (l : list A) (lo hi : Z) : option (list A) :=
  if (0 <=? lo) && (lo <=? hi) && (hi <=? zlen l)
  then Some (firstn (Z.to_nat (hi - lo)) (skipn (Z.to_nat lo) l)) else None.

Definition zrepeat {A} (x : A) (n : Z) : list A := repeat x (Z.to_nat n).

(** [0; 1; ...; n-1] as integers. *)
Definition zseq (n : nat) : list Z := map Z.of_nat (seq 0 n).

Fixpoint upd_nat {A} (l : list A) (i : nat) (v : A) : list A :=
  match l, i with
  | [], _ => []
  | _ :: t, O => v :: t
  | h :: t, S j => h :: upd_nat t j v
  end.

(** [l[i] = v] : [None] is a panic. *)
Definition upd {A} (l : list A) (i : Z) (v : A) : option (list A) :=
  if (0 <=? i) && (i <? zlen l) then Some (upd_nat l (Z.to_nat i) v) else None.

(** * Maps with "last write wins" *)

Section assoc.
  Context {K V : Type} (eqb : K -> K -> bool).
  Fixpoint m_get (m : list (K * V)) (k : K) : option V :=
    match m with
    | [] => None
    | (k', v) :: t => if eqb k k' then Some v else m_get t k
    end.
  Definition m_del (m : list (K * V)) (k : K) : list (K * V) :=
    filter (fun p => negb (eqb k (fst p))) m.
  Definition m_set (m : list (K * V)) (k : K) (v : V) : list (K * V) :=
    (k, v) :: m_del m k.
End assoc.

(** * Results *)

(** Errors that the decoder can return. The texts are not modelled. *)
Inductive error :=
| EEof                (* io.EOF *)
| EUnexpectedEof      (* io.ErrUnexpectedEOF *)
| ENegative           (* negative position or count in Seek or Discard *)
| EZlib               (* any error of compress/zlib *)
| EConfigLoaded       (* error returned by the user's ConfigLoaded *)
| EFormat | EVersion | EChannels | EHeight | EWidth | EDepth
| EResSignature
| ELayerStructure
| ESizeMismatch
| EBlendSignature
| EDividerSignature
| EInfoSignature
| EBrokenTree (i : Z)
| EBrokenPackBits
| ECompression (cm : Z)
| ENoPicker
| ENoCanvas
| EAborted
| ESheetTooBig
| EGuard (cause : Z).  (* never returned by /repo: the additional checks of SGuard *)

Inductive outcome (A : Type) :=
| Ok (a : A)
| Err (e : error)
| Panic
| NoFuel.
Arguments Ok {A} a.
Arguments Err {A} e.
Arguments Panic {A}.
Arguments NoFuel {A}.

Definition obind {A B} (x : outcome A) (f : A -> outcome B) : outcome B :=
  match x with Ok a => f a | Err e => Err e | Panic => Panic | NoFuel => NoFuel end.

(** A checked operation: [None] is a panic. *)
Definition chk {A} (x : option A) : outcome A :=
  match x with Some a => Ok a | None => Panic end.

Definition omap {A B} (f : A -> B) (x : outcome A) : outcome B :=
  obind x (fun a => Ok (f a)).

Fixpoint list_eqb (a b : list Z) : bool :=
  match a, b with
  | [], [] => true
  | x :: s, y :: t => (x =? y) && list_eqb s t
  | _, _ => false
  end.
