(** Specification vocabulary for readers that deliver their data in chunks. *)
From Verif Require Import Base MReader.

Section pads.
  Variable inflate : bytes -> Z -> option (bytes * Z).
  (** The alignment padding in the input: the bytes that a reader of one buffer
      delivers to the single [Read]s of a program, in order. *)
  Fixpoint pads {Ev A} (p : prog Ev A) (s : bytes) : list bytes :=
    match p with
    | RFull n k =>
        if zlen s <? n then [] else pads (k (firstn (Z.to_nat n) s)) (skipn (Z.to_nat n) s)
    | RSome n k =>
        match s with
        | [] => []
        | _ => ztake n s :: pads (k (ztake n s)) (zdrop n s)
        end
    | RDiscard n k =>
        if n <? 0 then pads (k 0) s
        else if zlen s <? n then [] else pads (k n) (skipn (Z.to_nat n) s)
    | RZlib want limit k =>
        match inflate_ok inflate (ztake limit s) want with
        | None => []
        | Some (out, c) => pads (k out c) (skipn (Z.to_nat c) s)
        end
    | Emit _ k => pads k s
    | _ => []
    end.
End pads.

(** No byte of the padding is '8', the first byte of a block signature. *)
Definition no8 (b : bytes) : Prop := ~ In 56 b.

(** A way to split [s] into non-empty reads *)
Definition splits (cs : list bytes) (s : bytes) : Prop := concat cs = s /\ Forall (fun c => c <> []) cs.
