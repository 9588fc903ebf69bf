(** Specification of PackBits (Apple Technical Note TN1023) and of the
    prediction of ZIP compressed channels. *)
From Verif Require Import Base SUtil.

(** A packet: literal bytes, a repeated byte, or the no-op byte 128. *)
Inductive packet :=
| Lit (bs : bytes)
| Rep (n : Z) (v : Z)
| Nop.

Definition packet_ok (p : packet) : Prop :=
  match p with
  | Lit bs => 1 <= zlen bs <= 128 /\ bytes_ok bs
  | Rep n v => 2 <= n <= 128 /\ is_byte v
  | Nop => True
  end.

Definition enc_packet (p : packet) : bytes :=
  match p with
  | Lit bs => (zlen bs - 1) :: bs
  | Rep n v => [257 - n; v]
  | Nop => [128]
  end.

Definition expand (p : packet) : bytes :=
  match p with
  | Lit bs => bs
  | Rep n v => repeat v (Z.to_nat n)
  | Nop => []
  end.

(** A line is a list of packets. *)
Definition line := list packet.
Definition enc_line (l : line) : bytes := flat_map enc_packet l.
Definition expand_line (l : line) : bytes := flat_map expand l.
Definition line_ok (l : line) : Prop := Forall packet_ok l.

(** What compressed lines expand to, at the front of a destination. *)
Definition expand_lines (ls : list line) : bytes := flat_map expand_line ls.
Definition overwrite (dest new : bytes) : bytes := new ++ skipn (length new) dest.

(** Differences of neighbouring samples modulo [m]; the first sample of a row
    is kept. *)
Fixpoint row_diff (m prev : Z) (row : list Z) : list Z :=
  match row with
  | [] => []
  | x :: t => (x - prev) mod m :: row_diff m x t
  end.

(** Rows of samples as big endian bytes with [n] bytes per sample. *)
Definition enc_rows (n : nat) (rows : list (list Z)) : bytes := flat_map (flat_map (be n)) rows.

(** RLE compressed image data: the table of line lengths (2 bytes each, 4 in
    PSB files), then the lines. *)
Definition enc_rle (large : bool) (ls : list line) : bytes :=
  flat_map (fun l => be (if large then 4 else 2) (zlen (enc_line l))) ls ++ flat_map enc_line ls.
