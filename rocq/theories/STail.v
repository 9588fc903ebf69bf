(** Vocabulary for incomplete files and for files followed by other data. *)
From Verif Require Import Base MReader MConfig MLayer MApi.

(** The compression method of the merged image: the first two bytes that Decode leaves
    unread if the merged image is skipped. *)
Definition merged_method inflate (kind : rkind) (procs : nat) (o : options) (s : bytes) (m : Z) : Prop :=
  exists f n rest evs,
    Decode inflate kind procs (Opts (o_skip_layer o) true (o_config_loaded o)) s = (Ok (f, n, 0 :: m :: rest), evs).
(** Not compressed, or run length encoded. *)
Definition plain_method (m : Z) : Prop := m = 0 \/ m = 1.

(** A zlib library whose result does not depend on what follows the compressed data. (How
    many bytes it takes may depend on it: Go's library reads ahead.) *)
Definition steady (inflate : bytes -> Z -> option (bytes * Z)) : Prop :=
  forall a t w out c, inflate a w = Some (out, c) ->
  exists c', inflate (a ++ t) w = Some (out, c') /\ 0 <= c' <= zlen (a ++ t).

(** A zlib library for streams of one stored block (RFC 1950 and 1951: two bytes of
    header, 1, the length and its complement with the low byte first, the data, a checksum).
    Like Go's library it stops as soon as it has the wanted bytes and does not look at the
    checksum, but has read all that there was. *)
Definition stored_zlib (a : bytes) (w : Z) : option (bytes * Z) :=
  match a with
  | m :: _ :: b :: l :: h :: _ :: _ :: t =>
      if (m =? 120) && (b =? 1) && (l + 256 * h =? w) && (w <=? zlen t) then Some (firstn (Z.to_nat w) t, zlen a) else None
  | _ => None
  end.
