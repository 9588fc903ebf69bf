(** Model of util.go: integer formatting, big endian access, Unicode strings. *)
From Verif Require Import Base.

(** util.go:10-29 [itoa]. The 32 byte array is filled from the right: [room]
    is the number of cells left of the ones written so far ([room = 0] and a
    further write is the index panic), [acc] is what is written so far. *)
Definition itoa_put (room : nat) (c : Z) (acc : bytes) : option (nat * bytes) :=
  match room with
  | O => None
  | S r => Some (r, u8 c :: acc)
  end.

(** The loop of util.go:18-23. *)
Fixpoint itoa_loop (room : nat) (x : Z) (acc : bytes) : option (nat * bytes) :=
  if x >? 9 then
    match room with
    | O => None
    | S r => itoa_loop r (Z.quot x 10) (u8 (Z.rem x 10 + 48) :: acc)
    end
  else itoa_put room (x + 48) acc.

Definition itoa (x : Z) : option bytes :=
  let minus := x <? 0 in
  let x := if minus then i64 (- x) else x in
  match itoa_loop 32 x [] with
  | None => None
  | Some (room, acc) =>
      if minus then option_map snd (itoa_put room 45 acc) else Some acc
  end.

(** util.go:31-33 [readUint16]; [None] is the index panic. *)
Definition readUint16 (b : bytes) (o : Z) : option Z :=
  match idx b o, idx b (o + 1) with
  | Some b0, Some b1 => Some (Z.lor (Z.shiftl b0 8) b1)
  | _, _ => None
  end.

(** util.go:35-38 [writeUint16]: the slice after the two stores. *)
Definition writeUint16 (b : bytes) (v o : Z) : option bytes :=
  match upd b o (u8 (Z.shiftr v 8)) with
  | Some b => upd b (o + 1) (u8 v)
  | None => None
  end.

(** util.go:40-42 [readUint32]. *)
Definition readUint32 (b : bytes) (o : Z) : option Z :=
  match idx b o, idx b (o + 1), idx b (o + 2), idx b (o + 3) with
  | Some b0, Some b1, Some b2, Some b3 =>
      Some (Z.lor (Z.lor (Z.lor (Z.shiftl b0 24) (Z.shiftl b1 16)) (Z.shiftl b2 8)) b3)
  | _, _, _, _ => None
  end.

(** util.go:44-47 [readUint64]. *)
Definition readUint64 (b : bytes) (o : Z) : option Z :=
  match idx b o, idx b (o + 1), idx b (o + 2), idx b (o + 3),
        idx b (o + 4), idx b (o + 5), idx b (o + 6), idx b (o + 7) with
  | Some b0, Some b1, Some b2, Some b3, Some b4, Some b5, Some b6, Some b7 =>
      Some (Z.lor (Z.lor (Z.lor (Z.lor (Z.lor (Z.lor (Z.lor
             (Z.shiftl b0 56) (Z.shiftl b1 48)) (Z.shiftl b2 40)) (Z.shiftl b3 32))
             (Z.shiftl b4 24)) (Z.shiftl b5 16)) (Z.shiftl b6 8)) b7)
  | _, _, _, _, _, _, _, _ => None
  end.

(** util.go:49-54 [get4or8]. *)
Definition get4or8 (is64 : bool) : Z := if is64 then 8 else 4.

(** util.go:56-68 [readUint]; [None] is an index panic or the explicit panic. *)
Definition readUint (b : bytes) (o size : Z) : option Z :=
  if size =? 8 then readUint64 b o
  else if size =? 4 then readUint32 b o
  else if size =? 2 then readUint16 b o
  else if size =? 1 then idx b o
  else None.

(** util.go:78-83 [writeUint32]. *)
Definition writeUint32 (b : bytes) (v o : Z) : option bytes :=
  match upd b o (u8 (Z.shiftr v 24)) with
  | Some b =>
      match upd b (o + 1) (u8 (Z.shiftr v 16)) with
      | Some b =>
          match upd b (o + 2) (u8 (Z.shiftr v 8)) with
          | Some b => upd b (o + 3) (u8 v)
          | None => None
          end
      | None => None
      end
  | None => None
  end.

(** Go library unicode/utf16 [Decode]: surrogate pairs are combined, lone
    surrogates become U+FFFD. *)
Fixpoint utf16_decode (s : list Z) : list Z :=
  match s with
  | [] => []
  | r :: t =>
      if (r <? 55296) || (57344 <=? r) then r :: utf16_decode t
      else if (55296 <=? r) && (r <? 56320) then
        match t with
        | r2 :: t' =>
            if (56320 <=? r2) && (r2 <? 57344)
            then (Z.lor (Z.shiftl (r - 55296) 10) (r2 - 56320) + 65536) :: utf16_decode t'
            else 65533 :: utf16_decode t
        | [] => [65533]
        end
      else 65533 :: utf16_decode t
  end.

(** Go conversion [string(rune)]: UTF-8 encoding; invalid runes become U+FFFD. *)
Definition utf8_rune (r : Z) : bytes :=
  let r := if (r <? 0) || (1114111 <? r) || ((55296 <=? r) && (r <=? 57343)) then 65533 else r in
  if r <=? 127 then [r]
  else if r <=? 2047 then [Z.lor 192 (Z.shiftr r 6); Z.lor 128 (Z.land r 63)]
  else if r <=? 65535 then
    [Z.lor 224 (Z.shiftr r 12); Z.lor 128 (Z.land (Z.shiftr r 6) 63); Z.lor 128 (Z.land r 63)]
  else
    [Z.lor 240 (Z.shiftr r 18); Z.lor 128 (Z.land (Z.shiftr r 12) 63);
     Z.lor 128 (Z.land (Z.shiftr r 6) 63); Z.lor 128 (Z.land r 63)].

Definition utf8_encode (rs : list Z) : bytes := flat_map utf8_rune rs.

(** The loop of util.go:91-93: code units at 4, 6, 8, ... *)
Fixpoint read_units (b : bytes) (o : Z) (n : nat) : option (list Z) :=
  match n with
  | O => Some []
  | S m =>
      match readUint16 b o with
      | None => None
      | Some u => option_map (cons u) (read_units b (o + 2) m)
      end
  end.

(** util.go:85-95 [readUnicodeString]; [None] is a panic. The loop panics as
    soon as a code unit lies outside [b], that is iff [4 + 2 * ln] exceeds the
    length of [b]; this test is made first so that a hostile [ln] does not have
    to be counted down. *)
Definition readUnicodeString (b : bytes) : option bytes :=
  match readUint32 b 0 with
  | None => None
  | Some ln =>
      if ln =? 0 then Some []
      else if zlen b <? 4 + 2 * ln then None
      else option_map (fun us => utf8_encode (utf16_decode us)) (read_units b 4 (Z.to_nat ln))
  end.
