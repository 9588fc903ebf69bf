(** Model of compress.go and compress_other.go: PackBits and prediction. *)
From Verif Require Import Base MUtil MRect MSched.

(** compress_other.go:86-110: the runs of one line. [done] is the part of the
    destination already written, [dest] the Go variable [dest] (the rest of the
    destination), [buf] the Go variable [buf], [ln] the length of the line, [i]
    the position. Result: [done] and [dest] at the end of the line.
    Every round advances [i] by at least one and reads [buf[i]], so
    [S (length buf)] rounds are enough; [NoFuel] otherwise. *)
Fixpoint pb_line (fuel : nat) (done dest buf : bytes) (ln i : Z) : outcome (bytes * bytes) :=
  match fuel with
  | O => NoFuel
  | S fuel =>
      if i <? ln then
        match idx buf i with
        | None => Panic
        | Some c =>
            if c <=? 127 then
              let l := c + 1 in
              if (zlen dest <? l) || (ln - i - 1 <? l) then Err EBrokenPackBits
              else
                (* copy(dest[:l], buf[i+1:]) copies min(l, len(buf)-i-1) bytes *)
                let src := skipn (Z.to_nat (i + 1)) buf in
                let n := Z.to_nat l in
                let copied := firstn n src in
                let stale := firstn (n - length copied) (skipn (length copied) dest) in
                pb_line fuel (done ++ copied ++ stale) (skipn n dest) buf ln (i + (l + 1))
            else if c =? 128 then pb_line fuel done dest buf ln (i + 1)
            else
              let l := u8 (- c) + 1 in
              if (zlen dest <? l) || (ln <=? i + 1) then Err EBrokenPackBits
              else
                match idx buf (i + 1) with
                | None => Panic
                | Some v =>
                    pb_line fuel (done ++ zrepeat v l) (skipn (Z.to_nat l) dest) buf ln (i + 2)
                end
        end
      else Ok (done, dest)
  end.

(** compress_other.go:83-114 [decodePackBitsPerLine]; the result is the
    destination after the call. *)
Fixpoint pb_lines (done dest buf : bytes) (lens : list Z) : outcome bytes :=
  match lens with
  | [] => Ok (done ++ dest)
  | ln :: lens' =>
      obind (pb_line (S (length buf)) done dest buf ln 0) (fun '(done, dest) =>
      match slice buf ln (zlen buf) with          (* buf = buf[ln:] *)
      | None => Panic
      | Some buf => pb_lines done dest buf lens'
      end)
  end.

Definition decodePackBitsPerLine (dest buf : bytes) (lens : list Z) : outcome bytes :=
  pb_lines [] dest buf lens.

(** The same loop seen from the shared memory: the stores it makes. [pos] is the
    address of [dest[0]], [room] is [len(dest)]. The loops never read the
    destination. Result: the stores in order, and [pos] and [room] at the end. *)
Fixpoint pb_line_tr (fuel : nat) (pos room : Z) (buf : bytes) (ln i : Z)
  : list (Z * Z) * outcome (Z * Z) :=
  match fuel with
  | O => ([], NoFuel)
  | S fuel =>
      if i <? ln then
        match idx buf i with
        | None => ([], Panic)
        | Some c =>
            if c <=? 127 then
              let l := c + 1 in
              if (room <? l) || (ln - i - 1 <? l) then ([], Err EBrokenPackBits)
              else
                let copied := firstn (Z.to_nat l) (skipn (Z.to_nat (i + 1)) buf) in
                let (w, r) := pb_line_tr fuel (pos + l) (room - l) buf ln (i + (l + 1)) in
                (seq_stores pos copied ++ w, r)
            else if c =? 128 then pb_line_tr fuel pos room buf ln (i + 1)
            else
              let l := u8 (- c) + 1 in
              if (room <? l) || (ln <=? i + 1) then ([], Err EBrokenPackBits)
              else
                match idx buf (i + 1) with
                | None => ([], Panic)
                | Some v =>
                    let (w, r) := pb_line_tr fuel (pos + l) (room - l) buf ln (i + 2) in
                    (seq_stores pos (zrepeat v l) ++ w, r)
                end
        end
      else ([], Ok (pos, room))
  end.
Fixpoint pb_lines_tr (pos room : Z) (buf : bytes) (lens : list Z) : list (Z * Z) * outcome unit :=
  match lens with
  | [] => ([], Ok tt)
  | ln :: lens' =>
      match pb_line_tr (S (length buf)) pos room buf ln 0 with
      | (w, Ok (pos, room)) =>
          match slice buf ln (zlen buf) with
          | None => (w, Panic)
          | Some buf => let (w', r) := pb_lines_tr pos room buf lens' in (w ++ w', r)
          end
      | (w, Err e) => (w, Err e)
      | (w, Panic) => (w, Panic)
      | (w, NoFuel) => (w, NoFuel)
      end
  end.

(** compress_other.go:20-40: line lengths from the length table. *)
Fixpoint read_lens (large : bool) (buf : bytes) (ofs : Z) (lines : nat) : option (list Z) :=
  match lines with
  | O => Some []
  | S m =>
      match (if large then readUint32 buf ofs else readUint16 buf ofs) with
      | None => None
      | Some l => option_map (cons l) (read_lens large buf (ofs + (if large then 4 else 2)) m)
      end
  end.

(** compress_other.go:28,37: [offsets[i]] is the sum of the lengths before. *)
Fixpoint offsets_from (total : Z) (lens : list Z) : list Z :=
  match lens with
  | [] => []
  | l :: t => total :: offsets_from (total + l) t
  end.

Definition zsum (l : list Z) : Z := fold_right Z.add 0 l.

(** compress_other.go:48-51: number of workers for [procs = GOMAXPROCS(0) >= 1]. *)
Fixpoint worker_count (procs : nat) (lines : Z) : nat :=
  match procs with
  | S (S m as p) => if lines <? 2 * Z.of_nat procs then worker_count p lines else procs
  | _ => procs
  end.

(** A worker: its part of the destination, of the data and of the lengths. *)
Record pbtask := PbTask { pt_dest : bytes; pt_buf : bytes; pt_lens : list Z }.

(** compress_other.go:62-72: the arguments of the [k] workers of [step] lines
    from line [ofs] on, and of the last worker. [None]: slice panic. *)
Fixpoint pb_tasks (k : nat) (dest buf : bytes) (lens offs : list Z) (width step ofs : Z)
  : option (list pbtask) :=
  match k with
  | O =>
      match slice dest (ofs * width) (zlen dest), idx offs ofs, slice lens ofs (zlen lens) with
      | Some d, Some o, Some ls =>
          match slice buf o (zlen buf) with
          | Some b => Some [PbTask d b ls]
          | None => None
          end
      | _, _, _ => None
      end
  | S k =>
      match slice dest (ofs * width) ((ofs + step) * width), idx offs ofs, idx offs (ofs + step),
            slice lens ofs (ofs + step) with
      | Some d, Some o, Some o', Some ls =>
          match slice buf o o' with
          | Some b => option_map (cons (PbTask d b ls)) (pb_tasks k dest buf lens offs width step (ofs + step))
          | None => None
          end
      | _, _, _, _ => None
      end
  end.

Definition pb_run (t : pbtask) : outcome bytes :=
  decodePackBitsPerLine (pt_dest t) (pt_buf t) (pt_lens t).

(** The stores of all workers, each into its part of the destination. *)
Fixpoint pb_traces (base : Z) (ts : list pbtask) : list (list (Z * Z)) :=
  match ts with
  | [] => []
  | t :: ts =>
      fst (pb_lines_tr base (zlen (pt_dest t)) (pt_buf t) (pt_lens t)) ::
      pb_traces (base + zlen (pt_dest t)) ts
  end.

(** compress_other.go:73-80: all workers run to completion on disjoint parts
    of the destination; a panic in one of them ends the process; otherwise the
    first error (in worker order) is returned. The destination is the
    concatenation of the parts; that every interleaving of the stores
    [pb_traces] leaves this destination is proved, not assumed. *)
Fixpoint pb_join (rs : list (outcome bytes)) : outcome bytes :=
  match rs with
  | [] => Ok []
  | r :: t =>
      match r, pb_join t with
      | Panic, _ => Panic
      | _, Panic => Panic
      | NoFuel, _ => NoFuel
      | _, NoFuel => NoFuel
      | Err e, _ => Err e
      | Ok _, Err e => Err e
      | Ok d, Ok d' => Ok (d ++ d')
      end
  end.

(** compress_other.go:42-81 after the compressed data [buf] has been read. *)
Definition decodePackBits_data (procs : nat) (dest buf : bytes) (width lines : Z) (lens : list Z)
  : outcome bytes :=
  let n := worker_count procs lines in
  if (n =? 1)%nat then decodePackBitsPerLine dest buf lens
  else
    let offs := offsets_from 0 lens in
    let step := Z.quot lines (Z.of_nat n) in
    match pb_tasks (n - 1) dest buf lens offs width step 0 with
    | None => Panic
    | Some ts => pb_join (map pb_run ts)
    end.

(** compress.go:83-87 and 93-97: one row of prediction; [None] is a panic. *)
Fixpoint delta_row16 (w : nat) (d : Z) (buf : bytes) (i : Z) : option (bytes * Z) :=
  match w with
  | O => Some (buf, i)
  | S w =>
      match readUint16 buf i with
      | None => None
      | Some v =>
          let d := u16 (d + v) in
          match writeUint16 buf d i with
          | None => None
          | Some buf => delta_row16 w d buf (i + 2)
          end
      end
  end.
Fixpoint delta_row32 (w : nat) (d : Z) (buf : bytes) (i : Z) : option (bytes * Z) :=
  match w with
  | O => Some (buf, i)
  | S w =>
      match readUint32 buf i with
      | None => None
      | Some v =>
          let d := u32 (d + v) in
          match writeUint32 buf d i with
          | None => None
          | Some buf => delta_row32 w d buf (i + 4)
          end
      end
  end.

(** compress.go:81-88 and 91-98: rows until the end of the buffer. A width
    below one never advances: the Go loop does not terminate and the model
    ends with [NoFuel]. *)
Fixpoint delta_rows (row : bytes -> Z -> option (bytes * Z)) (fuel : nat) (buf : bytes) (i : Z)
  : outcome bytes :=
  if i <? zlen buf then
    match fuel with
    | O => NoFuel
    | S fuel =>
        match row buf i with
        | None => Panic
        | Some (buf, i) => delta_rows row fuel buf i
        end
    end
  else Ok buf.

(** compress.go:77-100 [decodeDelta]. *)
Definition decodeDelta (buf : bytes) (width depth : Z) : outcome bytes :=
  if depth =? 16 then delta_rows (delta_row16 (Z.to_nat width) 0) (length buf) buf 0
  else if depth =? 32 then delta_rows (delta_row32 (Z.to_nat width) 0) (length buf) buf 0
  else Ok buf.
