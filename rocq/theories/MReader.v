(** The decoder as a program over reader operations, and its interpreters. *)
From Verif Require Import Base.

(** A program that reads from an [io.Reader] and may call the user back.
    [Ev] is the type of callback events. Errors of the reader end the program,
    because every caller in /repo returns them at once. *)
Inductive prog (Ev A : Type) : Type :=
| Ret (a : A)
| Fail (e : error)
| Crash                                     (* Go panic *)
| Starve                                    (* fuel of a model loop exhausted *)
| RFull (n : Z) (k : bytes -> prog Ev A)    (* io.ReadFull(r, buf), len(buf) = n *)
| RSome (n : Z) (k : bytes -> prog Ev A)    (* one r.Read(buf), len(buf) = n > 0 *)
| RDiscard (n : Z) (k : Z -> prog Ev A)     (* util.go discard(r, n) *)
| RZlib (want limit : Z) (k : bytes -> Z -> prog Ev A)
    (* compress.go:57-75 decodeZLIB: [want] bytes from a zlib reader over at
       most [limit] bytes of r; the number of bytes taken from r *)
| Emit (ev : Ev) (k : prog Ev A).           (* user callback *)
Arguments Ret {Ev A} a.
Arguments Fail {Ev A} e.
Arguments Crash {Ev A}.
Arguments Starve {Ev A}.
Arguments RFull {Ev A} n k.
Arguments RSome {Ev A} n k.
Arguments RDiscard {Ev A} n k.
Arguments RZlib {Ev A} want limit k.
Arguments Emit {Ev A} ev k.

Fixpoint bind {Ev A B} (p : prog Ev A) (f : A -> prog Ev B) : prog Ev B :=
  match p with
  | Ret a => f a
  | Fail e => Fail e
  | Crash => Crash
  | Starve => Starve
  | RFull n k => RFull n (fun b => bind (k b) f)
  | RSome n k => RSome n (fun b => bind (k b) f)
  | RDiscard n k => RDiscard n (fun l => bind (k l) f)
  | RZlib w l k => RZlib w l (fun b c => bind (k b c) f)
  | Emit ev k => Emit ev (bind k f)
  end.

Declare Scope prog_scope.
Delimit Scope prog_scope with prog.
Notation "x <- p ;; q" := (bind p (fun x => q))
  (at level 61, p at next level, right associativity) : prog_scope.
Notation "' pat <- p ;; q" := (bind p (fun x => match x with pat => q end))
  (at level 61, pat pattern, p at next level, right associativity) : prog_scope.
Open Scope prog_scope.

Definition rfull {Ev} (n : Z) : prog Ev bytes := RFull n Ret.
Definition rsome {Ev} (n : Z) : prog Ev bytes := RSome n Ret.
Definition rdiscard {Ev} (n : Z) : prog Ev Z := RDiscard n Ret.
Definition emit {Ev} (ev : Ev) : prog Ev unit := Emit ev (Ret tt).

(** A checked computation inside a program: [None] is a panic. *)
Definition lift {Ev A} (x : option A) : prog Ev A :=
  match x with Some a => Ret a | None => Crash end.

(** [make([]byte, n)]: panics if [n] is negative or above the address space
    limit (2^48 on amd64). Memory exhaustion below that limit is not modelled. *)
Definition max_alloc : Z := 281474976710656.
Definition make_ok {Ev} (n : Z) : prog Ev unit :=
  if (n <? 0) || (max_alloc <? n) then Crash else Ret tt.

(** * Interpreters *)

Section run.
  (** The zlib library as an oracle: given the bytes available and the number
      of bytes wanted, it fails or returns the data and the number of bytes it
      took. Answers of the wrong size are treated as failures. *)
  Variable inflate : bytes -> Z -> option (bytes * Z).

  Definition inflate_ok (avail : bytes) (want : Z) : option (bytes * Z) :=
    match inflate avail want with
    | Some (out, c) =>
        if (zlen out =? want) && (0 <=? c) && (c <=? zlen avail) then Some (out, c) else None
    | None => None
    end.

  Definition ztake (n : Z) (s : bytes) : bytes := if zlen s <=? n then s else firstn (Z.to_nat n) s.
  Definition zdrop (n : Z) (s : bytes) : bytes := if zlen s <=? n then [] else skipn (Z.to_nat n) s.

  Definition eof_error (s : bytes) : error :=
    match s with [] => EEof | _ => EUnexpectedEof end.

  (** How the reader supports discarding. *)
  Inductive rkind := Plain | Discarder.

  (** Non-seekable reader over the bytes [s], delivering as much as is asked
      for: a plain [io.Reader] (discard copies to nowhere; a negative count
      copies nothing and is no error, io.CopyN) or a [bufio.Reader] (a negative
      count is an error). *)
  Fixpoint run {Ev A} (kind : rkind) (p : prog Ev A) (s : bytes) : outcome (A * bytes) * list Ev :=
    match p with
    | Ret a => (Ok (a, s), [])
    | Fail e => (Err e, [])
    | Crash => (Panic, [])
    | Starve => (NoFuel, [])
    | RFull n k =>
        if zlen s <? n then (Err (eof_error s), [])
        else run kind (k (firstn (Z.to_nat n) s)) (skipn (Z.to_nat n) s)
    | RSome n k =>
        match s with
        | [] => (Err EEof, [])
        | _ => run kind (k (ztake n s)) (zdrop n s)
        end
    | RDiscard n k =>
        if n <? 0 then
          match kind with
          | Plain => run kind (k 0) s
          | Discarder => (Err ENegative, [])
          end
        else if zlen s <? n then (Err EEof, [])
        else run kind (k n) (skipn (Z.to_nat n) s)
    | RZlib want limit k =>
        match inflate_ok (ztake limit s) want with
        | None => (Err EZlib, [])
        | Some (out, c) => run kind (k out c) (skipn (Z.to_nat c) s)
        end
    | Emit ev k => let (r, evs) := run kind k s in (r, ev :: evs)
    end.

  (** Seekable reader ([io.Seeker]) over [data] at position [pos]: discarding
      seeks relative to the position, beyond the end without error, before the
      start with an error (bytes.Reader, os.File); the int64 position wraps. *)
  Fixpoint run_seek {Ev A} (p : prog Ev A) (data : bytes) (pos : Z) : outcome (A * Z) * list Ev :=
    match p with
    | Ret a => (Ok (a, pos), [])
    | Fail e => (Err e, [])
    | Crash => (Panic, [])
    | Starve => (NoFuel, [])
    | RFull n k =>
        let s := zdrop pos data in
        if zlen s <? n then (Err (eof_error s), [])
        else run_seek (k (firstn (Z.to_nat n) s)) data (pos + zlen (firstn (Z.to_nat n) s))
    | RSome n k =>
        let s := zdrop pos data in
        match s with
        | [] => (Err EEof, [])
        | _ => run_seek (k (ztake n s)) data (pos + zlen (ztake n s))
        end
    | RDiscard n k =>
        if i64 (pos + n) <? 0 then (Err ENegative, [])
        else run_seek (k n) data (pos + n)
    | RZlib want limit k =>
        let s := zdrop pos data in
        match inflate_ok (ztake limit s) want with
        | None => (Err EZlib, [])
        | Some (out, c) => run_seek (k out c) data (pos + c)
        end
    | Emit ev k => let (r, evs) := run_seek k data pos in (r, ev :: evs)
    end.

  (** Take exactly [n] bytes from a list of chunks. *)
  Fixpoint ctake (n : Z) (cs : list bytes) : option (bytes * list bytes) :=
    if n <=? 0 then Some ([], cs)
    else match cs with
         | [] => None
         | c :: t =>
             if zlen c <=? n then
               match ctake (n - zlen c) t with
               | Some (b, r) => Some (c ++ b, r)
               | None => None
               end
             else Some (firstn (Z.to_nat n) c, skipn (Z.to_nat n) c :: t)
         end.

  (** Reader that delivers its data in the given chunks: one [Read] never
      returns more than the rest of the current chunk. If [eager] is set, the
      [Read] that returns the last byte also returns [io.EOF]. The zlib reader
      is assumed to behave alike for all chunkings. *)
  Fixpoint run_chunks {Ev A} (eager : bool) (p : prog Ev A) (cs : list bytes)
    : outcome (A * bytes) * list Ev :=
    match p with
    | Ret a => (Ok (a, concat cs), [])
    | Fail e => (Err e, [])
    | Crash => (Panic, [])
    | Starve => (NoFuel, [])
    | RFull n k =>
        match ctake n cs with
        | None => (Err (eof_error (concat cs)), [])
        | Some (b, cs') => run_chunks eager (k b) cs'
        end
    | RSome n k =>
        match cs with
        | [] => (Err EEof, [])
        | c :: t =>
            let rest := if zlen c <=? n then t else zdrop n c :: t in
            if eager && match concat rest with [] => true | _ => false end
            then (Err EEof, [])
            else run_chunks eager (k (ztake n c)) rest
        end
    | RDiscard n k =>
        if n <? 0 then run_chunks eager (k 0) cs
        else match ctake n cs with
             | None => (Err EEof, [])
             | Some (_, cs') => run_chunks eager (k n) cs'
             end
    | RZlib want limit k =>
        match inflate_ok (ztake limit (concat cs)) want with
        | None => (Err EZlib, [])
        | Some (out, c) =>
            match ctake c cs with
            | None => (Err EZlib, [])
            | Some (_, cs') => run_chunks eager (k out c) cs'
            end
        end
    | Emit ev k => let (r, evs) := run_chunks eager k cs in (r, ev :: evs)
    end.
End run.
