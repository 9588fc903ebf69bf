(** The public functions as functions of the input bytes. *)
From Verif Require Import Base MUtil MRect MReader MPicker MConfig MCompress MLayer.

Section api.
  (** The zlib library. *)
  Variable inflate : bytes -> Z -> option (bytes * Z).

  (** psd.go:142 [DecodeConfig] on a non-seekable reader: the configuration,
      the count, and the unread bytes. *)
  Definition DecodeConfig (kind : rkind) (s : bytes) : outcome (config * Z * bytes) :=
    fst (run (Ev := Empty_set) inflate kind (decodeConfig_prog (fuel_for s)) s).
  (** ... on a seekable reader at position [pos]; the final position. *)
  Definition DecodeConfig_seek (s : bytes) : outcome (config * Z * Z) :=
    fst (run_seek (Ev := Empty_set) inflate (decodeConfig_prog (fuel_for s)) s 0).

  (** psd.go:217 [Decode]: result and callback trace. *)
  Definition Decode (kind : rkind) (procs : nat) (o : options) (s : bytes)
    : outcome (psdfile * Z * bytes) * list event :=
    run inflate kind (decode_prog (fuel_for s) procs o) s.
  Definition Decode_seek (procs : nat) (o : options) (s : bytes)
    : outcome (psdfile * Z * Z) * list event :=
    run_seek inflate (decode_prog (fuel_for s) procs o) s 0.
  Definition Decode_chunks (eager : bool) (procs : nat) (o : options) (cs : list bytes)
    : outcome (psdfile * Z * bytes) * list event :=
    run_chunks inflate eager (decode_prog (fuel_for (concat cs)) procs o) cs.

  (** The hooks registered with package image (psd.go:286-313). *)
  Definition image_DecodeConfig (kind : rkind) (s : bytes) : outcome (Z * Z * cmodel * bytes) :=
    fst (run (Ev := Empty_set) inflate kind (decodeConfig_hook (fuel_for s)) s).
  Definition image_Decode (kind : rkind) (procs : nat) (s : bytes) : outcome (option picker * bytes) :=
    fst (run inflate kind (decode_hook (fuel_for s) procs) s).
End api.
