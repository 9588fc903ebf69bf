(** Theorems about the Porter-Duff operators (properties C41, C42). *)
From Verif Require Import Base MBlend MPorter SBlend SPorter PPorter.
Open Scope Z_scope.

(** On valid premultiplied values each operator computes the textbook operator,
    rounded down, without overflow, and the result is valid. *)
Theorem C41_textbook : forall op s d, premul_ok 65535 s -> premul_ok 65535 d ->
  pd machine op s d = textbook op s d /\ pd ideal op s d = textbook op s d /\ premul_ok 65535 (textbook op s d).
Proof.
  intros op s d Hs Hd. split; [|split]; [apply (pd_textbook machine); auto; now left|apply (pd_textbook ideal); auto; now right|exact (textbook_ok op s d Hs Hd)].
Qed.
Print Assumptions C41_textbook.

Theorem C41_fallback : forall op s d, premul_ok 65535 s -> premul_ok 65535 d -> pdF machine op s d = textbook op s d.
Proof. intros op s d. apply pd_fallback. now left. Qed.
Print Assumptions C41_fallback.

(** The four kinds of byte images: the textbook operator on the pixels read as
    premultiplied values, written back; never a panic, always a valid pixel. *)
Theorem C41_bytes : forall op sn dn s d, pixel_ok s -> pixel_ok d -> (sn = false -> premul_ok 255 s) -> (dn = false -> premul_ok 255 d) ->
  let p := out16 dn (textbook op (src16 sn s) (src16 dn d)) in
  pdB machine op sn dn 65535 s d = Some p /\ pixel_ok p /\ (dn = false -> premul_ok 255 p).
Proof. intros op sn dn s d. apply pdB_eq. now left. Qed.
Print Assumptions C41_bytes.

Theorem C41_alpha_source : forall op dn s d, 0 <= s <= 255 -> pixel_ok d -> (dn = false -> premul_ok 255 d) ->
  let p := out16 dn (textbook op (Px 0 0 0 (s * 257)) (src16 dn d)) in
  pdA machine op dn 65535 s d = Some p /\ pixel_ok p /\ (dn = false -> premul_ok 255 p).
Proof. intros op dn s d. apply pdA_eq. now left. Qed.
Print Assumptions C41_alpha_source.

Theorem C41_uniform_source : forall op dn s d, premul_ok 65535 s -> pixel_ok d -> (dn = false -> premul_ok 255 d) ->
  let p := out16 dn (textbook op s (src16 dn d)) in
  pdU machine op dn s d = Some p /\ pixel_ok p /\ (dn = false -> premul_ok 255 p).
Proof. intros op dn s d. apply pdU_eq. now left. Qed.
Print Assumptions C41_uniform_source.

(** Source over destination on premultiplied images: opaque sources replace, empty
    ones change nothing. *)
Theorem C41_over_opaque : forall s d, premul_ok 255 s -> premul_ok 255 d -> pa s = 255 ->
  pdB machine SrcOver false false 65535 s d = Some s.
Proof. exact premul_over_opaque. Qed.
Print Assumptions C41_over_opaque.

Theorem C41_over_empty : forall s d, premul_ok 255 s -> premul_ok 255 d -> pa s = 0 ->
  pdB machine SrcOver false false 65535 s d = Some d.
Proof. exact premul_over_empty. Qed.
Print Assumptions C41_over_empty.

Example C41_used :
  textbook SrcAtop (Px 100 200 300 40000) (Px 10 2000 30000 50000) = Px 80 931 11918 50000 /\
  pdB machine XOR true false 65535 (Px 200 100 50 180) (Px 10 20 30 40) = Some (Px 122 65 38 164) /\
  pdA machine DestOut true 65535 100 (Px 10 20 30 40) = Some (Px 9 20 30 24) /\
  pdU machine SrcIn false (Px 100 200 300 40000) (Px 1 2 3 4) = Some (Px 0 0 0 2).
Proof. vm_compute. auto. Qed.

(** * C42: copying *)

(** The property is false: a faint pixel loses its colour. *)
Theorem C42_copy_refuted : exists s d, pixel_ok s /\ pixel_ok d /\
  pdB machine Copy true true 65535 s d = Some (Px 0 0 0 1) /\ s = Px 1 1 1 1.
Proof. exists (Px 1 1 1 1), (Px 9 9 9 9). unfold pixel_ok. cbn [pr pg pb pa]. split; [lia|]. split; [lia|]. vm_compute. auto. Qed.
Print Assumptions C42_copy_refuted.

(** Even the operator that keeps the destination changes it. *)
Theorem C42_dest_refuted : exists s d, pixel_ok s /\ pixel_ok d /\
  pdB machine Dest true true 65535 s d = Some (Px 0 0 0 1) /\ d = Px 1 1 1 1.
Proof. exists (Px 1 2 3 4), (Px 1 1 1 1). unfold pixel_ok. cbn [pr pg pb pa]. split; [lia|]. split; [lia|]. vm_compute. auto. Qed.
Print Assumptions C42_dest_refuted.

(** What holds of straight images: alpha is kept, colours lose at most one level,
    and nothing is lost when alpha is at least 128. *)
Theorem C42_copy_straight_partial : forall s d, pixel_ok s -> pixel_ok d ->
  exists p, pdB machine Copy true true 65535 s d = Some p /\ pa p = pa s /\
    (pa s = 0 -> p = Px 0 0 0 0) /\
    (pa s > 0 -> pr s - 1 <= pr p <= pr s /\ pg s - 1 <= pg p <= pg s /\ pb s - 1 <= pb p <= pb s) /\
    (pa s >= 128 -> p = s).
Proof. exact straight_copy. Qed.
Print Assumptions C42_copy_straight_partial.

(** Premultiplied images are copied exactly. *)
Theorem C42_copy_premultiplied : forall s d, premul_ok 255 s -> premul_ok 255 d ->
  pdB machine Copy false false 65535 s d = Some s.
Proof. exact premul_copy. Qed.
Print Assumptions C42_copy_premultiplied.

Example C42_used : pdB machine Copy true true 65535 (Px 200 100 50 180) (Px 1 2 3 4) = Some (Px 200 100 50 180).
Proof. vm_compute. reflexivity. Qed.
