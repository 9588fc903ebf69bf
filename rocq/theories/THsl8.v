(** Theorems about Hue, Saturation, Color and Luminosity with 8 bit channels (property C86). *)
From Coq Require Import QArith.
From Verif Require Import Base MBlend SHsl SHsl8 PBlend2 PHsl8.
Open Scope Z_scope.

(** * C86: with 8 bits the modes that mix hue, saturation and brightness follow the W3C formulas *)

(** Each channel is right up to one level of brightness and one level of its own: less than
    4.4 levels for red, 2.7 for green and 10.2 for blue. *)
Theorem C86_mixing : forall m s d e, triple_in 255 s -> triple_in 255 d -> mixed8 m s d = Some e ->
  exists v, mix machine W8 m s d = Some v /\ all_near e v.
Proof. exact mix_near. Qed.
Print Assumptions C86_mixing.

(** Where the colour need not be clipped, each channel is right up to less than one level. *)
Theorem C86_inside : forall m s d e, triple_in 255 s -> triple_in 255 d -> mixed8 m s d = Some e -> inside e ->
  exists v, mix machine W8 m s d = Some v /\ within_one e v.
Proof. exact mix_inside. Qed.
Print Assumptions C86_inside.

(** The second bound does not hold for colours that are clipped: the brightness is rounded down
    to a level before the colour is clipped, so the colour of an opaque dark blue over black,
    which should stay black, is a blue of 9 levels. *)
Theorem C86_black_refuted : exists s d e v,
  mixed8 Color s d = Some e /\ mix machine W8 Color s d = Some v /\ ~ within_one e v /\
  d = (0, 0, 0) /\ v = (0, 0, 9) /\ (let '(r, g, b) := e in r == 0 /\ g == 0 /\ b == 0)%Q /\
  blend8 machine Color 255 (Px 4 4 13 255) (Px 0 0 0 255) = Some (Px 0 0 9 255).
Proof.
  exists (4, 4, 13), (0, 0, 0). eexists. exists (0, 0, 9). split; [reflexivity|]. split; [vm_compute; reflexivity|].
  split; [|vm_compute; repeat split; reflexivity].
  vm_compute. intros (_ & _ & _ & H). discriminate H.
Qed.
Print Assumptions C86_black_refuted.

(** The first two colours are clipped (red at the top, and green), the third is not. *)
Example C86_used : exists e1 e2 e3,
  mixed8 Hue (200, 30, 90) (10, 220, 120) = Some e1 /\ mix machine W8 Hue (200, 30, 90) (10, 220, 120) = Some (255, 89, 147) /\
  mixed8 Luminosity (250, 255, 255) (10, 220, 120) = Some e2 /\ mix machine W8 Luminosity (250, 255, 255) (10, 220, 120) = Some (250, 255, 253) /\
  mixed8 Saturation (100, 110, 120) (50, 100, 150) = Some e3 /\ inside e3 /\ mix machine W8 Saturation (100, 110, 120) (50, 100, 150) = Some (82, 92, 102).
Proof.
  eexists _, _, _. split; [reflexivity|]. split; [vm_compute; reflexivity|]. split; [reflexivity|]. split; [vm_compute; reflexivity|].
  split; [reflexivity|]. split; [|vm_compute; reflexivity]. vm_compute. repeat split; reflexivity.
Qed.
