(** Theorems about the drawing paths that compute with 16 bits (property C74). *)
From Coq Require Import QArith.
From Verif Require Import Base MBlend SBlend SHsl PHsl16 SWide PBlend2 PComp16.
Open Scope Z_scope.

(** * C74: with 16 bits the blend modes follow the documented formulas *)

(** Each separable mode, for all 16 bit channels. *)
Theorem C74_formulas : forall m s d, is_separable m = true -> 0 <= s <= 65535 -> 0 <= d <= 65535 ->
  exists c, chan machine W16 m s d = Some c /\ within_formula16 m s d c = true.
Proof. exact chan_formula16. Qed.
Print Assumptions C74_formulas.

(** Hue, Saturation, Color and Luminosity are the formulas of the W3C document,
    rounded down to a level of 65535. *)
Theorem C74_mixing : forall m s d e, triple_in 65535 s -> triple_in 65535 d -> mixed m s d = Some e ->
  exists v, mix machine W16 m s d = Some v /\ all_down e v.
Proof. intros m s d e Hs Hd. exact (mix_down m s d Hs Hd e). Qed.
Print Assumptions C74_mixing.

(** They keep the brightness of the backdrop (Luminosity: of the source). *)
Theorem C74_brightness : forall m s d e, triple_in 65535 s -> triple_in 65535 d -> mixed m s d = Some e ->
  exists v, mix machine W16 m s d = Some v /\ let l := lum_of (exact (match m with Luminosity => s | _ => d end)) in (l - 1 - (1 # 1000000) < lum_of (exact v) < l + (1 # 1000000))%Q.
Proof. exact mix_brightness. Qed.
Print Assumptions C74_brightness.

(** The byte paths with premultiplied pixels on either side ([sp], [dp]): the result
    is the compositing formula with the documented colour of the mode, but for less
    than three levels of 65535, cut to a byte. (Add wraps: C39.) *)
Theorem C74_wide : forall m sp dp alpha s d, m <> Add -> 0 <= alpha <= 255 -> pixel_ok s -> pixel_ok d ->
  (sp = true -> premul_ok 255 s) -> (dp = true -> premul_ok 255 d) ->
  let S c := straight sp (pa s) (c s) in let D c := straight dp (pa d) (c d) in
  exists r g b p, doc_colour16 m (S pr, S pg, S pb) (D pr, D pg, D pb) (r, g, b) /\ blendW machine m sp dp alpha s d = Some p /\
    let t := pa s * alpha * 257 / 255 in let a := pa d * 257 in
    (t = 0 -> p = d) /\
    (t <> 0 -> exists ao, union16 t a ao /\ pa p = ao / 256 /\
      forall c x, In (c, x) [(pr, r); (pg, g); (pb, b)] ->
        exists q, composited16 dp (compositing16 t a (S c) (D c) x) ao q /\ c p = q / 256).
Proof. exact wide_composited. Qed.
Print Assumptions C74_wide.

(** The fallback for all other image types. [None]: the destination is left as it
    is, only if there is next to nothing to draw. *)
Theorem C74_fallback : forall m ma s d, m <> Add -> 0 <= ma <= 65535 -> premul_ok 65535 s -> premul_ok 65535 d ->
  let S c := if pa s =? 0 then 0 else c s * 65535 / pa s in let D c := if pa d =? 0 then 0 else c d * 65535 / pa d in
  let t := pa s * ma / 65535 in
  exists r g b o, doc_colour16 m (S pr, S pg, S pb) (D pr, D pg, D pb) (r, g, b) /\ blendF machine m ma s d = Some o /\
    match o with
    | None => t <= 1 /\ (ma = 0 \/ pa d <= 1)
    | Some p => union16 t (pa d) (pa p) /\
        forall c x, In (c, x) [(pr, r); (pg, g); (pb, b)] -> composited16 true (compositing16 t (pa d) (S c) (D c) x) (pa p) (c p)
    end.
Proof. exact fallback_composited. Qed.
Print Assumptions C74_fallback.

(** The exceptions are real: SoftLight with 16 bits is 2303 levels (3.5%) too bright
    (its polynomial is divided too early: [int32(d*16-786420) / 65535] is an integer
    between -12 and -8), while with 8 bits it is too dark (C36); HardMix and VividLight
    differ as with 8 bits. *)
Theorem C74_exceptions_refuted :
  (exists c, chan machine W16 SoftLight 65535 12288 = Some c /\ err16 (2303 # 1) (2304 # 1) c (doc root16 SoftLight (unit16 65535) (unit16 12288)) = true) /\
  (exists c, chan machine W16 VividLight 0 65535 = Some c /\ c = 0 /\ doc root16 VividLight (unit16 0) (unit16 65535) == 1) /\
  (exists c, chan machine W16 HardMix 32767 32768 = Some c /\ c = 0 /\ doc root16 HardMix (unit16 32767) (unit16 32768) == 1).
Proof. split; [|split]; eexists; split; try (vm_compute; reflexivity); split; vm_compute; reflexivity. Qed.
Print Assumptions C74_exceptions_refuted.

Example C74_used :
  chan machine W16 ColorDodge 50000 10000 = Some 42185 /\ within_formula16 ColorDodge 50000 10000 42185 = true /\ within_formula16 ColorDodge 50000 10000 42184 = false /\
  chan machine W16 SoftLight 60000 40000 = Some 49307 /\
  blendW machine Screen true true 128 (Px 100 60 20 200) (Px 40 30 20 100) = Some (Px 82 56 29 161) /\
  blendF machine Multiply 65535 (Px 30000 20000 10000 40000) (Px 10000 10000 10000 20000) = Some (Some (Px 29317 20843 12369 47791)).
Proof. vm_compute. repeat split; reflexivity. Qed.

(** The first colour has to be made darker by ClipColor, the second brighter. *)
Example C74_used_mixing :
  mix machine W16 Hue (1000, 2000, 60000) (65535, 0, 30000) = Some (17155, 17974, 65535) /\
  mix machine W16 Color (65535, 20000, 0) (100, 200, 300) = Some (377, 115, 0) /\
  (exists e, mixed Hue (1000, 2000, 60000) (65535, 0, 30000) = Some e) /\
  ~ down (1440885364880 # 83989793) 17154.
Proof.
  split; [vm_compute; reflexivity|]. split; [vm_compute; reflexivity|]. split; [eexists; reflexivity|]. intros [H _]. vm_compute in H. discriminate H.
Qed.
