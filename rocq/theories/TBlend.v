(** Theorems about the blend modes (properties C35 - C40, C59). *)
From Coq Require Import QArith.
From Verif Require Import Base MBlend SBlend PLum PBlend PBlend2 PBlend3 PHsl PWide PWide2 PWide3.
Open Scope Z_scope.

(** * C35: results stay in range *)

(** In every mode and at every opacity: no panic, the same result as in unbounded
    arithmetic (nothing wraps, nothing is cut off), four bytes. *)
Theorem C35_blend_in_range : forall m alpha s d,
  0 <= alpha <= 255 -> pixel_ok s -> pixel_ok d ->
  exists p, blend8 machine m alpha s d = Some p /\ blend8 ideal m alpha s d = Some p /\ pixel_ok p.
Proof. exact blend8_range. Qed.
Print Assumptions C35_blend_in_range.

Example C35_used : exists p, blend8 machine Luminosity 77 (Px 250 3 128 200) (Px 9 255 77 31) = Some p /\ pixel_ok p.
Proof. eexists. split; [vm_compute; reflexivity|]. unfold pixel_ok. cbn. lia. Qed.

(** * C36: formulas *)

(** The property as stated (rounded down) is false: Screen rounds up. *)
Theorem C36_rounded_down_refuted : exists m s d c, is_separable m = true /\ 0 <= s <= 255 /\ 0 <= d <= 255 /\
  chan machine W8 m s d = Some c /\ c <> Qround.Qfloor ((255 # 1) * doc root255 m (SBlend.unit s) (SBlend.unit d)).
Proof. exists Screen, 1, 1, 2. split; [reflexivity|]. split; [lia|]. split; [lia|]. split; [reflexivity|]. vm_compute. discriminate. Qed.
Print Assumptions C36_rounded_down_refuted.

(** What holds: each separable mode is within the stated distance of its formula. *)
Theorem C36_formulas : forall m s d, is_separable m = true -> 0 <= s <= 255 -> 0 <= d <= 255 ->
  exists c, chan machine W8 m s d = Some c /\ within_formula m s d c = true.
Proof. exact chan_formula. Qed.
Print Assumptions C36_formulas.

(** The exceptions are real: VividLight of black over white is black instead of
    white, SoftLight is 16 levels too dark, HardMix differs on the diagonal. *)
Theorem C36_exceptions_refuted :
  (exists c, chan machine W8 VividLight 0 255 = Some c /\ c = 0 /\ doc root255 VividLight (SBlend.unit 0) (SBlend.unit 255) == 1) /\
  (exists c, chan machine W8 SoftLight 252 63 = Some c /\ err_between (-17 # 1) (-16 # 1) c (doc root255 SoftLight (SBlend.unit 252) (SBlend.unit 63)) = true) /\
  (exists c, chan machine W8 HardMix 127 128 = Some c /\ c = 0 /\ doc root255 HardMix (SBlend.unit 127) (SBlend.unit 128) == 1).
Proof. split; [|split]; eexists; split; try (vm_compute; reflexivity). split; vm_compute; reflexivity. split; vm_compute; reflexivity. Qed.
Print Assumptions C36_exceptions_refuted.

Example C36_used : chan machine W8 ColorDodge 200 50 = Some 231 /\ Qround.Qfloor ((255 # 1) * doc root255 ColorDodge (SBlend.unit 200) (SBlend.unit 50)) = 231.
Proof. split; vm_compute; reflexivity. Qed.

(** * C37: compositing laws *)
Theorem C37_transparent_source : forall m alpha s d, 0 <= alpha <= 255 -> pixel_ok s -> pixel_ok d ->
  pa s = 0 \/ alpha = 0 -> blend8 machine m alpha s d = Some d.
Proof. exact blend8_nothing. Qed.
Print Assumptions C37_transparent_source.

Theorem C37_transparent_destination : forall m alpha s d, 0 <= alpha <= 255 -> pixel_ok s -> pixel_ok d -> pa d = 0 ->
  blend8 machine m alpha s d = Some (if pa s * alpha / 255 =? 0 then d else set_alpha s (pa s * alpha / 255)).
Proof. exact blend8_over_transparent. Qed.
Print Assumptions C37_transparent_destination.

Theorem C37_opaque_destination : forall m alpha s d p, 0 <= alpha <= 255 -> pixel_ok s -> pixel_ok d -> pa d = 255 ->
  blend8 machine m alpha s d = Some p -> pa p = 255.
Proof. exact blend8_opaque_dest. Qed.
Print Assumptions C37_opaque_destination.

Theorem C37_opaque_source : forall m s d p, pixel_ok s -> pixel_ok d -> pa s = 255 ->
  blend8 machine m 255 s d = Some p -> pa p = 255.
Proof. exact blend8_opaque_source. Qed.
Print Assumptions C37_opaque_source.

Theorem C37_normal_replaces : forall s d, pixel_ok s -> pixel_ok d -> pa s = 255 -> blend8 machine Normal 255 s d = Some s.
Proof. exact blend8_normal. Qed.
Print Assumptions C37_normal_replaces.

(** Opaque over opaque gives the blend colour itself. *)
Theorem C37_opaque_over_opaque : forall m s d, pixel_ok s -> pixel_ok d -> pa s = 255 -> pa d = 255 ->
  exists r g b, mix machine W8 m (pr s, pg s, pb s) (pr d, pg d, pb d) = Some (r, g, b) /\
    blend8 machine m 255 s d = Some (Px (Z.min r 255) (Z.min g 255) (Z.min b 255) 255).
Proof. exact blend8_opaque. Qed.
Print Assumptions C37_opaque_over_opaque.

(** Neutral colours leave an opaque destination alone, at every opacity. *)
Theorem C37_neutral : forall m alpha s d v, 0 <= alpha <= 255 -> pixel_ok s -> pixel_ok d -> neutral m = Some v ->
  pr s = v -> pg s = v -> pb s = v -> pa d = 255 -> blend8 machine m alpha s d = Some d.
Proof. exact blend8_neutral. Qed.
Print Assumptions C37_neutral.

Example C37_used :
  blend8 machine Overlay 128 (Px 10 20 30 200) (Px 1 2 3 0) = Some (Px 10 20 30 100) /\
  blend8 machine Screen 99 (Px 0 0 0 180) (Px 7 77 177 255) = Some (Px 7 77 177 255) /\
  blend8 machine Multiply 255 (Px 128 64 32 255) (Px 200 100 50 255) = Some (Px 100 25 6 255).
Proof. vm_compute. auto. Qed.

(** * C38: alpha *)

(** The property is false: drawing a source of alpha 1 lowers the alpha of every
    destination pixel that is neither almost transparent nor opaque. *)
Theorem C38_alpha_reduced_refuted : forall m s d, pixel_ok s -> pixel_ok d -> pa s = 1 -> 2 <= pa d <= 254 ->
  exists p, blend8 machine m 255 s d = Some p /\ pa p = pa d - 1.
Proof. exact blend8_faint. Qed.
Print Assumptions C38_alpha_reduced_refuted.

(** What holds: the alpha is never more than one below that of the destination or
    the scaled source, and less than two levels below the exact union. *)
Theorem C38_alpha_bound_partial : forall m alpha s d p, 0 <= alpha <= 255 -> pixel_ok s -> pixel_ok d ->
  blend8 machine m alpha s d = Some p ->
  let t := pa s * alpha / 255 in
  pa d - 1 <= pa p /\ t - 1 <= pa p /\ 255 * pa p <= 255 * (t + pa d) - t * pa d < 255 * pa p + 510.
Proof. exact blend8_alpha_bound. Qed.
Print Assumptions C38_alpha_bound_partial.

Example C38_used : blend8 machine Normal 255 (Px 0 0 0 1) (Px 50 60 70 128) = Some (Px 50 60 70 127).
Proof. vm_compute. reflexivity. Qed.

(** * C39: the Add mode with 16 bit arithmetic *)

(** The 8 bit path saturates, the byte paths with 16 bit arithmetic wrap around:
    two bright greys give a dark one. *)
Theorem C39_add_wraps_refuted : exists s d,
  premul_ok 255 s /\ premul_ok 255 d /\
  blend8 machine Add 255 s d = Some (Px 255 255 255 255) /\
  (forall sp dp, blendW ideal Add sp dp 255 s d = Some (Px 255 255 255 255)) /\
  (forall sp dp, blendW machine Add sp dp 255 s d = Some (Px 65 65 65 255)).
Proof.
  exists (Px 192 192 192 255), (Px 128 128 128 255). unfold premul_ok. cbn [pr pg pb pa].
  split; [lia|]. split; [lia|]. split; [vm_compute; reflexivity|]. split; intros [] []; vm_compute; reflexivity.
Qed.
Print Assumptions C39_add_wraps_refuted.

(** The fallback for other image types multiplies by alpha twice: over a
    transparent destination the colour is halved. *)
Theorem C39_add_fallback_darkens_refuted : exists s,
  premul_ok 65535 s /\ blendF machine Normal 65535 s (Px 0 0 0 0) = Some (Some s) /\
  blendF machine Add 65535 s (Px 0 0 0 0) = Some (Some (Px 16384 16384 16384 (pa s))) /\ pr s = 32768.
Proof. exists (Px 32768 32768 32768 32768). unfold premul_ok. cbn [pr pg pb pa]. split; [lia|]. vm_compute. auto. Qed.
Print Assumptions C39_add_fallback_darkens_refuted.

(** What holds for the fallback: nothing wraps, the result is a valid premultiplied
    pixel, and two opaque colours give the saturated sum. *)
Theorem C39_add_fallback_partial : forall ma s d, 0 <= ma <= 65535 -> premul_ok 65535 s -> premul_ok 65535 d ->
  (exists o, blendF machine Add ma s d = Some o /\ blendF ideal Add ma s d = Some o /\ forall p, o = Some p -> premul_ok 65535 p) /\
  (ma = 65535 -> pa s = 65535 -> pa d = 65535 ->
   blendF machine Add ma s d = Some (Some (Px (Z.min 65535 (pr s + pr d)) (Z.min 65535 (pg s + pg d)) (Z.min 65535 (pb s + pb d)) 65535))).
Proof. intros ma s d Hm Hs Hd. split; [now apply blendF_add_range|]. intros ->. now apply blendF_add_opaque. Qed.
Print Assumptions C39_add_fallback_partial.

Example C39_fallback_used :
  blendF machine Add 65535 (Px 50000 1000 0 65535) (Px 30000 2000 7 65535) = Some (Some (Px 65535 3000 7 65535)) /\
  blendF machine Add 65535 (Px 30000 30000 0 40000) (Px 30000 30000 7 30000) <> None.
Proof. split; vm_compute; [reflexivity|discriminate]. Qed.

(** What holds: as long as the sums of the un-premultiplied colours fit 16 bits
    nothing wraps. *)
Theorem C39_add_small_partial : forall sp dp alpha s d, 0 <= alpha <= 255 -> pixel_ok s -> pixel_ok d ->
  (sp = true -> premul_ok 255 s) -> (dp = true -> premul_ok 255 d) ->
  (forall c, In c [pr; pg; pb] -> unm sp (pa s * 257) (c s * 257) + unm dp (pa d * 257) (c d * 257) <= 65535) ->
  exists p, blendW machine Add sp dp alpha s d = Some p /\ blendW ideal Add sp dp alpha s d = Some p /\ pixel_ok p /\
    (dp = true -> premul_ok 255 p).
Proof. exact blendW_add. Qed.
Print Assumptions C39_add_small_partial.

Example C39_used : blendW machine Add true true 255 (Px 20 30 40 100) (Px 50 60 70 200) = Some (Px 70 90 110 222).
Proof. vm_compute. reflexivity. Qed.

(** * C40: hue, saturation, luminosity *)
Theorem C40_luminosity : forall m s d,
  let ok c := let '(r, g, b) := c in 0 <= r <= 255 /\ 0 <= g <= 255 /\ 0 <= b <= 255 in
  ok s -> ok d ->
  match m with
  | Hue | Saturation | Color => exists r g b, mix machine W8 m s d = Some (r, g, b) /\ ok (r, g, b) /\ Z.abs (luma (r, g, b) - luma d) <= 1
  | Luminosity => exists r g b, mix machine W8 m s d = Some (r, g, b) /\ ok (r, g, b) /\ Z.abs (luma (r, g, b) - luma s) <= 1
  | DarkerColor => mix machine W8 m s d = Some (if luma s <? luma d then s else d)
  | LighterColor => mix machine W8 m s d = Some (if luma d <? luma s then s else d)
  | _ => True
  end.
Proof. exact mix_luma. Qed.
Print Assumptions C40_luminosity.

Theorem C40_saturation : forall r g b st, 0 <= r <= 255 -> 0 <= g <= 255 -> 0 <= b <= 255 -> 0 <= st <= 255 ->
  exists r' g' b', setSat machine r g b st = Some (r', g', b') /\
    Z.min r' (Z.min g' b') = 0 /\
    Z.max r' (Z.max g' b') = (if (r =? g) && (g =? b) then 0 else st) /\
    (r <= g -> r' <= g') /\ (g <= r -> g' <= r') /\ (r <= b -> r' <= b') /\ (b <= r -> b' <= r') /\
    (g <= b -> g' <= b') /\ (b <= g -> b' <= g').
Proof. exact setSat_spread. Qed.
Print Assumptions C40_saturation.

Example C40_used :
  mix machine W8 Hue (250, 10, 10) (20, 200, 90) = Some (255, 81, 81) /\ luma (255, 81, 81) = 133 /\ luma (20, 200, 90) = 133.
Proof. vm_compute. auto. Qed.

(** * C59: the paths that compute with 16 bits *)

(** All modes but Add, all kinds of byte images: nothing wraps, the result is a
    valid pixel, premultiplied when the destination is. *)
Theorem C59_wide_in_range : forall m sp dp alpha s d, m <> Add -> 0 <= alpha <= 255 -> pixel_ok s -> pixel_ok d ->
  (sp = true -> premul_ok 255 s) -> (dp = true -> premul_ok 255 d) ->
  exists p, blendW machine m sp dp alpha s d = Some p /\ blendW ideal m sp dp alpha s d = Some p /\ pixel_ok p /\
    (dp = true -> premul_ok 255 p).
Proof. intros m sp dp al s d Hm. apply blendW_range. destruct m; try reflexivity. now destruct Hm. Qed.
Print Assumptions C59_wide_in_range.

Theorem C59_fallback_in_range : forall m ma s d, m <> Add -> 0 <= ma <= 65535 -> premul_ok 65535 s -> premul_ok 65535 d ->
  exists o, blendF machine m ma s d = Some o /\ blendF ideal m ma s d = Some o /\ forall p, o = Some p -> premul_ok 65535 p.
Proof. intros m ma s d Hm. apply blendF_range. destruct m; try reflexivity. now destruct Hm. Qed.
Print Assumptions C59_fallback_in_range.

Theorem C59_wide_transparent_source : forall m sp dp alpha s d, 0 <= alpha <= 255 -> pixel_ok s -> pa s = 0 \/ alpha = 0 ->
  blendW machine m sp dp alpha s d = Some d.
Proof. exact blendW_nothing. Qed.
Print Assumptions C59_wide_transparent_source.

(** Every mode copies a premultiplied source exactly onto an empty pixel. *)
Theorem C59_wide_onto_empty : forall m s d, premul_ok 255 s -> 0 < pa s -> d = Px 0 0 0 0 ->
  blendW machine m true true 255 s d = Some s.
Proof. exact blendW_onto_empty. Qed.
Print Assumptions C59_wide_onto_empty.

Theorem C59_wide_normal_replaces : forall sp dp s d, pixel_ok s -> pixel_ok d -> pa s = 255 -> (dp = true -> premul_ok 255 d) ->
  blendW machine Normal sp dp 255 s d = Some s.
Proof. exact blendW_normal. Qed.
Print Assumptions C59_wide_normal_replaces.

Example C59_used :
  blendW machine Hue true true 200 (Px 100 60 20 120) (Px 10 20 30 40) = Some (Px 82 58 34 119) /\
  blendW machine SoftLight true true 255 (Px 1 7 3 13) (Px 0 0 0 0) = Some (Px 1 7 3 13) /\
  blendF machine Color 40000 (Px 1000 2000 3000 4000) (Px 500 600 700 800) <> None.
Proof. vm_compute. repeat split; discriminate. Qed.
