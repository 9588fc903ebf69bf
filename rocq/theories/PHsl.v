(** The hue, saturation, colour and luminosity modes as a whole. *)
From Verif Require Import Base BaseFacts MBlend PBlend PLum SBlend PBlend2.
Open Scope Z_scope.

Lemma setLum8_near c l : triple_in 255 c -> triple_in 255 l ->
  exists r g b, setLum machine W8 c l = Some (r, g, b) /\ triple_in 255 (r, g, b) /\ Z.abs (luma (r, g, b) - luma l) <= 1.
Proof.
  destruct c as [[r g] b], l as [[lr lg] lb]. cbn [triple_in setLum]. intros.
  destruct (lum8_eq lr lg lb) as (-> & _ & Hl); unfold byte in *; try lia.
  destruct (setLum8_ok r g b (luma8 lr lg lb)) as (r' & g' & b' & E1 & _ & H1 & H2 & H3 & N); unfold byte in *; try lia.
  exists r', g', b'. split; [exact E1|]. split; [cbn [triple_in]; lia|]. unfold near in N. exact N.
Qed.

Lemma mix_luma m s d : triple_in 255 s -> triple_in 255 d ->
  match m with
  | Hue | Saturation | Color => exists r g b, mix machine W8 m s d = Some (r, g, b) /\ triple_in 255 (r, g, b) /\ Z.abs (luma (r, g, b) - luma d) <= 1
  | Luminosity => exists r g b, mix machine W8 m s d = Some (r, g, b) /\ triple_in 255 (r, g, b) /\ Z.abs (luma (r, g, b) - luma s) <= 1
  | DarkerColor => mix machine W8 m s d = Some (if luma s <? luma d then s else d)
  | LighterColor => mix machine W8 m s d = Some (if luma d <? luma s then s else d)
  | _ => True
  end.
Proof.
  intros Hs Hd.
  assert (forall x y, triple_in 255 x -> triple_in 255 y -> lumlt machine W8 x y = (luma x <? luma y)) as L.
  { intros [[xr xg] xb] [[yr yg] yb]. cbn [triple_in lumlt]. intros.
    destruct (lum8_eq xr xg xb) as (-> & _ & _); unfold byte; try lia.
    destruct (lum8_eq yr yg yb) as (-> & _ & _); unfold byte; try lia. reflexivity. }
  destruct m; try exact I; cbn [mix]; try (now rewrite L).
  - destruct (setSat3_mix W8 s d Hs Hd) as (c & -> & _ & Hc). now apply setLum8_near.
  - destruct (setSat3_mix W8 d s Hd Hs) as (c & -> & _ & Hc). now apply setLum8_near.
  - now apply setLum8_near.
  - now apply setLum8_near.
Qed.

Lemma setSat_spread r g b st : byte r -> byte g -> byte b -> byte st ->
  exists r' g' b', setSat machine r g b st = Some (r', g', b') /\
    Z.min r' (Z.min g' b') = 0 /\
    Z.max r' (Z.max g' b') = (if (r =? g) && (g =? b) then 0 else st) /\
    (r <= g -> r' <= g') /\ (g <= r -> g' <= r') /\ (r <= b -> r' <= b') /\ (b <= r -> b' <= r') /\
    (g <= b -> g' <= b') /\ (b <= g -> b' <= g').
Proof.
  unfold byte. intros. destruct (setSat_ok W8 r g b st) as (r' & g' & b' & E & _ & R); try (unfold in_width; cbn [maxv]; lia).
  exists r', g', b'. split; [exact E|]. unfold sat_result in R. cbv zeta in R.
  assert ((if Z.min r (Z.min g b) <? Z.max r (Z.max g b) then st else 0) = (if (r =? g) && (g =? b) then 0 else st)) as Q.
  { destruct (Z.ltb_spec (Z.min r (Z.min g b)) (Z.max r (Z.max g b))), (Z.eqb_spec r g), (Z.eqb_spec g b); cbn [andb]; lia. }
  rewrite Q in R. tauto.
Qed.
