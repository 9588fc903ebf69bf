(** Theorems: conversion of colours, C67. Floating point operations are any functions. *)
From Verif Require Import Base MPicker MColor SColor SConvert PConvert.

(** Grey models: the brightness is kept, to one bit, 16 bits or 8 bits. *)
Theorem C67_gray1 pow unpow fdiv fmul alpha32 inv_alpha32 c r g b a :
  strange c -> argba pow c = (r, g, b, a) -> premultiplied (r, g, b, a) ->
  exists y, brightness r g b y /\ convert pow unpow fdiv fmul alpha32 inv_alpha32 MdGray1 c = Some (CGray1 (32768 <=? y)).
Proof. exact (to_gray1 pow unpow fdiv fmul alpha32 inv_alpha32 c r g b a). Qed.
Print Assumptions C67_gray1.
Theorem C67_gray16 pow unpow fdiv fmul alpha32 inv_alpha32 c r g b a :
  strange c -> argba pow c = (r, g, b, a) -> premultiplied (r, g, b, a) ->
  exists y c', brightness r g b y /\ convert pow unpow fdiv fmul alpha32 inv_alpha32 MdNGrayA32 c = Some c' /\
    near 1 0 (rgba pow c') (y, y, y, a).
Proof. exact (to_gray16 pow unpow fdiv fmul alpha32 inv_alpha32 c r g b a). Qed.
Print Assumptions C67_gray16.
Theorem C67_gray8 pow unpow fdiv fmul alpha32 inv_alpha32 c r g b a :
  strange c -> argba pow c = (r, g, b, a) -> premultiplied (r, g, b, a) ->
  exists y c', brightness r g b y /\ convert pow unpow fdiv fmul alpha32 inv_alpha32 MdNGrayA c = Some c' /\
    near 512 255 (rgba pow c') (y, y, y, a).
Proof. exact (to_gray8 pow unpow fdiv fmul alpha32 inv_alpha32 c r g b a). Qed.
Print Assumptions C67_gray8.

(** The CMYK models keep opaque colours, the one of 16 bits all but black. *)
Theorem C67_cmyk8_partial pow unpow fdiv fmul alpha32 inv_alpha32 c r g b :
  strange c -> argba pow c = (r, g, b, 65535) -> premultiplied (r, g, b, 65535) ->
  exists c', convert pow unpow fdiv fmul alpha32 inv_alpha32 MdNCMYKA c = Some c' /\ near 512 0 (rgba pow c') (r, g, b, 65535).
Proof. exact (to_cmyk8 pow unpow fdiv fmul alpha32 inv_alpha32 c r g b). Qed.
Print Assumptions C67_cmyk8_partial.
Theorem C67_cmyk16_partial pow unpow fdiv fmul alpha32 inv_alpha32 c r g b :
  strange c -> argba pow c = (r, g, b, 65535) -> premultiplied (r, g, b, 65535) -> (r, g, b) <> (0, 0, 0) ->
  exists c', convert pow unpow fdiv fmul alpha32 inv_alpha32 MdNCMYKA80 c = Some c' /\ near 1 0 (rgba pow c') (r, g, b, 65535).
Proof. exact (to_cmyk16 pow unpow fdiv fmul alpha32 inv_alpha32 c r g b). Qed.
Print Assumptions C67_cmyk16_partial.

(** The floating point models keep opaque colours, as well as the two power functions are
    inverse to each other. *)
Theorem C67_float_partial pow unpow fdiv fmul alpha32 inv_alpha32 d c r g b :
  (forall v, 0 <= v <= 65535 -> Z.abs (fromFloat pow (unpow v) - v) <= d) ->
  strange c -> argba pow c = (r, g, b, 65535) -> premultiplied (r, g, b, 65535) ->
  let convert := convert pow unpow fdiv fmul alpha32 inv_alpha32 in
  (exists y c1 c2, brightness r g b y /\ convert MdGray32 c = Some c1 /\ convert MdNGrayA64 c = Some c2 /\
     near d 0 (rgba pow c1) (y, y, y, 65535) /\ near d 0 (rgba pow c2) (y, y, y, 65535)) /\
  exists c', convert MdNRGBA128 c = Some c' /\ near d 0 (rgba pow c') (r, g, b, 65535).
Proof.
  intros H S E P. exact (conj (to_gray32 pow unpow fdiv fmul alpha32 inv_alpha32 d H c r g b S E P) (to_rgb128 pow unpow fdiv fmul alpha32 inv_alpha32 d H c r g b S E P)).
Qed.
Print Assumptions C67_float_partial.

(** Transparent colours stay transparent, and all of them are converted to the same one. *)
Theorem C67_clear pow unpow fdiv fmul alpha32 inv_alpha32 m :
  m = MdNGrayA \/ m = MdNGrayA32 \/ m = MdNGrayA64 \/ m = MdNRGBA128 \/ m = MdNCMYKA80 ->
  exists c', rgba pow c' = (0, 0, 0, 0) /\
    forall c r g b, strange c -> argba pow c = (r, g, b, 0) -> convert pow unpow fdiv fmul alpha32 inv_alpha32 m c = Some c'.
Proof. exact (to_clear pow unpow fdiv fmul alpha32 inv_alpha32 m). Qed.
Print Assumptions C67_clear.

(** The rest is false. The CMYK model of 16 bits makes black white; both CMYK models change half
    transparent colours: red becomes almost black; a half transparent white of 8 bits becomes
    a dark grey with the floating point models, because brightness is divided by alpha
    after it was raised to a power. (The premises are the values of the floating point operations
    for this colour: 0.50196 to the power of 2.2 is 0.21952, and so on.) *)
Theorem C67_refuted pow unpow fdiv fmul alpha32 inv_alpha32 :
  let convert := convert pow unpow fdiv fmul alpha32 inv_alpha32 in
  (exists c', convert MdNCMYKA80 (Known (CNRGBA 0 0 0 255)) = Some c' /\ rgba pow c' = (65535, 65535, 65535, 65535)) /\
  (exists c', convert MdNCMYKA80 (Known (CNRGBA 255 0 0 128)) = Some c' /\ rgba pow c' = (257, 2, 2, 32896)) /\
  (exists c', convert MdNCMYKA (Known (CNRGBA 255 0 0 128)) = Some c' /\ rgba pow c' = (258, 3, 3, 32896)) /\
  (unpow 32896 = 1046530503 -> alpha32 32896 = 1056997505 -> fdiv 1046530503 1056997505 = 1054861564 -> pow 1054861564 = 4604359920865425668 ->
   inv_alpha32 32896 = 1073676288 -> fmul 1046530503 1073676288 = 1054861565 -> pow 1054861565 = 4604359921057002257 ->
   rgba pow (CNRGBA 255 255 255 128) = (32896, 32896, 32896, 32896) /\
   (exists c', convert MdNGrayA64 (Known (CNRGBA 255 255 255 128)) = Some c' /\ rgba pow c' = (22587, 22587, 22587, 32896)) /\
   (exists c', convert MdNRGBA128 (Known (CNRGBA 255 255 255 128)) = Some c' /\ rgba pow c' = (22587, 22587, 22587, 32896))).
Proof.
  split; [eexists; split; reflexivity|]. split; [eexists; split; reflexivity|]. split; [eexists; split; reflexivity|].
  intros H1 H2 H3 H4 H5 H6 H7. split; [reflexivity|]. split.
  - exists (CNGrayA64 1054861564 1056997505). split.
    + transitivity (Some (CNGrayA64 (fdiv (unpow 32896) (alpha32 32896)) (alpha32 32896))); [reflexivity|]. now rewrite H1, H2, H3.
    + cbn [rgba]. unfold fromFloat. rewrite H4. reflexivity.
  - exists (CNRGBA128 1054861565 1054861565 1054861565 1056997505). split.
    + transitivity (Some (CNRGBA128 (fmul (unpow 32896) (inv_alpha32 32896)) (fmul (unpow 32896) (inv_alpha32 32896)) (fmul (unpow 32896) (inv_alpha32 32896)) (alpha32 32896))); [reflexivity|].
      now rewrite H1, H2, H5, H6.
    + cbn [rgba]. unfold fromFloat. rewrite H7. reflexivity.
Qed.
Print Assumptions C67_refuted.

Example C67_example :
  let id := fun x : Z => x in let f2 := fun x _ : Z => x in
  let convert := convert id id f2 f2 id id in
  let c := Other 30000 10000 20000 40000 in
  strange c /\ premultiplied (30000, 10000, 20000, 40000) /\ brightness 30000 10000 20000 17120 /\
  convert MdNGrayA32 c = Some (CNGrayA32 28048 40000) /\ rgba id (CNGrayA32 28048 40000) = (17119, 17119, 17119, 40000) /\
  convert MdNGrayA c = Some (CNGrayA 109 156) /\ rgba id (CNGrayA 109 156) = (17137, 17137, 17137, 40092) /\
  convert MdGray1 c = Some (CGray1 false) /\ convert MdGray1 (Other 32768 32768 32768 65535) = Some (CGray1 true) /\
  convert MdNCMYKA (Known (CNRGBA 200 100 50 255)) = Some (CNCMYKA 255 128 64 200 255) /\
  rgba id (CNCMYKA 255 128 64 200 255) = (51400, 25800, 12900, 65535).
Proof. unfold premultiplied, brightness. repeat split; try lia; vm_compute; reflexivity. Qed.
