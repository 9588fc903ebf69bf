(** Theorems: colours, C30 and C31. *)
From Verif Require Import Base MRect MPicker MColor SColor PColor PColorF.

(** ** C30 *)

(** Every value of every colour type is a valid premultiplied colour, for
    every power function. *)
Theorem C30_premultiplied pow c : color_ok c -> premultiplied (rgba pow c).
Proof. exact (rgba_premultiplied pow c). Qed.
Print Assumptions C30_premultiplied.

(** The integer types compute the intended value: no overflow, and the special
    cases for opaque and transparent colours agree with the general formula. *)
Theorem C30_exact pow c q : color_ok c -> exact_rgba c = Some q -> rgba pow c = q.
Proof. exact (rgba_exact pow c q). Qed.
Print Assumptions C30_exact.

(** The types with floating point samples compute the level of each sample, clamped to
    [0, 1], times the level of alpha, for every power function. *)
Theorem C30_float pow c : (forall y, 0 <= pow y < 2 ^ 64) -> color_ok c -> is_float c -> float_rgba pow c (rgba pow c).
Proof. intros H. exact (float_exact pow H c). Qed.
Print Assumptions C30_float.

Example C30_example :
  color_ok (CNCMYKA 200 255 3 254 128) /\
  rgba (fun x => x) (CNCMYKA 200 255 3 254 128) = (25699, 32766, 385, 32896) /\
  (* 0.5 and an alpha of 0.75, with a power function that returns 0.5 *)
  rgba (fun _ => 4602678819172646912) (CNGrayA64 1056964608 1061158912) = (24575, 24575, 24575, 49151).
Proof. unfold color_ok, u8_ok. repeat split; try lia; vm_compute; reflexivity. Qed.

(** A grey of 0.5 (binary64 pattern) with alpha 0.75; the pattern of NaN. *)
Example C30_float_example :
  level64 4602678819172646912 32767 /\ level32 1061158912 49151 /\ ~ level32 1061158912 49152 /\
  level64 9221120237041090561 0 /\ level64 4607182418800017408 65535 /\
  rgba (fun _ => 9221120237041090561) (CGray32 2143289344) = (0, 0, 0, 65535).
Proof. repeat split; try (vm_compute; congruence). intros [H _]. vm_compute in H. now apply H. Qed.

(** ** C25: colour models *)

(** [ColorModel] of a picker is the model of the colours that [At] returns. *)
Theorem C25_model pk x y c : picker_at pk x y = Some c -> colour_of (colorModel (pk_kind pk)) c.
Proof. exact (picker_model pk x y c). Qed.
Print Assumptions C25_model.
Example C25_model_example :
  picker_at (Picker PkNRGB16 (Rct 0 0 1 1) [[1; 2]; [3; 4]; [5; 6]]) 0 0 = Some (CNRGBA64 258 772 1286 65535) /\
  ~ colour_of MdNRGBA (CNRGBA64 258 772 1286 65535).
Proof. split; [reflexivity|]. cbn. discriminate. Qed.

(** ** C31 *)

(** The property is false: the models for grey with alpha change their own
    colours and pass on a colour of another type, the CMYK model panics for
    transparent colours, and the 16 bit CMYK model changes its own colours and
    returns colours of another type; half transparent red becomes almost black. *)
Theorem C31_models_refuted pow unpow fdiv fmul alpha32 inv_alpha32 :
  let convert := convert pow unpow fdiv fmul alpha32 inv_alpha32 in
  convert MdNGrayA (Known (CNGrayA 1 1)) = Some (CNGrayA 0 1) /\
  convert MdNGrayA32 (Known (CNGrayA32 1000 1)) = Some (CNGrayA32 0 1) /\
  (forall y a, convert MdNGrayA (Known (CNGrayA64 y a)) = Some (CNGrayA64 y a)) /\
  (forall y a, convert MdNGrayA32 (Known (CNGrayA64 y a)) = Some (CNGrayA64 y a)) /\
  convert MdNCMYKA (Known (CNRGBA 1 2 3 0)) = None /\
  (forall c m y k a, convert MdNCMYKA80 (Known (CNCMYKA c m y k a)) = Some (CNCMYKA c m y k a)) /\
  convert MdNCMYKA80 (Known (CNCMYKA80 0 0 0 65535 65535)) = Some (CNCMYKA80 65535 65535 65535 65535 65535) /\
  convert MdNCMYKA80 (Known (CNRGBA64 65535 0 0 32768)) = Some (CNCMYKA80 65535 3 3 2 32768).
Proof. repeat split; vm_compute; reflexivity. Qed.
Print Assumptions C31_models_refuted.

(** What holds: the other models return their own colours unchanged ... *)
Theorem C31_self pow unpow fdiv fmul alpha32 inv_alpha32 m c :
  (m = MdGray1 \/ m = MdGray32 \/ m = MdNGrayA64 \/ m = MdNRGBA128 \/ m = MdNCMYKA) ->
  of_model m c = true -> convert pow unpow fdiv fmul alpha32 inv_alpha32 m (Known c) = Some c.
Proof. exact (convert_self pow unpow fdiv fmul alpha32 inv_alpha32 m c). Qed.
Print Assumptions C31_self.

(** ... the models for grey with alpha keep alpha, keep opaque colours, and
    lose at most one step of an 8 bit value and 65535/alpha + 1 steps of a
    16 bit value ... *)
Theorem C31_gray_alpha pow unpow fdiv fmul alpha32 inv_alpha32 y a : u8_ok y -> u8_ok a ->
  exists y', convert pow unpow fdiv fmul alpha32 inv_alpha32 MdNGrayA (Known (CNGrayA y a)) = Some (CNGrayA y' a) /\
    (a = 255 -> y' = y) /\ (1 <= a -> y - 1 <= y' <= y).
Proof. exact (nGrayA_near pow unpow fdiv fmul alpha32 inv_alpha32 y a). Qed.
Print Assumptions C31_gray_alpha.
Theorem C31_gray_alpha16 pow unpow fdiv fmul alpha32 inv_alpha32 y a : u16_ok y -> u16_ok a ->
  exists y', convert pow unpow fdiv fmul alpha32 inv_alpha32 MdNGrayA32 (Known (CNGrayA32 y a)) = Some (CNGrayA32 y' a) /\
    (a = 65535 -> y' = y) /\ (1 <= a -> y - 65535 / a - 1 <= y' <= y).
Proof. exact (nGrayA32_near pow unpow fdiv fmul alpha32 inv_alpha32 y a). Qed.
Print Assumptions C31_gray_alpha16.

(** ... and apart from the three defects every conversion of every colour
    returns a colour of the model without panic. *)
Theorem C31_total pow unpow fdiv fmul alpha32 inv_alpha32 m c :
  (m = MdGray1 \/ m = MdGray32 \/ m = MdNGrayA \/ m = MdNGrayA32 \/ m = MdNGrayA64 \/ m = MdNRGBA128 \/ m = MdNCMYKA \/ m = MdNCMYKA80) ->
  ~ ((m = MdNGrayA \/ m = MdNGrayA32) /\ exists y a, c = Known (CNGrayA64 y a)) ->
  ~ (m = MdNCMYKA80 /\ exists x1 x2 x3 x4 x5, c = Known (CNCMYKA x1 x2 x3 x4 x5)) ->
  ~ (m = MdNCMYKA /\ snd (argba pow c) = 0 /\ ~ exists x1 x2 x3 x4 x5, c = Known (CNCMYKA x1 x2 x3 x4 x5)) ->
  exists c', convert pow unpow fdiv fmul alpha32 inv_alpha32 m c = Some c' /\ of_model m c' = true.
Proof. exact (convert_total pow unpow fdiv fmul alpha32 inv_alpha32 m c). Qed.
Print Assumptions C31_total.

Example C31_example :
  let id := fun x : Z => x in let f2 := fun x _ : Z => x in
  convert id id f2 f2 id id MdNGrayA (Known (CNGrayA 77 130)) = Some (CNGrayA 77 130) /\
  convert id id f2 f2 id id MdNGrayA (Known (CNGrayA 120 85)) = Some (CNGrayA 120 85) /\
  convert id id f2 f2 id id MdNCMYKA80 (Known (CNRGBA 200 100 50 255)) = Some (CNCMYKA80 65535 32768 16384 51400 65535) /\
  convert id id f2 f2 id id MdGray1 (Other 0 65535 0 65535) = Some (CGray1 true).
Proof. vm_compute. repeat split. Qed.
