(** Specification vocabulary for C21: the decoder with an additional check
    that the channel images of each layer section end within it. *)
From Verif Require Import Base MUtil MRect MReader MPicker MConfig MCompress MLayer.

Section strict.
  Variable procs : nat.
  Variable cfg : config.
  Notation intSize := (intSize cfg).

  (** [readLayerInfo] without skipping, with the check. *)
  Definition strict_layer_info (radd : Z -> P (infomap * list lrec * Z)) : P (option (list lrec) * Z) :=
    b <- rfull intSize ;;
    v <- lift (readUint b 0 intSize) ;;
    let ln := i64 v in
    if ln =? 0 then Ret (None, intSize) else
    b <- rfull 2 ;;
    v <- lift (readUint16 b 0) ;;
    ' (recs, c) <- read_records cfg radd 0 (Z.to_nat (layer_count v)) ;;
    let rd := intSize + 2 + c in
    ' (ls, c) <- readLayerImage procs cfg (zlen recs) 0 [0; 0] 0 recs ;;
    let all := i64 (ln + intSize) in
    if all <? rd + c then Fail ESizeMismatch            (* the check *)
    else if rd + c <? all then l <- rdiscard (all - (rd + c)) ;; Ret (Some ls, rd + c + l)
    else Ret (Some ls, rd + c).

  (** [readAdditional] over it. *)
  Fixpoint strict_additional (fuel : nat) (infoLen rd : Z) (infos : infomap) (layers : list lrec)
    : P (infomap * list lrec * Z) :=
    match fuel with
    | O => Starve
    | S fuel =>
        if rd <? infoLen then
          ' (found, rd) <- scan_sig (S fuel) infoLen rd ;;
          if negb found then
            if negb (infoLen =? rd) then Fail ESizeMismatch else Ret (infos, layers, rd)
          else
          b <- rfull 7 ;;
          let sg := 56 :: firstn 3 b in
          if negb (list_eqb sg sig_8BIM) && negb (list_eqb sg sig_8B64) then Fail EInfoSignature else
          let rd := rd + 7 in
          let key := skipn 3 b in
          if is_layer_key key then
            ' (ls, l) <- strict_layer_info (fun n => strict_additional fuel n 0 [] []) ;;
            strict_additional fuel infoLen (rd + l) infos
              (layers ++ match ls with Some ls => ls | None => [] end)
          else
            ' (data, l) <- read_info_data (psb cfg) key ;;
            strict_additional fuel infoLen (rd + l) (m_set list_eqb infos key data) layers
        else
          if negb (infoLen =? rd) then Fail ESizeMismatch else Ret (infos, layers, rd)
    end.

  (** [readLayerAndMaskInfo] over them. *)
  Definition strict_section (fuel : nat) : P (list layer * infomap * Z) :=
    b <- rfull intSize ;;
    v <- lift (readUint b 0 intSize) ;;
    let ln := i64 v in
    if ln =? 0 then Ret ([], [], intSize) else
    let radd := fun n => strict_additional fuel n 0 [] [] in
    let all := i64 (ln + intSize) in
    let rd := intSize in
    ' (ls, rd) <-
      (if rd <? all then ' (ls, l) <- strict_layer_info radd ;; Ret (ls, rd + l)
       else Ret (None, rd)) ;;
    rd <-
      (if 4 <=? i64 (all - rd) then
         b <- rfull 4 ;;
         g <- lift (readUint32 b 0) ;;
         if 0 <? g then l <- rdiscard g ;; Ret (rd + 4 + l) else Ret (rd + 4)
       else Ret rd) ;;
    ' (info, ls, rd) <-
      (if 8 <=? i64 (all - rd) then
         ' (info, ls2, l) <- radd (i64 (all - rd)) ;;
         match ls, ls2 with
         | Some _, _ :: _ => Fail ELayerStructure
         | _, [] => Ret (info, ls, rd + l)
         | None, _ => Ret (info, Some ls2, rd + l)
         end
       else Ret ([], ls, rd)) ;;
    tree <- of_outcome (buildTree match ls with Some ls => ls | None => [] end) ;;
    let remain := i64 (all - rd) in
    rd <-
      (if negb (remain =? 0) && (remain <? intSize) then l <- rdiscard remain ;; Ret (rd + l)
       else Ret rd) ;;
    if negb (rd =? all) then Fail ESizeMismatch else
    Ret (tree, info, rd).
End strict.

Definition strict_decode (fuel procs : nat) (o : options) : P (psdfile * Z) :=
  ' (cfg, l) <- decodeConfig_prog fuel ;;
  if o_config_loaded o cfg then Fail EConfigLoaded else
  ' (tree, info, l2) <- strict_section procs cfg fuel ;;
  if o_skip_merged o then Ret (Psd cfg [] tree info [] None, l + l2)
  else
    ' (data, chm, pk, l3) <- decode_merged procs cfg ;;
    Ret (Psd cfg chm tree info data (Some pk), l + l2 + l3).

(** [s] decodes and the channel images of every layer section end within it. *)
Definition decodes_within inflate (kind : rkind) (procs : nat) (o : options) (s : bytes)
  (f : psdfile) (n : Z) (rest : bytes) (evs : list event) : Prop :=
  run inflate kind (strict_decode (fuel_for s) procs o) s = (Ok (f, n, rest), evs).

(** A layer, a tree and a file without images of layers. *)
Definition no_image (l : lrec) : lrec := with_image l [] None.
Fixpoint no_images (l : layer) : layer :=
  match l with Layer r ch => Layer (no_image r) (map no_images ch) end.
Definition file_no_images (f : psdfile) : psdfile :=
  Psd (f_config f) (f_channel f) (map no_images (f_layer f)) (f_info f) (f_data f) (f_picker f).
