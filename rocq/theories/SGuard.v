(** The decoder with additional checks: each operation that a crafted file can make
    panic is preceded by an explicit check that returns the error [EGuard cause]
    instead. Nothing else differs from MLayer, and the operations themselves, which
    would panic, are kept. This is the specification of C84: the checks are all that
    is needed, and they refuse nothing that Decode accepts. *)
From Verif Require Import Base MUtil MRect MReader MPicker MConfig MCompress MLayer.

Definition c_divider : Z := 1.       (* section divider of less than four bytes *)
Definition c_unicode : Z := 2.       (* unicode name shorter than its length says *)
Definition c_mode : Z := 3.          (* layers in a colour mode without known channels *)
Definition c_picker : Z := 4.        (* layers in a colour mode or depth without picker *)
Definition c_channel : Z := 5.       (* channel id beyond the channels *)
Definition c_size : Z := 6.          (* size of a channel negative or beyond the address space *)
Definition c_prediction : Z := 7.    (* rows longer than the data (the size overflowed) *)
Definition c_lengths : Z := 8.       (* RLE lengths that sum up to more than the address space *)
Definition c_rows : Z := 9.          (* RLE rows beyond the buffer (the size overflowed) *)
Definition c_block : Z := 10.        (* information block longer than the address space *)
Definition c_transparent : Z := 11.  (* transparency index of less than two bytes *)
Definition c_palette : Z := 12.      (* colour table of 3 to 766 bytes *)
Definition c_alpha : Z := 13.        (* alpha identifiers that are not whole words *)
Definition c_channels : Z := 14.     (* fewer channels than the colour mode has *)

Definition guard {Ev} (ok : bool) (cause : Z) : prog Ev unit := if ok then Ret tt else Fail (EGuard cause).

(** The whole words of [d] up to the first zero are complete. *)
Fixpoint ids_ok (d : bytes) : bool :=
  match d with
  | [] => true
  | a :: b :: c :: e :: t => ((a =? 0) && (b =? 0) && (c =? 0) && (e =? 0)) || ids_ok t
  | _ => false
  end.
Definition transparent_ok (c : config) : bool :=
  match m_get Z.eqb (cfg_res c) 1047 with Some r => 2 <=? zlen (res_data r) | None => true end.
Definition palette_ok (c : config) : bool := (zlen (cfg_cmd c) <? 3) || (767 <=? zlen (cfg_cmd c)).
Definition alpha_ok (c : config) : bool :=
  match m_get Z.eqb (cfg_res c) 1053 with Some r => ids_ok (res_data r) | None => true end.
Definition indexed (c : config) : bool := cfg_mode c =? 2.
Definition bitmap (c : config) : bool := cfg_mode c =? 0.
(** More channels than the colour mode has; an unknown mode has none. *)
Definition extra_channels (c : config) : bool :=
  let m := cfg_mode c in (if m =? 1 then 1 else if m =? 3 then 3 else if m =? 4 then 4 else 0) <? cfg_channels c.
Definition enough_channels (c : config) : bool :=
  let m := cfg_mode c in (if m =? 3 then 3 else if m =? 4 then 4 else 1) <=? cfg_channels c.

Definition known_mode (c : config) : bool := (0 <=? cfg_mode c) && (cfg_mode c <=? 4).
Definition layer_picker_ok (c : config) : bool :=
  let m := cfg_mode c in let d := cfg_depth c in
  ((m =? 0) || (m =? 1) || (m =? 3)) && ((d =? 8) || (d =? 16) || (d =? 32)) || (m =? 4) && ((d =? 8) || (d =? 16)).

Definition unicode_ok (b : bytes) : bool :=
  match readUint32 b 0 with Some n => (n =? 0) || (4 + 2 * n <=? zlen b) | None => false end.
Definition divider_ok (info : infomap) : bool :=
  match m_get list_eqb info key_lsct with
  | Some b => 4 <=? zlen b
  | None => match m_get list_eqb info key_lsdk with Some b => 4 <=? zlen b | None => true end
  end.
(** The rows of all workers but the last one lie in the buffer. *)
Definition rows_ok (procs : nat) (len width lines : Z) : bool :=
  let n := Z.of_nat (worker_count procs lines) in (n - 1) * (lines / n) * width <=? len.

Definition decodePackBits' (procs : nat) (dest : bytes) (width lines : Z) (large : bool) : P (bytes * Z) :=
  let tl := lines * Z.shiftr (get4or8 large) 1 in
  _ <- make_ok tl ;;
  buf <- rfull tl ;;
  lens <- lift (read_lens large buf 0 (Z.to_nat lines)) ;;
  let total := zsum lens in
  _ <- guard (total <=? max_alloc) c_lengths ;;
  _ <- make_ok total ;;
  data <- rfull total ;;
  _ <- guard (rows_ok procs (zlen dest) width lines) c_rows ;;
  out <- of_outcome (decodePackBits_data procs dest data width lines lens) ;;
  Ret (out, tl + total).

Definition decompress' (procs : nat) (cm n sizeHint : Z) (r : rect) (depth channels : Z) (large : bool)
  : P (bytes * Z) :=
  if cm =? 0 then b <- rfull n ;; Ret (b, n)
  else if cm =? 1 then
    let width := if depth =? 1 then Z.shiftr (rdx r + 7) 3 else rdx r in
    decodePackBits' procs (zrepeat 0 n) width (rdy r * channels) large
  else if cm =? 2 then decodeZLIB n sizeHint
  else if cm =? 3 then
    ' (b, c) <- decodeZLIB n sizeHint ;;
    _ <- guard ((depth <? 16) || (zlen b mod (rdx r * (depth / 8)) =? 0)) c_prediction ;;
    b <- of_outcome (decodeDelta b (rdx r) depth) ;;
    Ret (b, c)
  else Fail (ECompression cm).

Definition read_info_data' (large : bool) (key : bytes) : P (bytes * Z) :=
  let sz := lenSize key large in
  b <- rfull sz ;;
  v <- lift (readUint b 0 sz) ;;
  let ln := i64 v in
  if 0 <? ln then
    _ <- guard (ln <=? max_alloc) c_block ;;
    _ <- make_ok ln ;;
    data <- rfull ln ;;
    Ret (data, sz + ln)
  else Ret ([], sz).

Section layers.
  Variable procs : nat.
  Variable cfg : config.
  Variable o : options.

  Definition read_channel' (l : lrec) (st : bytes) (chm : list (Z * channel)) (chs : list bytes)
    (j : chdata) : P (bytes * list (Z * channel) * list bytes * Z) :=
    st <- (if 2 <=? cd_len j then rfull 2 else Ret st) ;;
    let n0 := if 2 <=? cd_len j then 2 else 0 in
    cm <- lift (readUint16 st 0) ;;
    let cm := i16 cm in
    let r := if cd_index j =? -3 then mk_rrect (l_mask l)
             else if cd_index j =? -2 then mk_rect (l_mask l) else l_rect l in
    let size := i64 (Z.shiftr (rdx r * cfg_depth cfg + 7) 3 * rdy r) in
    _ <- guard ((0 <=? size) && (size <=? max_alloc)) c_size ;;
    _ <- make_ok size ;;
    gk <- lift (findGrayPicker (cfg_depth cfg)) ;;
    ' (data, n1) <- (if 2 <? cd_len j
                     then decompress' procs cm size (cd_len j - 2) r (cfg_depth cfg) 1 (psb cfg)
                     else Ret (zrepeat 0 size, 0)) ;;
    n2 <- (if n0 + n1 <? cd_len j then rdiscard (cd_len j - (n0 + n1)) else Ret 0) ;;
    if negb (n0 + n1 + n2 =? cd_len j) then Fail ESizeMismatch else
    pk <- lift (setSource gk r [data]) ;;
    let chm := m_set Z.eqb chm (cd_index j) (Chan data pk) in
    chs <- (if 0 <=? cd_index j then _ <- guard (cd_index j <? zlen chs) c_channel ;; lift (upd chs (cd_index j) data)
            else if cd_index j =? -1 then Ret (chs ++ [data])
            else Ret chs) ;;
    Ret (st, chm, chs, n0 + n1 + n2).

  Fixpoint read_channels' (l : lrec) (st : bytes) (chm : list (Z * channel)) (chs : list bytes)
    (rd : Z) (js : list chdata) : P (bytes * list (Z * channel) * list bytes * Z) :=
    match js with
    | [] => Ret (st, chm, chs, rd)
    | j :: js =>
        ' (st, chm, chs, n) <- read_channel' l st chm chs j ;;
        read_channels' l st chm chs (rd + n) js
    end.

  Fixpoint readLayerImage' (total i : Z) (st : bytes) (rd : Z) (ls : list (lrec * list chdata))
    : P (list lrec * Z) :=
    match ls with
    | [] => Ret ([], rd)
    | (l, js) :: ls =>
        let nch := mode_channels (cfg_mode cfg) in
        _ <- guard (known_mode cfg) c_mode ;;
        _ <- make_ok nch ;;
        ' (st, chm, chs, n) <- read_channels' l st [] (zrepeat [] nch) 0 js ;;
        _ <- guard (layer_picker_ok cfg) c_picker ;;
        k <- lift (findPicker (cfg_depth cfg) (cfg_mode cfg) (nch <? zlen chs)) ;;
        pk <- lift (setSource k (l_rect l) chs) ;;
        let l := with_image l chm (Some pk) in
        _ <- emit (Loaded l i total) ;;
        ' (rest, rd) <- readLayerImage' total (i + 1) st (rd + n) ls ;;
        Ret (l :: rest, rd)
    end.

  Section rec.
    Variable radd : Z -> P (infomap * list lrec * Z).

    Definition read_record' (i : Z) : P (lrec * list chdata * Z) :=
      b <- rfull 16 ;;
      r <- read_rect_signed b ;;
      b <- rfull 2 ;;
      nch <- lift (readUint16 b 0) ;;
      cds <- read_chdata cfg (Z.to_nat nch) ;;
      b <- rfull 12 ;;
      if negb (list_eqb (firstn 4 b) sig_8BIM) then Fail EBlendSignature else
      let blend := firstn 4 (skipn 4 b) in
      opacity <- lift (idx b 8) ;;
      clip <- lift (idx b 9) ;;
      flags <- lift (idx b 10) ;;
      ' (m, mbcs, info, l) <- readLayerExtraData radd ;;
      ' (uname, name, info) <-
        match m_get list_eqb info key_luni with
        | Some (c :: t) =>
            _ <- guard (unicode_ok (c :: t)) c_unicode ;;
            u <- lift (readUnicodeString (c :: t)) ;;
            Ret (u, u, m_del list_eqb info key_luni)
        | _ => Ret ([], mbcs, info)
        end ;;
      let '(bce, info) :=
        match m_get list_eqb info key_clbl with
        | Some (c :: t) => (negb (c =? 0), m_del list_eqb info key_clbl)
        | _ => (true, info)
        end in
      _ <- guard (divider_ok info) c_divider ;;
      ' (typ, sdb, sub) <- of_outcome (readSectionDividerSetting info) ;;
      let sdb := match sdb with [] => blend | _ => sdb end in
      let info := m_del list_eqb info key_lsct in
      Ret (LRec i name uname mbcs r [] blend opacity (negb (clip =? 0)) bce flags m None info typ sdb sub,
           cds, 16 + 2 + nch * (2 + intSize cfg) + 12 + l).

    Fixpoint read_records' (i : Z) (n : nat) : P (list (lrec * list chdata) * Z) :=
      match n with
      | O => Ret ([], 0)
      | S n =>
          ' (l, cds, c) <- read_record' i ;;
          ' (rest, c') <- read_records' (i + 1) n ;;
          Ret ((l, cds) :: rest, c + c')
      end.

    Definition readLayerInfo' : P (option (list lrec) * Z) :=
      b <- rfull (intSize cfg) ;;
      v <- lift (readUint b 0 (intSize cfg)) ;;
      let ln := i64 v in
      if ln =? 0 then Ret (None, intSize cfg) else
      b <- rfull 2 ;;
      v <- lift (readUint16 b 0) ;;
      ' (recs, c) <- read_records' 0 (Z.to_nat (layer_count v)) ;;
      let rd := intSize cfg + 2 + c in
      ' (ls, rd) <-
        (if o_skip_layer o then Ret (map fst recs, rd)
         else ' (ls, c) <- readLayerImage' (zlen recs) 0 [0; 0] 0 recs ;; Ret (ls, rd + c)) ;;
      let all := i64 (ln + intSize cfg) in
      if rd <? all then l <- rdiscard (all - rd) ;; Ret (Some ls, rd + l)
      else Ret (Some ls, rd).
  End rec.

  Fixpoint readAdditional' (fuel : nat) (infoLen rd : Z) (infos : infomap) (layers : list lrec)
    : P (infomap * list lrec * Z) :=
    match fuel with
    | O => Starve
    | S fuel =>
        if rd <? infoLen then
          ' (found, rd) <- scan_sig (S fuel) infoLen rd ;;
          if negb found then
            if negb (infoLen =? rd) then Fail ESizeMismatch else Ret (infos, layers, rd)
          else
          b <- rfull 7 ;;
          let sg := 56 :: firstn 3 b in
          if negb (list_eqb sg sig_8BIM) && negb (list_eqb sg sig_8B64) then Fail EInfoSignature else
          let rd := rd + 7 in
          let key := skipn 3 b in
          if is_layer_key key then
            ' (ls, l) <- readLayerInfo' (fun n => readAdditional' fuel n 0 [] []) ;;
            readAdditional' fuel infoLen (rd + l) infos
              (layers ++ match ls with Some ls => ls | None => [] end)
          else
            ' (data, l) <- read_info_data' (psb cfg) key ;;
            readAdditional' fuel infoLen (rd + l) (m_set list_eqb infos key data) layers
        else
          if negb (infoLen =? rd) then Fail ESizeMismatch else Ret (infos, layers, rd)
    end.

  Definition readLayerAndMaskInfo' (fuel : nat) : P (list layer * infomap * Z) :=
    b <- rfull (intSize cfg) ;;
    v <- lift (readUint b 0 (intSize cfg)) ;;
    let ln := i64 v in
    if ln =? 0 then Ret ([], [], intSize cfg) else
    let radd := fun n => readAdditional' fuel n 0 [] [] in
    let all := i64 (ln + intSize cfg) in
    let rd := intSize cfg in
    ' (ls, rd) <-
      (if rd <? all then ' (ls, l) <- readLayerInfo' radd ;; Ret (ls, rd + l)
       else Ret (None, rd)) ;;
    rd <-
      (if 4 <=? i64 (all - rd) then
         b <- rfull 4 ;;
         g <- lift (readUint32 b 0) ;;
         if 0 <? g then l <- rdiscard g ;; Ret (rd + 4 + l) else Ret (rd + 4)
       else Ret rd) ;;
    ' (info, ls, rd) <-
      (if 8 <=? i64 (all - rd) then
         ' (info, ls2, l) <- radd (i64 (all - rd)) ;;
         match ls, ls2 with
         | Some _, _ :: _ => Fail ELayerStructure
         | _, [] => Ret (info, ls, rd + l)
         | None, _ => Ret (info, Some ls2, rd + l)
         end
       else Ret ([], ls, rd)) ;;
    tree <- of_outcome (buildTree match ls with Some ls => ls | None => [] end) ;;
    let remain := i64 (all - rd) in
    rd <-
      (if negb (remain =? 0) && (remain <? intSize cfg) then l <- rdiscard remain ;; Ret (rd + l)
       else Ret rd) ;;
    if negb (rd =? all) then Fail ESizeMismatch else
    Ret (tree, info, rd).
End layers.

Definition decode_merged' (procs : nat) (cfg : config) : P (bytes * list (Z * channel) * picker * Z) :=
  let r := cfg_rect cfg in
  let size := Z.shiftr (rdx r * cfg_depth cfg + 7) 3 * rdy r in
  _ <- make_ok (size * cfg_channels cfg) ;;
  gk <- lift (findGrayPicker (cfg_depth cfg)) ;;
  _ <- guard (negb (indexed cfg) || transparent_ok cfg) c_transparent ;;
  _ <- guard (negb (indexed cfg) || palette_ok cfg) c_palette ;;
  _ <- guard (indexed cfg || bitmap cfg || negb (extra_channels cfg) || alpha_ok cfg) c_alpha ;;
  k <- of_outcome (makePicker cfg) ;;
  _ <- guard (enough_channels cfg) c_channels ;;
  _ <- lift (setSource k r (zrepeat [] (cfg_channels cfg))) ;;
  b <- rfull 2 ;;
  cm <- lift (readUint16 b 0) ;;
  ' (data, l) <- decompress' procs (i16 cm) (size * cfg_channels cfg) 0 r (cfg_depth cfg)
                  (cfg_channels cfg) (psb cfg) ;;
  let ps := merged_planes data size (cfg_channels cfg) in
  pk <- lift (setSource k r ps) ;;
  Ret (data,
       map (fun '(i, d) => (i, Chan d (Picker gk r [d]))) (combine (zseq (Z.to_nat (cfg_channels cfg))) ps),
       pk, 2 + l).

Definition guarded_prog (fuel procs : nat) (o : options) : P (psdfile * Z) :=
  ' (cfg, l) <- decodeConfig_prog fuel ;;
  if o_config_loaded o cfg then Fail EConfigLoaded else
  ' (tree, info, l2) <- readLayerAndMaskInfo' procs cfg o fuel ;;
  if o_skip_merged o then Ret (Psd cfg [] tree info [] None, l + l2)
  else
    ' (data, chm, pk, l3) <- decode_merged' procs cfg ;;
    Ret (Psd cfg chm tree info data (Some pk), l + l2 + l3).

(** Decode with the checks, on the three kinds of reader. *)
Definition Guarded inflate (kind : rkind) (procs : nat) (o : options) (s : bytes)
  : outcome (psdfile * Z * bytes) * list event := run inflate kind (guarded_prog (fuel_for s) procs o) s.
Definition Guarded_seek inflate (procs : nat) (o : options) (s : bytes)
  : outcome (psdfile * Z * Z) * list event := run_seek inflate (guarded_prog (fuel_for s) procs o) s 0.
Definition Guarded_chunks inflate (eager : bool) (procs : nat) (o : options) (cs : list bytes)
  : outcome (psdfile * Z * bytes) * list event := run_chunks inflate eager (guarded_prog (fuel_for (concat cs)) procs o) cs.

(** The hooks of package image: the same checks before makePicker. *)
Definition guarded_config_hook {Ev} (fuel : nat) : prog Ev (Z * Z * cmodel) :=
  ' (cfg, _) <- decodeConfig_prog fuel ;;
  _ <- guard (negb (indexed cfg) || transparent_ok cfg) c_transparent ;;
  _ <- guard (negb (indexed cfg) || palette_ok cfg) c_palette ;;
  _ <- guard (indexed cfg || bitmap cfg || negb (extra_channels cfg) || alpha_ok cfg) c_alpha ;;
  k <- of_outcome (makePicker cfg) ;;
  Ret (rdx (cfg_rect cfg), rdy (cfg_rect cfg), colorModel k).
Definition guarded_hook (fuel procs : nat) : P (option picker) :=
  ' (f, _) <- guarded_prog fuel procs (Opts true false (fun _ => false)) ;;
  Ret (f_picker f).
Definition Guarded_image_DecodeConfig inflate (kind : rkind) (s : bytes) : outcome (Z * Z * cmodel * bytes) :=
  fst (run (Ev := Empty_set) inflate kind (guarded_config_hook (fuel_for s)) s).
Definition Guarded_image_Decode inflate (kind : rkind) (procs : nat) (s : bytes) : outcome (option picker * bytes) :=
  fst (run inflate kind (guarded_hook (fuel_for s) procs) s).
