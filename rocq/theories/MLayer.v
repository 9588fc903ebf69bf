(** Model of layer.go, compress.go:30-75 and psd.go:31-54, 217-292: the layer
    and mask section, and the whole decoder, as programs over the reader. *)
From Verif Require Import Base MUtil MRect MReader MPicker MConfig MCompress.

(** layer.go:72-85. Feathers are the 64 bit patterns of the floats. *)
Record mask := Mask {
  mk_rect : rect; mk_color : Z; mk_flags : Z;
  mk_rrect : rect; mk_rcolor : Z; mk_rflags : Z;
  mk_udensity : Z; mk_ufeather : Z; mk_vdensity : Z; mk_vfeather : Z }.
Definition mask0 : mask := Mask ZR 0 0 ZR 0 0 0 0 0 0.

(** layer.go:98-102. *)
Record channel := Chan { ch_data : bytes; ch_picker : picker }.

(** Additional information: key and data. A nil slice and the empty slice are
    both [[]]: the decoder stores nil iff the length is zero. *)
Definition infomap := list (bytes * bytes).

(** layer.go:10-40 without the children. *)
Record lrec := LRec {
  l_seq : Z;
  l_name : bytes; l_uname : bytes; l_mbcs : bytes;
  l_rect : rect;
  l_channels : list (Z * channel);
  l_blend : bytes;
  l_opacity : Z;
  l_clipping : bool;
  l_blendclip : bool;
  l_flags : Z;
  l_mask : mask;
  l_picker : option picker;
  l_info : infomap;
  l_sdtype : Z; l_sdblend : bytes; l_sdsub : Z }.

(** A layer with its children. *)
Inductive layer := Layer (r : lrec) (ch : list layer).
Definition lay_rec (l : layer) : lrec := let (r, _) := l in r.
Definition lay_children (l : layer) : list layer := let (_, c) := l in c.

(** psd.go:208-213. [ConfigLoaded] returning an error is [true]. *)
Record options := Opts {
  o_skip_layer : bool;
  o_skip_merged : bool;
  o_config_loaded : config -> bool }.

(** The callback LayerImageLoaded(layer, index, total). *)
Record event := Loaded { ev_layer : lrec; ev_index : Z; ev_total : Z }.
Definition P := prog event.

(** ** compress.go *)

(** compress.go:57-75 [decodeZLIB]: length 0 means no limit. *)
Definition zlib_limit (n : Z) : Z := if n =? 0 then 9223372036854775807 else n.
Definition decodeZLIB (dest : Z) (length : Z) : P (bytes * Z) :=
  RZlib dest (zlib_limit length) (fun b c => Ret (b, c)).

(** compress_other.go:12-46: length table and data, then the pure part. *)
Definition decodePackBits (procs : nat) (dest : bytes) (width lines : Z) (large : bool) : P (bytes * Z) :=
  let tl := lines * Z.shiftr (get4or8 large) 1 in
  _ <- make_ok tl ;;
  buf <- rfull tl ;;
  lens <- lift (read_lens large buf 0 (Z.to_nat lines)) ;;
  let total := zsum lens in
  _ <- make_ok total ;;
  data <- rfull total ;;
  out <- of_outcome (decodePackBits_data procs dest data width lines lens) ;;
  Ret (out, tl + total).

(** compress.go:30-52 [CompressionMethod.Decode] into a fresh (zero) buffer of
    [n] bytes: the buffer and the byte count. *)
Definition decompress (procs : nat) (cm n sizeHint : Z) (r : rect) (depth channels : Z) (large : bool)
  : P (bytes * Z) :=
  if cm =? 0 then b <- rfull n ;; Ret (b, n)
  else if cm =? 1 then
    let width := if depth =? 1 then Z.shiftr (rdx r + 7) 3 else rdx r in
    decodePackBits procs (zrepeat 0 n) width (rdy r * channels) large
  else if cm =? 2 then decodeZLIB n sizeHint
  else if cm =? 3 then
    ' (b, c) <- decodeZLIB n sizeHint ;;
    b <- of_outcome (decodeDelta b (rdx r) depth) ;;
    Ret (b, c)
  else Fail (ECompression cm).

(** ** layer.go *)

(** layer.go:592-799 [readLayerMaskAndAdjustmentLayerData]: the mask (starting
    from the zero mask) and the byte count. [rm] is [readMask]; [read] is
    always [4 + rm]. *)
Definition read_rect_signed (b : bytes) : P rect :=
  y0 <- lift (readUint32 b 0) ;;
  x0 <- lift (readUint32 b 4) ;;
  y1 <- lift (readUint32 b 8) ;;
  x1 <- lift (readUint32 b 12) ;;
  Ret (mkRect (i32 x0) (i32 y0) (i32 x1) (i32 y1)).
Definition read_rect_unsigned (b : bytes) : P rect :=
  y0 <- lift (readUint32 b 0) ;;
  x0 <- lift (readUint32 b 4) ;;
  y1 <- lift (readUint32 b 8) ;;
  x1 <- lift (readUint32 b 12) ;;
  Ret (mkRect x0 y0 x1 y1).

Definition byte_of (b : bytes) : P Z := lift (idx b 0).

(** layer.go:755-798: the real user mask. *)
Definition read_real_mask (ln rm : Z) (m : mask) : P (mask * Z) :=
  if ln - rm <? 1 then Ret (m, 4 + rm) else
  b <- rfull 1 ;; v <- byte_of b ;;
  let rm := rm + 1 in
  let m := Mask (mk_rect m) (mk_color m) (mk_flags m) (mk_rrect m) (mk_rcolor m) v
                (mk_udensity m) (mk_ufeather m) (mk_vdensity m) (mk_vfeather m) in
  if ln - rm <? 1 then Ret (m, 4 + rm) else
  b <- rfull 1 ;; v <- byte_of b ;;
  let rm := rm + 1 in
  let m := Mask (mk_rect m) (mk_color m) (mk_flags m) (mk_rrect m) v (mk_rflags m)
                (mk_udensity m) (mk_ufeather m) (mk_vdensity m) (mk_vfeather m) in
  if ln - rm <? 16 then
    (if 0 <? ln - rm then l <- rdiscard (ln - rm) ;; Ret (m, 4 + rm + l) else Ret (m, 4 + rm))
  else
  b <- rfull 16 ;;
  r <- read_rect_unsigned b ;;
  Ret (Mask (mk_rect m) (mk_color m) (mk_flags m) r (mk_rcolor m) (mk_rflags m)
            (mk_udensity m) (mk_ufeather m) (mk_vdensity m) (mk_vfeather m), 4 + rm + 16).

(** layer.go:743-753, then the real mask. *)
Definition read_mask_tail (ln rm : Z) (m : mask) : P (mask * Z) :=
  if ln =? 20 then
    if (rm <? ln) && (ln - rm <=? 2) then
      b <- rfull (ln - rm) ;; Ret (m, 4 + rm + zlen b)
    else Ret (m, 4 + rm)
  else read_real_mask ln rm m.

(** layer.go:679-740: one density (1 byte) or feather (8 bytes) parameter.
    [k] continues; leaving the function early is [Ret]. *)
Definition read_density (present : bool) (ln rm : Z) (m : mask) (set : mask -> Z -> mask)
  (k : Z -> mask -> P (mask * Z)) : P (mask * Z) :=
  if present then
    if ln - rm <? 1 then Ret (m, 4 + rm) else
    b <- rfull 1 ;; v <- byte_of b ;; k (rm + 1) (set m v)
  else k rm m.
Definition read_feather (present : bool) (ln rm : Z) (m : mask) (set : mask -> Z -> mask)
  (k : Z -> mask -> P (mask * Z)) : P (mask * Z) :=
  if present then
    if ln - rm <? 8 then
      (if 0 <? ln - rm then l <- rdiscard (ln - rm) ;; Ret (m, 4 + rm + l) else Ret (m, 4 + rm))
    else
    b <- rfull 8 ;; v <- lift (readUint64 b 0) ;; k (rm + 8) (set m v)
  else k rm m.

Definition set_ud (m : mask) (v : Z) := Mask (mk_rect m) (mk_color m) (mk_flags m) (mk_rrect m)
  (mk_rcolor m) (mk_rflags m) v (mk_ufeather m) (mk_vdensity m) (mk_vfeather m).
Definition set_uf (m : mask) (v : Z) := Mask (mk_rect m) (mk_color m) (mk_flags m) (mk_rrect m)
  (mk_rcolor m) (mk_rflags m) (mk_udensity m) v (mk_vdensity m) (mk_vfeather m).
Definition set_vd (m : mask) (v : Z) := Mask (mk_rect m) (mk_color m) (mk_flags m) (mk_rrect m)
  (mk_rcolor m) (mk_rflags m) (mk_udensity m) (mk_ufeather m) v (mk_vfeather m).
Definition set_vf (m : mask) (v : Z) := Mask (mk_rect m) (mk_color m) (mk_flags m) (mk_rrect m)
  (mk_rcolor m) (mk_rflags m) (mk_udensity m) (mk_ufeather m) (mk_vdensity m) v.

Definition bit (v i : Z) : bool := negb (Z.land v (Z.shiftl 1 i) =? 0).

Definition readLayerMask : P (mask * Z) :=
  b <- rfull 4 ;;
  ln <- lift (readUint32 b 0) ;;
  if ln =? 0 then Ret (mask0, 4) else
  if ln <? 16 then l <- rdiscard ln ;; Ret (mask0, 4 + l) else
  b <- rfull 16 ;;
  r <- read_rect_signed b ;;
  let m := Mask r 0 0 ZR 0 0 0 0 0 0 in
  if ln - 16 <? 1 then Ret (m, 4 + 16) else
  b <- rfull 1 ;; dc <- byte_of b ;;
  let m := Mask r dc 0 ZR 0 0 0 0 0 0 in
  if ln - 17 <? 1 then Ret (m, 4 + 17) else
  b <- rfull 1 ;; fl <- byte_of b ;;
  let m := Mask r dc fl ZR 0 0 255 0 255 0 in
  if bit fl 4 then
    if ln - 18 <? 1 then Ret (m, 4 + 18) else
    b <- rfull 1 ;; p <- byte_of b ;;
    read_density (bit p 0) ln 19 m set_ud (fun rm m =>
    read_feather (bit p 1) ln rm m set_uf (fun rm m =>
    read_density (bit p 2) ln rm m set_vd (fun rm m =>
    read_feather (bit p 3) ln rm m set_vf (fun rm m =>
    read_mask_tail ln rm m))))
  else read_mask_tail ln 18 m.

(** psd.go:31-54 [LenSize]; the keys are ASCII codes. *)
Definition long_keys : list bytes :=
  [ [76;77;115;107] (* LMsk *); [76;114;49;54] (* Lr16 *); [76;114;51;50] (* Lr32 *);
    [76;97;121;114] (* Layr *); [77;116;49;54] (* Mt16 *); [77;116;51;50] (* Mt32 *);
    [77;116;114;110] (* Mtrn *); [65;108;112;104] (* Alph *); [70;77;115;107] (* FMsk *);
    [108;110;107;50] (* lnk2 *); [70;69;105;100] (* FEid *); [70;88;105;100] (* FXid *);
    [80;120;83;68] (* PxSD *) ].
Definition lenSize (key : bytes) (large : bool) : Z :=
  if large && existsb (list_eqb key) long_keys then 8 else 4.

Definition key_Layr : bytes := [76;97;121;114].
Definition key_Lr16 : bytes := [76;114;49;54].
Definition key_Lr32 : bytes := [76;114;51;50].
Definition key_luni : bytes := [108;117;110;105].
Definition key_clbl : bytes := [99;108;98;108].
Definition key_lsct : bytes := [108;115;99;116].
Definition key_lsdk : bytes := [108;115;100;107].
Definition sig_8B64 : bytes := [56; 66; 54; 52].

Definition is_layer_key (k : bytes) : bool :=
  list_eqb k key_Layr || list_eqb k key_Lr16 || list_eqb k key_Lr32.

(** layer.go:813-818: read bytes until '8' (56) or the end of the block;
    whether it was found, and [read]. Each round reads one byte. *)
Fixpoint scan_sig (fuel : nat) (infoLen rd : Z) : P (bool * Z) :=
  if rd <? infoLen then
    match fuel with
    | O => Starve
    | S fuel =>
        b <- rfull 1 ;;
        c <- byte_of b ;;
        if c =? 56 then Ret (true, rd + 1) else scan_sig fuel infoLen (rd + 1)
    end
  else Ret (false, rd).

(** layer.go:852-859: the data of one block. *)
Definition read_info_data (large : bool) (key : bytes) : P (bytes * Z) :=
  let sz := lenSize key large in
  b <- rfull sz ;;
  v <- lift (readUint b 0 sz) ;;
  let ln := i64 v in
  if 0 <? ln then
    _ <- make_ok ln ;;
    data <- rfull ln ;;
    Ret (data, sz + ln)
  else Ret ([], sz).

(** layer.go:226-241 for one of the two keys. *)
Definition divider_data (b : bytes) : outcome (Z * bytes * Z) :=
  obind (chk (readUint32 b 0)) (fun typ =>
  if zlen b <? 12 then Ok (typ, [], 0)
  else if negb (list_eqb (firstn 4 (skipn 4 b)) sig_8BIM) then Err EDividerSignature
  else
    let bm := firstn 4 (skipn 8 b) in
    if zlen b <? 16 then Ok (typ, bm, 0)
    else obind (chk (readUint32 b 12)) (fun sub => Ok (typ, bm, sub))).

(** layer.go:225-259 [readSectionDividerSetting]. *)
Definition readSectionDividerSetting (info : infomap) : outcome (Z * bytes * Z) :=
  match m_get list_eqb info key_lsct with
  | Some b => divider_data b
  | None =>
      match m_get list_eqb info key_lsdk with
      | Some b => divider_data b
      | None => Ok (0, [], 0)
      end
  end.

(** layer.go:261-264 *)
Record chdata := ChData { cd_index : Z; cd_len : Z }.

Section layers.
  Variable procs : nat.         (* GOMAXPROCS *)
  Variable cfg : config.
  Variable o : options.

  Definition intSize : Z := get4or8 (psb cfg).

  (** layer.go:335-344. *)
  Fixpoint read_chdata (n : nat) : P (list chdata) :=
    match n with
    | O => Ret []
    | S n =>
        b <- rfull (2 + intSize) ;;
        i <- lift (readUint16 b 0) ;;
        v <- lift (readUint b 2 intSize) ;;
        rest <- read_chdata n ;;
        Ret (ChData (i16 i) (i64 v) :: rest)
    end.

  (** layer.go:449-505: one channel. [st] is what is left in [b], [chm] the
      channel map, [chs] is [pickerChs]. Result: [st], [chm], [chs] and the
      number of bytes read. *)
  Definition read_channel (l : lrec) (st : bytes) (chm : list (Z * channel)) (chs : list bytes)
    (j : chdata) : P (bytes * list (Z * channel) * list bytes * Z) :=
    st <- (if 2 <=? cd_len j then rfull 2 else Ret st) ;;
    let n0 := if 2 <=? cd_len j then 2 else 0 in
    cm <- lift (readUint16 st 0) ;;
    let cm := i16 cm in
    let r := if cd_index j =? -3 then mk_rrect (l_mask l)
             else if cd_index j =? -2 then mk_rect (l_mask l) else l_rect l in
    let size := i64 (Z.shiftr (rdx r * cfg_depth cfg + 7) 3 * rdy r) in
    _ <- make_ok size ;;
    gk <- lift (findGrayPicker (cfg_depth cfg)) ;;
    ' (data, n1) <- (if 2 <? cd_len j
                     then decompress procs cm size (cd_len j - 2) r (cfg_depth cfg) 1 (psb cfg)
                     else Ret (zrepeat 0 size, 0)) ;;
    n2 <- (if n0 + n1 <? cd_len j then rdiscard (cd_len j - (n0 + n1)) else Ret 0) ;;
    if negb (n0 + n1 + n2 =? cd_len j) then Fail ESizeMismatch else
    pk <- lift (setSource gk r [data]) ;;
    let chm := m_set Z.eqb chm (cd_index j) (Chan data pk) in
    chs <- (if 0 <=? cd_index j then lift (upd chs (cd_index j) data)
            else if cd_index j =? -1 then Ret (chs ++ [data])
            else Ret chs) ;;
    Ret (st, chm, chs, n0 + n1 + n2).

  Fixpoint read_channels (l : lrec) (st : bytes) (chm : list (Z * channel)) (chs : list bytes)
    (rd : Z) (js : list chdata) : P (bytes * list (Z * channel) * list bytes * Z) :=
    match js with
    | [] => Ret (st, chm, chs, rd)
    | j :: js =>
        ' (st, chm, chs, n) <- read_channel l st chm chs j ;;
        read_channels l st chm chs (rd + n) js
    end.

  Definition with_image (l : lrec) (chm : list (Z * channel)) (pk : option picker) : lrec :=
    LRec (l_seq l) (l_name l) (l_uname l) (l_mbcs l) (l_rect l) chm (l_blend l) (l_opacity l)
      (l_clipping l) (l_blendclip l) (l_flags l) (l_mask l) pk (l_info l)
      (l_sdtype l) (l_sdblend l) (l_sdsub l).

  (** layer.go:441-515 [readLayerImage] from layer [i] on. *)
  Fixpoint readLayerImage (total i : Z) (st : bytes) (rd : Z) (ls : list (lrec * list chdata))
    : P (list lrec * Z) :=
    match ls with
    | [] => Ret ([], rd)
    | (l, js) :: ls =>
        let nch := mode_channels (cfg_mode cfg) in
        _ <- make_ok nch ;;
        ' (st, chm, chs, n) <- read_channels l st [] (zrepeat [] nch) 0 js ;;
        k <- lift (findPicker (cfg_depth cfg) (cfg_mode cfg) (nch <? zlen chs)) ;;
        pk <- lift (setSource k (l_rect l) chs) ;;
        let l := with_image l chm (Some pk) in
        _ <- emit (Loaded l i total) ;;
        ' (rest, rd) <- readLayerImage total (i + 1) st (rd + n) ls ;;
        Ret (l :: rest, rd)
    end.

  (** The functions below need [readAdditionalLayerInfo], given as [radd]. *)
  Section rec.
    Variable radd : Z -> P (infomap * list lrec * Z).

    (** layer.go:517-590 [readLayerExtraData]: mask, name, info, byte count. *)
    Definition readLayerExtraData : P (mask * bytes * infomap * Z) :=
      b <- rfull 4 ;;
      ln <- lift (readUint32 b 0) ;;
      if ln =? 0 then Ret (mask0, [], [], 4) else
      ' (m, l) <- readLayerMask ;;
      let rd := 4 + l in
      b <- rfull 4 ;;
      br <- lift (readUint32 b 0) ;;
      l <- (if 0 <? br then rdiscard br else Ret 0) ;;
      let rd := rd + 4 + l in
      ' (name, l) <- readPascalString ;;
      pad <- adjustAlign4 l ;;
      let rd := rd + l + pad in
      ' (info, rd) <-
        (if rd <? ln + 4 then
           ' (info, layers, l) <- radd (ln + 4 - rd) ;;
           if 0 <? zlen layers then Fail ELayerStructure else Ret (info, rd + l)
         else Ret ([], rd)) ;;
      if negb (ln + 4 =? rd) then Fail ESizeMismatch else
      Ret (m, name, info, rd).

    (** layer.go:309-420: one layer record with sequence number [i]. *)
    Definition read_record (i : Z) : P (lrec * list chdata * Z) :=
      b <- rfull 16 ;;
      r <- read_rect_signed b ;;
      b <- rfull 2 ;;
      nch <- lift (readUint16 b 0) ;;
      cds <- read_chdata (Z.to_nat nch) ;;
      b <- rfull 12 ;;
      if negb (list_eqb (firstn 4 b) sig_8BIM) then Fail EBlendSignature else
      let blend := firstn 4 (skipn 4 b) in
      opacity <- lift (idx b 8) ;;
      clip <- lift (idx b 9) ;;
      flags <- lift (idx b 10) ;;
      ' (m, mbcs, info, l) <- readLayerExtraData ;;
      ' (uname, name, info) <-
        match m_get list_eqb info key_luni with
        | Some (c :: t) =>
            u <- lift (readUnicodeString (c :: t)) ;;
            Ret (u, u, m_del list_eqb info key_luni)
        | _ => Ret ([], mbcs, info)
        end ;;
      let '(bce, info) :=
        match m_get list_eqb info key_clbl with
        | Some (c :: t) => (negb (c =? 0), m_del list_eqb info key_clbl)
        | _ => (true, info)
        end in
      ' (typ, sdb, sub) <- of_outcome (readSectionDividerSetting info) ;;
      let sdb := match sdb with [] => blend | _ => sdb end in
      let info := m_del list_eqb info key_lsct in
      Ret (LRec i name uname mbcs r [] blend opacity (negb (clip =? 0)) bce flags m None info typ sdb sub,
           cds, 16 + 2 + nch * (2 + intSize) + 12 + l).

    Fixpoint read_records (i : Z) (n : nat) : P (list (lrec * list chdata) * Z) :=
      match n with
      | O => Ret ([], 0)
      | S n =>
          ' (l, cds, c) <- read_record i ;;
          ' (rest, c') <- read_records (i + 1) n ;;
          Ret ((l, cds) :: rest, c + c')
      end.

    (** layer.go:297-302: the number of layers; a negative count is negated. *)
    Definition layer_count (v : Z) : Z :=
      if Z.land v 32768 =? 0 then v else u16 (65535 - v + 1).

    (** layer.go:271-439 [readLayerInfo]; [None] is the nil slice. *)
    Definition readLayerInfo : P (option (list lrec) * Z) :=
      b <- rfull intSize ;;
      v <- lift (readUint b 0 intSize) ;;
      let ln := i64 v in
      if ln =? 0 then Ret (None, intSize) else
      b <- rfull 2 ;;
      v <- lift (readUint16 b 0) ;;
      ' (recs, c) <- read_records 0 (Z.to_nat (layer_count v)) ;;
      let rd := intSize + 2 + c in
      ' (ls, rd) <-
        (if o_skip_layer o then Ret (map fst recs, rd)
         else ' (ls, c) <- readLayerImage (zlen recs) 0 [0; 0] 0 recs ;; Ret (ls, rd + c)) ;;
      let all := i64 (ln + intSize) in
      if rd <? all then l <- rdiscard (all - rd) ;; Ret (Some ls, rd + l)
      else Ret (Some ls, rd).
  End rec.

  (** layer.go:801-872 [readAdditionalLayerInfo], the loop. [fuel] bounds the
      rounds and the nesting: every round reads at least one byte. [layers] is
      nil iff empty (append of an empty slice to nil is nil). *)
  Fixpoint readAdditional (fuel : nat) (infoLen rd : Z) (infos : infomap) (layers : list lrec)
    : P (infomap * list lrec * Z) :=
    match fuel with
    | O => Starve
    | S fuel =>
        if rd <? infoLen then
          ' (found, rd) <- scan_sig (S fuel) infoLen rd ;;
          if negb found then
            (* break *)
            if negb (infoLen =? rd) then Fail ESizeMismatch else Ret (infos, layers, rd)
          else
          b <- rfull 7 ;;
          let sg := 56 :: firstn 3 b in
          if negb (list_eqb sg sig_8BIM) && negb (list_eqb sg sig_8B64) then Fail EInfoSignature else
          let rd := rd + 7 in
          let key := skipn 3 b in
          if is_layer_key key then
            ' (ls, l) <- readLayerInfo (fun n => readAdditional fuel n 0 [] []) ;;
            readAdditional fuel infoLen (rd + l) infos
              (layers ++ match ls with Some ls => ls | None => [] end)
          else
            ' (data, l) <- read_info_data (psb cfg) key ;;
            readAdditional fuel infoLen (rd + l) (m_set list_eqb infos key data) layers
        else
          if negb (infoLen =? rd) then Fail ESizeMismatch else Ret (infos, layers, rd)
    end.

  (** layer.go:193-223 [buildTree]. [stack] holds the open folders, innermost
      first, [n] the current list; [i] is the record number for the error. *)
  Fixpoint build (i : Z) (ls : list lrec) (stack : list (list layer)) (n : list layer)
    : outcome (list layer) :=
    match ls with
    | [] => Ok n
    | l :: ls =>
        if (l_sdtype l =? 1) || (l_sdtype l =? 2) then
          match stack with
          | [] => Err (EBrokenTree i)
          | top :: stack => build (i + 1) ls stack (top ++ [Layer l n])
          end
        else if l_sdtype l =? 3 then build (i + 1) ls (n :: stack) []
        else build (i + 1) ls stack (n ++ [Layer l []])
    end.
  Definition buildTree (ls : list lrec) : outcome (list layer) := build 0 ls [] [].

  (** layer.go:104-191 [readLayerAndMaskInfo]: the layer tree, the additional
      information (nil and empty are both [[]]), and the byte count. *)
  Definition readLayerAndMaskInfo (fuel : nat) : P (list layer * infomap * Z) :=
    b <- rfull intSize ;;
    v <- lift (readUint b 0 intSize) ;;
    let ln := i64 v in
    if ln =? 0 then Ret ([], [], intSize) else
    let radd := fun n => readAdditional fuel n 0 [] [] in
    let all := i64 (ln + intSize) in
    let rd := intSize in
    ' (ls, rd) <-
      (if rd <? all then ' (ls, l) <- readLayerInfo radd ;; Ret (ls, rd + l)
       else Ret (None, rd)) ;;
    rd <-
      (if 4 <=? i64 (all - rd) then
         b <- rfull 4 ;;
         g <- lift (readUint32 b 0) ;;
         if 0 <? g then l <- rdiscard g ;; Ret (rd + 4 + l) else Ret (rd + 4)
       else Ret rd) ;;
    ' (info, ls, rd) <-
      (if 8 <=? i64 (all - rd) then
         ' (info, ls2, l) <- radd (i64 (all - rd)) ;;
         match ls, ls2 with
         | Some _, _ :: _ => Fail ELayerStructure
         | _, [] => Ret (info, ls, rd + l)
         | None, _ => Ret (info, Some ls2, rd + l)
         end
       else Ret ([], ls, rd)) ;;
    tree <- of_outcome (buildTree match ls with Some ls => ls | None => [] end) ;;
    let remain := i64 (all - rd) in
    rd <-
      (if negb (remain =? 0) && (remain <? intSize) then l <- rdiscard remain ;; Ret (rd + l)
       else Ret rd) ;;
    if negb (rd =? all) then Fail ESizeMismatch else
    Ret (tree, info, rd).

End layers.

(** psd.go:131-139 *)
Record psdfile := Psd {
  f_config : config;
  f_channel : list (Z * channel);
  f_layer : list layer;
  f_info : infomap;
  f_data : bytes;
  f_picker : option picker }.

(** psd.go:246-255: plane [i] of the merged image, from the decoded data. In
    Go the planes are slices of [Data], so they show the decoded data. *)
Definition merged_planes (data : bytes) (size channels : Z) : list bytes :=
  map (fun i => firstn (Z.to_nat size) (skipn (Z.to_nat (size * i)) data)) (zseq (Z.to_nat channels)).

(** psd.go:239-282: the merged image. The picker is checked before any byte is
    read and gets its planes afterwards; [setSource] only needs their number. *)
Definition decode_merged (procs : nat) (cfg : config) : P (bytes * list (Z * channel) * picker * Z) :=
  let r := cfg_rect cfg in
  let size := Z.shiftr (rdx r * cfg_depth cfg + 7) 3 * rdy r in
  _ <- make_ok (size * cfg_channels cfg) ;;
  gk <- lift (findGrayPicker (cfg_depth cfg)) ;;
  k <- of_outcome (makePicker cfg) ;;
  _ <- lift (setSource k r (zrepeat [] (cfg_channels cfg))) ;;
  b <- rfull 2 ;;
  cm <- lift (readUint16 b 0) ;;
  ' (data, l) <- decompress procs (i16 cm) (size * cfg_channels cfg) 0 r (cfg_depth cfg)
                  (cfg_channels cfg) (psb cfg) ;;
  let ps := merged_planes data size (cfg_channels cfg) in
  pk <- lift (setSource k r ps) ;;
  Ret (data,
       map (fun '(i, d) => (i, Chan d (Picker gk r [d]))) (combine (zseq (Z.to_nat (cfg_channels cfg))) ps),
       pk, 2 + l).

(** psd.go:217-284 [Decode]. *)
Definition decode_prog (fuel procs : nat) (o : options) : P (psdfile * Z) :=
  ' (cfg, l) <- decodeConfig_prog fuel ;;
  if o_config_loaded o cfg then Fail EConfigLoaded else
  ' (tree, info, l2) <- readLayerAndMaskInfo procs cfg o fuel ;;
  if o_skip_merged o then Ret (Psd cfg [] tree info [] None, l + l2)
  else
    ' (data, chm, pk, l3) <- decode_merged procs cfg ;;
    Ret (Psd cfg chm tree info data (Some pk), l + l2 + l3).

Definition default_options : options := Opts false false (fun _ => false).

(** psd.go:286-292, the image.Decode hook. *)
Definition decode_hook (fuel procs : nat) : P (option picker) :=
  ' (f, _) <- decode_prog fuel procs (Opts true false (fun _ => false)) ;;
  Ret (f_picker f).

(** Fuel: one more than the number of bytes of the input. *)
Definition fuel_for (s : bytes) : nat := S (length s).
