(** Model of psd.go:69-128, 142-205, 294-308, imageres.go, colormode.go and of
    the reader helpers util.go:97-144. *)
From Verif Require Import Base MUtil MRect MReader MPicker.

Section config.
Context {Ev : Type}.
Notation P := (prog Ev).

(** util.go:97-103 [adjustAlign2]: one [Read] of one byte. *)
Definition adjustAlign2 (l : Z) : P Z :=
  if Z.land l 1 =? 0 then Ret 0 else b <- rsome 1 ;; Ret (zlen b).

(** util.go:105-111 [adjustAlign4]: one [Read] of the gap, possibly short. *)
Definition adjustAlign4 (l : Z) : P Z :=
  let gap := Z.land l 3 in
  if 0 <? gap then b <- rsome (4 - gap) ;; Ret (zlen b) else Ret 0.

(** util.go:131-144 [readPascalString]. *)
Definition readPascalString : P (bytes * Z) :=
  b <- rfull 1 ;;
  n <- lift (idx b 0) ;;
  if n =? 0 then Ret ([], 1)
  else buf <- rfull n ;; Ret (buf, zlen buf + 1).

(** imageres.go:9-12 *)
Record resource := Res { res_name : bytes; res_data : bytes }.
Definition resmap := list (Z * resource).

Definition sig_8BIM : bytes := [56; 66; 73; 77].
Definition sig_MeSa : bytes := [77; 101; 83; 97].
Definition sig_PHUT : bytes := [80; 72; 85; 84].
Definition sig_AgHg : bytes := [65; 103; 72; 103].
Definition sig_DCSR : bytes := [68; 67; 83; 82].
Definition sig_8BPS : bytes := [56; 66; 80; 83].

(** imageres.go:53 *)
Definition res_sig_ok (s : bytes) : bool :=
  list_eqb s sig_8BIM || list_eqb s sig_MeSa || list_eqb s sig_PHUT ||
  list_eqb s sig_AgHg || list_eqb s sig_DCSR.

(** imageres.go:36-92, the loop. [ln] is [imageResourceLen], [rd] is [read].
    Each round reads at least 12 bytes. *)
Fixpoint resource_loop (fuel : nat) (ln rd : Z) (m : resmap) : P (resmap * Z) :=
  if rd <? ln then
    match fuel with
    | O => Starve
    | S fuel =>
        b <- rfull 6 ;;
        if negb (res_sig_ok (firstn 4 b)) then Fail EResSignature
        else
          id <- lift (readUint16 b 4) ;;
          ' (name, l1) <- readPascalString ;;
          l2 <- adjustAlign2 l1 ;;
          b <- rfull 4 ;;
          n <- lift (readUint32 b 0) ;;
          data <- rfull n ;;
          l3 <- adjustAlign2 (zlen data) ;;
          resource_loop fuel ln (rd + 6 + l1 + l2 + 4 + zlen data + l3)
            (m_set Z.eqb m id (Res name data))
    end
  else Ret (m, rd).

(** imageres.go:14-97 [readImageResource]. *)
Definition readImageResource (fuel : nat) : P (resmap * Z) :=
  b <- rfull 4 ;;
  ln <- lift (readUint32 b 0) ;;
  if ln =? 0 then Ret ([], 4)
  else resource_loop fuel ln 4 [].

(** psd.go:70-78; the fields of [Config]. A nil [ColorModeData] is the empty
    list. *)
Record config := Cfg {
  cfg_version : Z;
  cfg_rect : rect;
  cfg_channels : Z;
  cfg_depth : Z;
  cfg_mode : Z;             (* ColorMode, int16 *)
  cfg_cmd : bytes;
  cfg_res : resmap }.

(** psd.go:81-83 *)
Definition psb (c : config) : bool := cfg_version c =? 2.

(** psd.go:142-205 [DecodeConfig]: the configuration and the byte count. *)
Definition decodeConfig_prog (fuel : nat) : P (config * Z) :=
  b <- rfull 30 ;;
  if negb (list_eqb (firstn 4 b) sig_8BPS) then Fail EFormat else
  version <- lift (readUint16 b 4) ;;
  if negb (version =? 1) && negb (version =? 2) then Fail EVersion else
  channels <- lift (readUint16 b 12) ;;
  if (channels <? 1) || (56 <? channels) then Fail EChannels else
  width <- lift (readUint32 b 18) ;;
  height <- lift (readUint32 b 14) ;;
  if (height <? 1) || ((version =? 1) && (30000 <? height)) || ((version =? 2) && (300000 <? height))
  then Fail EHeight else
  if (width <? 1) || ((version =? 1) && (30000 <? width)) || ((version =? 2) && (300000 <? width))
  then Fail EWidth else
  depth <- lift (readUint16 b 22) ;;
  if negb (depth =? 1) && negb (depth =? 8) && negb (depth =? 16) && negb (depth =? 32)
  then Fail EDepth else
  mode <- lift (readUint16 b 24) ;;
  ln <- lift (readUint32 b 26) ;;
  cmd <- (if 0 <? ln then rfull ln else Ret []) ;;
  ' (res, l) <- readImageResource fuel ;;
  Ret (Cfg version (mkRect 0 0 width height) channels depth (i16 mode) cmd res,
       30 + zlen cmd + l).

End config.

(** colormode.go:22-34 [Channels]. *)
Definition mode_channels (m : Z) : Z :=
  if (m =? 0) || (m =? 1) || (m =? 2) then 1
  else if m =? 3 then 3
  else if m =? 4 then 4
  else -1.

(** psd.go:98-110: the colours of the palette from index [i] on; [None] is an
    index panic. *)
Fixpoint palette_from (n : nat) (i tr : Z) (cmd : bytes) : option (list color) :=
  match n with
  | O => Some []
  | S n =>
      match idx cmd i, idx cmd (i + 256), idx cmd (i + 512) with
      | Some r, Some g, Some b =>
          option_map (cons (CNRGBA r g b (if i =? tr then 0 else 255))) (palette_from n (i + 1) tr cmd)
      | _, _, _ => None
      end
  end.

(** psd.go:86-112 [Palette]; for other modes than Indexed the nil palette. *)
Definition palette (c : config) : option (list color) :=
  if negb (cfg_mode c =? 2) then Some []
  else
    let n := Z.to_nat (zlen (cfg_cmd c) / 3) in
    match m_get Z.eqb (cfg_res c) 1047 with          (* 0x0417 *)
    | Some r =>
        match readUint16 (res_data r) 0 with
        | None => None
        | Some tr => palette_from n 0 tr (cfg_cmd c)
        end
    | None => palette_from n 0 (-1) (cfg_cmd c)
    end.

(** imageres.go:111-115: the search loop; [None] is a panic. Each round
    advances by 4. *)
Fixpoint alpha_search (fuel : nat) (d : bytes) (i : Z) : option bool :=
  if i <? zlen d then
    match fuel with
    | O => None
    | S fuel =>
        match readUint32 d i with
        | None => None
        | Some v => if v =? 0 then Some true else alpha_search fuel d (i + 4)
        end
    end
  else Some false.

(** imageres.go:99-117 [hasAlphaID0]; [None] is a panic. 0x041D = 1053. *)
Definition hasAlphaID0 (m : resmap) : option bool :=
  match m_get Z.eqb m 1053 with
  | None => Some true
  | Some r => alpha_search (length (res_data r)) (res_data r) 0
  end.

(** psd.go:114-128 [makePicker]. *)
Definition makePicker (c : config) : outcome pkind :=
  if cfg_mode c =? 2 then
    match palette c with Some p => Ok (PkPalette p) | None => Panic end
  else if cfg_mode c =? 0 then Ok PkGray1
  else
    let found (a : bool) :=
      match findPicker (cfg_depth c) (cfg_mode c) a with
      | Some k => Ok k
      | None => Err ENoPicker
      end in
    if mode_channels (cfg_mode c) <? cfg_channels c
    then obind (chk (hasAlphaID0 (cfg_res c))) found
    else found false.

Definition of_outcome {Ev A} (x : outcome A) : prog Ev A :=
  match x with Ok a => Ret a | Err e => Fail e | Panic => Crash | NoFuel => Starve end.

(** psd.go:294-308 [decodeConfig], the image.DecodeConfig hook: width, height,
    colour model. *)
Definition decodeConfig_hook {Ev} (fuel : nat) : prog Ev (Z * Z * cmodel) :=
  ' (c, _) <- decodeConfig_prog fuel ;;
  k <- of_outcome (makePicker c) ;;
  Ret (rdx (cfg_rect c), rdy (cfg_rect c), colorModel k).
