(** Theorems: configuration, C01 to C04. [inflate] is the zlib library, any
    function. *)
From Verif Require Import Base MRect MReader MPicker MConfig MLayer MApi SUtil SConfig PReader PConfig PConfig2.

(** C01: no input makes DecodeConfig panic or loop; a success reports the
    number of bytes consumed. *)
Theorem C01_decodeConfig_total :
  forall inflate kind s, bytes_ok s ->
  match DecodeConfig inflate kind s with
  | Ok (c, n, rest) => exists pre, s = pre ++ rest /\ n = zlen pre
  | Err _ => True
  | Panic | NoFuel => False
  end.
Proof. exact decodeConfig_total. Qed.
Print Assumptions C01_decodeConfig_total.

(** C01 for the other kinds of reader: same outcome, a seekable reader ends at
    the position of the first unread byte. *)
Theorem C01_decodeConfig_readers :
  forall inflate kind kind' s,
  DecodeConfig inflate kind s = DecodeConfig inflate kind' s /\
  match DecodeConfig inflate kind s, DecodeConfig_seek inflate s with
  | Ok (c, n, rest), Ok (c', n', pos) => c' = c /\ n' = n /\ 0 <= pos <= zlen s /\ rest = zdrop pos s
  | Err e, Err e' => e' = e
  | Panic, Panic => True
  | NoFuel, NoFuel => True
  | _, _ => False
  end.
Proof. exact decodeConfig_readers_full. Qed.
Print Assumptions C01_decodeConfig_readers.

(** A file with two resources; its 30 byte prefix gives an error. *)
Definition ex_header := Header 1 3 7 5 8 3.
Definition ex_blocks := [RBlock sig_8BIM 1005 [65] 0 [1; 2; 3] 0; RBlock sig_MeSa 1005 [] 0 [9] 7].
Definition ex_file := enc_config ex_header (repeat 0 6%nat) [5; 6] ex_blocks.
Example C01_example :
  bytes_ok ex_file /\
  match DecodeConfig (fun _ _ => None) Plain (ex_file ++ [1; 2; 3]) with
  | Ok (c, n, rest) => n = 66 /\ rest = [1; 2; 3] /\ cfg_rect c = Rct 0 0 7 5
  | _ => False
  end /\
  DecodeConfig (fun _ _ => None) Plain (firstn 30 ex_file) = Err EEof.
Proof.
  split; [|vm_compute; repeat split; reflexivity].
  unfold bytes_ok. apply Forall_forall. intros x Hx. unfold is_byte.
  assert (forallb (fun b => (0 <=? b) && (b <? 256)) ex_file = true) as H by (vm_compute; reflexivity).
  rewrite forallb_forall in H. specialize (H x Hx). lia.
Qed.

(** C02: a success means that the file starts with a header within the limits
    and that the configuration holds its fields. *)
Theorem C02_header_sound :
  forall inflate kind s c n rest, bytes_ok s ->
  DecodeConfig inflate kind s = Ok (c, n, rest) ->
  exists h rsv rest', header_valid h /\ zlen rsv = 6 /\ s = enc_header h rsv ++ rest' /\
    cfg_version c = h_version h /\ cfg_channels c = h_channels h /\
    cfg_rect c = Rct 0 0 (h_width h) (h_height h) /\ cfg_depth c = h_depth h /\
    cfg_mode c = signed16 (h_mode h).
Proof. exact decodeConfig_sound. Qed.
Print Assumptions C02_header_sound.

(** C02: every header within the limits passes the checks, whatever follows;
    what can fail is only reading the rest. *)
Theorem C02_header_accepted :
  forall inflate kind h rsv ln rest,
  header_valid h -> zlen rsv = 6 -> 0 <= ln < 4294967296 ->
  match DecodeConfig inflate kind (enc_header h rsv ++ be 4 ln ++ rest) with
  | Err e => io_error e \/ e = EResSignature
  | Panic | NoFuel => True
  | Ok (c, _, _) =>
    cfg_version c = h_version h /\ cfg_channels c = h_channels h /\
    cfg_rect c = Rct 0 0 (h_width h) (h_height h) /\ cfg_depth c = h_depth h /\
    cfg_mode c = signed16 (h_mode h)
  end.
Proof. exact decodeConfig_accepts. Qed.
Print Assumptions C02_header_accepted.

(** The largest PSB header; one more row is refused, and a version 1 header of
    that size is not valid. *)
Example C02_example :
  header_valid (Header 2 56 300000 300000 32 65535) /\
  match DecodeConfig (fun _ _ => None) Plain (enc_header (Header 2 56 300000 300000 32 65535) (repeat 0 6%nat) ++ be 4 0 ++ be 4 0) with
  | Ok (c, n, rest) => n = 34 /\ cfg_rect c = Rct 0 0 300000 300000 /\ cfg_mode c = -1
  | _ => False
  end /\
  DecodeConfig (fun _ _ => None) Plain (enc_header (Header 2 56 300000 300001 32 0) (repeat 0 6%nat) ++ be 4 0 ++ be 4 0) = Err EHeight /\
  DecodeConfig (fun _ _ => None) Plain (enc_header (Header 1 56 30001 30000 32 0) (repeat 0 6%nat) ++ be 4 0 ++ be 4 0) = Err EWidth.
Proof. split; [unfold header_valid, dim_limit; cbn; lia | vm_compute; repeat split; reflexivity]. Qed.

(** C03. *)
Theorem C03_config_roundtrip :
  forall inflate kind h rsv cmd bs rest,
  header_valid h -> zlen rsv = 6 -> zlen cmd < 4294967296 ->
  Forall rblock_valid bs -> zlen (enc_rblocks bs) < 4294967296 ->
  exists c, DecodeConfig inflate kind (enc_config h rsv cmd bs ++ rest) =
      Ok (c, zlen (enc_config h rsv cmd bs), rest) /\
    cfg_version c = h_version h /\ cfg_rect c = Rct 0 0 (h_width h) (h_height h) /\
    cfg_channels c = h_channels h /\ cfg_depth c = h_depth h /\
    cfg_mode c = signed16 (h_mode h) /\ cfg_cmd c = cmd /\
    forall id, m_get Z.eqb (cfg_res c) id = last_res bs id.
Proof. exact decodeConfig_roundtrip. Qed.
Print Assumptions C03_config_roundtrip.

(** Two resources with the same id: the later one counts. *)
Example C03_example :
  header_valid ex_header /\ Forall rblock_valid ex_blocks /\
  last_res ex_blocks 1005 = Some (Res [] [9]) /\
  match DecodeConfig (fun _ _ => None) Plain ex_file with
  | Ok (c, n, _) => n = zlen ex_file /\ cfg_cmd c = [5; 6] /\ m_get Z.eqb (cfg_res c) 1005 = Some (Res [] [9])
  | _ => False
  end.
Proof.
  split; [unfold header_valid, dim_limit; cbn; lia|].
  split; [|vm_compute; repeat split; reflexivity].
  repeat constructor; unfold known_sig, zlen; cbn; auto; lia.
Qed.

(** C04: the count is the declared length plus 4, and exactly these bytes are
    consumed. *)
Theorem C04_resources_exact :
  forall inflate (Ev : Type) kind bs rest,
  Forall rblock_valid bs -> zlen (enc_rblocks bs) < 4294967296 ->
  exists m, run (Ev := Ev) inflate kind (readImageResource (fuel_for (enc_resources bs ++ rest)))
    (enc_resources bs ++ rest) = (Ok ((m, 4 + zlen (enc_rblocks bs)), rest), []) /\
    forall id, m_get Z.eqb m id = last_res bs id.
Proof. exact readImageResource_exact. Qed.
Print Assumptions C04_resources_exact.

(** The smallest block has 12 bytes, more than the 4 bytes counted too early. *)
Example C04_example :
  run (Ev := Empty_set) (fun _ _ => None) Plain
    (readImageResource 9) (enc_resources [RBlock sig_8BIM 1 [] 0 [] 0] ++ [1; 2; 3]) =
  (Ok (([(1, Res [] [])], 16), [1; 2; 3]), []).
Proof. vm_compute. reflexivity. Qed.
