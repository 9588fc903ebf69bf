(** Specification of the file header, colour mode data and image resource
    sections (Adobe file format document), as an encoder. Independent of the
    decoder model except for the record types. *)
From Verif Require Import Base SUtil MRect MPicker MConfig.

(** Limits of the format. *)
Definition dim_limit (version : Z) : Z := if version =? 1 then 30000 else 300000.

Record header := Header { h_version : Z; h_channels : Z; h_width : Z; h_height : Z; h_depth : Z; h_mode : Z }.

Definition header_valid (h : header) : Prop :=
  (h_version h = 1 \/ h_version h = 2) /\
  1 <= h_channels h <= 56 /\
  1 <= h_width h <= dim_limit (h_version h) /\
  1 <= h_height h <= dim_limit (h_version h) /\
  (h_depth h = 1 \/ h_depth h = 8 \/ h_depth h = 16 \/ h_depth h = 32) /\
  0 <= h_mode h < 65536.

(** "8BPS", version, 6 reserved bytes, channels, height, width, depth, mode. *)
Definition enc_header (h : header) (reserved : bytes) : bytes :=
  [56; 66; 80; 83] ++ be 2 (h_version h) ++ reserved ++ be 2 (h_channels h) ++
  be 4 (h_height h) ++ be 4 (h_width h) ++ be 2 (h_depth h) ++ be 2 (h_mode h).

(** A block with a four byte length. *)
Definition enc_block (d : bytes) : bytes := be 4 (zlen d) ++ d.

(** A resource: signature, id, Pascal name padded to even, data padded to
    even. The padding bytes are arbitrary. *)
Record rblock := RBlock { rb_sig : bytes; rb_id : Z; rb_name : bytes; rb_npad : Z; rb_data : bytes; rb_dpad : Z }.

Definition known_sig (s : bytes) : Prop :=
  In s [[56;66;73;77]; [77;101;83;97]; [80;72;85;84]; [65;103;72;103]; [68;67;83;82]].

Definition rblock_valid (b : rblock) : Prop :=
  known_sig (rb_sig b) /\ 0 <= rb_id b < 65536 /\ zlen (rb_name b) <= 255 /\
  zlen (rb_data b) < 4294967296.

Definition pad_even (n pad : Z) : bytes := if Z.even n then [] else [pad].

Definition enc_rblock (b : rblock) : bytes :=
  rb_sig b ++ be 2 (rb_id b) ++
  (zlen (rb_name b) :: rb_name b) ++ pad_even (zlen (rb_name b) + 1) (rb_npad b) ++
  be 4 (zlen (rb_data b)) ++ rb_data b ++ pad_even (zlen (rb_data b)) (rb_dpad b).

Definition enc_rblocks (l : list rblock) : bytes := flat_map enc_rblock l.

Definition enc_resources (l : list rblock) : bytes := enc_block (enc_rblocks l).

(** The last block with a given id. *)
Fixpoint last_res (l : list rblock) (id : Z) : option resource :=
  match l with
  | [] => None
  | b :: t =>
      match last_res t id with
      | Some r => Some r
      | None => if rb_id b =? id then Some (Res (rb_name b) (rb_data b)) else None
      end
  end.

(** Everything up to the layer section. *)
Definition enc_config (h : header) (reserved cmd : bytes) (res : list rblock) : bytes :=
  enc_header h reserved ++ enc_block cmd ++ enc_resources res.

(** The int16 interpretation of a 16 bit word. *)
Definition signed16 (v : Z) : Z := if v <? 32768 then v else v - 65536.
