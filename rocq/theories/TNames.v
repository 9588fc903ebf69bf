(** Theorems: the names and attributes of the layers in the tree that New makes, C77. *)
From Coq Require Import String.
From Verif Require Import Base SUtil SUtf16 SConfig MRect MPicker MConfig MReader MLayer MApi SCompress SRecord SLayer XRecord
  MRender MTile STile MLoad SLoad MPipe MNames SNames PNames XPipe PSharp4 TPipe TSharp.
From Verif Require MWait.
Close Scope string_scope.
Open Scope list_scope.
Open Scope Z_scope.

(** ** C77 *)

(** An RGB file of any depth with any tree of folders and layers, PSD or PSB: after every
    execution of the loader that ends, New presents the layers of the file in their nesting, with
    their numbers, names and attributes. Names without a Unicode name are decoded with the
    encoding that the detector finds for all of them joined; it is asked once if there is such a
    name, and not at all otherwise. If it returns nil and there is such a name, New panics. *)
Theorem C77_presented :
  forall inflate kind procs h rsv cmd res neg pl sf pad gmask bs tail rest cpus ts, (1 <= procs)%nat -> (1 <= cpus)%nat -> 0 < ts ->
  header_valid h -> h_mode h = 3 -> mode_depth_ok 3 (h_depth h) -> zlen rsv = 6 -> zlen cmd < 4294967296 ->
  Forall rblock_valid res -> zlen (enc_rblocks res) < 4294967296 ->
  let large := h_version h =? 2 in
  section_valid inflate large neg (h_depth h) 3 pl (flat_map sflatten sf) pad gmask bs tail -> Forall stree_valid sf ->
  let enc := enc_config h rsv cmd res ++ enc_section large neg pl (flat_map sflatten sf) pad gmask bs tail in
  exists f evs, Decode inflate kind procs newOptions (enc ++ rest) = (Ok (f, zlen enc, rest), evs) /\
    forall st, MWait.steps (lstep cpus ts) (lstart (map (fun e => playerOf (ev_layer e)) evs)) st -> lended st ->
    forall (Enc : Type) (nop : Enc) dec d canvas,
    let names := concat (flat_map legacy_names sf) in
    let needed := exists s sl, In s sf /\ in_tree sl s /\ legacy_only sl in
    let built := newLayers nop dec (defaultDetector nop d) (f_layer f) (ldCopied st) canvas in
    (forall e, used_encoding nop d names e -> exists bts r calls, built = Some (bts, r, calls) /\ presents_all (dec e) 0 sf bts /\
       (needed -> calls = [names]) /\ (~ needed -> calls = [])) /\
    (~ needed -> exists bts r, built = Some (bts, r, []) /\ forall e, presents_all (dec e) 0 sf bts) /\
    (forall f, d = Some f -> f 0%nat names = None -> needed -> built = None).
Proof. exact file_named. Qed.
Print Assumptions C77_presented.

(** A layer has one name only. *)
Theorem C77_one_name : forall decode sl n n',
  shown_name decode sl n -> shown_name decode sl n' -> n = n'.
Proof. exact shown_name_only. Qed.
Print Assumptions C77_one_name.

(** *** A file with three layers: a picture with the name A; a folder with the name B and the Unicode name U+00E9 U+1F600, with
    a picture in it whose name C cannot be decoded. *)
Definition named (n : bytes) (info : list iblock) : slayer :=
  SLayer (Rct 0 0 1 1) [(0, PRaw [1]); (1, PRaw [2]); (2, PRaw [3])] (ascii "norm") 255 0 0 0 SNone [] n [0; 0] info [].
Definition luni : iblock := IBlock [] false (ascii "luni") (enc_luni [233; 128512]).
Definition folderU : slayer :=
  SLayer ZR [] (ascii "norm") 255 0 2 0 SNone [] [66] [0; 0] [luni; IBlock [] false (ascii "lsct") (be 4 1 ++ ascii "8BIM" ++ ascii "pass")] [].
Definition forestN : list stree := [SLeaf (named [65] []); SFolder divider folderU [SLeaf (named [67] [])]].
Definition headN : header := Header 1 3 1 1 8 3.
Definition fileN : bytes := enc_config headN (repeat 0 6%nat) [] [] ++ enc_section false false InPlace (flat_map sflatten forestN) [0] [] [] [].
(** An encoding adds a number to each byte; it cannot decode C. The detector adds up all bytes. *)
Definition decN (e : Z) (s : bytes) : option bytes := if list_eqb s [67] then None else Some (map (fun b => b + e) s).
Definition detN (n : nat) (s : bytes) : option Z := Some (fold_left Z.add s 0).
Definition presentN (d : option (nat -> bytes -> option Z)) : option (list btree * rect * list bytes) :=
  match Decode noinflate Plain 1 newOptions fileN with
  | (Ok (f, _, _), evs) =>
      match loadSeq 1 (map (fun e => playerOf (ev_layer e)) evs) with
      | Some st => newLayers 0 decN (defaultDetector 0 d) (f_layer f) (ldCopied st) (cfg_rect (f_config f))
      | None => None
      end
  | _ => None
  end.
Definition leafN (n : bytes) (s : Z) : btree := BT (BA n false false 0 (Lattr s true 255 (ascii "norm") false true false false)) [].
Example C77_used :
  header_valid headN /\ section_valid noinflate false false 8 3 InPlace (flat_map sflatten forestN) [0] [] [] [] /\ Forall stree_valid forestN /\
  legacy_only (named [65] []) /\ shown_name (decN 198) folderU [195; 169; 240; 159; 152; 128] /\
  presentN (Some detN) = Some ([leafN [65 + 198] 0;
    BT (BA [195; 169; 240; 159; 152; 128] true true 0 (Lattr 3 false 255 (ascii "pass") false true false false)) [leafN [67] 2]], Rct 0 0 1 1, [[65; 66; 67]]) /\
  presentN None = Some ([leafN [65] 0;
    BT (BA [195; 169; 240; 159; 152; 128] true true 0 (Lattr 3 false 255 (ascii "pass") false true false false)) [leafN [67] 2]], Rct 0 0 1 1, [[65; 66; 67]]) /\
  presentN (Some (fun _ _ => None)) = None.
Proof.
  assert (D3 : divider_is (be 4 3) 3 None 0).
  { split; [lia|]. left. split; [reflexivity|]. split; [reflexivity|]. exists []. split; reflexivity. }
  assert (D1 : divider_is (be 4 1 ++ ascii "8BIM" ++ ascii "pass") 1 (Some (ascii "pass")) 0).
  { split; [lia|]. right. left. exists (ascii "pass"), []. repeat split; reflexivity. }
  assert (Lu : luni_is (enc_luni [233; 128512]) [233; 128512]).
  { split; [repeat constructor; unfold is_scalar; lia|]. split; [reflexivity|]. exists []. reflexivity. }
  split; [unfold header_valid, dim_limit; cbn; lia|]. split.
  { split.
    { change (flat_map sflatten forestN) with [named [65] []; divider; named [67] []; folderU].
      repeat apply Forall_cons; try apply Forall_nil; (apply slayer_check; [vm_compute; reflexivity|try exact I|]); try exact I.
      + exists 3, None, 0. exact D3.
      + exists [233; 128512]. exact Lu.
      + exists 1, (Some (ascii "pass")), 0. exact D1. }
    split; [reflexivity|]. split; [exact I|]. split; [reflexivity|]. split; [constructor|].
    split; [split; [apply no8b_ok; reflexivity|right; left; reflexivity]|]. vm_compute. reflexivity. }
  split.
  { repeat apply Forall_cons; try apply Forall_nil.
    + apply (sleaf_valid _ 0); [reflexivity|lia|lia|lia].
    + apply (sfolder_valid _ _ _ 1); [exists None, 0; exact D3|exists (Some (ascii "pass")), 0; exact D1|now left|].
      repeat apply Forall_cons; try apply Forall_nil; (apply (sleaf_valid _ 0); [reflexivity|lia|lia|lia]). }
  split; [split; [reflexivity|discriminate]|]. split.
  { exists [195; 169; 240; 159; 152; 128]. split; [exists [233; 128512]; split; [exact Lu|reflexivity]|]. left. split; [discriminate|vm_compute; reflexivity]. }
  split; [vm_compute; reflexivity|]. split; vm_compute; reflexivity.
Qed.
