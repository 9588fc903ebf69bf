(** Theorems: the merged image of a file, C66. *)
From Verif Require Import Base SUtil MRect MReader MPicker MConfig SConfig SCompress MLayer MApi SPicker SRecord SMerged PRecord4 PMerged TDecode.

(** Whatever the resources and layers of a file are: the merged image has the size of the
    header, every pixel has the colour that its samples mean, and every channel is found
    under its number. *)
Theorem C66_merged : forall inflate kind procs o h cmd res fs t a s rest,
  (1 <= procs)%nat -> o_skip_merged o = false -> (forall c, o_config_loaded o c = false) ->
  merged_file inflate h cmd res fs t a s ->
  exists f evs pk, Decode inflate kind procs o (s ++ rest) = (Ok (f, zlen s, rest), evs) /\
    f_picker f = Some pk /\ image_shown h cmd t a fs pk /\ channels_shown h fs (f_channel f).
Proof. exact merged_shown. Qed.
Print Assumptions C66_merged.

(** image.Decode returns this image, and image.DecodeConfig its size and colour model. *)
Theorem C66_hooks : forall inflate kind procs h cmd res fs t a s rest,
  (1 <= procs)%nat -> merged_file inflate h cmd res fs t a s -> bytes_ok (s ++ rest) ->
  exists pk rest', image_Decode inflate kind procs (s ++ rest) = Ok (Some pk, rest) /\ image_shown h cmd t a fs pk /\
    image_DecodeConfig inflate kind (s ++ rest) = Ok (h_width h, h_height h, colorModel (pk_kind pk), rest').
Proof. exact hooks_shown. Qed.
Print Assumptions C66_hooks.

(** An indexed image of 3 x 1 pixels whose rows are in PackBits; index 5 is transparent. *)
Definition ex_ix : Z -> Z -> Z := fun x _ => if x =? 0 then 7 else 5.
Definition ex_cmd : bytes := map (fun i => i mod 251) (zseq 768).
Definition ex_ix_header : header := Header 1 1 3 1 8 2.
Definition ex_ix_res : list rblock := [RBlock [56;66;73;77] 1047 [] 0 [0; 5] 0].
Definition ex_ix_lines : list line := [[Lit [7]; Rep 2 5]].
Definition ex_ix_file : bytes := enc_config ex_ix_header (repeat 0 6) ex_cmd ex_ix_res ++ be 4 0 ++ (be 2 1 ++ enc_rle false ex_ix_lines).
Example C66_indexed_example :
  merged_file no_zlib ex_ix_header ex_cmd ex_ix_res [ex_ix] (Some 5) false ex_ix_file /\
  match image_Decode no_zlib Plain 2 ex_ix_file with
  | Ok (Some pk, []) => map (fun x => picker_at pk x 0) [0; 1; 2; 3] = [Some (CNRGBA 7 12 17 255); Some (CNRGBA 5 10 15 0); Some (CNRGBA 5 10 15 0); None]
  | _ => False
  end.
Proof.
  split; [|vm_compute; reflexivity].
  exists (repeat 0 6), (be 4 0), (be 2 1 ++ enc_rle false ex_ix_lines). split; [reflexivity|].
  split; [unfold header_valid, dim_limit; cbn; lia|]. split; [reflexivity|]. split; [reflexivity|].
  split; [repeat constructor; unfold known_sig, zlen; cbn; auto; lia|]. split; [reflexivity|].
  split; [right; left; repeat split; reflexivity|]. split; [cbn; lia|]. split; [reflexivity|].
  split; [constructor; [|constructor]; intros x y; unfold ex_ix; cbn; destruct (x =? 0); lia|].
  split; [constructor|].
  split; [constructor; [auto|reflexivity|reflexivity| | |vm_compute; congruence]; repeat constructor; unfold is_byte, zlen; cbn; lia|].
  split; [left; split; [cbn; lia|reflexivity]|].
  right; exists (Res [] [0; 5]), 5, []; repeat split; lia.
Qed.

(** Grey images with two channels: the second channel is alpha, but not if the resource with
    the identifiers of the alpha channels does not list the identifier 0. *)
Definition ex_ga (res : list rblock) : bytes :=
  enc_config (Header 1 2 2 1 8 1) (repeat 0 6) [] res ++ be 4 0 ++ (be 2 0 ++ flat_map (enc_plane 8 2 1) [fun x _ => x + 1; fun x _ => 9 * x]).
Definition ex_ids (ids : list Z) : list rblock := [RBlock [56;66;73;77] 1053 [] 0 (flat_map (be 4) ids) 0].
Example C66_alpha_example :
  has_alpha 2 1 [] true /\ has_alpha 2 1 (ex_ids [3; 0]) true /\ has_alpha 2 1 (ex_ids [3; 4]) false /\
  map (fun res => match image_Decode no_zlib Plain 1 (ex_ga res) with Ok (Some pk, []) => picker_at pk 1 0 | _ => None end) [[]; ex_ids [3; 0]; ex_ids [3; 4]] =
    [Some (CNGrayA 2 9); Some (CNGrayA 2 9); Some (CNGrayA 2 255)].
Proof.
  split; [right; left; repeat split; lia|].
  split; [right; right; split; [lia|]; exists (Res [] (flat_map (be 4) [3; 0])), [3; 0]; repeat split; [repeat constructor; lia|cbn; auto]|].
  split; [right; right; split; [lia|]; exists (Res [] (flat_map (be 4) [3; 4])), [3; 4]; repeat split; [repeat constructor; lia|discriminate|cbn; intuition lia]|].
  vm_compute. reflexivity.
Qed.
