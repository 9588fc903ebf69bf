(** Theorems: the files that psdexporter writes, C79; the names of blend modes, C80. *)
From Coq Require Import String.
From Verif Require Import Base SUtil SUtf16 SConfig MRect MPicker MConfig MReader MLayer MApi SCompress SRecord SLayer XRecord
  MExport SExport PExport PSharp4 TPipe TSharp TNames.
Close Scope string_scope.
Open Scope list_scope.
Open Scope Z_scope.

(** ** C79 *)

(** A file of any mode and depth that has layers, PSD or PSB, with any tree of folders and layers: whatever os.Create and
    png.Encode do, every file that psdexporter makes has a name of its own, and it is the one for the path of a picture; what is encoded into it is
    the image of that picture. All files but the last are complete. If the exporter ends without an error, every picture
    has its file; it does so if all files can be created and all images encoded. *)
Theorem C79_export :
  forall inflate kind procs h rsv cmd res nch neg pl sf pad gmask bs tail rest, (1 <= procs)%nat ->
  header_valid h -> zlen rsv = 6 -> zlen cmd < 4294967296 ->
  Forall rblock_valid res -> zlen (enc_rblocks res) < 4294967296 ->
  mode_depth_ok (h_mode h) (h_depth h) -> colour_planes (h_mode h) = Some nch ->
  let large := h_version h =? 2 in
  section_valid inflate large neg (h_depth h) nch pl (flat_map sflatten sf) pad gmask bs tail -> Forall stree_valid sf ->
  let enc := enc_config h rsv cmd res ++ enc_section large neg pl (flat_map sflatten sf) pad gmask bs tail in
  let picture := picture_of (h_mode h) (h_depth h) nch in
  exists f evs, Decode inflate kind procs exportOptions (enc ++ rest) = (Ok (f, zlen enc, rest), evs) /\
    forall creates encode es o, export creates encode (f_layer f) = (es, o) ->
    NoDup (map e_file es) /\
    (forall e, In e es -> exists path sl, picture_at sf path sl (e_label e) /\ file_name path (e_file e) /\
       e_image e = Some (picture sl) /\ creates (e_file e) = true /\ e_result e = encode (e_image e)) /\
    (forall es1 e es2, es = es1 ++ e :: es2 -> es2 <> [] -> e_result e = Done) /\
    (o = Done -> forall path sl label, picture_at sf path sl label ->
       exists e, In e es /\ file_name path (e_file e) /\ e_label e = label /\ e_image e = Some (picture sl) /\ e_result e = Done) /\
    ((forall path sl label n, picture_at sf path sl label -> file_name path n -> creates n = true /\ encode (Some (picture sl)) = Done) -> o = Done).
Proof. exact file_exported. Qed.
Print Assumptions C79_export.

(** Different paths have different names, and every path has a name. *)
Theorem C79_names : (forall path path' n, file_name path n -> file_name path' n -> path = path') /\
  (forall path, path <> [] -> exists n, file_name path n).
Proof. exact (conj file_name_only path_named). Qed.
Print Assumptions C79_names.

(** Not every picture with pixels is exported: png.Encode refuses images without pixels, and so a layer without pixels
    ends the export. *)
Definition none : slayer := SLayer ZR [(0, PRaw []); (1, PRaw []); (2, PRaw [])] (ascii "norm") 255 0 0 0 SNone [] [69] [0; 0] [] [].
Definition forestE : list stree := [SLeaf none; SLeaf (named [65] [])].
Definition fileE : bytes := enc_config headN (repeat 0 6%nat) [] [] ++ enc_section false false InPlace (flat_map sflatten forestE) [] [] [] [].
Lemma forestE_valid : section_valid noinflate false false 8 3 InPlace (flat_map sflatten forestE) [] [] [] [] /\ Forall stree_valid forestE.
Proof.
  split.
  - split.
    + change (flat_map sflatten forestE) with [none; named [65] []].
      repeat apply Forall_cons; try apply Forall_nil; (apply slayer_check; [vm_compute; reflexivity|exact I|exact I]).
    + split; [reflexivity|]. split; [exact I|]. split; [reflexivity|]. split; [constructor|].
      split; [split; [apply no8b_ok; reflexivity|right; left; reflexivity]|]. vm_compute. reflexivity.
  - repeat apply Forall_cons; try apply Forall_nil; (apply (sleaf_valid _ 0); [reflexivity|lia|lia|lia]).
Qed.
Theorem C79_empty_refuted : exists sf f n evs path sl label,
  section_valid noinflate false false 8 3 InPlace (flat_map sflatten sf) [] [] [] [] /\ Forall stree_valid sf /\
  Decode noinflate Plain 1 exportOptions (enc_config headN (repeat 0 6%nat) [] [] ++ enc_section false false InPlace (flat_map sflatten sf) [] [] [] []) = (Ok (f, n, []), evs) /\
  picture_at sf path sl label /\ rempty (sl_rect sl) = false /\
  forall creates encode es o, (forall k r planes, rempty r = true -> encode (Some (Picker k r planes)) = Failed) -> export creates encode (f_layer f) = (es, o) ->
  o = Panicked /\ forall e, In e es -> ~ file_name path (e_file e).
Proof.
  destruct (Decode noinflate Plain 1 exportOptions fileE) as [[[[f n] rs]| | |] evs] eqn:E; try (vm_compute in E; discriminate).
  exists forestE, f, n, evs, [1%N], (named [65] []), [65]. destruct forestE_valid as [V T]. split; [exact V|]. split; [exact T|].
  assert (rs = []) as -> by (vm_compute in E; congruence). split; [exact E|]. split; [apply at_leaf; reflexivity|]. split; [reflexivity|].
  intros creates encode es o Hr HE. assert (exists l0 l1 pk, f_layer f = [l0; l1] /\ jobsOf l0 = [([], [], lay_rec l0)] /\ l_picker (lay_rec l0) = Some pk /\ rempty (pk_rect pk) = true) as (l0 & l1 & pk & El & J & Pk & Em).
  { vm_compute in E. injection E as <- _ _. eexists _, _, _. split; [reflexivity|]. split; [reflexivity|]. split; reflexivity. }
  unfold export in HE. rewrite export_run, El in HE. cbn [topJobs] in HE. rewrite J in HE. cbn [map app topJob run] in HE. rewrite Pk in HE. destruct pk as [k r ps]. rewrite (Hr k r ps Em) in HE.
  destruct (creates _); injection HE as <- <-; (split; [reflexivity|]); intros e Hi; [|destruct Hi]. destruct Hi as [<-|[]]. cbn [e_file].
  intros F. pose proof (file_name_only [0%N] [1%N] _ (topName_file [0%N] ltac:(discriminate)) F). discriminate.
Qed.
Print Assumptions C79_empty_refuted.

(** *** The file of C77_used *)
Definition exportN (creates : bytes -> bool) (encode : option picker -> result) : option (list (bytes * bytes * result) * result) :=
  match Decode noinflate Plain 1 exportOptions fileN with
  | (Ok (f, _, _), _) => let (es, o) := export creates encode (f_layer f) in Some (map (fun e => (e_label e, e_file e, e_result e)) es, o)
  | _ => None
  end.
Definition emojis : bytes := [195; 169; 240; 159; 152; 128].
Example C79_used :
  header_valid headN /\ colour_planes (h_mode headN) = Some 3 /\
  picture_at forestN [1; 0]%N (named [67] []) (emojis ++ ascii "/C") /\ file_name [1; 0]%N (ascii "001_000.png") /\
  exportN (fun _ => true) (fun _ => Done) = Some ([(ascii "A", ascii "000.png", Done); (emojis ++ ascii "/C", ascii "001_000.png", Done)], Done) /\
  exportN (fun n => negb (list_eqb n (ascii "000.png"))) (fun _ => Done) = Some ([], Panicked) /\
  exportN (fun _ => true) (fun _ => Failed) = Some ([(ascii "A", ascii "000.png", Failed)], Panicked) /\
  map sprint03 [7; 999; 1000; 12345]%N = [ascii "007"; ascii "999"; ascii "1000"; ascii "12345"].
Proof.
  split; [unfold header_valid, dim_limit; cbn; lia|]. split; [reflexivity|]. split.
  { apply (at_content _ 1 divider folderU [SLeaf (named [67] [])] emojis [0%N] _ [67]); [reflexivity| |apply at_leaf; reflexivity].
    exists [233; 128512]. split; [|vm_compute; reflexivity]. split; [repeat constructor; unfold is_scalar; lia|]. split; [reflexivity|]. exists []. reflexivity. }
  split; [exists (ascii "001_000"); split; [apply (base_in 1 (ascii "001") [0%N] (ascii "000")); [exact (sprint_numeral 1)|constructor; exact (sprint_numeral 0)]|reflexivity]|].
  split; [vm_compute; reflexivity|]. split; [vm_compute; reflexivity|]. split; vm_compute; reflexivity.
Qed.

(** ** C80 *)

(** BlendMode.String gives the documented names, and no two blend modes, known or not, have the same. *)
Theorem C80_names : (forall k n, mode_name k n -> MExport.String (ascii k) = ascii n) /\
  (forall b b', MExport.String b = MExport.String b' -> b = b').
Proof. exact (conj string_names string_only). Qed.
Print Assumptions C80_names.
Example C80_used : mode_name "mul " "multiply" /\ MExport.String [1; 2] = ascii "unknown-blend-name-" ++ [1; 2] /\ MExport.String [] <> MExport.String (ascii "normal").
Proof. split; [unfold mode_name; cbn; intuition|]. split; [reflexivity|]. vm_compute. discriminate. Qed.
