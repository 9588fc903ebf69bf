(** Theorems: Tree.Rect covers everything that is visible, C78. *)
From Coq Require Import String.
From Verif Require Import Base SUtil SConfig MRect MPicker MConfig MReader MLayer MApi SCompress SRecord SLayer XRecord
  MSched MBlend MPorter SBlend MRender SRender MRenderAll SRenderAll MRenderPx PRenderPx
  MDraw MTile STile MLoad SLoad MPipe SPipe SSharp PPipe5 XPipe PSharp3 PSharp4 TPipe TSharp PPipe4 SGlass PGlass4 MNames SNames SFrame PFrame TGlass.
From Verif Require MWait.
Close Scope string_scope.
Open Scope list_scope.
Open Scope Z_scope.

(** ** C78 *)

(** A file as in C70, with any tree of folders and layers of any transparency: after every execution
    of the loader that ends, the rectangle of the tree lies in the canvas; every point of the canvas at
    which a picture of the file has a visible pixel is in it; it lies in every box around all layers that is made of
    whole tiles; and every Render shows nothing at the points of the canvas that are not in it. *)
Theorem C78_frame :
  forall inflate kind procs h rsv cmd res neg pl sf pad gmask bs tail rest cpus ts, (1 <= procs)%nat -> (1 <= cpus)%nat -> 0 < ts ->
  header_valid h -> h_mode h = 3 -> h_depth h = 8 -> zlen rsv = 6 -> zlen cmd < 4294967296 ->
  Forall rblock_valid res -> zlen (enc_rblocks res) < 4294967296 ->
  let large := h_version h =? 2 in
  section_valid inflate large neg 8 3 pl (flat_map sflatten sf) pad gmask bs tail -> Forall stree_valid sf -> glass_forest sf ->
  let enc := enc_config h rsv cmd res ++ enc_section large neg pl (flat_map sflatten sf) pad gmask bs tail in
  exists f evs, Decode inflate kind procs newOptions (enc ++ rest) = (Ok (f, zlen enc, rest), evs) /\
    let canvas := Rct 0 0 (h_width h) (h_height h) in
    cfg_rect (f_config f) = canvas /\
    forall st, MWait.steps (lstep cpus ts) (lstart (map (fun e => playerOf (ev_layer e)) evs)) st -> lended st ->
    forall (Enc : Type) (nop : Enc) dec d bts r calls,
    newLayers nop dec (defaultDetector nop d) (f_layer f) (ldCopied st) (cfg_rect (f_config f)) = Some (bts, r, calls) ->
    within_box r canvas /\
    (forall p, pt_in p canvas = true -> visible_in sf p -> pt_in p r = true) /\
    (forall box, aligned ts box -> around sf box -> within_box r box) /\
    (forall cpus' r' w0 w1, (1 <= cpus')%nat -> new w0 ->
     renderedPx ts (ldImages st) cpus' ts r' false (rootOf (ldCopied st) (f_layer f)) w0 w1 ->
     forall q p, tileOf ts r' q -> in_tile ts q p -> pt_in p canvas = true -> pt_in p r = false ->
     exists s t, w1 q = Some (s, t) /\ tile_at ts q t p = Some nothing).
Proof. exact file_framed. Qed.
Print Assumptions C78_frame.

(** *** The layers of C70_used, two pixels wide, on a canvas of five by three pixels *)
Definition headF : header := Header 1 3 5 3 8 3.
Definition fileF : bytes := enc_config headF (repeat 0 6%nat) [] [] ++ enc_section false false InPlace (flat_map sflatten (glassy (ascii "norm"))) [] [] [] [].
Definition frameF (ts : Z) : option rect :=
  match Decode noinflate Plain 1 newOptions fileF with
  | (Ok (f, _, _), evs) =>
      match loadSeq ts (map (fun e => playerOf (ev_layer e)) evs) with
      | Some st => match newLayers tt (fun _ s => Some s) (defaultDetector tt None) (f_layer f) (ldCopied st) (cfg_rect (f_config f)) with
                   | Some (_, r, _) => Some r
                   | None => None
                   end
      | None => None
      end
  | _ => None
  end.
Example C78_used :
  header_valid headF /\ section_valid noinflate false false 8 3 InPlace (flat_map sflatten (glassy (ascii "norm"))) [] [] [] [] /\
  Forall stree_valid (glassy (ascii "norm")) /\ glass_forest (glassy (ascii "norm")) /\
  frameF 1 = Some (Rct 0 0 2 1) /\ visible_in (glassy (ascii "norm")) (Pt 1 0) /\ (exists r, frameF 4 = Some r /\ pt_in (Pt 1 0) r = true /\ pt_in (Pt 4 0) r = false) /\
  aligned 4 (Rct 0 0 4 4) /\ around (glassy (ascii "norm")) (Rct 0 0 4 4).
Proof.
  split; [unfold header_valid, dim_limit; cbn; lia|]. destruct (glassy_valid (ascii "norm") (or_introl eq_refl)) as [V T]. split; [exact V|]. split; [exact T|].
  split; [exact (glassy_glass _ _ (veil_norm _))|]. split; [vm_compute; reflexivity|]. split.
  { exists (SLeaf half), half, (Px 10 20 30 255). split; [now left|]. split; [constructor|]. split; [|discriminate]. eapply (pixel half (Pt 1 0) 10 20 30 255); reflexivity. }
  split; [eexists; split; [vm_compute; reflexivity|split; reflexivity]|].
  split; [repeat split; cbn; (exists 0; reflexivity) || (exists 1; reflexivity)|].
  assert (W : forall p, pt_in p (Rct 0 0 2 1) = true -> pt_in p (Rct 0 0 4 4) = true) by (intros [x y]; unfold pt_in; cbn; rewrite !andb_true_iff; lia).
  intros s l [<-|[<-|[<-|[]]]] I.
  - inversion I; subst. exact W.
  - inversion I; subst. exact W.
  - inversion I as [|dv c|dv g c t Hi J]; subst; [intros [x y]; unfold pt_in; cbn; rewrite !andb_true_iff; lia|]. destruct Hi as [<-|[]]. inversion J; subst. exact W.
Qed.
