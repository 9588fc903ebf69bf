(** Theorems: the layer tree, C11 to C13. *)
From Verif Require Import Base MRect MLayer STree PTree.

(** C11: the record list of a forest builds exactly that forest. *)
Theorem C11_tree_roundtrip :
  forall forest, wf_forest forest ->
  buildTree (flat_map flatten forest) = Ok (map as_layer forest).
Proof. exact buildTree_forest. Qed.
Print Assumptions C11_tree_roundtrip.

(** A record with name [n] and section divider type [t]. *)
Definition rec_of (n t : Z) : lrec :=
  LRec n [n] [] [n] ZR [] [] 255 false true 0 mask0 None [] t [] 0.

Example C11_example :
  let f := [FLeaf (rec_of 65 0);
            FFolder (rec_of 66 3) (rec_of 67 1)
              [FLeaf (rec_of 68 0); FFolder (rec_of 69 3) (rec_of 70 2) []; FLeaf (rec_of 71 0)];
            FLeaf (rec_of 72 0)] in
  wf_forest f /\
  map l_seq (flat_map flatten f) = [65; 66; 68; 69; 70; 71; 67; 72] /\
  map as_layer f =
    [Layer (rec_of 65 0) [];
     Layer (rec_of 67 1) [Layer (rec_of 68 0) []; Layer (rec_of 70 2) []; Layer (rec_of 71 0) []];
     Layer (rec_of 72 0) []].
Proof. cbv. tauto. Qed.

(** C12: tree building fails exactly when some prefix closes more folders than
    it opened, ... *)
Theorem C12_tree_fails_iff :
  forall ls, (exists t, buildTree ls = Ok t) <-> balanced_prefixes ls.
Proof. exact buildTree_ok_iff. Qed.
Print Assumptions C12_tree_fails_iff.

(** ... the error names the first record that closes too much; on success the
    records are a sequence of never closed dividers, each above a forest, and a
    last forest, which is the result: everything before the last open divider
    is lost, every closed folder holds the records between its divider and
    itself. *)
Theorem C12_tree_any_records :
  forall ls,
  match buildTree ls with
  | Err e => exists p r s, ls = p ++ r :: s /\ e = EBrokenTree (zlen p) /\ is_folder r = true /\
      closed p = opened p /\ balanced_prefixes p
  | Ok t => balanced_prefixes ls /\
      exists frames forest, Forall (fun f => wf_forest (fst f) /\ is_divider (snd f) = true) frames /\ wf_forest forest /\
        ls = flat_map (fun f => flat_map flatten (fst f) ++ [snd f]) frames ++ flat_map flatten forest /\
        zlen frames = opened ls - closed ls /\
        t = map as_layer forest
  | Panic | NoFuel => False
  end.
Proof. exact buildTree_spec. Qed.
Print Assumptions C12_tree_any_records.

Example C12_example :
  buildTree [rec_of 1 3; rec_of 2 0; rec_of 3 2; rec_of 4 1; rec_of 5 0] = Err (EBrokenTree 3) /\
  buildTree [rec_of 1 0; rec_of 2 3; rec_of 3 3; rec_of 4 0; rec_of 5 1; rec_of 6 0] =
    Ok [Layer (rec_of 5 1) [Layer (rec_of 4 0) []]; Layer (rec_of 6 0) []].
Proof. split; reflexivity. Qed.

(** C13 is false: a layer below a divider that is never closed disappears
    without an error. *)
Theorem C13_no_layer_dropped_refuted :
  exists ls t, buildTree ls = Ok t /\
  exists r, In r ls /\ is_divider r = false /\ ~ In r (flat_map records t).
Proof. exact buildTree_lost. Qed.
Print Assumptions C13_no_layer_dropped_refuted.

(** What holds: if every divider is closed, the tree has every other record
    exactly once, in order. *)
Theorem C13_balanced_complete :
  forall ls t, buildTree ls = Ok t -> opened ls = closed ls ->
  flat_map records t = filter (fun r => negb (is_divider r)) ls.
Proof. exact buildTree_complete. Qed.
Print Assumptions C13_balanced_complete.

(** In general the records above the last open divider survive, and something
    is lost iff a divider is left open. *)
Theorem C13_lost_records :
  forall ls t, buildTree ls = Ok t ->
  exists lost kept, ls = lost ++ kept /\ flat_map records t = filter (fun r => negb (is_divider r)) kept /\
    (opened ls = closed ls <-> lost = []) /\
    (lost <> [] -> exists l d, lost = l ++ [d] /\ is_divider d = true).
Proof. exact buildTree_suffix. Qed.
Print Assumptions C13_lost_records.

Example C13_example :
  let ls := [rec_of 1 3; rec_of 2 0; rec_of 3 2; rec_of 4 0] in
  opened ls = closed ls /\
  buildTree ls = Ok [Layer (rec_of 3 2) [Layer (rec_of 2 0) []]; Layer (rec_of 4 0) []] /\
  buildTree [rec_of 1 0; rec_of 2 3; rec_of 4 0] = Ok [Layer (rec_of 4 0) []].
Proof. repeat split. Qed.
