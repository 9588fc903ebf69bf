(** Clipping groups, copies of trees and parent links: the property theorems. *)
From Verif Require Import Base MLTree SLTree PLTree PLTree2 PLTree3.

(** C45. In every list of siblings of a tree ([p]: the path of the folder), layer [k]
    is attached to [j] exactly if [j] is the nearest non-clipping layer below, and it
    lists, from bottom to top, exactly the layers whose base it is. *)
Theorem C45_clipping_groups : forall t, exists ss, registerSub t = Some ss /\
  forall p fs, fat t p = Some fs -> exists ls, sat ss p = Some ls /\ length ls = length fs /\
    forall k s, idx (map sflag ls) k = Some s -> idx (map fflag fs) k = Some (sclip s) /\
      (forall j, sby s = Some j <-> base_below (map fflag fs) j k) /\
      increasing (sgroup s) /\ (forall c, In c (sgroup s) <-> base_below (map fflag fs) k c).
Proof. exact register_tree_correct. Qed.
Print Assumptions C45_clipping_groups.
Example C45_example :
  registerSub (FT false [FT true []; FT false [FT false []; FT true []]; FT true []; FT true []; FT false []]) =
  Some [ST (Sib true None []) []; ST (Sib false None [2; 3]) [ST (Sib false None [1]) []; ST (Sib true (Some 0) []) []];
        ST (Sib true (Some 1) []) []; ST (Sib true (Some 1) []) []; ST (Sib false None []) []].
Proof. reflexivity. Qed.
Example C45_base : base_below [true; false; true; true; false] 1 3.
Proof.
  split; [lia|]. split; [reflexivity|]. intros k H. assert (k = 2 \/ k = 3) as [-> | ->] by lia; reflexivity.
Qed.

(** C46. *)
Theorem C46_clone : forall (A : Type) (seqOf : Z -> Z) (t : ltree A), distinct t -> refs_ok seqOf t ->
  exists d, cloneTree seqOf t = Some d /\ copy_of seqOf t d.
Proof. exact @clone_copy_of. Qed.
Print Assumptions C46_clone.
(** A root with two layers; the second is clipped by the first. The address of the
    layer with SeqID [s] is [100 + s]; the parent pointers are those of New. *)
Definition clone_example : ltree Z :=
  LT (Node (-1) 10 None None [])
     [LT (Node 0 11 None None [Some (Src 101)]) [LT (Node 2 13 (Some (Src 100)) None []) []];
      LT (Node 1 12 None (Some (Src 100)) []) []].
Example C46_example : cloneTree (fun a => a - 100) clone_example =
  Some (LT (Node (-1) 10 None None [])
     [LT (Node 0 11 (Some (Dst [])) None [Some (Dst [1%nat])]) [LT (Node 2 13 (Some (Dst [0%nat])) None []) []];
      LT (Node 1 12 (Some (Dst [])) (Some (Dst [0%nat])) []) []]).
Proof. reflexivity. Qed.
Lemma lat_clone_example p n : lat clone_example p = Some n ->
  (p = [] /\ n = Node (-1) 10 None None []) \/ (p = [0%nat] /\ n = Node 0 11 None None [Some (Src 101)]) \/
  (p = [0%nat; 0%nat] /\ n = Node 2 13 (Some (Src 100)) None []) \/ (p = [1%nat] /\ n = Node 1 12 None (Some (Src 100)) []).
Proof.
  destruct p as [|[|[|i]] p]; cbn.
  - intros [= <-]. auto.
  - destruct p as [|[|i] p]; cbn.
    + intros [= <-]. auto.
    + destruct p as [|[|i] p]; cbn; [|discriminate|discriminate]. intros [= <-]. auto.
    + destruct i; discriminate.
  - destruct p as [|[|i] p]; cbn; [|discriminate|discriminate]. intros [= <-]. auto 6.
  - destruct i; discriminate.
Qed.
Example C46_hypotheses : distinct clone_example /\ refs_ok (fun a => a - 100) clone_example.
Proof.
  split.
  - intros p q n n' H1 H2. apply lat_clone_example in H1 as [[-> ->]|[[-> ->]|[[-> ->]|[-> ->]]]];
      apply lat_clone_example in H2 as [[-> ->]|[[-> ->]|[[-> ->]|[-> ->]]]]; cbn; congruence.
  - intros p n H. apply lat_clone_example in H as [[-> ->]|[[-> ->]|[[-> ->]|[-> ->]]]]; cbn; (split; [|]); auto.
    + constructor; [|constructor]. exists 101, [1%nat]. eexists. repeat split; reflexivity.
    + right. exists 100, [0%nat]. eexists. repeat split; reflexivity.
Qed.

(** C47. The full statement, for the parent pointers in memory: *)
Definition parents_right {A} (h : heap A) (ts : list (ptree A)) : Prop :=
  forall q i t, pat ts (q ++ [i]) = Some t -> exists fa ch c,
    addrOf h (O, O) q = Some fa /\ addrOf h (O, O) (q ++ [i]) = Some ch /\ hget h ch = Some c /\ cparent c = Some fa.
(** It is false: [New] leaves the parent of the top-level layers nil (in every file
    that has layers), *)
Theorem C47_top_level_refuted : forall (A : Type) (grow : nat -> nat) (v : A) t ts,
  exists h, newTree grow v (t :: ts) = Some h /\ ~ parents_right h (t :: ts).
Proof.
  intros A grow v t ts. destruct (newTree_paths grow v (t :: ts)) as (h & E & _ & T & _). exists h. split; [exact E|]. intros P.
  destruct t as [v' cs']. destruct (T O v' cs' eq_refl) as (a & c & T1 & T2 & T3 & T4).
  destruct (P [] O (PT v' cs') eq_refl) as (fa & ch & c' & P1 & P2 & P3 & P4). cbn [app] in P2.
  rewrite T1 in P2. injection P2 as <-. rewrite T2 in P3. injection P3 as <-. congruence.
Qed.
Print Assumptions C47_top_level_refuted.
(** and the reallocation of the list of siblings leaves the children of a folder with
    the address of its old place. Here a folder with one layer is followed by a second
    layer, and the capacity is doubled as the runtime does. *)
Theorem C47_nested_refuted : exists h fa ch c pa,
  newTree (fun n => 2 * n)%nat (-1) [PT 0 [PT 1 []]; PT 2 []] = Some h /\
  addrOf h (O, O) [0%nat] = Some fa /\ addrOf h (O, O) [0%nat; 0%nat] = Some ch /\ hget h ch = Some c /\ cparent c = Some pa /\ pa <> fa.
Proof. vm_compute. do 5 eexists. do 5 (split; [reflexivity|]). discriminate. Qed.
Print Assumptions C47_nested_refuted.
(** What holds: the tree has the shape and the attributes of the decoded layers; the
    parent of a top-level layer is nil; the parent of any other layer is a layer value
    with the attributes and the children of the containing folder, though not
    necessarily the folder itself. Missing for C47: that it is the folder. *)
Theorem C47_parents_partial : forall (A : Type) (grow : nat -> nat) (v : A) (ts : list (ptree A)),
  exists h, newTree grow v ts = Some h /\
    (forall p, addrOf h (O, O) p = None <-> (p <> [] /\ pat ts p = None)) /\
    (forall i v' cs', nth_error ts i = Some (PT v' cs') -> exists a c,
       addrOf h (O, O) [i] = Some a /\ hget h a = Some c /\ catt c = Some v' /\ cparent c = None) /\
    (forall q i v' cs', q <> [] -> pat ts (q ++ [i]) = Some (PT v' cs') -> exists fa fc ch cc pa pc,
       addrOf h (O, O) q = Some fa /\ hget h fa = Some fc /\
       addrOf h (O, O) (q ++ [i]) = Some ch /\ hget h ch = Some cc /\ catt cc = Some v' /\
       cparent cc = Some pa /\ hget h pa = Some pc /\ catt pc = catt fc /\ ckids pc = ckids fc).
Proof. exact @newTree_paths. Qed.
Print Assumptions C47_parents_partial.
Example C47_example :
  match newTree (fun n => 2 * n)%nat (-1) [PT 0 [PT 1 []; PT 2 []]; PT 3 []] with
  | Some h => map (fun p => match addrOf h (O, O) p with Some a => match hget h a with Some c => (catt c, cparent c) | None => (None, None) end | None => (None, None) end)
                [[0%nat]; [0%nat; 0%nat]; [0%nat; 1%nat]; [1%nat]]
  | None => []
  end = [(Some 0, None); (Some 1, Some (1%nat, 0%nat)); (Some 2, Some (1%nat, 0%nat)); (Some 3, None)].
Proof. reflexivity. Qed.
