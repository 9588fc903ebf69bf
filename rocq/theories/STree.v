(** Specification of the layer tree: forests of folders and their record
    lists, bottom to top. *)
From Verif Require Import Base MLayer.

(** A leaf layer, or a folder with its divider record and folder record. *)
Inductive ftree :=
| FLeaf (r : lrec)
| FFolder (divider folder : lrec) (content : list ftree).

(** The records as they are stored: divider, content, folder. *)
Fixpoint flatten (t : ftree) : list lrec :=
  match t with
  | FLeaf r => [r]
  | FFolder d f c => d :: flat_map flatten c ++ [f]
  end.

(** The layer tree a user expects. *)
Fixpoint as_layer (t : ftree) : layer :=
  match t with
  | FLeaf r => Layer r []
  | FFolder _ f c => Layer f (map as_layer c)
  end.

(** Types of the section divider setting: 3 divider, 1 open and 2 closed
    folder, others plain layers. *)
Definition is_divider (r : lrec) : bool := l_sdtype r =? 3.
Definition is_folder (r : lrec) : bool := (l_sdtype r =? 1) || (l_sdtype r =? 2).

Fixpoint wf_tree (t : ftree) : Prop :=
  match t with
  | FLeaf r => is_divider r = false /\ is_folder r = false
  | FFolder d f c =>
      is_divider d = true /\ is_folder f = true /\
      (fix all (l : list ftree) := match l with [] => True | t :: l => wf_tree t /\ all l end) c
  end.
Fixpoint wf_forest (l : list ftree) : Prop :=
  match l with [] => True | t :: l => wf_tree t /\ wf_forest l end.

(** Number of folders opened (bottom to top) and closed. *)
Definition opened (ls : list lrec) : Z := zlen (filter is_divider ls).
Definition closed (ls : list lrec) : Z := zlen (filter is_folder ls).

(** No prefix closes more folders than it opens. *)
Definition balanced_prefixes (ls : list lrec) : Prop :=
  forall p s, ls = p ++ s -> closed p <= opened p.

(** The records of a layer tree in storage order. *)
Fixpoint records (l : layer) : list lrec :=
  match l with Layer r ch => flat_map records ch ++ [r] end.
