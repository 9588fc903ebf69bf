(** Theorems: clipping groups: C45, also for the model of New (MPipe). *)
From Coq Require Import String.
From Verif Require Import Base MRender MPipe SClip PClip.
Close Scope string_scope.

(** [cl]: the flags Clipping of layers in one folder, from the bottom to the top. *)

(** The field Clip of a layer that is not clipping: all clipping layers directly above it,
    from the bottom to the top. *)
Theorem C45_clip : forall cl i, nth_error cl i = Some false ->
  exists n, clip_run cl (S i) n /\ groupOf (clipGroups cl) i = seq (S i) n.
Proof. exact group_of_base. Qed.
Print Assumptions C45_clip.

(** Clipping layers have no group. *)
Theorem C45_no_clip : forall cl i, nth_error cl i <> Some false -> groupOf (clipGroups cl) i = [].
Proof. exact group_of_other. Qed.
Print Assumptions C45_no_clip.

(** The field ClippedBy: the nearest layer below that is not clipping, for clipping layers;
    nil for other layers and if there is none. *)
Theorem C45_clipped_by : forall cl j i, clippedBy (clipGroups cl) j = Some i <-> clipped_to cl j i.
Proof. exact clippedBy_spec. Qed.
Print Assumptions C45_clipped_by.

(** The list of layers with their groups *)
Theorem C45_grouped : forall ks, grouped ks (withGroups ks).
Proof. exact withGroups_grouped. Qed.
Print Assumptions C45_grouped.

Definition ex_flags : list bool := [true; false; true; true; true; false; false; true].
Example C45_flags_used : nth_error ex_flags 1 = Some false /\ groupOf (clipGroups ex_flags) 1 = [2; 3; 4]%nat /\ clip_run ex_flags 2 3 /\
  groupOf (clipGroups ex_flags) 5 = [] /\ groupOf (clipGroups ex_flags) 6 = [7]%nat /\
  map (clippedBy (clipGroups ex_flags)) (seq 0 8) = [None; None; Some 1; Some 1; Some 1; None; None; Some 6]%nat /\ clipped_to ex_flags 4 1.
Proof.
  repeat (split; [reflexivity|]). split.
  { split; [|discriminate]. intros k Hk. do 5 (destruct k as [|k]; try lia; try reflexivity). }
  repeat (split; [reflexivity|]). split; [lia|]. split; [reflexivity|]. intros k Hk. do 5 (destruct k as [|k]; try lia; try reflexivity).
Qed.
Definition lay (s : Z) (c : bool) : layer := Lay (Lattr s true 255 (str "norm"%string) c true false false) [] [].
Example C45_grouped_used : withGroups [lay 0 true; lay 1 false; lay 2 true; lay 3 true; lay 4 false] =
  [lay 0 true; Lay (latt (lay 1 false)) [] [lay 2 true; lay 3 true]; lay 4 false].
Proof. reflexivity. Qed.
