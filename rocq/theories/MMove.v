(** Model of Tree.Transform in composite/layer.go for any matrix. *)
From Verif Require Import Base MRect MThumb MSched MDraw MBlend MTile MLoad MTileRender MScale.

(** layer.go:93-109: one layer image; a nil map stays nil. *)
Definition transformLIBy (rnd : QArith_base.Q -> QArith_base.Q) (lib : library) (cpus : nat) (ts : Z) (m : aff) (gt : option gammaTable) (li li' : limage) : Prop :=
  transformOpt (transformImageBy rnd lib cpus ts m gt) (liCanvas li) (liCanvas li') /\
  transformOpt (transformMaskBy rnd lib cpus ts m) (liMask li) (liMask li').
(** layer.go:51-79 as in MTileRender.transformTree: the layer images are listed in some order
    ([imgs]), the workers take intervals of the list and store the transformed images into a new
    map. [gt] is [None] for gamma 0 (layer.go:47-50). The layers of the new tree are those of the
    clone (layer.go:45, see MClone) with the same SeqIDs. *)
Definition transformTreeBy (rnd : QArith_base.Q -> QArith_base.Q) (lib : library) (cpus : nat) (ts : Z) (m : aff) (gt : option gammaTable) (imgs out : list (Z * limage)) : Prop :=
  exists imgs' s, Forall2 (fun a b => fst b = fst a /\ transformLIBy rnd lib cpus ts m gt (snd a) (snd b)) imgs imgs' /\
    interleave (map (fun '(a, b) => sliceZ imgs' a b) (indexWorkers cpus (zlen imgs))) s /\
    out = exec putImage s [].
