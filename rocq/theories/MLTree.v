(** Model of the layer tree: composite/builder.go, composite/cloner.go and the part
    of composite/layer.go:New that builds the tree. *)
From Verif Require Import Base.

(** * builder.go:64-92: clipping groups of one list of siblings *)

(** A layer of the list; other layers of the list are named by their index. *)
Record sib := Sib { sclip : bool; sby : option Z; sgroup : list Z }.

(** builder.go:64-70: reverse, [n] iterations from [i] on. [None]: out of range. *)
Fixpoint reverseFrom {A} (n : nat) (i : Z) (l : list A) : option (list A) :=
  match n with
  | O => Some l
  | S n =>
      let j := zlen l - i - 1 in
      match idx l i, idx l j with
      | Some a, Some b =>
          match upd l i b with
          | Some l => match upd l j a with Some l => reverseFrom n (i + 1) l | None => None end
          | None => None
          end
      | _, _ => None
      end
  end.
Definition reverse {A} (l : list A) : option (list A) := reverseFrom (Z.to_nat (Z.shiftr (zlen l) 1)) 0 l.

(** builder.go:83-85: [for _, cl := range clip { cl.ClippedBy = &ls[i] }] *)
Fixpoint setBy (clip : list Z) (i : Z) (ls : list sib) : option (list sib) :=
  match clip with
  | [] => Some ls
  | c :: clip =>
      match idx ls c with
      | None => None
      | Some s => match upd ls c (Sib (sclip s) (Some i) (sgroup s)) with Some ls => setBy clip i ls | None => None end
      end
  end.
(** builder.go:72-92, for the [n] layers [n-1, ..., 0]. The recursion into the
    children works on other lists and is left out here: see [registerTree]. *)
Fixpoint registerFrom (n : nat) (clip : list Z) (ls : list sib) : option (list sib) :=
  match n with
  | O => Some ls
  | S m =>
      let i := Z.of_nat m in
      match idx ls i with
      | None => None
      | Some s =>
          if sclip s then registerFrom m (clip ++ [i]) ls
          else if 0 <? zlen clip then
            match setBy clip i ls with
            | None => None
            | Some ls =>
                match reverse clip with
                | None => None
                | Some clip =>
                    match idx ls i with
                    | None => None
                    | Some s => match upd ls i (Sib (sclip s) (sby s) clip) with Some ls => registerFrom m [] ls | None => None end
                    end
                end
            end
          else registerFrom m clip ls
      end
  end.
Definition registerList (flags : list bool) : option (list sib) :=
  registerFrom (length flags) [] (map (fun f => Sib f None []) flags).

(** The whole tree: a tree of flags becomes a tree of siblings. *)
Inductive ftree := FT (f : bool) (cs : list ftree).
Inductive stree := ST (s : sib) (cs : list stree).
Definition fflag (t : ftree) : bool := match t with FT f _ => f end.
Fixpoint optAll {A} (l : list (option A)) : option (list A) :=
  match l with [] => Some [] | None :: _ => None | Some a :: t => match optAll t with Some t => Some (a :: t) | None => None end end.
(** [registerSub t] is the registered list of the children of [t] *)
Fixpoint registerSub (t : ftree) : option (list stree) :=
  match t with
  | FT _ cs =>
      match registerList (map fflag cs), optAll (map registerSub cs) with
      | Some ss, Some subs => Some (map (fun p => ST (fst p) (snd p)) (combine ss subs))
      | _, _ => None
      end
  end.

(** * cloner.go *)

(** A pointer to a layer: somewhere in the memory of the original tree, or to the
    layer at a path of the new tree (the empty path is the root). *)
Inductive ref := Src (a : Z) | Dst (p : list nat).
(** [at]: name, flags, opacity and so on. *)
Record node (A : Type) := Node { nseq : Z; nat_ : A; nparent : option ref; nby : option ref; ngroup : list (option ref) }.
Arguments Node {A}. Arguments nseq {A}. Arguments nat_ {A}. Arguments nparent {A}. Arguments nby {A}. Arguments ngroup {A}.
Inductive ltree (A : Type) := LT (n : node A) (cs : list (ltree A)).
Arguments LT {A}.
Definition lroot {A} (t : ltree A) : node A := match t with LT n _ => n end.
Definition lsubs {A} (t : ltree A) : list (ltree A) := match t with LT _ cs => cs end.

(** cloner.go:5-13: clone. The map is updated before the children are visited; the
    parent pointer of a child is set after the child has been cloned. *)
Definition setParent {A} (p : option ref) (t : ltree A) : ltree A :=
  match t with LT n cs => LT (Node (nseq n) (nat_ n) p (nby n) (ngroup n)) cs end.
Fixpoint cloneCopy {A} (p : list nat) (t : ltree A) (m : list (Z * list nat)) : ltree A * list (Z * list nat) :=
  match t with
  | LT n cs =>
      let m := m_set Z.eqb m (nseq n) p in
      let '(cs, m) :=
        (fix go (i : nat) (cs : list (ltree A)) (m : list (Z * list nat)) :=
           match cs with
           | [] => ([], m)
           | c :: cs =>
               let '(c, m) := cloneCopy (p ++ [i]) c m in
               let '(cs, m) := go (S i) cs m in
               (setParent (Some (Dst p)) c :: cs, m)
           end) O cs m in
      (LT n cs, m)
  end.
(** cloner.go:15-27: registerClippingGroup. [seqOf]: the SeqID of the layer at an
    address of the original. A pointer that is missing in the map becomes nil.
    [None]: nil pointer dereference. *)
Section clone.
  Variable seqOf : Z -> Z.
  Variable m : list (Z * list nat).
  Definition lookup (s : Z) : option ref := match m_get Z.eqb m s with Some p => Some (Dst p) | None => None end.
  Definition cloneRef (o : option ref) : option (option ref) :=
    match o with
    | Some (Src a) => Some (lookup (seqOf a))
    | _ => None
    end.
  Fixpoint cloneClip {A} (src dst : ltree A) : option (ltree A) :=
    match src, dst with
    | LT s ss, LT d ds =>
        match optAll (map cloneRef (ngroup s)),
              match nby s with None => Some (nby d) | Some r => cloneRef (Some r) end,
              (fix go (ss ds : list (ltree A)) : option (list (ltree A)) :=
                 match ss, ds with
                 | s :: ss, d :: ds => match cloneClip s d, go ss ds with Some d, Some ds => Some (d :: ds) | _, _ => None end
                 | _, ds => Some ds
                 end) ss ds
        with
        | Some g, Some b, Some ds => Some (LT (Node (nseq d) (nat_ d) (nparent d) b g) ds)
        | _, _, _ => None
        end
    end.
End clone.
(** cloner.go:29-39: Clone; the copied root keeps its Parent. *)
Definition cloneTree {A} (seqOf : Z -> Z) (t : ltree A) : option (ltree A) :=
  let '(d, m) := cloneCopy [] t [] in cloneClip seqOf m t d.

(** * builder.go:20-57 and layer.go:New: building the tree in memory *)

(** A layer value. [catt]: everything [buildLayer] copies out of the decoded layer
    (SeqID, name, blend mode, ...; [None]: the zero value before it is called).
    Arrays of layers are blocks of the heap; an address is a block and an index; a
    non-nil slice is a block and a length, starting at index 0. *)
Definition addr : Type := nat * nat.
Record cell (A : Type) := Cell { catt : option A; cparent : option addr; ckids : option (nat * nat) }.
Arguments Cell {A}. Arguments catt {A}. Arguments cparent {A}. Arguments ckids {A}.
(** A block: its capacity and the cells in use. The unused ones are not observable. *)
Definition heap (A : Type) := list (nat * list (cell A)).
Definition hget {A} (h : heap A) (a : addr) : option (cell A) :=
  match nth_error h (fst a) with Some (_, l) => nth_error l (snd a) | None => None end.
Definition hset {A} (h : heap A) (a : addr) (c : cell A) : heap A :=
  match nth_error h (fst a) with
  | Some (cap, l) => upd_nat h (fst a) (cap, upd_nat l (snd a) c)
  | None => h
  end.
(** append(s, c). [grow n]: capacity that the runtime chooses when a slice of
    length [n] is full (at least [n+1]). The old cells are copied. [None]: not a slice. *)
Definition happend {A} (grow : nat -> nat) (h : heap A) (s : option (nat * nat)) (c : cell A) : option (heap A * (nat * nat)) :=
  match s with
  | None => Some (h ++ [(Nat.max 1 (grow O), [c])], (length h, 1%nat))
  | Some (b, n) =>
      match nth_error h b with
      | None => None
      | Some (cap, l) =>
          if Nat.ltb n cap then Some (upd_nat h b (cap, firstn n l ++ c :: skipn (S n) l), (b, S n))
          else Some (h ++ [(Nat.max (S n) (grow n), firstn n l ++ [c])], (length h, S n))
      end
  end.

(** The decoded layers: what [buildLayer] takes from each, and the nesting. *)
Inductive ptree (A : Type) := PT (v : A) (cs : list (ptree A)).
Arguments PT {A}.

Section build.
  Context {A : Type} (grow : nat -> nat).
  (** builder.go:21-52 (copying [v]) and 53-56. Left out: the accumulated rectangle. *)
  Fixpoint buildLayer (t : ptree A) (a : addr) (h : heap A) {struct t} : option (heap A) :=
    match t with
    | PT v cs =>
        match hget h a with
        | None => None
        | Some c =>
            (fix loop (i : nat) (cs : list (ptree A)) (h : heap A) {struct cs} : option (heap A) :=
               match cs with
               | [] => Some h
               | t :: cs =>
                   match hget h a with
                   | None => None
                   | Some l =>
                       match happend grow h (ckids l) (Cell None (Some a) None) with
                       | None => None
                       | Some (h, (b, n)) =>
                           let h := hset h a (Cell (catt l) (cparent l) (Some (b, n))) in
                           if Nat.ltb i n then
                             match buildLayer t (b, i) h with Some h => loop (S i) cs h | None => None end
                           else None
                       end
                   end
               end) O cs (hset h a (Cell (Some v) (cparent c) (ckids c)))
        end
    end.
  (** layer.go:New: the variable [root] and the loop over the layers of the image *)
  Fixpoint buildRoot (i : nat) (ts : list (ptree A)) (h : heap A) : option (heap A) :=
    match ts with
    | [] => Some h
    | t :: ts =>
        match hget h (O, O) with
        | None => None
        | Some l =>
            match happend grow h (ckids l) (Cell None None None) with
            | None => None
            | Some (h, (b, n)) =>
                let h := hset h (O, O) (Cell (catt l) (cparent l) (Some (b, n))) in
                if Nat.ltb i n then
                  match buildLayer t (b, i) h with Some h => buildRoot (S i) ts h | None => None end
                else None
            end
        end
    end.
  Definition newTree (rootAtt : A) (ts : list (ptree A)) : option (heap A) :=
    buildRoot O ts [(1%nat, [Cell (Some rootAtt) None None])].
End build.

(** &t.Root.Children[i0].Children[i1]... *)
Fixpoint addrOf {A} (h : heap A) (a : addr) (p : list nat) : option addr :=
  match p with
  | [] => Some a
  | i :: p =>
      match hget h a with
      | Some (Cell _ _ (Some (b, n))) => if Nat.ltb i n then addrOf h (b, i) p else None
      | _ => None
      end
  end.
