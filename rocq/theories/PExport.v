(** Proofs: the files that psdexporter writes. *)
From Coq Require Import String Decimal DecimalFacts DecimalPos DecimalN NArith.
From Verif Require Import Base BaseFacts MRect MRender MPicker MConfig MReader MLayer MApi SUtil SUtf16 SCompress SConfig SRecord SLayer XRecord PConfig2 PRecord4
  SNames PNames MExport SExport.
Close Scope string_scope.
Open Scope list_scope.
Open Scope Z_scope.

(** * Numerals *)
Definition vstep (v c : Z) : Z := 10 * v + (c - 48).
Lemma acc_value u : forall p, fold_left vstep (digitsOf u) (Z.pos p) = Z.pos (Pos.of_uint_acc u p).
Proof.
  induction u; intros p; cbn [digitsOf fold_left Pos.of_uint_acc]; [reflexivity|..];
    rewrite <- IHu; f_equal; unfold vstep; lia.
Qed.
Lemma digits_value u : fold_left vstep (digitsOf u) 0 = Z.of_N (Pos.of_uint u).
Proof. induction u; cbn [digitsOf fold_left Pos.of_uint]; [reflexivity|exact IHu|..]; unfold vstep at 2; cbn [Z.mul Z.add Z.sub Z.opp Z.pos_sub Pos.pred_double Pos.mul Pos.add]; exact (acc_value u _). Qed.
Lemma digits_range u : Forall (fun c => 48 <= c <= 57) (digitsOf u).
Proof. induction u; cbn [digitsOf]; constructor; (lia || assumption). Qed.
Lemma zeros_value n s : fold_left vstep (repeat 48 n ++ s) 0 = fold_left vstep s 0.
Proof. induction n as [|n IH]; [reflexivity|exact IH]. Qed.
Lemma zeros_range n : Forall (fun c => 48 <= c <= 57) (repeat 48 n).
Proof. induction n; cbn; constructor; (lia || assumption). Qed.
Lemma leading i c s : digitsOf (N.to_uint i) = c :: s -> s <> [] -> c <> 48.
Proof.
  intros E Hs ->. assert (U : N.to_uint i = unorm (N.to_uint i)) by (rewrite <- DecimalN.Unsigned.to_of; now rewrite DecimalN.Unsigned.of_to).
  destruct (N.to_uint i) as [|u|u|u|u|u|u|u|u|u|u] eqn:Eu; cbn [digitsOf] in E; try discriminate.
  injection E as E. unfold unorm in U. destruct (nzhead (D0 u)) eqn:Ez; try discriminate.
  - injection U as ->. cbn in E. congruence.
  - exact (nzhead_nonzero _ _ Ez).
Qed.
Lemma sprint_numeral i : numeral (sprint03 i) i.
Proof.
  unfold numeral, sprint03. set (d := digitsOf (N.to_uint i)). rewrite app_length, repeat_length. split; [lia|].
  split; [apply Forall_app; split; [apply zeros_range|apply digits_range]|]. split.
  - change (fold_left vstep (repeat 48 (3 - length d)%nat ++ d) 0 = Z.of_N i). rewrite zeros_value. unfold d. rewrite digits_value. f_equal. exact (DecimalN.Unsigned.of_to i).
  - intros L. replace (3 - length d)%nat with O in * by lia. cbn [repeat app] in *. cbn in L. destruct d as [|c s] eqn:E; [cbn in L; lia|]. exists c, s. split; [reflexivity|].
    apply (leading i c s E). intros ->. cbn in L. lia.
Qed.
Lemma digits_split s s' x x' : Forall (fun c => 48 <= c <= 57) s -> Forall (fun c => 48 <= c <= 57) s' ->
  (forall c y, x = c :: y -> ~ 48 <= c <= 57) -> (forall c y, x' = c :: y -> ~ 48 <= c <= 57) -> s ++ x = s' ++ x' -> s = s' /\ x = x'.
Proof.
  intros F. revert s'. induction F as [|c s Hc F IH]; intros s' F' X X' E; destruct F' as [|c' s' Hc' F']; cbn [app] in E.
  - auto.
  - destruct (X _ _ E). exact Hc'.
  - symmetry in E. destruct (X' _ _ E). exact Hc.
  - injection E as -> E. destruct (IH s' F' X X' E) as [-> ->]. auto.
Qed.
Lemma numeral_only s i i' : numeral s i -> numeral s i' -> i = i'.
Proof. intros (_ & _ & E & _) (_ & _ & E' & _). lia. Qed.
Lemma base_only path b : base_name path b -> forall path' b' t, base_name path' b' -> b ++ 46 :: t = b' ++ 46 :: t -> path = path'.
Proof.
  intros B. induction B as [i s N|i s path b N B IH]; intros path' b' t B' E.
  - destruct B' as [i' s' N'|i' s' p' b' N' B'].
    + destruct (digits_split s s' (46 :: t) (46 :: t)) as [-> _]; [apply N|apply N'|intros c y [= <- _]; lia|intros c y [= <- _]; lia|exact E|]. f_equal. now apply (numeral_only s').
    + rewrite <- !app_assoc in E. change (ascii "_") with [95] in E.
      destruct (digits_split s s' (46 :: t) ([95] ++ b' ++ 46 :: t)) as [_ C]; [apply N|apply N'|intros c y [= <- _]; lia|intros c y [= <- _]; lia|exact E|]. discriminate C.
  - change (ascii "_") with [95] in *. rewrite <- !app_assoc in E. destruct B' as [i' s' N'|i' s' p' b' N' B'].
    + destruct (digits_split s s' ([95] ++ b ++ 46 :: t) (46 :: t)) as [_ C]; [apply N|apply N'|intros c y [= <- _]; lia|intros c y [= <- _]; lia|exact E|]. discriminate C.
    + rewrite <- !app_assoc in E. change (ascii "_") with [95] in E.
      destruct (digits_split s s' ([95] ++ b ++ 46 :: t) ([95] ++ b' ++ 46 :: t)) as [-> C]; [apply N|apply N'|intros c y [= <- _]; lia|intros c y [= <- _]; lia|exact E|].
      cbn [app] in C. injection C as C. rewrite (numeral_only _ _ _ N N'). f_equal. now apply (IH p' b' t).
Qed.
Lemma file_name_only path path' n : file_name path n -> file_name path' n -> path = path'.
Proof. intros (b & B & ->) (b' & B' & E). change (ascii ".png") with (46 :: [112; 110; 103]) in E. now apply (base_only path b B path' b' [112; 110; 103]). Qed.

(** * The jobs of the exporter *)
Definition nm (p : list N) : bytes := flat_map (fun i => ascii "_" ++ sprint03 i) p.
Notation job := (list N * bytes * lrec)%type.
Fixpoint jobsOf (l : layer) : list job :=
  match l with
  | Layer r ls =>
      (fix loop (i : N) (ls : list layer) : list job :=
         match ls with
         | [] => []
         | ll :: ls => map (fun '(p, lb, r) => (i :: p, ascii "/" ++ l_name (lay_rec ll) ++ lb, r)) (jobsOf ll) ++ loop (N.succ i) ls
         end) 0%N ls ++ (if l_sdtype r =? 0 then [([], [], r)] else [])
  end.
Fixpoint jobsFrom (i : N) (ls : list layer) : list job :=
  match ls with
  | [] => []
  | ll :: ls => map (fun '(p, lb, r) => (i :: p, ascii "/" ++ l_name (lay_rec ll) ++ lb, r)) (jobsOf ll) ++ jobsFrom (N.succ i) ls
  end.
Lemma jobsOf_eq r ls : jobsOf (Layer r ls) = jobsFrom 0 ls ++ (if l_sdtype r =? 0 then [([], [], r)] else []).
Proof. reflexivity. Qed.
Fixpoint topJobs (i : N) (ls : list layer) : list job :=
  match ls with
  | [] => []
  | l :: ls => map (fun '(p, lb, r) => (i :: p, l_name (lay_rec l) ++ lb, r)) (jobsOf l) ++ topJobs (N.succ i) ls
  end.

Section run.
  Variable creates : bytes -> bool.
  Variable encode : option picker -> result.
  Fixpoint run (js : list (bytes * bytes * lrec)) : list entry * result :=
    match js with
    | [] => ([], Done)
    | (fn, lb, r) :: js =>
        let n := fn ++ str ".png" in
        if creates n then
          let e := Entry lb n (l_picker r) (encode (l_picker r)) in
          match encode (l_picker r) with
          | Done => let (es, o) := run js in (e :: es, o)
          | o => ([e], o)
          end
        else ([], Failed)
    end.
  Lemma run_app a b : run (a ++ b) = match run a with (es, Done) => let (es', o) := run b in (es ++ es', o) | x => x end.
  Proof.
    induction a as [|[[fn lb] r] a IH]; cbn [app run]; [now destruct (run b)|]. destruct (creates _); [|reflexivity]. destruct (encode _); try reflexivity.
    rewrite IH. destruct (run a) as [es [| |]]; try reflexivity. now destruct (run b).
  Qed.
  Definition absol (fn lb : bytes) (j : job) : bytes * bytes * lrec := let '(p, l, r) := j in (fn ++ nm p, lb ++ l, r).
  Lemma absol_shift fn lb i n js : map (absol fn lb) (map (fun '(p, l, r) => (i :: p, ascii "/" ++ n ++ l, r)) js) =
    map (absol (fn ++ str "_" ++ sprint03 i) (lb ++ str "/" ++ n)) js.
  Proof.
    rewrite map_map. apply map_ext. intros [[p l] r]. cbn [absol]. unfold nm. cbn [flat_map]. change str with ascii. rewrite <- !app_assoc. reflexivity.
  Qed.
  Lemma process_run l : forall fn lb, processLayer creates encode fn lb l = run (map (absol fn lb) (jobsOf l)).
  Proof.
    induction l as [r ls IH] using layer_ind2. intros fn lb. rewrite jobsOf_eq, map_app, run_app. cbn [processLayer].
    match goal with |- match ?F 0%N ls with _ => _ end = _ => assert (L : forall i, F i ls = run (map (absol fn lb) (jobsFrom i ls))) end.
    { induction IH as [|l ls H _ IHl]; intros i; [reflexivity|]. cbn [jobsFrom]. rewrite map_app, run_app, absol_shift, <- H. destruct (processLayer _ _ _ _ l) as [es [| |]]; try reflexivity. now rewrite IHl. }
    rewrite L. destruct (run (map (absol fn lb) (jobsFrom 0 ls))) as [es [| |]]; try reflexivity.
    unfold exportImage. destruct (l_sdtype r =? 0); [|reflexivity]. cbn [map absol run]. change (nm []) with (@nil Z). rewrite !app_nil_r.
    destruct (creates _); [|reflexivity]. destruct (encode _); reflexivity.
  Qed.
  Definition topName (p : list N) : bytes := match p with [] => [] | i :: p => sprint03 i ++ nm p end.
  Definition topJob (j : job) : bytes * bytes * lrec := let '(p, l, r) := j in (topName p, l, r).
  Lemma export_run ls : forall i, exportFrom creates encode i ls = match run (map topJob (topJobs i ls)) with (es, Done) => (es, Done) | (es, _) => (es, Panicked) end.
  Proof.
    induction ls as [|l ls IH]; intros i; [reflexivity|]. cbn [exportFrom topJobs]. rewrite map_app, run_app, process_run, IH, map_map.
    replace (map (fun x => topJob _) (jobsOf l)) with (map (absol (sprint03 i) (l_name (lay_rec l))) (jobsOf l)) by (apply map_ext; intros [[p lb] r]; reflexivity).
    destruct (run (map (absol _ _) (jobsOf l))) as [es [| |]]; try reflexivity. destruct (run _) as [es' [| |]]; reflexivity.
  Qed.
  (** What a run does *)
  Definition mkJob (j : bytes * bytes * lrec) : bytes * bytes * option picker := let '(fn, lb, r) := j in (fn ++ str ".png", lb, l_picker r).
  Lemma run_spec js : let '(es, o) := run js in
    (exists rest, map mkJob js = map (fun e => (e_file e, e_label e, e_image e)) es ++ rest /\ (o = Done -> rest = [])) /\
    (forall e, In e es -> creates (e_file e) = true /\ e_result e = encode (e_image e)) /\
    (forall es1 e es2, es = es1 ++ e :: es2 -> es2 <> [] -> e_result e = Done) /\
    (o = Done -> forall e, In e es -> e_result e = Done) /\
    ((forall fn lb r, In (fn, lb, r) js -> creates (fn ++ str ".png") = true /\ encode (l_picker r) = Done) -> o = Done).
  Proof.
    induction js as [|[[fn lb] r] js IH]; cbn [run].
    - split; [exists []; auto|]. split; [intros e []|]. split; [intros [|e1 es1] e2 es2; discriminate|]. split; [intros _ e []|auto].
    - destruct (creates (fn ++ str ".png")) eqn:Ec.
      2: { split; [eexists; split; [reflexivity|discriminate]|]. split; [intros e []|]. split; [intros [|e1 es1] e2 es2; discriminate|]. split; [discriminate|].
           intros H. destruct (H fn lb r (or_introl eq_refl)). congruence. }
      assert (One : forall o, o <> Done -> encode (l_picker r) = o ->
        let es := [Entry lb (fn ++ str ".png") (l_picker r) o] in
        (exists rest, map mkJob ((fn, lb, r) :: js) = map (fun e => (e_file e, e_label e, e_image e)) es ++ rest /\ (o = Done -> rest = [])) /\
        (forall e, In e es -> creates (e_file e) = true /\ e_result e = encode (e_image e)) /\
        (forall es1 e es2, es = es1 ++ e :: es2 -> es2 <> [] -> e_result e = Done) /\
        (o = Done -> forall e, In e es -> e_result e = Done) /\
        ((forall fn' lb' r', In (fn', lb', r') ((fn, lb, r) :: js) -> creates (fn' ++ str ".png") = true /\ encode (l_picker r') = Done) -> o = Done)).
      { intros o No Eo es. split; [exists (map mkJob js); split; [reflexivity|congruence]|].
        split; [intros e [<-|[]]; auto|]. split; [intros [|e1 [|e2 es1]] e es2 X Y; try discriminate; injection X as _ <-; congruence|]. split; [congruence|].
        intros H. destruct (H fn lb r (or_introl eq_refl)). congruence. }
      destruct (encode (l_picker r)) eqn:Ee; [|apply One; [discriminate|reflexivity]|apply One; [discriminate|reflexivity]]. clear One.
      destruct (run js) as [es o]. destruct IH as ((rest & M & R) & F & P & D & A). split; [exists rest; split; [cbn [map app e_file e_label e_image]; now rewrite M|exact R]|].
      split; [intros e [<-|H]; [auto|now apply F]|]. split.
      { intros [|e1 es1] e es2 X Y; cbn [app] in X; injection X; intros; subst; [reflexivity|]. now apply (P es1 e es2). }
      split; [intros Ho e [<-|H]; [reflexivity|now apply D]|]. intros H. apply A. intros fn' lb' r' Hi. apply (H fn' lb' r'). now right.
  Qed.
End run.

(** * Distinct names *)
Lemma topName_base p : p <> [] -> base_name p (topName p).
Proof.
  induction p as [|i p IH]; [congruence|]. intros _. cbn [topName]. destruct p as [|j p]; [rewrite app_nil_r; constructor; apply sprint_numeral|].
  unfold nm. cbn [flat_map]. rewrite <- app_assoc. apply base_in; [apply sprint_numeral|]. apply IH. discriminate.
Qed.
Lemma topName_file p : p <> [] -> file_name p (topName p ++ str ".png").
Proof. intros H. exists (topName p). split; [now apply topName_base|reflexivity]. Qed.
Definition pathOf (j : job) : list N := fst (fst j).
Lemma pathOf_shift i (g : bytes -> bytes) js : map pathOf (map (fun '(p, lb, r) => (i :: p, g lb, r)) js) = map (cons i) (map pathOf js).
Proof. rewrite !map_map. apply map_ext. now intros [[p lb] r]. Qed.
Lemma nodup_shift (i : N) ps : NoDup ps -> NoDup (map (cons i) ps).
Proof. intros H. apply FinFun.Injective_map_NoDup; [|exact H]. now intros x y [= ->]. Qed.
Definition below_ (i : N) (ps : list (list N)) : Prop := forall p, In p ps -> exists k q, p = k :: q /\ (i <= k)%N.
Lemma nodup_loop ps qs (i : N) : NoDup ps -> NoDup qs -> below_ (N.succ i) qs -> NoDup (map (cons i) ps ++ qs).
Proof.
  intros H1 H2 B. induction ps as [|p ps IH]; [exact H2|]. inversion H1; subst. cbn [map app]. constructor; [|now apply IH].
  intros I. apply in_app_or in I. destruct I as [I|I].
  - apply in_map_iff in I as (p' & [= ->] & I). contradiction.
  - apply B in I as (k & q & [= <- ->] & L). lia.
Qed.
Lemma jobs_nodup l : NoDup (map pathOf (jobsOf l)).
Proof.
  induction l as [r ls IH] using layer_ind2. rewrite jobsOf_eq, map_app.
  assert (X : forall i, NoDup (map pathOf (jobsFrom i ls)) /\ below_ i (map pathOf (jobsFrom i ls))).
  { induction IH as [|l ls H _ IHl]; intros i; [split; [constructor|intros p []]|]. cbn [jobsFrom]. rewrite map_app, (pathOf_shift i (fun lb => ascii "/" ++ l_name (lay_rec l) ++ lb)).
    destruct (IHl (N.succ i)) as [N B]. split; [now apply nodup_loop|]. intros p I. apply in_app_or in I as [I|I].
    - apply in_map_iff in I as (q & <- & _). exists i, q. split; [reflexivity|lia].
    - apply B in I as (k & q & -> & L). exists k, q. split; [reflexivity|lia]. }
  destruct (X 0%N) as [N B]. destruct (l_sdtype r =? 0); [|now rewrite app_nil_r]. cbn [map pathOf fst].
  induction (map pathOf (jobsFrom 0 ls)) as [|p ps IHp]; [constructor; [intros []|constructor]|]. inversion N; subst. cbn [app]. constructor.
  - intros I. apply in_app_or in I as [I|[E|[]]]; [contradiction|]. destruct (B p (or_introl eq_refl)) as (k & q & -> & _). discriminate.
  - apply IHp; [assumption|]. intros p' I. apply B. now right.
Qed.
Lemma top_nodup ls : forall i, NoDup (map pathOf (topJobs i ls)) /\ below_ i (map pathOf (topJobs i ls)).
Proof.
  induction ls as [|l ls IH]; intros i; [split; [constructor|intros p []]|]. cbn [topJobs]. rewrite map_app, (pathOf_shift i (fun lb => l_name (lay_rec l) ++ lb)).
  destruct (IH (N.succ i)) as [N B]. split; [apply nodup_loop; [apply jobs_nodup|exact N|exact B]|]. intros p I. apply in_app_or in I as [I|I].
  - apply in_map_iff in I as (q & <- & _). exists i, q. split; [reflexivity|lia].
  - apply B in I as (k & q & -> & L). exists k, q. split; [reflexivity|lia].
Qed.

(** * The jobs are the pictures of the file *)
Lemma from_top ls : forall i, jobsFrom i ls = map (fun '(p, lb, r) => (p, ascii "/" ++ lb, r)) (topJobs i ls).
Proof.
  induction ls as [|l ls IH]; intros i; [reflexivity|]. cbn [jobsFrom topJobs]. rewrite map_app, map_map, IH. f_equal. apply map_ext. now intros [[p lb] r].
Qed.
Section tree.
  Variable inflate : bytes -> Z -> option (bytes * Z).
  Variable large : bool.
  Variables mode depth nch : Z.
  Lemma own_is i sl l : attributes_are i sl l -> slayer_valid inflate large depth nch sl -> own_name sl (l_name l).
  Proof.
    intros (_ & _ & _ & _ & _ & _ & _ & _ & B & _) V. unfold own_name. destruct (last_info (sl_info sl) (ascii "luni")) as [[|x d]|] eqn:L; [exact (proj1 B)| |exact (proj1 B)].
    unfold slayer_valid in V. rewrite L in V. assert (exists rs, luni_is (x :: d) rs) as [rs R] by (decompose [and] V; assumption).
    exists rs. split; [exact R|]. exact (proj1 (B rs R)).
  Qed.
  Lemma own_only i sl l n : attributes_are i sl l -> own_name sl n -> n = l_name l.
  Proof.
    intros (_ & _ & _ & _ & _ & _ & _ & _ & B & _) U. unfold own_name in U. destruct (last_info (sl_info sl) (ascii "luni")) as [[|x d]|].
    - destruct B. congruence.
    - destruct U as (rs & R & ->). symmetry. exact (proj1 (B rs R)).
    - destruct B. congruence.
  Qed.
  Lemma picker_is sl l : image_is mode depth nch sl l -> l_picker l = Some (picture_of mode depth nch sl).
  Proof. intros [-> _]. unfold picture_of. destruct (chan_data sl depth (-1)); reflexivity. Qed.
  Definition head_of (t : stree) : slayer := match t with SLeaf l => l | SFolder _ f _ => f end.

  Definition good (t : stree) (l : layer) : Prop :=
    own_name (head_of t) (l_name (lay_rec l)) /\ (forall n, own_name (head_of t) n -> n = l_name (lay_rec l)) /\
    match t with
    | SLeaf sl =>
        (forall p lb r, In (p, lb, r) (jobsOf l) -> p = [] /\ lb = [] /\ has_type sl 0 /\ l_picker r = Some (picture_of mode depth nch sl)) /\
        (has_type sl 0 -> exists r, In ([], [], r) (jobsOf l) /\ l_picker r = Some (picture_of mode depth nch sl))
    | SFolder _ _ c =>
        (forall p lb r, In (p, lb, r) (jobsOf l) -> exists sl lb', lb = ascii "/" ++ lb' /\ picture_at c p sl lb' /\ l_picker r = Some (picture_of mode depth nch sl)) /\
        (forall p sl lb, picture_at c p sl lb -> exists r, In (p, ascii "/" ++ lb, r) (jobsOf l) /\ l_picker r = Some (picture_of mode depth nch sl))
    end.
  Definition goods (ts : list stree) (ls : list layer) : Prop := forall k,
    (forall p lb r, In (p, lb, r) (topJobs k ls) -> exists j p' sl, p = (k + j)%N :: p' /\ picture_at ts (j :: p') sl lb /\ l_picker r = Some (picture_of mode depth nch sl)) /\
    (forall j p sl lb, picture_at ts (j :: p) sl lb -> exists r, In ((k + j)%N :: p, lb, r) (topJobs k ls) /\ l_picker r = Some (picture_of mode depth nch sl)).
  Lemma picture_skip t ts j p sl lb : picture_at ts (j :: p) sl lb <-> picture_at (t :: ts) (N.succ j :: p) sl lb.
  Proof.
    assert (X : nth_error (t :: ts) (N.to_nat (N.succ j)) = nth_error ts (N.to_nat j)) by (rewrite N2Nat.inj_succ; reflexivity). split; intros H.
    - inversion H as [? ? ? ? E T O|? ? d f c ? ? ? ? E O P]; subst; rewrite <- X in E; [now apply at_leaf|now apply (at_content _ _ d f c)].
    - inversion H as [? ? ? ? E T O|? ? d f c ? ? ? ? E O P]; subst; rewrite X in E; [now apply at_leaf|now apply (at_content _ _ d f c)].
  Qed.
  Lemma picture_nonempty ts p sl lb : picture_at ts p sl lb -> p <> [].
  Proof. now destruct 1. Qed.

  Lemma jobs_good :
    (forall i t l, tree_is false mode depth nch i t l -> Forall (slayer_valid inflate large depth nch) (sflatten t) -> stree_valid t -> good t l) /\
    (forall i ts ls, trees_are false mode depth nch i ts ls -> Forall (slayer_valid inflate large depth nch) (flat_map sflatten ts) -> Forall stree_valid ts -> goods ts ls).
  Proof.
    apply trees_are_both.
    - intros i sl l [A I] V T. inversion V as [|? ? V1 _]. subst. split; [exact (own_is i sl l A V1)|]. split; [intros n; exact (own_only i sl l n A)|].
      inversion T as [? t Ht N1 N2 N3|]. subst. rewrite jobsOf_eq. cbn [jobsFrom app]. pose proof (proj1 (type_of i sl l t A Ht)) as Et. pose proof (picker_is sl l I) as Pk. split.
      + intros p lb r Hi. destruct (l_sdtype l =? 0) eqn:E0; [|destruct Hi]. destruct Hi as [[= <- <- <-]|[]]. replace 0 with t by lia. auto.
      + intros H0. rewrite (proj1 (type_of i sl l 0 A H0)). exists l. split; [now left|exact Pk].
    - intros i d f c l ls Tc IH [A _] V T. cbn [sflatten] in V. inversion V as [|? ? _ V1]. subst. apply Forall_app in V1 as [V1 V2]. inversion V2 as [|? ? V3 _]. subst.
      inversion T as [|? ? ? t Hd Hf Hty Hc]. subst. specialize (IH V1 Hc). split; [exact (own_is _ f l A V3)|]. split; [intros n; exact (own_only _ f l n A)|].
      rewrite jobsOf_eq. pose proof (proj1 (type_of _ f l t A Hf)) as Et. replace (l_sdtype l =? 0) with false by (symmetry; lia). rewrite app_nil_r, from_top.
      destruct (IH 0%N) as [F B]. split.
      + intros p lb r Hi. apply in_map_iff in Hi as ([[p' lb'] r'] & [= <- <- <-] & Hi). destruct (F _ _ _ Hi) as (j & q & sl & -> & P & E). rewrite N.add_0_l. exists sl, lb'. auto.
      + intros p sl lb P. destruct p as [|j p]; [now destruct (picture_nonempty _ _ _ _ P)|]. destruct (B _ _ _ _ P) as (r & Hi & E). exists r. split; [|exact E].
        apply in_map_iff. exists (j :: p, lb, r). rewrite N.add_0_l in Hi. auto.
    - intros i _ _ k. split; [intros p lb r []|]. intros j p sl lb P. inversion P; subst; match goal with E : nth_error [] _ = _ |- _ => now destruct (N.to_nat j) end.
    - intros i t ts l ls Tt IHt Tts IHts V T. cbn [flat_map] in V. apply Forall_app in V as [V1 V2]. inversion T as [|? ? T1 T2]. subst.
      specialize (IHt V1 T1) as (Ow & On & G). specialize (IHts V2 T2). intros k. cbn [topJobs]. destruct (IHts (N.succ k)) as [F B]. split.
      + intros p lb r Hi. apply in_app_or in Hi as [Hi|Hi].
        * apply in_map_iff in Hi as ([[p' lb'] r'] & [= <- <- <-] & Hi). exists 0%N, p'. rewrite N.add_0_r. destruct t as [sl|d f c].
          -- destruct G as [G _]. destruct (G _ _ _ Hi) as (-> & -> & H0 & E). exists sl. split; [reflexivity|]. split; [|exact E]. apply at_leaf; [reflexivity|exact H0|]. now rewrite app_nil_r.
          -- destruct G as [G _]. destruct (G _ _ _ Hi) as (sl & lb0 & -> & P & E). exists sl. split; [reflexivity|]. split; [|exact E]. now apply (at_content _ _ d f c).
        * destruct (F _ _ _ Hi) as (j & p' & sl & -> & P & E). exists (N.succ j), p', sl. split; [f_equal; lia|]. split; [|exact E]. now apply picture_skip.
      + intros j p sl lb P. destruct (N.eq_0_gt_0_cases j) as [->|Hj].
        * rewrite N.add_0_r. inversion P; subst.
          -- match goal with E : nth_error (t :: ts) _ = _ |- _ => injection E as -> end. destruct G as [_ G]. destruct G as (r & Hi & E); [assumption|]. exists r. split; [|exact E]. apply in_or_app. left.
             apply in_map_iff. exists ([], [], r). split; [|exact Hi]. rewrite app_nil_r. f_equal. f_equal. symmetry. now apply On.
          -- match goal with E : nth_error (t :: ts) _ = _ |- _ => injection E as -> end. destruct G as [_ G]. match goal with Q : picture_at c _ _ _ |- _ => destruct (G _ _ _ Q) as (r & Hi & E) end.
             exists r. split; [|exact E]. apply in_or_app. left. apply in_map_iff. eexists. split; [|exact Hi]. cbn beta iota. f_equal. f_equal. f_equal. symmetry. now apply On.
        * replace j with (N.succ (N.pred j)) in * by lia. set (j' := N.pred j) in *. clearbody j'. apply picture_skip in P. destruct (B _ _ _ _ P) as (r & Hi & E). exists r. split; [|exact E].
          apply in_or_app. right. replace (k + N.succ j')%N with (N.succ k + j')%N by lia. exact Hi.
  Qed.
End tree.

(** * The exporter *)
Section file.
  Variable inflate : bytes -> Z -> option (bytes * Z).

  Lemma file_exported kind procs h rsv cmd res nch neg pl sf pad gmask bs tail rest : (1 <= procs)%nat ->
    header_valid h -> zlen rsv = 6 -> zlen cmd < 4294967296 ->
    Forall rblock_valid res -> zlen (enc_rblocks res) < 4294967296 ->
    mode_depth_ok (h_mode h) (h_depth h) -> colour_planes (h_mode h) = Some nch ->
    let large := h_version h =? 2 in
    section_valid inflate large neg (h_depth h) nch pl (flat_map sflatten sf) pad gmask bs tail -> Forall stree_valid sf ->
    let enc := enc_config h rsv cmd res ++ enc_section large neg pl (flat_map sflatten sf) pad gmask bs tail in
    let picture := picture_of (h_mode h) (h_depth h) nch in
    exists f evs, Decode inflate kind procs exportOptions (enc ++ rest) = (Ok (f, zlen enc, rest), evs) /\
      forall creates encode es o, export creates encode (f_layer f) = (es, o) ->
      NoDup (map e_file es) /\
      (forall e, In e es -> exists path sl, picture_at sf path sl (e_label e) /\ file_name path (e_file e) /\
         e_image e = Some (picture sl) /\ creates (e_file e) = true /\ e_result e = encode (e_image e)) /\
      (forall es1 e es2, es = es1 ++ e :: es2 -> es2 <> [] -> e_result e = Done) /\
      (o = Done -> forall path sl label, picture_at sf path sl label ->
         exists e, In e es /\ file_name path (e_file e) /\ e_label e = label /\ e_image e = Some (picture sl) /\ e_result e = Done) /\
      ((forall path sl label n, picture_at sf path sl label -> file_name path n -> creates n = true /\ encode (Some (picture sl)) = Done) -> o = Done).
  Proof.
    intros Hpr Hh Hr Hcm Hres Hrl Hmd Hnch large Hs HV enc picture.
    destruct (decode_layers inflate kind procs exportOptions h rsv cmd res nch neg pl sf pad gmask bs tail rest Hpr Hh Hr Hcm Hres Hrl Hmd Hnch eq_refl eq_refl Hs HV) as (f & evs & ED & _ & ET & _).
    exists f, evs. split; [exact ED|]. intros creates encode es o HE.
    destruct (proj2 (jobs_good inflate large (h_mode h) (h_depth h) nch) 0 sf (f_layer f) ET (proj1 Hs) HV 0%N) as [F B].
    unfold export in HE. rewrite export_run in HE. pose proof (run_spec creates encode (map topJob (topJobs 0 (f_layer f)))) as R.
    destruct (run creates encode (map topJob (topJobs 0 (f_layer f)))) as [es' o'] eqn:ER.
    assert (es' = es /\ (o = Done <-> o' = Done)) as [-> Ho] by (destruct o'; injection HE as <- <-; split; (reflexivity || (split; (discriminate || reflexivity)))).
    destruct R as ((rst & M & Rd) & Fe & Pr & Dn & Al). rewrite map_map in M.
    assert (Job : forall e, In e es -> exists p lb r, In (p, lb, r) (topJobs 0 (f_layer f)) /\ e_file e = topName p ++ str ".png" /\ e_label e = lb /\ e_image e = l_picker r).
    { intros e Hi. assert (In (e_file e, e_label e, e_image e) (map (fun x => mkJob (topJob x)) (topJobs 0 (f_layer f)))) as X.
      { rewrite M. apply in_or_app. left. apply in_map_iff. now exists e. }
      apply in_map_iff in X as ([[p lb] r] & E & X). unfold mkJob, topJob in E. injection E as E1 E2 E3. exists p, lb, r. auto. }
    split.
    { pose proof (proj1 (top_nodup (f_layer f) 0%N)) as ND.
      assert (X : NoDup (map (fun p => topName p ++ str ".png") (map pathOf (topJobs 0 (f_layer f))))).
      { assert (NE : forall p, In p (map pathOf (topJobs 0 (f_layer f))) -> p <> []) by (intros p Hi ->; apply (proj2 (top_nodup (f_layer f) 0%N)) in Hi as (k & q & [=] & _)).
        induction (map pathOf (topJobs 0 (f_layer f))) as [|p ps IH]; [constructor|]. inversion ND as [|? ? N1 N2]. subst. cbn [map]. constructor; [|apply IH; [exact N2|intros q Hq; apply NE; now right]].
        intros Hi. apply in_map_iff in Hi as (q & E & Hq). apply N1. replace p with q; [exact Hq|]. apply (file_name_only q p (topName p ++ str ".png")).
        - rewrite <- E. apply topName_file, NE. now right.
        - apply topName_file, NE. now left. }
      rewrite map_map in X. assert (E : map (fun x : job => topName (pathOf x) ++ str ".png") (topJobs 0 (f_layer f)) = map e_file es ++ map (fun x => fst (fst x)) rst).
      { transitivity (map (fun x => fst (fst x)) (map (fun x => mkJob (topJob x)) (topJobs 0 (f_layer f)))).
        - rewrite map_map. apply map_ext. now intros [[p lb] r].
        - rewrite M, map_app, map_map. reflexivity. }
      rewrite E in X. clear - X. induction es as [|e es IH]; [constructor|]. cbn [map app] in X. inversion X as [|? ? N1 N2]. subst. cbn [map]. constructor; [|now apply IH].
      intros Hi. apply N1. apply in_or_app. now left. }
    split.
    { intros e Hi. destruct (Job e Hi) as (p & lb & r & Hj & E1 & E2 & E3). destruct (F _ _ _ Hj) as (j & p' & sl & -> & P & E). rewrite N.add_0_l in *. exists (j :: p'), sl. rewrite E2.
      split; [exact P|]. split; [rewrite E1; now apply topName_file|]. split; [now rewrite E3|]. now apply Fe. }
    split; [exact Pr|]. split.
    { intros HD path sl label P. destruct path as [|j path]; [now destruct (picture_nonempty _ _ _ _ P)|]. destruct (B _ _ _ _ P) as (r & Hj & E). rewrite N.add_0_l in Hj.
      assert (X : In (topName (j :: path) ++ str ".png", label, l_picker r) (map (fun e => (e_file e, e_label e, e_image e)) es)).
      { assert (rst = []) as -> by (apply Rd; now apply Ho). rewrite app_nil_r in M. rewrite <- M. apply in_map_iff. now exists (j :: path, label, r). }
      apply in_map_iff in X as (e & [= E1 E2 E3] & Hi). exists e. split; [exact Hi|]. split; [rewrite E1; now apply topName_file|]. split; [exact E2|]. split; [now rewrite E3|]. apply Dn; [now apply Ho|exact Hi]. }
    intros H. apply Ho, Al. intros fn lb r Hi. apply in_map_iff in Hi as ([[p lb'] r'] & E & Hi). cbn [topJob] in E. injection E as <- <- <-.
    destruct (F _ _ _ Hi) as (j & p' & sl & -> & P & E). rewrite E. rewrite N.add_0_l in *. apply (H (j :: p') sl lb'); [exact P|now apply topName_file].
  Qed.
End file.

(** * The names of blend modes *)
Lemma string_cases names bm : (exists n, In (bm, n) names /\ modeString names bm = n) \/ (~ In bm (map fst names) /\ modeString names bm = str "unknown-blend-name-" ++ bm).
Proof.
  induction names as [|[k n] names IH]; [right; split; [intros []|reflexivity]|]. cbn [modeString]. destruct (list_eqb bm k) eqn:E.
  - apply list_eqb_eq in E. subst k. left. exists n. split; [now left|reflexivity].
  - destruct IH as [(n' & I & H)|[I H]]; [left; exists n'; split; [now right|exact H]|]. right. split; [|exact H]. intros [J|J]; [|contradiction]. cbn [fst] in J. subst k. rewrite (proj2 (list_eqb_eq bm bm) eq_refl) in E. discriminate.
Qed.
Lemma snd_only (l : list (bytes * bytes)) : NoDup (map snd l) -> forall k k' n, In (k, n) l -> In (k', n) l -> k = k'.
Proof.
  induction l as [|[k0 n0] l IH]; intros N k k' n H H'; [destruct H|]. inversion N as [|? ? N1 N2]. subst. cbn [snd] in N1. destruct H as [E|H], H' as [E'|H'].
  - congruence.
  - injection E as -> ->. destruct N1. apply in_map_iff. now exists (k', n).
  - injection E' as -> ->. destruct N1. apply in_map_iff. now exists (k, n).
  - now apply (IH N2 k k' n).
Qed.
Lemma names_distinct : NoDup (map snd modeNames).
Proof.
  assert (H : forall l : list bytes, (fix nd l := match l with [] => true | x :: l => negb (existsb (list_eqb x) l) && nd l end) l = true -> NoDup l).
  { induction l as [|x l IH]; intros H; constructor; apply andb_prop in H as [H1 H2]; [|now apply IH].
    intros I. apply negb_true_iff in H1. assert (existsb (list_eqb x) l = true); [|congruence]. apply existsb_exists. exists x. split; [exact I|now apply list_eqb_eq]. }
  apply H. vm_compute. reflexivity.
Qed.
Lemma names_known : forallb (fun x => match snd x with 117 :: _ => false | _ => true end) modeNames = true.
Proof. vm_compute. reflexivity. Qed.
Lemma string_only b b' : MExport.String b = MExport.String b' -> b = b'.
Proof.
  assert (K : forall k n s, In (k, n) modeNames -> n <> str "unknown-blend-name-" ++ s).
  { intros k n s I ->. pose proof names_known as H. rewrite forallb_forall in H. specialize (H _ I). discriminate H. }
  unfold MExport.String. intros E. destruct (string_cases modeNames b) as [(n & I & H)|[_ H]], (string_cases modeNames b') as [(n' & I' & H')|[_ H']]; rewrite H, H' in E.
  - subst n'. exact (snd_only _ names_distinct _ _ _ I I').
  - destruct (K _ _ _ I E).
  - symmetry in E. destruct (K _ _ _ I' E).
  - now apply app_inv_head in E.
Qed.
Lemma string_names k n : mode_name k n -> MExport.String (ascii k) = ascii n.
Proof. unfold mode_name. intros H. repeat (destruct H as [[= <- <-]|H]; [vm_compute; reflexivity|]). destruct H. Qed.

Lemma path_named path : path <> [] -> exists n, file_name path n.
Proof. intros H. eexists. now apply topName_file. Qed.
