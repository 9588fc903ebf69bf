(** Proofs about PackBits and prediction. *)
From Verif Require Import Base BaseFacts MUtil SUtil PUtil MRect MCompress SCompress.

Lemma enc_packet_zlen p : packet_ok p -> 1 <= zlen (enc_packet p).
Proof. destruct p; cbn; intros; rewrite ?zlen_cons; try (pose proof (zlen_nonneg bs)); unfold zlen; cbn; lia. Qed.

Lemma expand_zlen_Rep n v : 0 <= n -> zlen (expand (Rep n v)) = n.
Proof. intros. cbn. rewrite zlen_repeat. lia. Qed.

Lemma skipn_zlen_split {A} (n : nat) (l : list A) : firstn n l ++ skipn n l = l.
Proof. apply firstn_skipn. Qed.

(** Decoding a well formed rest of a line. *)
Lemma pb_line_forward ps : forall fuel done dest pre post,
  line_ok ps -> zlen (expand_line ps) <= zlen dest -> (length (enc_line ps) < fuel)%nat ->
  pb_line fuel done dest (pre ++ enc_line ps ++ post) (zlen pre + zlen (enc_line ps)) (zlen pre) =
  Ok (done ++ expand_line ps, skipn (length (expand_line ps)) dest).
Proof.
  induction ps as [|p ps IH]; intros fuel done dest pre post Hok Hfit Hfuel.
  - cbn [enc_line flat_map] in *. destruct fuel; [easy|]. cbn [pb_line].
    replace (zlen pre <? zlen pre + zlen (@nil Z)) with false by (unfold zlen; cbn; lia).
    cbn. now rewrite app_nil_r.
  - inversion Hok as [|? ? Hp Hps]; subst.
    cbn [enc_line flat_map expand_line] in *. fold (enc_line ps) in *. fold (expand_line ps) in *.
    rewrite !app_length in Hfuel. rewrite !zlen_app in *.
    pose proof (zlen_nonneg pre). pose proof (zlen_nonneg (enc_line ps)). pose proof (zlen_nonneg (expand_line ps)).
    pose proof (enc_packet_zlen p Hp).
    destruct fuel as [|fuel]; [easy|]. cbn [pb_line].
    replace (zlen pre <? zlen pre + (zlen (enc_packet p) + zlen (enc_line ps))) with true by lia.
    rewrite idx_app_r by lia. rewrite Z.sub_diag.
    rewrite <- !app_assoc.
    destruct p as [bs|n v|]; cbn [enc_packet expand app packet_ok] in *.
    + rewrite idx_cons_0. rewrite zlen_cons in *.
      replace (zlen bs - 1 <=? 127) with true by lia.
      replace (zlen bs - 1 + 1) with (zlen bs) by lia.
      replace ((zlen dest <? zlen bs) || _) with false by lia.
      cbn zeta.
      assert (Hsk : skipn (Z.to_nat (zlen pre + 1)) (pre ++ (zlen bs - 1) :: bs ++ enc_line ps ++ post) = bs ++ enc_line ps ++ post).
      { change ((zlen bs - 1) :: bs ++ enc_line ps ++ post) with ([zlen bs - 1] ++ bs ++ enc_line ps ++ post).
        rewrite app_assoc. apply skipn_app_exact. rewrite app_length. unfold zlen. cbn. lia. }
      rewrite Hsk. rewrite (firstn_app_exact bs) by (unfold zlen; lia).
      replace (Z.to_nat (zlen bs) - length bs)%nat with 0%nat by (unfold zlen; lia).
      cbn [firstn]. rewrite app_nil_r.
      replace (pre ++ (zlen bs - 1) :: bs ++ enc_line ps ++ post)
        with ((pre ++ (zlen bs - 1) :: bs) ++ enc_line ps ++ post) by (rewrite <- app_assoc; reflexivity).
      replace (zlen pre + (1 + zlen bs + zlen (enc_line ps))) with (zlen (pre ++ (zlen bs - 1) :: bs) + zlen (enc_line ps))
        by (rewrite zlen_app, zlen_cons; lia).
      replace (zlen pre + (zlen bs + 1)) with (zlen (pre ++ (zlen bs - 1) :: bs))
        by (rewrite zlen_app, zlen_cons; lia).
      rewrite IH; auto.
      * rewrite <- app_assoc. f_equal. f_equal.
        rewrite skipn_skipn, app_length. f_equal. unfold zlen. lia.
      * rewrite zlen_skipn. unfold zlen in *; lia.
      * cbn [length] in Hfuel. lia.
    + rewrite idx_cons_0. unfold zlen in Hfit at 1. rewrite repeat_length in Hfit.
      replace (257 - n <=? 127) with false by lia.
      replace (257 - n =? 128) with false by lia.
      assert (Hn : u8 (- (257 - n)) + 1 = n).
      { unfold u8. replace (- (257 - n)) with (n - 1 + (-1) * 256) by lia.
        rewrite Z.mod_add by lia. rewrite Z.mod_small; lia. }
      rewrite Hn.
      replace ((zlen dest <? n) || _) with false by (unfold zlen in *; cbn [length] in *; lia).
      rewrite idx_app_r by lia. replace (zlen pre + 1 - zlen pre) with 1 by lia.
      rewrite idx_cons_S by lia. rewrite Z.sub_diag, idx_cons_0.
      replace (pre ++ 257 - n :: v :: enc_line ps ++ post)
        with ((pre ++ [257 - n; v]) ++ enc_line ps ++ post) by (rewrite <- app_assoc; reflexivity).
      replace (zlen pre + (zlen [257 - n; v] + zlen (enc_line ps))) with (zlen (pre ++ [257 - n; v]) + zlen (enc_line ps))
        by (rewrite zlen_app; lia).
      replace (zlen pre + 2) with (zlen (pre ++ [257 - n; v])) by (rewrite zlen_app; unfold zlen; cbn; lia).
      rewrite IH; auto.
      * unfold zrepeat. rewrite <- app_assoc. f_equal. f_equal.
        rewrite skipn_skipn, app_length, repeat_length. reflexivity.
      * rewrite zlen_skipn. unfold zlen in *; lia.
      * cbn [length] in Hfuel. lia.
    + rewrite idx_cons_0. change (128 <=? 127) with false. change (128 =? 128) with true. cbn iota.
      replace (pre ++ 128 :: enc_line ps ++ post)
        with ((pre ++ [128]) ++ enc_line ps ++ post) by (rewrite <- app_assoc; reflexivity).
      replace (zlen pre + (zlen [128] + zlen (enc_line ps))) with (zlen (pre ++ [128]) + zlen (enc_line ps))
        by (rewrite zlen_app; lia).
      replace (zlen pre + 1) with (zlen (pre ++ [128])) by (rewrite zlen_app; unfold zlen; cbn; lia).
      rewrite IH; auto. cbn [length] in Hfuel. lia.
Qed.

Lemma pb_lines_forward ls : forall done dest post,
  Forall line_ok ls -> zlen (expand_lines ls) <= zlen dest ->
  pb_lines done dest (flat_map enc_line ls ++ post) (map (fun l => zlen (enc_line l)) ls) =
  Ok (done ++ overwrite dest (expand_lines ls)).
Proof.
  induction ls as [|l ls IH]; intros done dest post Hok Hfit.
  - reflexivity.
  - inversion Hok; subst. unfold expand_lines, overwrite in *. cbn [flat_map map pb_lines] in *.
    rewrite zlen_app in Hfit. pose proof (zlen_nonneg (flat_map expand_line ls)).
    rewrite <- app_assoc.
    pose proof (pb_line_forward l (S (length (enc_line l ++ flat_map enc_line ls ++ post))) done dest []
      (flat_map enc_line ls ++ post)) as F.
    cbn [app] in F. replace (zlen (@nil Z)) with 0 in F by reflexivity. rewrite Z.add_0_l in F.
    rewrite F; auto; [|lia|rewrite !app_length; lia]. clear F.
    cbn [obind].
    unfold slice. rewrite !zlen_app. pose proof (zlen_nonneg (enc_line l)).
    pose proof (zlen_nonneg (flat_map enc_line ls)). pose proof (zlen_nonneg post).
    replace ((0 <=? zlen (enc_line l)) && _ && _) with true by lia.
    rewrite skipn_app_exact by (unfold zlen; lia).
    rewrite firstn_all2 by (rewrite app_length; unfold zlen; lia).
    rewrite IH; auto.
    + rewrite <- !app_assoc. f_equal. f_equal. f_equal. f_equal. rewrite skipn_skipn, app_length. reflexivity.
    + rewrite zlen_skipn. unfold zlen in *. lia.
Qed.

(** C05 *)
Lemma packbits_decode ls dest post :
  Forall line_ok ls -> zlen (expand_lines ls) <= zlen dest ->
  decodePackBitsPerLine dest (flat_map enc_line ls ++ post) (map (fun l => zlen (enc_line l)) ls) =
  Ok (overwrite dest (expand_lines ls)).
Proof. intros. unfold decodePackBitsPerLine. now rewrite pb_lines_forward. Qed.

(** Whatever the line holds: an error, or the line is well formed. *)
Lemma pb_line_total fuel : forall done dest buf ln i,
  bytes_ok buf -> 0 <= i <= ln -> ln <= zlen buf -> ln - i < Z.of_nat fuel ->
  match pb_line fuel done dest buf ln i with
  | Ok (done', dest') => exists ps, line_ok ps /\
      firstn (Z.to_nat (ln - i)) (skipn (Z.to_nat i) buf) = enc_line ps /\
      zlen (expand_line ps) <= zlen dest /\
      done' = done ++ expand_line ps /\ dest' = skipn (length (expand_line ps)) dest
  | Err e => e = EBrokenPackBits
  | Panic | NoFuel => False
  end.
Proof.
  induction fuel as [|fuel IH]; intros done dest buf ln i Hb Hi Hln Hf; [lia|].
  cbn [pb_line].
  destruct (i <? ln) eqn:E.
  2:{ exists []. repeat apply conj.
      - constructor.
      - replace (Z.to_nat (ln - i)) with 0%nat by lia. reflexivity.
      - pose proof (zlen_nonneg dest). unfold zlen in *. cbn. lia.
      - now rewrite app_nil_r.
      - reflexivity. }
  destruct (idx_in buf i ltac:(lia)) as [c Hc]. rewrite Hc.
  pose proof (Forall_idx _ _ _ _ Hb Hc) as Hcb. unfold is_byte in Hcb.
  assert (Hsplit : skipn (Z.to_nat i) buf = c :: skipn (Z.to_nat (i + 1)) buf).
  { unfold idx in Hc. replace (i <? 0) with false in Hc by lia.
    replace (Z.to_nat (i + 1)) with (S (Z.to_nat i)) by lia.
    clear - Hc. revert buf Hc. induction (Z.to_nat i); intros [|x t] Hc; cbn in *; try discriminate.
    - injection Hc as ->. reflexivity.
    - now apply IHn. }
  destruct (c <=? 127) eqn:E1.
  - destruct ((zlen dest <? c + 1) || (ln - i - 1 <? c + 1)) eqn:E2; [reflexivity|].
    cbn zeta.
    set (src := skipn (Z.to_nat (i + 1)) buf) in *.
    assert (Hsrc : zlen src = zlen buf - i - 1) by (unfold src; rewrite zlen_skipn; lia).
    set (lit := firstn (Z.to_nat (c + 1)) src).
    assert (Hlit : zlen lit = c + 1) by (unfold lit; rewrite zlen_firstn; lia).
    replace (Z.to_nat (c + 1) - length lit)%nat with 0%nat by (unfold zlen in Hlit; lia).
    cbn [firstn]. rewrite app_nil_r.
    specialize (IH (done ++ lit) (skipn (Z.to_nat (c + 1)) dest) buf ln (i + (c + 1 + 1)) Hb ltac:(lia) Hln ltac:(lia)).
    destruct (pb_line fuel _ _ buf ln _) as [[done' dest']| | |]; auto.
    destruct IH as (ps & Hok & Henc & Hfit & -> & ->).
    rewrite zlen_skipn in Hfit.
    exists (Lit lit :: ps). cbn [enc_line expand_line flat_map enc_packet expand].
    fold (enc_line ps). fold (expand_line ps). repeat apply conj.
    + constructor; [|exact Hok]. cbn. split; [lia|].
      apply Forall_firstn'. apply Forall_skipn'. exact Hb.
    + rewrite Hsplit. replace (Z.to_nat (ln - i)) with (S (Z.to_nat (c + 1) + Z.to_nat (ln - (i + (c + 1 + 1)))))%nat by lia.
      cbn [firstn app]. f_equal; [lia|].
      rewrite <- Henc. rewrite <- (firstn_skipn (Z.to_nat (c + 1)) src) at 1. fold lit.
      rewrite firstn_app. rewrite (firstn_all2 lit) by (unfold zlen in Hlit; lia). f_equal.
      unfold zlen in Hlit. rewrite <- Nat2Z.id with (n := length lit), Hlit. unfold src.
      rewrite skipn_skipn. f_equal; [lia|]. f_equal. lia.
    + rewrite zlen_app, Hlit. lia.
    + now rewrite app_assoc.
    + rewrite skipn_skipn, app_length. f_equal. unfold zlen in Hlit. lia.
  - destruct (c =? 128) eqn:E2.
    + specialize (IH done dest buf ln (i + 1) Hb ltac:(lia) Hln ltac:(lia)).
      destruct (pb_line fuel _ _ buf ln _) as [[done' dest']| | |]; auto.
      destruct IH as (ps & Hok & Henc & Hfit & -> & ->).
      exists (Nop :: ps). repeat apply conj; auto.
      * constructor; [exact I|exact Hok].
      * rewrite Hsplit. replace (Z.to_nat (ln - i)) with (S (Z.to_nat (ln - (i + 1)))) by lia.
        cbn [firstn enc_line flat_map enc_packet app]. fold (enc_line ps). f_equal; [lia|exact Henc].
    + assert (Hl : u8 (- c) + 1 = 257 - c).
      { unfold u8. replace (- c) with (256 - c + (-1) * 256) by lia.
        rewrite Z.mod_add by lia. rewrite Z.mod_small; lia. }
      rewrite Hl.
      destruct ((zlen dest <? 257 - c) || (ln <=? i + 1)) eqn:E3; [reflexivity|].
      destruct (idx_in buf (i + 1) ltac:(lia)) as [v Hv]. rewrite Hv.
      pose proof (Forall_idx _ _ _ _ Hb Hv) as Hvb.
      assert (Hsplit2 : skipn (Z.to_nat (i + 1)) buf = v :: skipn (Z.to_nat (i + 2)) buf).
      { unfold idx in Hv. replace (i + 1 <? 0) with false in Hv by lia.
        replace (Z.to_nat (i + 2)) with (S (Z.to_nat (i + 1))) by lia.
        clear - Hv. revert buf Hv. induction (Z.to_nat (i + 1)); intros [|x t] Hv; cbn in *; try discriminate.
        - injection Hv as ->. reflexivity.
        - now apply IHn. }
      specialize (IH (done ++ zrepeat v (257 - c)) (skipn (Z.to_nat (257 - c)) dest) buf ln (i + 2) Hb ltac:(lia) Hln ltac:(lia)).
      destruct (pb_line fuel _ _ buf ln _) as [[done' dest']| | |]; auto.
      destruct IH as (ps & Hok & Henc & Hfit & -> & ->).
      rewrite zlen_skipn in Hfit.
      exists (Rep (257 - c) v :: ps). cbn [enc_line expand_line flat_map enc_packet expand].
      fold (enc_line ps). fold (expand_line ps). repeat apply conj.
      * constructor; [|exact Hok]. cbn. split; [lia|exact Hvb].
      * rewrite Hsplit, Hsplit2. replace (Z.to_nat (ln - i)) with (S (S (Z.to_nat (ln - (i + 2))))) by lia.
        cbn [firstn app]. f_equal; [lia|]. f_equal. exact Henc.
      * rewrite zlen_app, zlen_repeat. lia.
      * unfold zrepeat. now rewrite <- app_assoc.
      * rewrite skipn_skipn, app_length, repeat_length. reflexivity.
Qed.

Lemma pb_lines_total lens : forall done dest buf,
  bytes_ok buf -> Forall (fun l => 0 <= l) lens -> zsum lens <= zlen buf ->
  match pb_lines done dest buf lens with
  | Ok d => exists ls, Forall line_ok ls /\ map (fun l => zlen (enc_line l)) ls = lens /\
      firstn (Z.to_nat (zsum lens)) buf = flat_map enc_line ls /\
      zlen (expand_lines ls) <= zlen dest /\ d = done ++ overwrite dest (expand_lines ls)
  | Err e => e = EBrokenPackBits
  | Panic | NoFuel => False
  end.
Proof.
  induction lens as [|ln lens IH]; intros done dest buf Hb Hl Hs; cbn [pb_lines].
  - exists []. repeat apply conj; auto. pose proof (zlen_nonneg dest). unfold zlen in *. cbn. lia.
  - inversion Hl; subst. cbn [zsum fold_right] in *. fold (zsum lens) in *. cbn beta in *.
    assert (0 <= zsum lens).
    { clear - H2. induction lens; cbn; [lia|]. inversion H2; subst. fold (zsum lens). specialize (IHlens H3). lia. }
    pose proof (pb_line_total (S (length buf)) done dest buf ln 0 Hb ltac:(lia) ltac:(lia) ltac:(unfold zlen in *; lia)) as T.
    destruct (pb_line _ done dest buf ln 0) as [[done' dest']| | |]; cbn [obind]; auto.
    destruct T as (ps & Hok & Henc & Hfit & -> & ->).
    unfold slice. replace ((0 <=? ln) && (ln <=? zlen buf) && (zlen buf <=? zlen buf)) with true by lia.
    rewrite firstn_all2 by (rewrite skipn_length; unfold zlen; lia).
    specialize (IH (done ++ expand_line ps) (skipn (length (expand_line ps)) dest) (skipn (Z.to_nat ln) buf)
      (Forall_skipn' _ _ _ Hb) H2 ltac:(rewrite zlen_skipn; lia)).
    destruct (pb_lines _ _ _ lens) as [d| | |]; auto.
    destruct IH as (ls & Hls & Hmap & Hbuf & Hfit2 & ->).
    rewrite Z.sub_0_r in Henc. change (Z.to_nat 0) with 0%nat in Henc. cbn [skipn] in Henc.
    exists (ps :: ls). cbn [map flat_map expand_lines]. fold (expand_lines ls). repeat apply conj; auto.
    + f_equal; [|exact Hmap]. rewrite <- Henc, zlen_firstn. lia.
    + rewrite <- Henc, <- Hbuf.
      rewrite Z2Nat.inj_add by lia.
      rewrite <- (firstn_skipn (Z.to_nat ln) buf) at 1.
      assert (length (firstn (Z.to_nat ln) buf) = Z.to_nat ln) as Lf by (rewrite firstn_length; unfold zlen in *; lia).
      rewrite firstn_app, Lf, firstn_all2 by lia. f_equal. f_equal. lia.
    + rewrite zlen_app. rewrite zlen_skipn in Hfit2. unfold zlen in *. lia.
    + unfold overwrite. rewrite skipn_skipn, app_length, <- !app_assoc. reflexivity.
Qed.

(** C06 *)
Lemma packbits_safe dest buf lens :
  bytes_ok buf -> Forall (fun l => 0 <= l) lens -> zsum lens <= zlen buf ->
  let wf (ls : list line) :=
    Forall line_ok ls /\ map (fun l => zlen (enc_line l)) ls = lens /\
    firstn (Z.to_nat (zsum lens)) buf = flat_map enc_line ls /\
    zlen (expand_lines ls) <= zlen dest in
  match decodePackBitsPerLine dest buf lens with
  | Ok d => zlen d = zlen dest /\ exists ls, wf ls /\ d = overwrite dest (expand_lines ls)
  | Err e => e = EBrokenPackBits /\ ~ exists ls, wf ls
  | Panic | NoFuel => False
  end.
Proof.
  intros Hb Hl Hs wf. pose proof (pb_lines_total lens [] dest buf Hb Hl Hs) as T.
  unfold decodePackBitsPerLine.
  destruct (pb_lines [] dest buf lens) as [d|e| |] eqn:R; auto.
  - destruct T as (ls & H1 & H2 & H3 & H4 & ->). cbn [app]. split.
    + unfold overwrite. rewrite zlen_app, zlen_skipn. unfold zlen in *. lia.
    + exists ls. split; [|reflexivity]. unfold wf. auto.
  - split; [exact T|]. intros (ls & H1 & H2 & H3 & H4).
    pose proof (pb_lines_forward ls [] dest (skipn (Z.to_nat (zsum lens)) buf) H1 H4) as F.
    rewrite <- H3, firstn_skipn, H2, R in F. discriminate.
Qed.
