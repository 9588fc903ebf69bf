(** Prediction, and the decoder of compressed image data as a program. *)
From Verif Require Import Base BaseFacts MUtil SUtil PUtil MRect MReader MSched MCompress SCompress PCompress PCompress2
  MConfig MLayer PReader PConfig2.

Lemma upd_mid {A} (pre : list A) x post v : upd (pre ++ x :: post) (zlen pre) v = Some (pre ++ v :: post).
Proof.
  unfold upd. rewrite zlen_app, zlen_cons. pose proof (zlen_nonneg pre). pose proof (zlen_nonneg post).
  replace ((0 <=? zlen pre) && _) with true by lia.
  replace (Z.to_nat (zlen pre)) with (length pre) by (unfold zlen; lia). f_equal. apply PSched.upd_nat_app.
Qed.

Lemma writeUint16_be pre post u v : 0 <= v < 65536 ->
  writeUint16 (pre ++ be 2 u ++ post) v (zlen pre) = Some (pre ++ be 2 v ++ post).
Proof.
  intros Hv. unfold writeUint16. cbn [be app]. rewrite upd_mid.
  assert (E : forall (a : bytes) b c, a ++ b :: c = (a ++ [b]) ++ c) by (intros; now rewrite <- app_assoc).
  rewrite E. replace (zlen pre + 1) with (zlen (pre ++ [u8 (Z.shiftr v 8)])) by (rewrite zlen_app; reflexivity).
  rewrite upd_mid, <- app_assoc. cbn [app]. unfold u8. rewrite Z.shiftr_div_pow2 by lia.
  change (256 ^ Z.of_nat 1) with 256. change (256 ^ Z.of_nat 0) with 1. change (2 ^ 8) with 256. now rewrite Z.div_1_r.
Qed.

Lemma writeUint32_be pre post u v : 0 <= v < 4294967296 ->
  writeUint32 (pre ++ be 4 u ++ post) v (zlen pre) = Some (pre ++ be 4 v ++ post).
Proof.
  intros Hv. unfold writeUint32. cbn [be app]. rewrite upd_mid.
  assert (E : forall (a : bytes) b c, a ++ b :: c = (a ++ [b]) ++ c) by (intros; now rewrite <- app_assoc).
  rewrite E. set (p1 := pre ++ [u8 (Z.shiftr v 24)]).
  replace (zlen pre + 1) with (zlen p1) by (unfold p1; rewrite zlen_app; reflexivity). rewrite upd_mid, E.
  set (p2 := p1 ++ [u8 (Z.shiftr v 16)]).
  replace (zlen pre + 2) with (zlen p2) by (unfold p2, p1; rewrite !zlen_app; unfold zlen; cbn [length]; lia). rewrite upd_mid, E.
  set (p3 := p2 ++ [u8 (Z.shiftr v 8)]).
  replace (zlen pre + 3) with (zlen p3) by (unfold p3, p2, p1; rewrite !zlen_app; unfold zlen; cbn [length]; lia). rewrite upd_mid.
  unfold p3, p2, p1. rewrite <- !app_assoc. cbn [app]. unfold u8. rewrite !Z.shiftr_div_pow2 by lia.
  change (256 ^ Z.of_nat 3) with (2 ^ 24). change (256 ^ Z.of_nat 2) with (2 ^ 16). change (256 ^ Z.of_nat 1) with (2 ^ 8).
  change (256 ^ Z.of_nat 0) with 1. now rewrite Z.div_1_r.
Qed.

Lemma delta_row16_correct row : forall d pre post, 0 <= d < 65536 -> Forall (fun x => 0 <= x < 65536) row ->
  delta_row16 (length row) d (pre ++ flat_map (be 2) (row_diff 65536 d row) ++ post) (zlen pre) =
  Some (pre ++ flat_map (be 2) row ++ post, zlen pre + 2 * zlen row).
Proof.
  induction row as [|x row IH]; intros d pre post Hd Hr; cbn [length delta_row16 row_diff flat_map].
  - cbn [app]. replace (zlen pre + 2 * zlen (@nil Z)) with (zlen pre) by (unfold zlen; cbn; lia). reflexivity.
  - inversion Hr; subst. rewrite <- app_assoc.
    rewrite readUint16_be; [|reflexivity|apply Z.mod_pos_bound; lia].
    assert (u16 (d + (x - d) mod 65536) = x) as ->.
    { unfold u16. rewrite Zplus_mod_idemp_r. replace (d + (x - d)) with x by lia. now apply Z.mod_small. }
    rewrite writeUint16_be by easy.
    rewrite (app_assoc pre (be 2 x)). replace (zlen pre + 2) with (zlen (pre ++ be 2 x)) by (rewrite zlen_app, zlen_be; lia).
    rewrite IH by easy. rewrite <- !app_assoc, !zlen_app, zlen_be, zlen_cons. f_equal. f_equal. lia.
Qed.

Lemma delta_row32_correct row : forall d pre post, 0 <= d < 4294967296 -> Forall (fun x => 0 <= x < 4294967296) row ->
  delta_row32 (length row) d (pre ++ flat_map (be 4) (row_diff 4294967296 d row) ++ post) (zlen pre) =
  Some (pre ++ flat_map (be 4) row ++ post, zlen pre + 4 * zlen row).
Proof.
  induction row as [|x row IH]; intros d pre post Hd Hr; cbn [length delta_row32 row_diff flat_map].
  - cbn [app]. replace (zlen pre + 4 * zlen (@nil Z)) with (zlen pre) by (unfold zlen; cbn; lia). reflexivity.
  - inversion Hr; subst. rewrite <- app_assoc.
    rewrite readUint32_be; [|reflexivity|apply Z.mod_pos_bound; lia].
    assert (u32 (d + (x - d) mod 4294967296) = x) as ->.
    { unfold u32. rewrite Zplus_mod_idemp_r. replace (d + (x - d)) with x by lia. now apply Z.mod_small. }
    rewrite writeUint32_be by easy.
    rewrite (app_assoc pre (be 4 x)). replace (zlen pre + 4) with (zlen (pre ++ be 4 x)) by (rewrite zlen_app, zlen_be; lia).
    rewrite IH by easy. rewrite <- !app_assoc, !zlen_app, zlen_be, zlen_cons. f_equal. f_equal. lia.
Qed.

Lemma row_diff_length m row : forall p, length (row_diff m p row) = length row.
Proof. induction row; intros; cbn; auto. Qed.

Lemma delta_rows_correct (n : nat) m (drow : nat -> Z -> bytes -> Z -> option (bytes * Z)) w :
  (1 <= n)%nat -> (1 <= w)%nat -> 0 < m ->
  (forall row d pre post, 0 <= d < m -> Forall (fun x => 0 <= x < m) row ->
    drow (length row) d (pre ++ flat_map (be n) (row_diff m d row) ++ post) (zlen pre) =
    Some (pre ++ flat_map (be n) row ++ post, zlen pre + Z.of_nat n * zlen row)) ->
  forall rows fuel pre, (length rows <= fuel)%nat ->
  Forall (fun r => length r = w /\ Forall (fun x => 0 <= x < m) r) rows ->
  delta_rows (drow w 0) fuel (pre ++ enc_rows n (map (row_diff m 0) rows)) (zlen pre) = Ok (pre ++ enc_rows n rows).
Proof.
  intros Hn Hw Hm Hrow. induction rows as [|r rows IH]; intros fuel pre Hf Hr.
  - cbn [map enc_rows flat_map]. rewrite app_nil_r. destruct fuel; cbn [delta_rows]; now rewrite Z.ltb_irrefl.
  - inversion Hr as [|? ? [Hlen Hsam] Hr']; subst.
    cbn [map enc_rows flat_map]. fold (enc_rows n (map (row_diff m 0) rows)). fold (enc_rows n rows).
    destruct fuel as [|fuel]; [cbn in Hf; lia|]. cbn [delta_rows].
    rewrite !zlen_app, flat_map_be_zlen.
    replace (zlen (row_diff m 0 r)) with (zlen r) by (unfold zlen; now rewrite row_diff_length).
    pose proof (zlen_nonneg (enc_rows n (map (row_diff m 0) rows))).
    replace (zlen pre <? _) with true by (unfold zlen in *; nia).
    rewrite Hrow by (auto; lia).
    rewrite (app_assoc pre). replace (zlen pre + Z.of_nat n * zlen r) with (zlen (pre ++ flat_map (be n) r)) by (rewrite zlen_app, flat_map_be_zlen; reflexivity).
    rewrite IH; auto; [now rewrite <- app_assoc|cbn in Hf; lia].
Qed.

Lemma enc_rows_length n m w rows : (1 <= n)%nat -> (1 <= w)%nat ->
  Forall (fun r => length r = w /\ Forall (fun x => 0 <= x < m) r) rows ->
  (length rows <= length (enc_rows n (map (row_diff m 0) rows)))%nat.
Proof.
  intros Hn Hw. induction 1 as [|r rows [H1 H2] H IH]; [cbn; lia|].
  cbn [map enc_rows flat_map length]. rewrite app_length. fold (enc_rows n (map (row_diff m 0) rows)).
  pose proof (flat_map_be_zlen n (row_diff m 0 r)) as L. unfold zlen in L. rewrite row_diff_length in L. nia.
Qed.

(** C09 *)
Lemma decodeDelta_correct depth (n : nat) m w rows :
  (depth = 16 /\ n = 2%nat /\ m = 65536) \/ (depth = 32 /\ n = 4%nat /\ m = 4294967296) ->
  1 <= w -> Forall (fun r => zlen r = w /\ Forall (fun x => 0 <= x < m) r) rows ->
  decodeDelta (enc_rows n (map (row_diff m 0) rows)) w depth = Ok (enc_rows n rows).
Proof.
  intros Hd Hw Hr.
  assert (Hr' : Forall (fun r => length r = Z.to_nat w /\ Forall (fun x => 0 <= x < m) r) rows).
  { eapply Forall_impl; [|exact Hr]. intros a [H1 H2]. split; [unfold zlen in H1; lia|exact H2]. }
  pose proof (enc_rows_length n m (Z.to_nat w) rows ltac:(lia) ltac:(lia) Hr') as L.
  unfold decodeDelta. destruct Hd as [(-> & -> & ->)|(-> & -> & ->)].
  - change (16 =? 16) with true. cbn iota.
    apply (delta_rows_correct 2 65536 delta_row16 (Z.to_nat w) ltac:(lia) ltac:(lia) ltac:(lia) delta_row16_correct rows _ [] L Hr').
  - change (32 =? 16) with false. change (32 =? 32) with true. cbn iota.
    apply (delta_rows_correct 4 4294967296 delta_row32 (Z.to_nat w) ltac:(lia) ltac:(lia) ltac:(lia) delta_row32_correct rows _ [] L Hr').
Qed.

(** * RLE data as read from the file *)

Definition table (large : bool) (ls : list line) : bytes :=
  flat_map (fun l => be (if large then 4 else 2) (zlen (enc_line l))) ls.

Lemma table_zlen large ls : zlen (table large ls) = zlen ls * (if large then 4 else 2).
Proof.
  induction ls; [reflexivity|]. cbn [table flat_map]. fold (table large ls).
  rewrite zlen_app, zlen_be, zlen_cons. destruct large; lia.
Qed.

Lemma read_lens_table (large : bool) ls : Forall (fun l => zlen (enc_line l) < if large then 4294967296 else 65536) ls ->
  forall pre post, read_lens large (pre ++ table large ls ++ post) (zlen pre) (length ls) = Some (elens ls).
Proof.
  induction 1 as [|l ls Hl H IH]; intros pre post; [reflexivity|].
  cbn [length read_lens table flat_map elens map]. fold (table large ls). fold (elens ls).
  pose proof (zlen_nonneg (enc_line l)).
  assert ((if large then readUint32 (pre ++ (be (if large then 4 else 2) (zlen (enc_line l)) ++ table large ls) ++ post) (zlen pre)
           else readUint16 (pre ++ (be (if large then 4 else 2) (zlen (enc_line l)) ++ table large ls) ++ post) (zlen pre)) = Some (zlen (enc_line l))) as ->.
  { rewrite <- app_assoc. destruct large; [apply readUint32_be|apply readUint16_be]; auto; lia. }
  rewrite <- app_assoc, (app_assoc pre).
  replace (zlen pre + (if large then 4 else 2)) with (zlen (pre ++ be (if large then 4 else 2) (zlen (enc_line l))))
    by (rewrite zlen_app, zlen_be; destruct large; lia).
  rewrite IH. reflexivity.
Qed.

Section prog.
  Variable inflate : bytes -> Z -> option (bytes * Z).

  Lemma parses_decodePackBits procs dest width (large : bool) ls :
    (1 <= procs)%nat -> 0 <= width -> Forall (full width) ls -> zlen ls * width <= zlen dest ->
    Forall (fun l => zlen (enc_line l) < if large then 4294967296 else 65536) ls ->
    zlen (enc_rle large ls) <= max_alloc ->
    parses inflate (decodePackBits procs dest width (zlen ls) large) (enc_rle large ls)
      (overwrite dest (expand_lines ls), zlen (enc_rle large ls)).
  Proof.
    intros Hp Hw Hf Hd Hl Hm. unfold decodePackBits, enc_rle in *. fold (table large ls) in *. fold (encs ls) in *.
    rewrite zlen_app in Hm. pose proof (zlen_nonneg (table large ls)). pose proof (zlen_nonneg (encs ls)).
    assert (Ht : zlen ls * Z.shiftr (get4or8 large) 1 = zlen (table large ls)).
    { rewrite table_zlen. destruct large; reflexivity. }
    rewrite Ht. eapply parses_bind0; [apply parses_make_ok; lia|].
    eapply parses_bind; [apply parses_rfull; reflexivity|].
    eapply parses_bind0.
    { apply parses_lift. pose proof (read_lens_table large ls Hl [] []) as T. rewrite app_nil_r in T. cbn [app] in T.
      replace (Z.to_nat (zlen ls)) with (length ls) by (unfold zlen; lia). exact T. }
    rewrite zsum_elens. eapply parses_bind0; [apply parses_make_ok; lia|].
    rewrite <- (app_nil_r (encs ls)) at 2.
    eapply parses_bind; [apply parses_rfull; reflexivity|].
    rewrite packbits_workers by auto. cbn [of_outcome bind].
    rewrite zlen_app. apply parses_ret.
  Qed.

  (** C07 at the level of CompressionMethod.Decode. *)
  Lemma parses_rle procs hint r depth channels (large : bool) ls :
    let width := if depth =? 1 then (rdx r + 7) / 8 else rdx r in
    (1 <= procs)%nat -> 0 <= width -> zlen ls = rdy r * channels ->
    Forall (fun l => line_ok l /\ zlen (expand_line l) = width) ls ->
    Forall (fun l => zlen (enc_line l) < if large then 4294967296 else 65536) ls ->
    zlen (enc_rle large ls) <= max_alloc ->
    parses inflate (decompress procs 1 (zlen ls * width) hint r depth channels large) (enc_rle large ls)
      (expand_lines ls, zlen (enc_rle large ls)).
  Proof.
    intros width Hp Hw Hn Hf Hl Hm. unfold decompress.
    change (1 =? 0) with false. change (1 =? 1) with true. cbn iota zeta.
    rewrite Z.shiftr_div_pow2 by lia. change (2 ^ 3) with 8. fold width. rewrite <- Hn.
    pose proof (zlen_nonneg ls).
    pose proof (parses_decodePackBits procs (zrepeat 0 (zlen ls * width)) width large ls Hp Hw Hf) as P.
    rewrite zlen_zrepeat in P by nia. specialize (P ltac:(lia) Hl Hm).
    assert (overwrite (zrepeat 0 (zlen ls * width)) (expand_lines ls) = expand_lines ls) as E.
    { unfold overwrite. pose proof (full_expand width ls Hf) as F.
      rewrite skipn_all2, app_nil_r; [reflexivity|]. unfold zrepeat. rewrite repeat_length. unfold zlen in *. lia. }
    rewrite E in P. exact P.
  Qed.
End prog.

Lemma packbits_schedules' procs dest width ls : (1 <= procs)%nat -> 0 <= width -> ls <> [] ->
  Forall (fun l => line_ok l /\ zlen (expand_line l) = width) ls -> zlen ls * width <= zlen dest ->
  exists ts,
    (let n := worker_count procs (zlen ls) in
     let lens := map (fun l => zlen (enc_line l)) ls in
     pb_tasks (n - 1) dest (flat_map enc_line ls) lens (offsets_from 0 lens) width
       (Z.quot (zlen ls) (Z.of_nat n)) 0 = Some ts /\ length ts = n) /\
    (forall t, In t ts -> exists d, pb_run t = Ok d) /\
    forall r, interleave (pb_traces 0 ts) r -> exec store r dest = overwrite dest (expand_lines ls).
Proof.
  intros H1 H2 H3 H4 H5.
  destruct (packbits_schedules procs dest width ls H1 H2 H3 H4 H5) as (ts & T1 & T2 & T3 & T4).
  exists ts. split; [split; [exact T1|exact T2]|]. split; [exact T3|exact T4].
Qed.

Lemma rle_cpus_refuted :
  exists r ls data,
    Forall line_ok ls /\ Forall (fun l => zlen (expand_line l) = 2 * rdx r) ls /\ zlen ls = rdy r /\
    data = enc_rle false ls /\
    forall inflate kind,
    run inflate kind (decompress 1 1 (2 * rdx r * rdy r) 0 r 16 1 false) data =
      (Ok ((expand_lines ls, zlen data), []), []) /\
    run inflate kind (decompress 2 1 (2 * rdx r * rdy r) 0 r 16 1 false) data = (Err EBrokenPackBits, []).
Proof.
  exists (Rct 0 0 1 4), [[Lit [1; 2]]; [Lit [3; 4]]; [Lit [5; 6]]; [Lit [7; 8]]].
  eexists. repeat apply conj; [| | reflexivity | reflexivity |].
  - repeat constructor; unfold is_byte, zlen; cbn; lia.
  - repeat constructor.
  - intros inflate kind. split; vm_compute; reflexivity.
Qed.

Lemma delta_8bit_refuted :
  exists w rows, 1 <= w /\ Forall (fun r => zlen r = w /\ Forall (fun x => 0 <= x < 256) r) rows /\
    decodeDelta (enc_rows 1 (map (row_diff 256 0) rows)) w 8 <> Ok (enc_rows 1 rows).
Proof.
  exists 2, [[1; 2]]. split; [lia|]. split; [|vm_compute; discriminate].
  repeat constructor; lia.
Qed.

Lemma delta_other_identity buf w depth : depth <> 16 -> depth <> 32 -> decodeDelta buf w depth = Ok buf.
Proof. intros H1 H2. unfold decodeDelta. now replace (depth =? 16) with false by lia; replace (depth =? 32) with false by lia. Qed.
