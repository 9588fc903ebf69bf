(** Boolean checks of the hypotheses of the theorems on layer records, for the
    examples. *)
From Coq Require Import String.
From Verif Require Import Base BaseFacts SUtil PUtil MRect MPicker MConfig SConfig SCompress MLayer SRecord.

Definition no8b (p : bytes) : bool := negb (existsb (Z.eqb 56) p).
Lemma no8b_ok p : no8b p = true -> no8 p.
Proof.
  intros H Hi. apply negb_true_iff, not_true_iff_false in H. apply H. apply existsb_exists. exists 56. split; [exact Hi|reflexivity].
Qed.

Definition iblock_validb (large : bool) (b : iblock) : bool :=
  no8b (ib_pre b) && (zlen (ib_key b) =? 4) &&
  negb (existsb (list_eqb (ib_key b)) (map ascii ["Layr"; "Lr16"; "Lr32"]%string)) &&
  (zlen (ib_data b) <? if is_long large (ib_key b) then 281474976710656 else 4294967296).
Lemma iblock_validb_ok large b : iblock_validb large b = true -> iblock_valid large b.
Proof.
  unfold iblock_validb. rewrite !andb_true_iff, Z.eqb_eq, Z.ltb_lt, negb_true_iff. intros [[[H1 H2] H3] H4].
  split; [now apply no8b_ok|]. split; [exact H2|]. split; [|exact H4].
  intros Hh. apply not_true_iff_false in H3. apply H3. apply existsb_exists. exists (ib_key b). split; [exact Hh|]. apply list_eqb_refl.
Qed.
Lemma iblocks_ok large bs : forallb (iblock_validb large) bs = true -> Forall (iblock_valid large) bs.
Proof. intros H. apply Forall_forall. intros b Hb. rewrite forallb_forall in H. now apply iblock_validb_ok, H. Qed.

Definition int32b (v : Z) : bool := (-2147483648 <=? v) && (v <? 2147483648).
Definition rect_validb (r : rect) : bool :=
  int32b (rx0 r) && int32b (ry0 r) && int32b (rx1 r) && int32b (ry1 r) && (rx0 r <=? rx1 r) && (ry0 r <=? ry1 r).
Lemma rect_validb_ok r : rect_validb r = true -> rect_valid r.
Proof. unfold rect_validb, rect_valid, int32b, int32. lia. Qed.

Definition in_rangeb (o : option Z) (n : Z) : bool := match o with Some v => (0 <=? v) && (v <? n) | None => true end.
Lemma in_rangeb_ok o n : in_rangeb o n = true -> in_range o n.
Proof. destruct o; cbn; [lia|easy]. Qed.
Definition params_validb (flags : Z) (o : option sparams) : bool :=
  (0 <=? flags) && (flags <? 256) &&
  match o with
  | None => negb (Z.testbit flags 4)
  | Some p => Z.testbit flags 4 && (0 <=? sp_high p) && (sp_high p <? 16) && in_rangeb (sp_ud p) 256 &&
      in_rangeb (sp_uf p) 18446744073709551616 && in_rangeb (sp_vd p) 256 && in_rangeb (sp_vf p) 18446744073709551616
  end.
Lemma params_validb_ok flags o : params_validb flags o = true -> params_valid flags o.
Proof.
  unfold params_validb, params_valid. destruct o as [p|]; rewrite !andb_true_iff, Z.leb_le, Z.ltb_lt.
  - intros [[H1 H2] H3]. rewrite Z.leb_le, Z.ltb_lt in H3. destruct H3 as [[[[[[G1 G2] G3] G4] G5] G6] G7].
    split; [split; assumption|]. split; [exact G1|]. split; [split; assumption|].
    split; [now apply in_rangeb_ok|]. split; [now apply in_rangeb_ok|]. split; now apply in_rangeb_ok.
  - intros [[H1 H2] H3]. split; [split; assumption|]. now apply negb_true_iff.
Qed.

Definition smask_validb (m : smask) : bool :=
  match m with
  | SNone => true
  | SShort r c f p pad => rect_validb r && params_validb f p && (zlen (enc_params p) + zlen pad =? 2)
  | SLong r c f p rf rc rr => rect_validb r && params_validb f p && rect_validb rr && (0 <=? rx0 rr) && (0 <=? ry0 rr)
  end.
Lemma smask_validb_ok m : smask_validb m = true -> smask_valid m.
Proof.
  destruct m; cbn [smask_validb smask_valid]; rewrite ?andb_true_iff.
  - easy.
  - intros [[H1 H2] H3]. split; [now apply rect_validb_ok|]. split; [now apply params_validb_ok|]. now apply Z.eqb_eq.
  - intros [[[[H1 H2] H3] H4] H5]. split; [now apply rect_validb_ok|]. split; [now apply params_validb_ok|].
    split; [now apply rect_validb_ok|]. split; now apply Z.leb_le.
Qed.

Definition packet_okb (p : packet) : bool :=
  match p with
  | Lit bs => (1 <=? zlen bs) && (zlen bs <=? 128) && forallb (fun b => (0 <=? b) && (b <? 256)) bs
  | Rep n v => (2 <=? n) && (n <=? 128) && (0 <=? v) && (v <? 256)
  | Nop => true
  end.
Lemma bytes_okb' s : forallb (fun b => (0 <=? b) && (b <? 256)) s = true -> bytes_ok s.
Proof.
  intros H. apply Forall_forall. intros x Hx. rewrite forallb_forall in H. specialize (H x Hx). unfold is_byte. lia.
Qed.
Lemma packet_okb_ok p : packet_okb p = true -> packet_ok p.
Proof.
  destruct p; cbn [packet_okb packet_ok]; rewrite ?andb_true_iff, ?Z.leb_le, ?Z.ltb_lt.
  - intros [[H1 H2] H3]. split; [split; assumption|now apply bytes_okb'].
  - unfold is_byte. lia.
  - easy.
Qed.

(** ZIP data is not checked. *)
Definition payload_validb (large : bool) (r : rect) (depth : Z) (p : payload) : bool :=
  (plane_bytes r depth <=? 281474976710656) &&
  match p with
  | PRaw d => zlen d =? plane_bytes r depth
  | PRle ls => ((depth =? 1) || (depth =? 8)) && (zlen ls =? rdy r) &&
      forallb (fun l => forallb packet_okb l && (zlen (expand_line l) =? row_bytes (rdx r) depth)) ls &&
      forallb (fun l => zlen (enc_line l) <? if large then 4294967296 else 65536) ls &&
      (zlen (enc_rle large ls) <=? 281474976710656)
  | _ => false
  end.
Lemma payload_validb_ok inflate large r depth p : payload_validb large r depth p = true -> payload_valid inflate large r depth p.
Proof.
  unfold payload_validb, payload_valid. destruct p; rewrite ?andb_true_iff, ?Z.leb_le, ?Z.eqb_eq; try easy.
  intros [H0 [[[[H1 H2] H3] H4] H5]]. split; [exact H0|]. split; [lia|]. split; [lia|]. split; [|split; [|exact H5]].
  - apply Forall_forall. intros l Hl. rewrite forallb_forall in H3. specialize (H3 l Hl). apply andb_true_iff in H3 as [G1 G2].
    split; [|lia]. apply Forall_forall. intros q Hq. rewrite forallb_forall in G1. now apply packet_okb_ok, G1.
  - apply Forall_forall. intros l Hl. rewrite forallb_forall in H4. specialize (H4 l Hl). destruct large; lia.
Qed.

Fixpoint nodupb (l : list Z) : bool := match l with [] => true | x :: l => negb (existsb (Z.eqb x) l) && nodupb l end.
Lemma nodupb_ok l : nodupb l = true -> NoDup l.
Proof.
  induction l as [|x l IH]; [constructor|]. cbn [nodupb]. rewrite andb_true_iff, negb_true_iff. intros [H1 H2]. constructor; [|auto].
  intros Hi. apply not_true_iff_false in H1. apply H1. apply existsb_exists. exists x. split; [exact Hi|apply Z.eqb_refl].
Qed.

Definition slayer_core (large : bool) (depth nch : Z) (l : slayer) : bool :=
  rect_validb (sl_rect l) && (zlen (sl_channels l) <? 65536) && nodupb (map fst (sl_channels l)) &&
  forallb (fun c => ((fst c =? -1) || (fst c =? -2) || (fst c =? -3) || ((0 <=? fst c) && (fst c <? nch))) &&
                    payload_validb large (chan_rect l (fst c)) depth (snd c) &&
                    (zlen (enc_payload large (snd c)) <? if large then 9223372036854775808 else 4294967296)) (sl_channels l) &&
  (zlen (sl_blend l) =? 4) && smask_validb (sl_mask l) && (zlen (sl_ranges l) <? 4294967296) &&
  (zlen (sl_name l) <=? 255) && (zlen (sl_npad l) <? 4) && ((1 + zlen (sl_name l) + zlen (sl_npad l)) mod 4 =? 0) &&
  forallb (iblock_validb large) (sl_info l) && no8b (sl_tail l) && (zlen (enc_extra large l) <? 4294967296).

Lemma slayer_check inflate large depth nch l : slayer_core large depth nch l = true ->
  match last_info (sl_info l) (ascii "luni") with None | Some [] => True | Some d => exists rs, luni_is d rs end ->
  match divider_info (sl_info l) with None => True | Some d => exists typ bm sub, divider_is d typ bm sub end ->
  slayer_valid inflate large depth nch l.
Proof.
  unfold slayer_core. rewrite !andb_true_iff, !Z.ltb_lt, !Z.eqb_eq, Z.leb_le.
  intros [[[[[[[[[[[[H1 H2] H3] H4] H5] H6] H7] H8] H9] H10] H11] H12] H13] L D.
  split; [now apply rect_validb_ok|]. split; [exact H2|]. split; [now apply nodupb_ok|]. split.
  { apply Forall_forall. intros c Hc. rewrite forallb_forall in H4. specialize (H4 c Hc).
    rewrite !andb_true_iff in H4. destruct H4 as [[G1 G2] G3]. split; [lia|]. split; [now apply payload_validb_ok|]. destruct large; lia. }
  split; [exact H5|]. split; [now apply smask_validb_ok|]. split; [exact H7|]. split; [exact H8|].
  split; [split; [apply zlen_nonneg|exact H9]|]. split; [exact H10|]. split; [now apply iblocks_ok|]. split; [now apply no8b_ok|].
  split; [exact H13|]. split; [exact L|exact D].
Qed.
