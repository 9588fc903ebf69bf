(** Proofs about UTF-16 strings with lone surrogates. *)
From Verif Require Import Base BaseFacts MUtil SUtil PUtil SUtf16.
Open Scope Z_scope.

Lemma utf16_decode_means us rs : means16 us rs -> utf16_decode us = rs /\ Forall is_scalar rs.
Proof.
  induction 1 as [|r us rs Hr H [IH F]|u us rs Hu Hl H [IH F]].
  - auto.
  - split; [|now constructor]. unfold utf16_of. destruct (r <? 65536) eqn:E; cbn [app utf16_decode].
    + unfold is_scalar in Hr. replace ((r <? 55296) || (57344 <=? r)) with true by lia. now rewrite IH.
    + unfold is_scalar in Hr. set (a := (r - 65536) / 1024). set (b := (r - 65536) mod 1024).
      assert (0 <= b < 1024) by (apply Z.mod_pos_bound; lia).
      assert (0 <= a < 1024) by (unfold a; split; [apply Z.div_pos; lia|apply Z.div_lt_upper_bound; lia]).
      assert (r - 65536 = 1024 * a + b) by (apply Z.div_mod; lia).
      replace ((55296 + a <? 55296) || (57344 <=? 55296 + a)) with false by lia.
      replace ((55296 <=? 55296 + a) && (55296 + a <? 56320)) with true by lia.
      replace ((56320 <=? 56320 + b) && (56320 + b <? 57344)) with true by lia.
      rewrite IH. f_equal. replace (55296 + a - 55296) with a by lia. replace (56320 + b - 56320) with b by lia.
      rewrite Z.shiftl_mul_pow2 by lia. rewrite lor_head by lia. lia.
  - split; [|constructor; [unfold is_scalar; lia|exact F]]. cbn [utf16_decode].
    replace ((u <? 55296) || (57344 <=? u)) with false by lia.
    destruct (Z.ltb_spec u 56320).
    + replace (55296 <=? u) with true by lia. cbn [andb]. destruct us as [|v t]; [cbn in IH; congruence|].
      specialize (Hl H0 v t eq_refl). unfold is_low in Hl. replace ((56320 <=? v) && (v <? 57344)) with false by lia. now rewrite IH.
    + rewrite andb_false_r. now rewrite IH.
Qed.

(** Every sequence of code units means something. *)
Lemma means16_ex us : Forall is_unit us -> exists rs, means16 us rs.
Proof.
  assert (forall n us, (length us <= n)%nat -> Forall is_unit us -> exists rs, means16 us rs) as H.
  { induction n as [|n IH]; intros l L F.
    - destruct l; [exists []; constructor|cbn in L; lia].
    - destruct l as [|u t]; [exists []; constructor|]. inversion F as [|? ? Fu Ft]; subst. unfold is_unit in Fu. cbn in L.
      destruct (Z.ltb_spec u 55296) as [Hu|Hu]; [|destruct (Z.leb_spec 57344 u) as [Hu'|Hu']].
      + destruct (IH t ltac:(lia) Ft) as [rs M]. exists (u :: rs). replace (u :: t) with (utf16_of u ++ t); [constructor; [unfold is_scalar; lia|exact M]|].
        unfold utf16_of. now replace (u <? 65536) with true by lia.
      + destruct (IH t ltac:(lia) Ft) as [rs M]. exists (u :: rs). replace (u :: t) with (utf16_of u ++ t); [constructor; [unfold is_scalar; lia|exact M]|].
        unfold utf16_of. now replace (u <? 65536) with true by lia.
      + destruct t as [|v t'].
        { exists [65533]. apply m_lone; [lia|intros _ v t; discriminate|constructor]. }
        destruct (Z.ltb_spec u 56320) as [Hh|Hh], ((56320 <=? v) && (v <? 57344)) eqn:Hv.
        * destruct (IH t' ltac:(cbn in *; lia)) as [rs M]; [now inversion Ft|].
          set (r := 65536 + (u - 55296) * 1024 + (v - 56320)). exists (r :: rs).
          replace (u :: v :: t') with (utf16_of r ++ t'); [constructor; [unfold is_scalar, r; lia|exact M]|].
          unfold utf16_of. replace (r <? 65536) with false by (unfold r; lia). cbn [app].
          replace (r - 65536) with ((v - 56320) + (u - 55296) * 1024) by (unfold r; lia).
          rewrite Z.div_add, Z.mod_add by lia. rewrite (Z.div_small (v - 56320)), (Z.mod_small (v - 56320)) by lia.
          f_equal; [lia|f_equal; lia].
        * destruct (IH (v :: t') ltac:(cbn in *; lia) Ft) as [rs M]. exists (65533 :: rs). apply m_lone; [lia| |exact M].
          intros _ v' t0 E. injection E as -> ->. unfold is_low. lia.
        * destruct (IH (v :: t') ltac:(cbn in *; lia) Ft) as [rs M]. exists (65533 :: rs). apply m_lone; [lia|lia|exact M].
        * destruct (IH (v :: t') ltac:(cbn in *; lia) Ft) as [rs M]. exists (65533 :: rs). apply m_lone; [lia|lia|exact M]. }
  exact (H (length us) us (le_n _)).
Qed.

Lemma readUnicodeString_any us post : Forall is_unit us -> zlen us < 4294967296 ->
  exists rs, means16 us rs /\ (forall rs', means16 us rs' -> rs' = rs) /\
    readUnicodeString (be 4 (zlen us) ++ flat_map (be 2) us ++ post) = Some (flat_map utf8_of rs).
Proof.
  intros F L. destruct (means16_ex us F) as [rs M]. exists rs. split; [exact M|].
  destruct (utf16_decode_means us rs M) as [D S]. split.
  - intros rs' M'. destruct (utf16_decode_means us rs' M') as [D' _]. congruence.
  - unfold readUnicodeString. pose proof (zlen_nonneg us).
    pose proof (readUint32_be [] (flat_map (be 2) us ++ post) (zlen us) 0 eq_refl ltac:(lia)) as R. cbn [app] in R. rewrite R.
    destruct (Z.eqb_spec (zlen us) 0) as [Z0|Z0].
    + destruct us; [|rewrite zlen_cons in Z0; pose proof (zlen_nonneg us); lia]. cbn in D. now subst rs.
    + rewrite !zlen_app, flat_map_be_zlen, zlen_be. pose proof (zlen_nonneg post). replace (_ <? _) with false by lia.
      replace (Z.to_nat (zlen us)) with (length us) by (unfold zlen; lia).
      rewrite (read_units_be us (be 4 (zlen us)) post 4) by (rewrite ?zlen_be; auto; lia). cbn [option_map].
      now rewrite D, utf8_encode_scalar.
Qed.
