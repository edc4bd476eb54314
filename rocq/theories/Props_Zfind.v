(* Property theorems C07-C13: assembly of the redshift table (zfind.py). *)
From Verif Require Import Prelude PreludeFacts NumX Model_Rank Spec_Rank Proof_Rank Proof_Deltachi2
  Model_Zfind Proof_Zfind Spec_Zfind Proof_Table.

(* The row sort used below is sort_zfit_dict on the columns (any set of columns
   that contains zwarn and chi2). *)
Theorem C01_row_sort_is_dict_sort : forall cols rows,
  NoDup (map fst cols) -> ~ In BADCOL (map fst cols) ->
  In ("zwarn"%string, fun r => CInt (f_zwarn r)) cols ->
  In ("chi2"%string, fun r => CNum (f_chi2 r)) cols ->
  sort_zfit_dict (columns_of cols rows) = (columns_of cols (sort_rows rows), None).
Proof. exact rows_sort_is_dict_sort. Qed.
Print Assumptions C01_row_sort_is_dict_sort.

(* ---- example data: one target, GALAXY (2 fits) and STAR (two templates) ---- *)
Definition mk (t s : string) (z : Q) (chi : xq) (zw npix : N) (c : list Q) : frow :=
  mk_frow 0 t s z 0 chi zw npix 0 c 0 0 NaN.
Definition ex_blocks : list block :=
  [ {| b_width := 3; b_rows := [mk "GALAXY" "" (1#2) (Fin 100) 0 500 [1;2;3]%Q; mk "GALAXY" "" (3#2) (Fin 90) 32 500 [4;5;6]%Q] |};
    {| b_width := 0; b_rows := [] |};
    {| b_width := 2; b_rows := [mk "STAR" "A" (1#1000) (Fin 105) 0 15 [7;8]%Q] |};
    {| b_width := 2; b_rows := [mk "STAR" "B" (2#1000) (Fin 104) 0 15 [9;10]%Q] |} ].

(* ---------------- C07 ---------------- *)
Definition ranked_rows (rows : list frow) : Prop :=
  StronglySorted (fun a b => no_worse (f_zwarn a) (f_chi2 a) (f_zwarn b) (f_chi2 b)) rows.
Lemma ranked_rows_sorted rows : ranked_rows rows <-> StronglySorted (fun a b => row_le a b = true) rows.
Proof.
  split; apply StronglySorted_impl; intros x y _ _; apply row_le_no_worse.
Qed.

Theorem C07_trim_keeps_best_of_each_type : forall nminima rows,
  ranked_rows rows ->
  (forall t, filter (fun r => String.eqb (f_type r) t) (trim nminima rows) =
             firstn nminima (filter (fun r => String.eqb (f_type r) t) rows)) /\
  ranked_rows (trim nminima rows) /\
  (nminima >= 1 -> forall r rest, rows = r :: rest ->
     In r (trim nminima rows) /\
     exists r', hd_error (trim nminima rows) = Some r' /\
                no_worse (f_zwarn r') (f_chi2 r') (f_zwarn r) (f_chi2 r)).
Proof.
  intros n rows Hs. apply ranked_rows_sorted in Hs. split; [|split].
  - intros t. exact (trim_of_type n rows t Hs).
  - apply ranked_rows_sorted, trim_sorted, Hs.
  - intros Hn r rest ->. destruct (trim_best n r rest Hn Hs) as (H1 & r' & H2 & H3).
    split; [exact H1|]. exists r'; split; [exact H2|apply row_le_no_worse, H3].
Qed.
Print Assumptions C07_trim_keeps_best_of_each_type.

(* "the order of the kept rows is unchanged" is false when fits of different
   types tie exactly: regrouping by type name reorders them, so that even the
   best row can change. *)
Theorem C07_order_unchanged_refuted : exists rows,
  ranked_rows rows /\ exists a b, hd_error rows = Some a /\ hd_error (trim 1 rows) = Some b /\ f_type a <> f_type b.
Proof.
  exists [mk "STAR" "A" 0 (Fin 5) 0 9 []; mk "GALAXY" "" 1 (Fin 5) 0 9 []; mk "STAR" "B" 0 (Fin 6) 0 9 []].
  split; [apply ranked_rows_sorted; repeat constructor|].
  eexists; eexists; split; [reflexivity|]; split; [vm_compute; reflexivity|discriminate].
Qed.
Print Assumptions C07_order_unchanged_refuted.

Example C07_example :
  ranked_rows (sort_rows (flagged_rows None 7 ex_blocks)) /\
  map (fun r => (f_type r, f_sub r)) (trim 1 (sort_rows (flagged_rows None 7 ex_blocks))) =
    [("GALAXY", ""); ("STAR", "B")]%string.
Proof. split; [apply ranked_rows_sorted, sort_rows_sorted|vm_compute; reflexivity]. Qed.

(* at most nminima rows of each spectype in the finished table *)
Theorem C07_table_at_most_nminima_per_type : forall nminima arch tid blocks out t,
  assemble_target nminima arch tid blocks = Ok out ->
  length (filter (fun o => String.eqb (f_type o) t) out) <= nminima.
Proof. intros; eapply out_types_small; eassumption. Qed.
Print Assumptions C07_table_at_most_nminima_per_type.

(* ---------------- C08 ---------------- *)
Theorem C08_znum_and_best : forall nminima arch tid blocks out,
  nminima >= 1 -> assemble_target nminima arch tid blocks = Ok out ->
  map f_znum out = seq 0 (length out) /\
  exists o, hd_error out = Some o /\ f_znum o = 0 /\
    (forall p, In p out -> f_znum p = 0 -> p = o) /\
    (forall b r, In b blocks -> In r (b_rows b) ->
       no_worse (f_zwarn o) (f_chi2 o) (f_zwarn (prepared arch tid (max_width blocks) b r)) (f_chi2 r)).
Proof.
  intros n arch tid blocks out Hn Hok. split.
  - apply nth_error_ext. intros i. rewrite nth_error_map.
    destruct (nth_error out i) as [o|] eqn:E; cbn.
    + rewrite (out_znum _ _ _ _ _ Hok i o E). symmetry.
      rewrite nth_error_nth' with (d := 0); [f_equal; apply seq_nth|rewrite seq_length]; apply nth_error_Some_lt in E; lia.
    + apply nth_error_None in E. symmetry. apply nth_error_None. rewrite seq_length; exact E.
  - destruct (out_first_best _ _ _ _ _ Hok Hn) as (o & H1 & H2 & H3).
    exists o; repeat split; auto.
    + intros p Hp H0. apply In_nth_error in Hp as [i Hi]. rewrite (out_znum _ _ _ _ _ Hok i p Hi) in H0. subst i.
      destruct out; [discriminate|]. cbn in *; congruence.
    + apply H3; assumption.
    + intros Hiff. apply (H3 b r); assumption.
Qed.
Print Assumptions C08_znum_and_best.

(* PCA mode (no archetypes): no fit of the target is better than the znum=0 row *)
Theorem C08_best_fit_pca : forall nminima tid blocks out,
  nminima >= 1 -> assemble_target nminima None tid blocks = Ok out ->
  exists o, hd_error out = Some o /\ f_znum o = 0 /\
    forall b r, In b blocks -> In r (b_rows b) -> no_worse (f_zwarn o) (f_chi2 o) (f_zwarn r) (f_chi2 r).
Proof.
  intros n tid blocks out Hn Hok. destruct (out_first_best _ _ _ _ _ Hok Hn) as (o & H1 & H2 & H3).
  exists o; repeat split; auto; specialize (H3 b r H H0); unfold no_worse in H3;
    unfold prepared in H3; rewrite flag_row_bad_none in H3; apply H3; assumption.
Qed.
Print Assumptions C08_best_fit_pca.

(* ---------------- C09 ---------------- *)
Theorem C09_badfit_mask_is_five_bits : forall i,
  N.testbit badfit_mask i = true <-> (i = 3 \/ i = 4 \/ i = 5 \/ i = 6 \/ i = 10)%N.
Proof. exact mask_bits. Qed.
Print Assumptions C09_badfit_mask_is_five_bits.

(* every output row is a fit of the target whose zwarn bits are kept; new bits
   are only LITTLE_COVERAGE(1), SMALL_DELTA_CHI2(2), NEGATIVE_MODEL(3), NODATA(9) *)
Theorem C09_bits_only_added : forall nminima arch tid blocks out o,
  assemble_target nminima arch tid blocks = Ok out -> In o out ->
  exists b r, In b blocks /\ In r (b_rows b) /\
    f_z o = f_z r /\ f_chi2 o = f_chi2 r /\ f_type o = f_type r /\ f_sub o = f_sub r /\
    (forall k, N.testbit (f_zwarn r) k = true -> N.testbit (f_zwarn o) k = true) /\
    (forall k, N.testbit (f_zwarn o) k = true ->
       N.testbit (f_zwarn r) k = true \/ (k = 1 \/ k = 2 \/ k = 9 \/ (k = 3 /\ arch <> None))%N).
Proof.
  intros n arch tid blocks out o Hok Ho.
  destruct (out_row _ _ _ _ _ Hok o Ho) as (b & r & Hb & Hr & _ & Ht & Hsu & Hz & _ & Hc & _ & _ & _ & small & Hw).
  exists b, r; repeat split; auto.
  - intros k Hk. rewrite Hw. cbn zeta. assert (N.testbit (f_zwarn (prepared arch tid (max_width blocks) b r)) k = true).
    { unfold prepared. rewrite flag_row_bits. cbn [f_zwarn set_tid set_coeff set_prep]. rewrite Hk. reflexivity. }
    destruct small; [rewrite N.lor_spec, H; reflexivity|exact H].
  - intros k Hk. rewrite Hw in Hk. cbn zeta in Hk.
    assert (H : N.testbit (f_zwarn (prepared arch tid (max_width blocks) b r)) k = true \/ k = 2%N).
    { destruct small; [|auto]. rewrite N.lor_spec, orb_true_iff in Hk. destruct Hk as [Hk|Hk]; [auto|right].
      unfold ZW_SMALL_DELTA_CHI2 in Hk; rewrite pow2_bit in Hk; apply N.eqb_eq, Hk. }
    destruct H as [H| ->]; [|auto].
    unfold prepared in H; rewrite flag_row_bits in H. cbn [f_zwarn set_tid set_coeff set_prep] in H.
    rewrite !orb_true_iff, !andb_true_iff, !N.eqb_eq in H.
    destruct H as [[[H|[H Hn]]|[H _]]|[H _]]; auto 10.
    right; right; right; right; split; [exact H|]. destruct arch; [discriminate|discriminate].
Qed.
Print Assumptions C09_bits_only_added.

(* ---------------- C10 ---------------- *)
Theorem C10_nodata_and_coverage_flags : forall nminima arch tid blocks out o,
  assemble_target nminima arch tid blocks = Ok out -> In o out ->
  exists b r, In b blocks /\ In r (b_rows b) /\ f_npix o = f_npix r /\ f_ncoeff o = N.of_nat (b_width b) /\
    (N.testbit (f_zwarn o) 9 = true <-> N.testbit (f_zwarn r) 9 = true \/ f_npix o = 0%N) /\
    (N.testbit (f_zwarn o) 1 = true <-> N.testbit (f_zwarn r) 1 = true \/ (f_npix o < 10 * f_ncoeff o)%N).
Proof.
  intros n arch tid blocks out o Hok Ho.
  destruct (out_row _ _ _ _ _ Hok o Ho) as (b & r & Hb & Hr & _ & _ & _ & _ & _ & _ & Hp & Hn & _ & small & Hw).
  exists b, r. split; [exact Hb|]. split; [exact Hr|]. split; [exact Hp|]. split; [exact Hn|].
  assert (G : forall k, k <> 2%N -> N.testbit (f_zwarn o) k = N.testbit (f_zwarn (prepared arch tid (max_width blocks) b r)) k).
  { intros k Hk. rewrite Hw. cbn zeta. destruct small; [|reflexivity]. rewrite N.lor_spec.
    unfold ZW_SMALL_DELTA_CHI2; rewrite pow2_bit. destruct (N.eqb_spec k 2); [contradiction|]. apply orb_false_r. }
  rewrite !G by discriminate. unfold prepared. rewrite !flag_row_bits.
  cbn [f_zwarn f_npix f_ncoeff set_tid set_coeff set_prep]. rewrite Hp, Hn.
  change (N.eqb 9 3) with false. change (N.eqb 9 9) with true. change (N.eqb 9 1) with false.
  change (N.eqb 1 3) with false. change (N.eqb 1 9) with false. change (N.eqb 1 1) with true.
  cbn [andb]. rewrite !orb_false_r, !orb_true_iff, N.eqb_eq, N.ltb_lt. split; reflexivity.
Qed.
Print Assumptions C10_nodata_and_coverage_flags.

Example C09_C10_example :
  exists out, assemble_target 2 None 7 ex_blocks = Ok out /\
  map (fun r => (f_sub r, f_zwarn r, f_znum r)) out = [("", 4, 0%nat); ("B", 6, 1%nat); ("A", 6, 2%nat); ("", 32 + 0, 3%nat)]%N%string.
Proof. eexists; split; vm_compute; reflexivity. Qed.

(* ---------------- C11 ---------------- *)
Definition first_negative (r : frow) : Prop := (hd 0%Q (f_coeff r) < 0)%Q.

(* what holds: agreement with the sign, unless the coefficient is exactly zero
   and every spectype has archetypes *)
Theorem C11_negative_model_partial : forall a r,
  ar_nnear a = None -> In (f_type r) (ar_types a) ->
  (ar_all a = false \/ ~ (hd 0%Q (f_coeff r) == 0)%Q) ->
  (negative_model a r = true <-> first_negative r).
Proof.
  intros a r Hn Ht H. unfold negative_model, first_negative. rewrite Hn.
  assert (Hin : existsb (String.eqb (f_type r)) (ar_types a) = true)
    by (apply existsb_exists; exists (f_type r); split; [exact Ht|apply String.eqb_refl]).
  rewrite Hin. destruct (ar_all a).
  - destruct H as [H|H]; [discriminate|]. rewrite Qle_bool_iff. split; intros Hq; [|lra].
    destruct (Q_dec (hd 0%Q (f_coeff r)) 0) as [[Hl|Hl]|He]; [exact Hl|lra|contradiction].
  - cbn [andb]. rewrite negb_true_iff, Qle_bool_false. reflexivity.
Qed.
Print Assumptions C11_negative_model_partial.

(* with n_nearest set, both code paths flag exactly when one of the first n
   coefficients is negative *)
Theorem C11_negative_model_nearest : forall a r n,
  ar_nnear a = Some n -> In (f_type r) (ar_types a) ->
  (negative_model a r = true <-> exists c, In c (firstn n (f_coeff r)) /\ (c < 0)%Q).
Proof.
  intros a r n Hn Ht. unfold negative_model. rewrite Hn.
  assert (Hin : existsb (String.eqb (f_type r)) (ar_types a) = true)
    by (apply existsb_exists; exists (f_type r); split; [exact Ht|apply String.eqb_refl]).
  rewrite Hin. destruct (ar_all a).
  - rewrite existsb_exists. split; intros (c & Hc & Hq); exists c; split; auto; [apply qlt_iff, Hq|apply qlt_iff, Hq].
  - cbn [andb]. rewrite negb_true_iff. split.
    + intros H. destruct (existsb (fun c => qlt c 0) (firstn n (f_coeff r))) eqn:E.
      * apply existsb_exists in E as (c & Hc & Hq). exists c; split; [exact Hc|apply qlt_iff, Hq].
      * exfalso. assert (forallb (fun c => Qle_bool 0 c) (firstn n (f_coeff r)) = true); [|congruence].
        apply forallb_forall; intros c Hc. apply Qle_bool_iff.
        assert (Hq : qlt c 0 = false).
        { destruct (qlt c 0) eqn:Eq; [|reflexivity]. assert (existsb (fun c => qlt c 0) (firstn n (f_coeff r)) = true) by (apply existsb_exists; eauto). congruence. }
        apply qlt_false, Hq.
    + intros (c & Hc & Hq). destruct (forallb _ _) eqn:E; [|reflexivity].
      rewrite forallb_forall in E. specialize (E c Hc). apply Qle_bool_iff in E. lra.
Qed.
Print Assumptions C11_negative_model_nearest.

(* the full claim is false: a zero amplitude is flagged when all spectypes have
   archetypes and not flagged when only some do *)
Theorem C11_zero_amplitude_refuted : exists r types,
  ~ first_negative r /\ In (f_type r) types /\
  negative_model {| ar_all := true; ar_types := types; ar_nnear := None |} r = true /\
  negative_model {| ar_all := false; ar_types := types; ar_nnear := None |} r = false.
Proof.
  exists (mk "GALAXY" "ELG_12" 1 (Fin 5) 0 100 [0%Q; 1%Q]), ["GALAXY"%string].
  repeat split; try reflexivity; [|left; reflexivity]. unfold first_negative; cbn. lra.
Qed.
Print Assumptions C11_zero_amplitude_refuted.

(* ---------------- C12 / C13 ---------------- *)
Lemma pad_pad_app w1 w2 c : exists k, pad w2 (pad w1 c) = c ++ repeat 0%Q k.
Proof.
  unfold pad. rewrite <- app_assoc, <- repeat_app. eexists; reflexivity.
Qed.

Theorem C12_coefficients_preserved : forall nminima arch maxcoeff ids d tbl o,
  (forall tid bs, rget d tid = Some bs -> Forall wf_block bs) ->
  zfind_table nminima arch maxcoeff ids d = Ok tbl -> In o tbl ->
  exists bs b r, rget d (f_tid o) = Some bs /\ In b bs /\ In r (b_rows b) /\
    f_z o = f_z r /\ f_chi2 o = f_chi2 r /\ f_sub o = f_sub r /\
    zero_padded (f_coeff r) (f_coeff o) /\ f_ncoeff o = N.of_nat (length (f_coeff r)).
Proof.
  intros n arch maxcoeff ids d tbl o Hwf Hok Ho.
  destruct (zfind_table_shape _ _ _ _ _ _ Hok) as (ts & cut & HF & -> & Hsame & Hle & Hcut).
  apply in_concat in Ho as (t' & Ht' & Ho). apply in_map_iff in Ht' as (t & <- & Ht).
  apply in_map_iff in Ho as (r1 & <- & Hr1).
  destruct (Forall2_in_r _ _ _ _ HF Ht) as (tid & Htid & bs & Hbs & Hass).
  destruct (out_row _ _ _ _ _ Hass r1 Hr1) as (b & r & Hb & Hr & H1 & _ & H3 & H4 & _ & H6 & _ & H8 & H9 & _).
  specialize (Hwf tid bs Hbs). rewrite Forall_forall in Hwf. specialize (Hwf b Hb).
  unfold wf_block in Hwf. rewrite Forall_forall in Hwf. specialize (Hwf r Hr).
  exists bs, b, r. unfold finalised. destruct cut as [m|]; cbn; rewrite H1, H3, H4, H6, H8, H9.
  - do 3 (split; [assumption|]). do 3 (split; [reflexivity|]). split; [|rewrite Hwf; reflexivity].
    exists 0. cbn. rewrite app_nil_r.
    destruct (pad_pad_app (max_width bs) maxcoeff (f_coeff r)) as (k & ->).
    specialize (Hcut m eq_refl t r1 Ht Hr1). rewrite H8, Nat2N.id in Hcut. subst m.
    rewrite <- Hwf, firstn_app, Nat.sub_diag, firstn_all. cbn. apply app_nil_r.
  - do 3 (split; [assumption|]). do 3 (split; [reflexivity|]). split; [|rewrite Hwf; reflexivity].
    apply pad_pad_app.
Qed.
Print Assumptions C12_coefficients_preserved.

(* all rows of the final table have the same number of coefficient columns *)
Theorem C12_uniform_width : forall nminima arch maxcoeff ids d tbl o p,
  (forall tid bs, rget d tid = Some bs -> Forall wf_block bs) ->
  zfind_table nminima arch maxcoeff ids d = Ok tbl -> In o tbl -> In p tbl ->
  length (f_coeff o) = length (f_coeff p).
Proof.
  intros n arch maxcoeff ids d tbl o p Hwf Hok Ho Hp.
  destruct (zfind_table_shape _ _ _ _ _ _ Hok) as (ts & cut & HF & -> & Hsame & Hle & Hcut).
  assert (G : forall o, In o (concat (map (map (finalised maxcoeff cut)) ts)) ->
     length (f_coeff o) = match cut with None => maxcoeff | Some m => Nat.min m maxcoeff end).
  { clear o p Ho Hp. intros o Ho.
    apply in_concat in Ho as (t' & Ht' & Ho). apply in_map_iff in Ht' as (t & <- & Ht).
    apply in_map_iff in Ho as (r1 & <- & Hr1).
    destruct (Forall2_in_r _ _ _ _ HF Ht) as (tid & Htid & bs & Hbs & Hass).
    assert (Hw : length (f_coeff r1) <= maxcoeff).
    { assert (Hne : t <> []) by (intros ->; destruct Hr1).
      specialize (Hle t Ht Hne).
      rewrite (out_width _ _ _ _ _ r1 Hass (Hwf _ _ Hbs) Hr1).
      destruct t as [|r0 t]; [congruence|]. cbn [coeff_width] in Hle.
      rewrite <- (out_width _ _ _ _ _ r0 Hass (Hwf _ _ Hbs) (or_introl eq_refl)). exact Hle. }
    unfold finalised. destruct cut as [m|]; cbn; [rewrite firstn_length|]; rewrite pad_length by exact Hw; reflexivity. }
  rewrite (G o Ho), (G p Hp); reflexivity.
Qed.
Print Assumptions C12_uniform_width.

(* C13: the table is the concatenation, in the requested order, of one
   non-empty block per target id; the block holds only fits of that target and
   for each of its fits there is one of the same (6-character) type that is no
   worse. *)
Theorem C13_one_block_per_target : forall nminima maxcoeff ids d tbl,
  nminima >= 1 ->
  zfind_table nminima None maxcoeff ids d = Ok tbl ->
  exists blks, tbl = concat blks /\ length blks = length ids /\
    forall i tid, nth_error ids i = Some tid ->
    exists blk bs, nth_error blks i = Some blk /\ blk <> [] /\ rget d tid = Some bs /\
      (forall o, In o blk -> f_tid o = tid) /\
      (forall o, In o blk -> exists b r, In b bs /\ In r (b_rows b) /\
         f_type o = stake 6 (f_type r) /\ f_sub o = f_sub r /\ f_z o = f_z r /\ f_zerr o = f_zerr r /\
         f_chi2 o = f_chi2 r /\ f_npix o = f_npix r) /\
      (forall b r, In b bs -> In r (b_rows b) ->
         exists o, In o blk /\ f_type o = stake 6 (f_type r) /\ no_worse (f_zwarn o) (f_chi2 o) (f_zwarn r) (f_chi2 r)) /\
      map f_znum blk = seq 0 (length blk).
Proof.
  intros n maxcoeff ids d tbl Hn Hok.
  destruct (zfind_table_shape _ _ _ _ _ _ Hok) as (ts & cut & HF & -> & _ & _ & _).
  exists (map (map (finalised maxcoeff cut)) ts). split; [reflexivity|].
  split; [rewrite map_length; symmetry; eapply Forall2_len, HF|].
  intros i tid Hi. destruct (Forall2_nth _ _ _ _ _ HF Hi) as (t & Ht & bs & Hbs & Hass).
  exists (map (finalised maxcoeff cut) t), bs.
  assert (Hfin : forall r, f_tid (finalised maxcoeff cut r) = f_tid r /\ f_type (finalised maxcoeff cut r) = stake 6 (f_type r)
     /\ f_sub (finalised maxcoeff cut r) = f_sub r /\ f_z (finalised maxcoeff cut r) = f_z r
     /\ f_zerr (finalised maxcoeff cut r) = f_zerr r /\ f_chi2 (finalised maxcoeff cut r) = f_chi2 r
     /\ f_npix (finalised maxcoeff cut r) = f_npix r /\ f_zwarn (finalised maxcoeff cut r) = f_zwarn r
     /\ f_znum (finalised maxcoeff cut r) = f_znum r).
  { intros r; unfold finalised; destruct cut; cbn; auto 20. }
  split; [rewrite nth_error_map, Ht; reflexivity|]. split.
  { intros E. apply map_eq_nil in E. exact (out_nonempty _ _ _ _ _ Hass Hn E). }
  split; [exact Hbs|]. split; [|split; [|split]].
  - intros o Ho. apply in_map_iff in Ho as (r1 & <- & Hr1).
    destruct (out_row _ _ _ _ _ Hass r1 Hr1) as (b & r & _ & _ & H & _). rewrite (proj1 (Hfin r1)); exact H.
  - intros o Ho. apply in_map_iff in Ho as (r1 & <- & Hr1).
    destruct (out_row _ _ _ _ _ Hass r1 Hr1) as (b & r & Hb & Hr & _ & H2 & H3 & H4 & H5 & H6 & H7 & _).
    destruct (Hfin r1) as (_ & -> & -> & -> & -> & -> & -> & _).
    exists b, r. rewrite H2, H3, H4, H5, H6, H7. auto 10.
  - intros b r Hb Hr. destruct (out_best_of_type _ _ _ _ _ Hass b r Hn Hb Hr) as (o & Ho & Hto & Hw).
    exists (finalised maxcoeff cut o). destruct (Hfin o) as (_ & -> & _ & _ & _ & -> & _ & -> & _).
    split; [apply in_map, Ho|]. split; [rewrite Hto; reflexivity|].
    unfold no_worse, prepared in *. rewrite flag_row_bad_none in Hw. exact Hw.
  - rewrite map_length. rewrite map_map. erewrite map_ext; [|intros r; apply Hfin].
    apply (C08_znum_and_best _ _ _ _ _ Hn Hass).
Qed.
Print Assumptions C13_one_block_per_target.

(* locality: the block of a target before the table-wide width adjustment is a
   function of that target's results only, and does not change with the other
   targets, their order or their results *)
Theorem C13_locality : forall nminima arch ids d ids' d' i j tid ts ts',
  tables nminima arch ids d = Ok ts -> tables nminima arch ids' d' = Ok ts' ->
  nth_error ids i = Some tid -> nth_error ids' j = Some tid -> rget d tid = rget d' tid ->
  nth_error ts i = nth_error ts' j.
Proof.
  intros n arch ids d ids' d' i j tid ts ts' H1 H2 Hi Hj He.
  apply mapM_Forall2 in H1, H2.
  destruct (Forall2_nth _ _ _ _ _ H1 Hi) as (t & -> & Ht).
  destruct (Forall2_nth _ _ _ _ _ H2 Hj) as (t' & -> & Ht').
  rewrite He in Ht. destruct (rget d' tid); congruence.
Qed.
Print Assumptions C13_locality.

(* a target none of whose templates has a minimum makes the call raise: it is
   never silently dropped *)
Theorem C13_no_minima_raises : forall nminima arch maxcoeff ids d tid bs,
  In tid ids -> rget d tid = Some bs -> (forall b, In b bs -> b_rows b = []) ->
  exists e, zfind_table nminima arch maxcoeff ids d = Err e.
Proof.
  intros n arch maxcoeff ids d tid bs Hin Hg Hb.
  destruct (zfind_table n arch maxcoeff ids d) as [tbl|e] eqn:E; [exfalso|eauto].
  destruct (zfind_table_shape _ _ _ _ _ _ E) as (ts & cut & HF & _).
  apply In_nth_error in Hin as [i Hi].
  destruct (Forall2_nth _ _ _ _ _ HF Hi) as (t & _ & bs' & Hbs' & Hass).
  assert (bs' = bs) by congruence; subst bs'. unfold assemble_target in Hass.
  assert (Hf : filter nonempty bs = []).
  { clear -Hb. induction bs as [|b bs IH]; cbn; [reflexivity|].
    unfold nonempty at 1. rewrite (Hb b (or_introl eq_refl)). apply IH; intros; apply Hb; right; assumption. }
  rewrite Hf in Hass; discriminate.
Qed.
Print Assumptions C13_no_minima_raises.

(* A target that has no minimum for its widest template makes the whole table
   fail, although every target has fits. *)
Theorem C13_partial_minima_refuted : exists ids d,
  (forall tid, In tid ids -> exists bs b r, rget d tid = Some bs /\ In b bs /\ In r (b_rows b)) /\
  zfind_table 3 None 3 ids d = Err TableMergeError.
Proof.
  exists [1; 2]%Z, [(1%Z, ex_blocks); (2%Z, tl ex_blocks)]. split; [|vm_compute; reflexivity].
  intros tid [<-|[<-|[]]]; eexists; eexists; eexists; (split; [reflexivity|]).
  - split; [left; reflexivity|left; reflexivity].
  - split; [right; left; reflexivity|left; reflexivity].
Qed.
Print Assumptions C13_partial_minima_refuted.

Example C12_C13_example : exists tbl,
  zfind_table 2 None 5 [2; 1]%Z [(1%Z, ex_blocks); (2%Z, rev ex_blocks)] = Ok tbl /\
  map (fun o => (f_tid o, f_type o, f_sub o, f_znum o, length (f_coeff o))) tbl =
    [(2%Z, "GALAXY", "", 0, 5); (2%Z, "STAR", "B", 1, 5); (2%Z, "STAR", "A", 2, 5); (2%Z, "GALAXY", "", 3, 5);
     (1%Z, "GALAXY", "", 0, 5); (1%Z, "STAR", "B", 1, 5); (1%Z, "STAR", "A", 2, 5); (1%Z, "GALAXY", "", 3, 5)]%string /\
  (forall tid bs, rget [(1%Z, ex_blocks); (2%Z, rev ex_blocks)] tid = Some bs -> Forall wf_block bs).
Proof.
  eexists; split; [vm_compute; reflexivity|split; [reflexivity|]].
  intros tid bs H. cbn in H. destruct (Z.eqb tid 1); [|destruct (Z.eqb tid 2); [|discriminate]]; injection H as <-; repeat constructor.
Qed.

(* ---- C03-C06 for the finished table ---- *)
Theorem C03_table_deltachi2 : forall nminima arch tid blocks out chi,
  assemble_target nminima arch tid blocks = Ok out ->
  (forall b, In b blocks -> homogeneous b) ->
  (forall j p, nth_error out j = Some p -> f_chi2 p = Fin (chi j)) ->
  forall i o, nth_error out i = Some o ->
  let gap x := exists j o p, i < j /\ nth_error out i = Some o /\ nth_error out j = Some p /\
    ~ is_bad (f_zwarn p) /\
    (Qmin (type_limit (f_type o)) (type_limit (f_type p)) < Qabs (velocity (f_z p) (f_z o)))%Q /\
    x = (chi j - chi i)%Q in
  exists d, f_dchi2 o = Fin d /\ (0 <= d)%Q /\
    ((exists x, gap x) -> is_least gap d) /\ ((forall x, ~ gap x) -> (d == 0)%Q).
Proof. intros; eapply table_dchi2; eassumption. Qed.
Print Assumptions C03_table_deltachi2.

Theorem C05_table_small_deltachi2 : forall nminima arch tid blocks out chi,
  assemble_target nminima arch tid blocks = Ok out ->
  (forall b, In b blocks -> homogeneous b) ->
  (forall j p, nth_error out j = Some p -> f_chi2 p = Fin (chi j)) ->
  forall i o, nth_error out i = Some o ->
  exists b r, In b blocks /\ In r (b_rows b) /\ f_z o = f_z r /\ f_type o = f_type r /\
    (N.testbit (f_zwarn o) 2 = true <->
      N.testbit (f_zwarn r) 2 = true \/
      exists j p, j <> i /\ nth_error out j = Some p /\ ~ is_bad (f_zwarn p) /\
        (Qabs (chi j - chi i) < 9)%Q /\
        (Qmin (type_limit (f_type o)) (type_limit (f_type p)) <= Qabs (velocity (f_z p) (f_z o)))%Q).
Proof. intros; eapply table_small; eassumption. Qed.
Print Assumptions C05_table_small_deltachi2.

Example C05_table_example : forall b, In b ex_blocks -> homogeneous b.
Proof.
  intros b [<-|[<-|[<-|[<-|[]]]]] r s Hr Hs; cbn in Hr, Hs;
    repeat match goal with H : _ \/ _ |- _ => destruct H as [<-|H] | H : False |- _ => destruct H end; reflexivity.
Qed.
