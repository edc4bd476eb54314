(* Property theorems C01-C06: ranking and delta chi2 (zfind.py). *)
From Verif Require Import Prelude PreludeFacts NumX Model_Rank Spec_Rank Proof_Rank Proof_Deltachi2.

(* ---------------- C01 ---------------- *)
(* d: a dict of n-row columns with integer zwarn (zs) and float chi2 (xs). *)
Theorem C01_sort_zfit_dict_ranks : forall (d : dict) n zs xs,
  rect n d -> dget d "zwarn" = Some (Arr (map CInt zs)) -> dget d "chi2" = Some (Arr (map CNum xs)) ->
  exists idx,
    sort_zfit_dict d = (permute_dict idx (ddel d BADCOL), None) /\
    Permutation (seq 0 n) idx /\
    StronglySorted (ranks_before (fun i => nth i zs 0%N) (fun i => nth i xs NaN)) idx.
Proof. exact sort_zfit_dict_ok. Qed.
Print Assumptions C01_sort_zfit_dict_ranks.

Definition ex_dict : dict :=
  [("chi2"%string, Arr (map CNum [Fin 5; NaN; Fin 3; Fin 3; PInf]));
   ("zwarn"%string, Arr (map CInt [0; 0; 32; 4; 0]%N));
   ("subtype"%string, Arr (map CStr ["a"; "b"; "c"; "d"; "e"]%string))].
(* non-vacuity, and the actual output on a table with NaN, inf and bad rows *)
Example C01_example : rect 5 ex_dict /\
  sort_zfit_dict ex_dict =
  ([("chi2"%string, Arr (map CNum [Fin 3; Fin 5; PInf; NaN; Fin 3]));
    ("zwarn"%string, Arr (map CInt [4; 0; 0; 0; 32]%N));
    ("subtype"%string, Arr (map CStr ["d"; "a"; "e"; "b"; "c"]%string))], None).
Proof.
  split; [|vm_compute; reflexivity].
  repeat constructor; eexists; split; reflexivity.
Qed.

(* Error branches of sort_zfit_dict: a missing zwarn leaves the dict untouched. *)
Theorem C01_missing_zwarn : forall d, dget d "zwarn" = None -> sort_zfit_dict d = (d, Some KeyError).
Proof. intros d H; unfold sort_zfit_dict; rewrite H; reflexivity. Qed.
Print Assumptions C01_missing_zwarn.

(* ... but a missing chi2 leaves the helper column behind. *)
Theorem C01_missing_chi2_leaves_helper_refuted :
  exists d d', sort_zfit_dict d = (d', Some KeyError) /\ dget d BADCOL = None /\ dget d' BADCOL <> None.
Proof.
  exists [("zwarn"%string, Arr [CInt 0])]. eexists. split; [vm_compute; reflexivity|].
  split; [reflexivity|vm_compute; discriminate].
Qed.
Print Assumptions C01_missing_chi2_leaves_helper_refuted.

(* ---------------- C02 ---------------- *)
(* lexicographic order of row indices on the named columns, input order last *)
Fixpoint lex_before (cols : list (list cell)) (i j : nat) : Prop :=
  match cols with
  | [] => i < j
  | c :: cs =>
      let a := nth i c (CBool false) in let b := nth j c (CBool false) in
      (cell_le a b = true /\ cell_le b a = false) \/
      (cell_le a b = true /\ cell_le b a = true /\ lex_before cs i j)
  end.
Lemma lexrel_before cols i j : lexrel cols lt i j -> lex_before cols i j.
Proof.
  induction cols as [|c cs IH]; cbn; [auto|]. unfold key_le. intros [H1 H2].
  destruct (cell_le (nth j c (CBool false)) (nth i c (CBool false))) eqn:E; [right|left]; auto.
Qed.

Theorem C02_sort_by_cols : forall d cols n,
  rect n d -> cols <> [] -> (forall c, In c cols -> dget d c <> None) ->
  exists idx, sort_dict_by_cols d cols true = (permute_dict idx d, None) /\
    Permutation (seq 0 n) idx /\
    StronglySorted (lex_before (map (fun c => arr_of (dget d c)) cols)) idx.
Proof.
  intros d cols n Hr Hc Hk. destruct (sort_dict_by_cols_ok d cols n Hr Hc Hk) as (idx & E & Hp & Hs).
  exists idx; split; [exact E|split; [exact Hp|]].
  eapply StronglySorted_impl; [|exact Hs]. intros i j _ _ H. apply lexrel_before, H.
Qed.
Print Assumptions C02_sort_by_cols.

Theorem C02_sort_by_cols_last_first : forall d cols n,
  rect n d -> cols <> [] -> (forall c, In c cols -> dget d c <> None) ->
  exists idx, sort_dict_by_cols d cols false = (permute_dict idx d, None) /\
    Permutation (seq 0 n) idx /\
    StronglySorted (lex_before (map (fun c => arr_of (dget d c)) (rev cols))) idx.
Proof.
  intros d cols n Hr Hc Hk. destruct (sort_dict_by_cols_last_ok d cols n Hr Hc Hk) as (idx & E & Hp & Hs).
  exists idx; split; [exact E|split; [exact Hp|]].
  eapply StronglySorted_impl; [|exact Hs]. intros i j _ _ H. apply lexrel_before, H.
Qed.
Print Assumptions C02_sort_by_cols_last_first.

Theorem C02_key_and_type_errors_leave_dict : forall d cols b,
  ((exists c, In c cols /\ dget d c = None) -> sort_dict_by_cols d cols b = (d, Some KeyError)) /\
  ((forall c, In c cols -> dget d c <> None) -> (exists k, In (k, NotArr) d) ->
     sort_dict_by_cols d cols b = (d, Some ValueError)).
Proof.
  intros d cols b. unfold sort_dict_by_cols. split.
  - intros (c & Hc & Hn).
    assert (E : forallb (fun c => match dget d c with Some _ => true | None => false end) cols = false).
    { destruct (forallb _ cols) eqn:E; [|reflexivity]. rewrite forallb_forall in E. specialize (E c Hc).
      rewrite Hn in E; discriminate. }
    rewrite E; reflexivity.
  - intros H (k & Hk).
    assert (E1 : forallb (fun c => match dget d c with Some _ => true | None => false end) cols = true).
    { apply forallb_forall; intros c Hc. specialize (H c Hc). destruct (dget d c); congruence. }
    assert (E2 : forallb (fun e => is_arr (snd e)) d = false).
    { destruct (forallb _ d) eqn:E; [|reflexivity]. rewrite forallb_forall in E. specialize (E _ Hk). discriminate. }
    rewrite E1, E2; reflexivity.
Qed.
Print Assumptions C02_key_and_type_errors_leave_dict.

(* The all-or-nothing claim fails for columns of unequal length: the exception
   comes after some columns were already permuted. *)
Theorem C02_all_or_nothing_refuted : exists d cols d' e,
  sort_dict_by_cols d cols true = (d', Some e) /\ d' <> d.
Proof.
  exists [("a"%string, Arr [CInt 2; CInt 1]); ("b"%string, Arr [CInt 7])], ["a"%string].
  eexists; eexists; split; [vm_compute; reflexivity|discriminate].
Qed.
Print Assumptions C02_all_or_nothing_refuted.

Example C02_example :
  let d := [("a"%string, Arr [CInt 2; CInt 1; CInt 2; CInt 1]); ("b"%string, Arr (map CNum [Fin 1; Fin 4; Fin 0; Fin 3]))] in
  rect 4 d /\ sort_dict_by_cols d ["a"; "b"]%string true =
   ([("a"%string, Arr [CInt 1; CInt 1; CInt 2; CInt 2]); ("b"%string, Arr (map CNum [Fin 3; Fin 4; Fin 0; Fin 1]))], None).
Proof. split; [repeat constructor; eexists; split; reflexivity|vm_compute; reflexivity]. Qed.

(* ---------------- C03 ---------------- *)
(* rows: the arguments of calc_deltachi2 row by row; chi i: the (finite) chi2 *)
Theorem C03_deltachi2_is_gap_to_next_good_fit : forall rows chi,
  (forall j s, nth_error rows j = Some s -> d_chi2 s = Fin (chi j)) ->
  forall i, i < length rows ->
  let gap x := exists j r s, i < j /\ nth_error rows i = Some r /\ nth_error rows j = Some s /\
      ~ is_bad (d_zwarn s) /\
      (Qmin (d_lim r) (d_lim s) < Qabs (velocity (d_z s) (d_z r)))%Q /\
      x = (chi j - chi i)%Q in
  exists d, nth_error (fst (calc_deltachi2 rows)) i = Some (Fin d) /\
    ((exists x, gap x) -> is_least gap d) /\
    ((forall x, ~ gap x) -> (d == 0)%Q).
Proof. exact deltachi2_spec. Qed.
Print Assumptions C03_deltachi2_is_gap_to_next_good_fit.

Definition ex_rows : list drow :=
  [ {| d_chi2 := Fin 10; d_z := 1 # 10; d_zwarn := 0; d_lim := 1000 |};
    {| d_chi2 := Fin 12; d_z := 1001 # 10000; d_zwarn := 0; d_lim := 1000 |};
    {| d_chi2 := Fin 14; d_z := 2; d_zwarn := 0; d_lim := 100 |};
    {| d_chi2 := Fin 5; d_z := 1; d_zwarn := 32; d_lim := 1000 |} ].
Example C03_example :
  (exists chi, forall j s, nth_error ex_rows j = Some s -> d_chi2 s = Fin (chi j)) /\
  calc_deltachi2 ex_rows = ([Fin (14 + -10); Fin (14 + -12); Fin 0; Fin 0], [true; true; true; true]).
Proof.
  split; [|vm_compute; reflexivity].
  exists (fun j => nth j [10; 12; 14; 5]%Q 0%Q).
  intros [|[|[|[|j]]]] s H; cbn in H; try (injection H as <-; reflexivity); destruct j; discriminate.
Qed.

(* lengths: one value per row; the last row is always 0 *)
Theorem C03_lengths_and_last : forall rows,
  length (fst (calc_deltachi2 rows)) = length rows /\ length (snd (calc_deltachi2 rows)) = length rows /\
  (forall r, nth_error rows (length rows - 1) = Some r ->
     nth_error (fst (calc_deltachi2 rows)) (length rows - 1) = Some (Fin 0)).
Proof.
  intros rows. destruct (calc_lengths rows) as [H1 H2]. split; [exact H1|split; [exact H2|]].
  intros r Hr. cbn [calc_deltachi2 fst]. rewrite deltachi2_loop_nth, Hr. cbn [option_map].
  assert (E : skipn (S (length rows - 1)) rows = []).
  { apply skipn_all2. apply nth_error_Some_lt in Hr; lia. }
  rewrite E; reflexivity.
Qed.
Print Assumptions C03_lengths_and_last.

(* ---------------- C04 ---------------- *)
(* the ranked order of C01, on the rows passed to calc_deltachi2 *)
Theorem C04_deltachi2_nonneg : forall rows chi,
  (forall j s, nth_error rows j = Some s -> d_chi2 s = Fin (chi j)) ->
  (forall i j r s, i < j -> nth_error rows i = Some r -> nth_error rows j = Some s ->
     ranks_before (fun k => nth k (map d_zwarn rows) 0%N) (fun k => nth k (map d_chi2 rows) NaN) i j) ->
  forall i, i < length rows ->
  exists d, nth_error (fst (calc_deltachi2 rows)) i = Some (Fin d) /\ (0 <= d)%Q.
Proof.
  intros rows chi Hfin Hrk i Hi.
  destruct (deltachi2_spec rows chi Hfin i Hi) as (d & Hd & H1 & H2).
  exists d; split; [exact Hd|].
  assert (Hrk' : ranked rows).
  { intros a b r s Hab Ha Hb. specialize (Hrk a b r s Hab Ha Hb).
    unfold ranks_before in Hrk.
    rewrite (nth_error_nth (map d_zwarn rows) a 0%N (x := d_zwarn r)) in Hrk by (rewrite nth_error_map, Ha; reflexivity).
    rewrite (nth_error_nth (map d_zwarn rows) b 0%N (x := d_zwarn s)) in Hrk by (rewrite nth_error_map, Hb; reflexivity).
    rewrite (nth_error_nth (map d_chi2 rows) a NaN (x := d_chi2 r)) in Hrk by (rewrite nth_error_map, Ha; reflexivity).
    rewrite (nth_error_nth (map d_chi2 rows) b NaN (x := d_chi2 s)) in Hrk by (rewrite nth_error_map, Hb; reflexivity).
    destruct Hrk as [[Ha' Hb']|[Hab' [Hc|[Hc _]]]].
    - split; [tauto|]. tauto.
    - split; [tauto|intros _; apply chi2_before_asym, Hc].
    - split; [tauto|intros _; apply Hc]. }
  destruct (gaps_dec rows chi i Hfin Hi) as [He|He].
  - destruct (H1 He) as [(x & Hx & Hq) _]. rewrite <- Hq. eapply gaps_nonneg; eassumption.
  - rewrite (H2 He). lra.
Qed.
Print Assumptions C04_deltachi2_nonneg.

(* without ranking the claim is false: ranking is what makes it true *)
Example C04_needs_ranking : exists rows d, nth_error (fst (calc_deltachi2 rows)) 0 = Some (Fin d) /\ (d < 0)%Q.
Proof.
  exists [ {| d_chi2 := Fin 10; d_z := 0; d_zwarn := 0; d_lim := 1 |}; {| d_chi2 := Fin 3; d_z := 1; d_zwarn := 0; d_lim := 1 |} ].
  eexists; split; [vm_compute; reflexivity|reflexivity].
Qed.
Example C04_example : forall i j r s, i < j -> nth_error (firstn 3 ex_rows) i = Some r -> nth_error (firstn 3 ex_rows) j = Some s ->
     ranks_before (fun k => nth k (map d_zwarn (firstn 3 ex_rows)) 0%N) (fun k => nth k (map d_chi2 (firstn 3 ex_rows)) NaN) i j.
Proof.
  intros [|[|[|i]]] [|[|[|j]]] r s Hij Hi Hj; try lia; cbn in Hi, Hj; try discriminate;
    try (destruct j; discriminate); (right; split; [reflexivity|left; reflexivity]).
Qed.

(* ---------------- C05 ---------------- *)
Theorem C05_small_deltachi2_iff_competitor : forall rows chi,
  (forall j s, nth_error rows j = Some s -> d_chi2 s = Fin (chi j)) ->
  forall i r, nth_error rows i = Some r ->
  exists b, nth_error (snd (calc_deltachi2 rows)) i = Some b /\
   (b = true <-> exists j s, j <> i /\ nth_error rows j = Some s /\ ~ is_bad (d_zwarn s) /\
       (Qabs (chi j - chi i) < 9)%Q /\
       (Qmin (d_lim r) (d_lim s) <= Qabs (velocity (d_z s) (d_z r)))%Q).
Proof. exact setzwarn_spec. Qed.
Print Assumptions C05_small_deltachi2_iff_competitor.

(* ---------------- C06 ---------------- *)
Theorem C06_small_gap_is_flagged : forall rows chi,
  (forall j s, nth_error rows j = Some s -> d_chi2 s = Fin (chi j)) ->
  forall i d, nth_error (fst (calc_deltachi2 rows)) i = Some (Fin d) ->
  (0 < d)%Q -> (d < 9)%Q -> nth_error (snd (calc_deltachi2 rows)) i = Some true.
Proof.
  intros rows chi Hfin i d Hd H0 H9.
  assert (Hi : i < length rows) by (rewrite <- (proj1 (calc_lengths rows)); apply nth_error_Some_lt in Hd; exact Hd).
  destruct (deltachi2_spec rows chi Hfin i Hi) as (d' & Hd' & H1 & H2).
  rewrite Hd in Hd'; injection Hd' as <-.
  destruct (gaps_dec rows chi i Hfin Hi) as [He|He]; [|specialize (H2 He); lra].
  destruct (H1 He) as [(x & (j & r & s & Hij & Hr & Hs & Hb & Hv & Hx) & Hq) _].
  destruct (setzwarn_spec rows chi Hfin i r Hr) as (b & Hb' & Hiff). rewrite Hb'. f_equal.
  apply Hiff. exists j, s. repeat split; auto; try lia.
  - subst x. apply Qabs_case; intros; lra.
  - apply Qlt_le_weak, Hv.
Qed.
Print Assumptions C06_small_gap_is_flagged.
