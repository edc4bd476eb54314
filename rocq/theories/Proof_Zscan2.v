(* The design matrix, one chi2, the batch. *)
From Verif Require Import Prelude PreludeFacts Facts2 Model_Fitz Proof_Fitz Proof_Table Model_Dist Model_Zscan Spec_Zscan Proof_Zscan.
Local Open Scope Q_scope.

Lemma sumQ_map_bigsum {A} (l : list A) n (f : A -> nat -> Q) :
  sumQ (map (fun a => bigsum n (f a)) l) == bigsum n (fun i => sumQ (map (fun a => f a i) l)).
Proof.
  induction l as [|a l IH]; [symmetry; apply bigsum_zero; reflexivity|].
  cbn [map]. rewrite sumQ_cons, IH, <- bigsum_plus. apply bigsum_ext. intros. cbn [map]. now rewrite sumQ_cons.
Qed.
Lemma sumQ_map_scale {A} (l : list A) (f : A -> Q) a : sumQ (map (fun x => f x * a) l) == sumQ (map f l) * a.
Proof. induction l as [|x l IH]; cbn [map]; rewrite ?sumQ_cons; [cbn; lra|rewrite IH; lra]. Qed.

Lemma csr_row_dense R row v : wf_csr R -> (row < r_nrow R)%nat ->
  csr_row_dot R row v == bigsum (r_ncol R) (fun l => Rent R row l * v l).
Proof.
  intros Hwf Hr. unfold csr_row_dot. rewrite Qred_correct.
  transitivity (sumQ (map (fun jj => bigsum (r_ncol R) (fun l => (if (nth jj (r_ind R) O =? l)%nat then nth jj (r_val R) 0 else 0) * v l))
     (seq (nth row (r_ptr R) O) (nth (S row) (r_ptr R) O - nth row (r_ptr R) O)))).
  - apply sumQ_ext. intros jj Hjj. apply in_seq in Hjj.
    assert (nth jj (r_ind R) O < r_ncol R)%nat by (apply (Hwf row); [exact Hr|lia]).
    symmetry. rewrite (bigsum_single _ _ (nth jj (r_ind R) O)).
    + rewrite Nat.eqb_refl. reflexivity.
    + assumption.
    + intros i Hi Hne. destruct (Nat.eqb_spec (nth jj (r_ind R) O) i); [congruence|lra].
  - rewrite sumQ_map_bigsum. apply bigsum_ext. intros l Hl. rewrite sumQ_map_scale. reflexivity.
Qed.

Lemma csr_dot_spec R nb A B : wf_csr R -> csr_dot R nb A = Ok B -> length A = r_ncol R /\ length B = r_nrow R /\
  Forall (fun r => length r = nb) B /\
  (forall p j, (p < r_nrow R)%nat -> (j < nb)%nat -> at2 B p j == bigsum (r_ncol R) (fun l => Rent R p l * at2 A l j)).
Proof.
  intros Hwf H. unfold csr_dot in H. destruct (Nat.eqb_spec (length A) (r_ncol R)) as [HA|]; [|discriminate].
  injection H as <-. split; [exact HA|]. split; [apply tab_length|]. split.
  - apply Forall_forall. intros r Hr. apply in_map_iff in Hr as (x & <- & _). apply tab_length.
  - intros p j Hp Hj. unfold at2 at 1. rewrite nth_tab by exact Hp. rewrite nth_tab by exact Hj.
    rewrite csr_row_dense by assumption. reflexivity.
Qed.

(* what dot_product_sparse_one does for one spectrum *)
Definition block (nb : nat) (tdata : tdict) (i : nat) (s : spectrum) : res mat :=
  match dget tdata (s_hash s) with
  | None => Err KeyError
  | Some T => match nth_error T i with None => Err IndexError | Some A => csr_dot (s_R s) nb A end
  end.
Lemma dpso_eq nb spectra tdata i : dot_product_sparse_one nb spectra tdata i =
  (do blocks <- mapM (block nb tdata i) spectra; match blocks with [] => Err ValueError | _ => Ok (concat blocks) end).
Proof. reflexivity. Qed.

Lemma dpso_design nb spectra tdata i T : Forall (fun s => wf_csr (s_R s)) spectra ->
  dot_product_sparse_one nb spectra tdata i = Ok T -> is_design nb spectra tdata i T.
Proof.
  intros Hwf H. rewrite dpso_eq in H. destruct (mapM (block nb tdata i) spectra) as [bl|e] eqn:E; [|discriminate].
  cbn [rbind] in H. exists bl. split. { destruct bl; congruence. }
  apply mapM_Forall2 in E. clear H. induction E as [|s B ss bs Hs _ IH]; constructor.
  - inversion Hwf; subst. unfold block in Hs. destruct (dget tdata (s_hash s)) as [L|] eqn:E1; [|discriminate].
    destruct (nth_error L i) as [A|] eqn:E2; [|discriminate]. exists A. split; [exists L; tauto|].
    apply csr_dot_spec in Hs; [|assumption]. split; apply Hs.
  - apply IH. now inversion Hwf.
Qed.

(* two design matrices of the same input agree entrywise *)
Definition mat_eqv (nb : nat) (T T' : mat) : Prop := length T = length T' /\
  forall p j, (j < nb)%nat -> at2 T p j == at2 T' p j.
Lemma at2_app A B p j : at2 (A ++ B) p j = if (p <? length A)%nat then at2 A p j else at2 B (p - length A) j.
Proof.
  unfold at2. destruct (Nat.ltb_spec p (length A)); [now rewrite app_nth1|now rewrite app_nth2].
Qed.
Lemma design_unique nb spectra tdata i T T' : is_design nb spectra tdata i T -> is_design nb spectra tdata i T' -> mat_eqv nb T T'.
Proof.
  intros (bl & -> & H) (bl' & -> & H'). revert bl' H'. induction H as [|s B ss bs Hs _ IH]; intros bl' H'; inversion H' as [|s0 B0 ss0 bs0 H2 H4]; subst.
  - split; reflexivity.
  - destruct (IH _ H4) as [El Ea]. destruct Hs as (A & (L & HL & HA) & HB & Hv). destruct H2 as (A' & (L' & HL' & HA') & HB' & Hv').
    rewrite HL in HL'. injection HL' as <-. rewrite HA in HA'. injection HA' as <-. cbn [concat]. split.
    + rewrite !app_length, El, HB, HB'. reflexivity.
    + intros p j Hj. rewrite !at2_app, HB, HB'. destruct (Nat.ltb_spec p (r_nrow (s_R s))).
      * rewrite Hv, Hv' by assumption. reflexivity.
      * now apply Ea.
Qed.
Lemma chi2_eqv nb w f T T' c : mat_eqv nb T T' -> chi2 (length T) nb w f T c == chi2 (length T') nb w f T' c.
Proof.
  intros [Hl He]. rewrite Hl. unfold chi2. apply bigsum_ext. intros p Hp.
  assert (E : model_at nb T c p == model_at nb T' c p) by (unfold model_at; apply bigsum_ext; intros; rewrite He by assumption; reflexivity).
  rewrite E. reflexivity.
Qed.

(* zchi2_at by cases *)
Inductive fit_result S alg args prior nb spectra tdata w f wf i : Q * vec -> Prop :=
| fit_ok Tb M c : dot_product_sparse_one nb spectra tdata i = Ok Tb ->
    length Tb = length w -> length Tb = length f -> length Tb = length wf ->
    add_prior nb (normal_M nb w Tb) prior = Ok M ->
    solve_matrices S alg args M (tdot nb Tb wf) = Ok c -> length c = nb ->
    fit_result S alg args prior nb spectra tdata w f wf i (chi2_of f (mvec Tb c) w, c)
| fit_failed Tb M e : dot_product_sparse_one nb spectra tdata i = Ok Tb ->
    length Tb = length w -> length Tb = length f -> length Tb = length wf ->
    add_prior nb (normal_M nb w Tb) prior = Ok M ->
    solve_matrices S alg args M (tdot nb Tb wf) = Err e -> e = LinAlgError \/ e = NotImplementedError ->
    fit_result S alg args prior nb spectra tdata w f wf i (HUGE_CHI2, repeat 0 nb).
Lemma zchi2_at_inv S alg args prior nb spectra tdata w f wf i r :
  zchi2_at S alg args prior nb spectra tdata w f wf i = Ok r -> fit_result S alg args prior nb spectra tdata w f wf i r.
Proof.
  unfold zchi2_at. destruct (dot_product_sparse_one nb spectra tdata i) as [Tb|e] eqn:E; [|discriminate]. cbn [rbind].
  destruct (((length Tb =? length w) && (length Tb =? length wf) && (length Tb =? length f))%nat) eqn:El; [|discriminate]. cbn [negb].
  apply andb_true_iff in El as [El E3]. apply andb_true_iff in El as [E1 E2]. apply Nat.eqb_eq in E1, E2, E3.
  destruct (add_prior nb (normal_M nb w Tb) prior) as [M|e] eqn:EM; [|discriminate]. cbn [rbind].
  destruct (solve_matrices S alg args M (tdot nb Tb wf)) as [c|e] eqn:Es.
  - destruct (Nat.eqb_spec (length c) nb); [|discriminate]. intros H. injection H as <-. econstructor; eauto.
  - destruct e; try discriminate; intros H; injection H as <-; eapply fit_failed; eauto.
Qed.

Lemma zchi2_at_cases S alg args prior nb spectra tdata w f wf i z c :
  zchi2_at S alg args prior nb spectra tdata w f wf i = Ok (z, c) ->
  exists Tb M, dot_product_sparse_one nb spectra tdata i = Ok Tb /\
    length Tb = length w /\ length Tb = length f /\ length Tb = length wf /\
    add_prior nb (normal_M nb w Tb) prior = Ok M /\
    ((solve_matrices S alg args M (tdot nb Tb wf) = Ok c /\ length c = nb /\ z = chi2_of f (mvec Tb c) w)
     \/ (z = HUGE_CHI2 /\ c = repeat 0 nb)).
Proof.
  intros H. apply zchi2_at_inv in H. remember (z, c) as zc eqn:E. destruct H as [Tb M c0 E1 L1 L2 L3 EM Es Hc|Tb M e E1 L1 L2 L3 EM Es He].
  - injection E as E0 E00. rewrite <- E0, <- E00. exists Tb, M. repeat (split; [assumption|]). left. split; [assumption|]. split; [assumption|reflexivity].
  - injection E as E0 E00. rewrite <- E0, <- E00. exists Tb, M. repeat (split; [assumption|]). right. split; reflexivity.
Qed.

Lemma batch_inv S alg args prior spectra tdata w f wf nz nb z c : ~ sumQ w == 0 ->
  calc_zchi2_batch S alg args prior spectra tdata w f wf nz nb = Ok (z, c) ->
  exists r, mapM (zchi2_at S alg args prior nb spectra tdata w f wf) (seq 0 nz) = Ok r /\ z = map fst r /\ c = map snd r.
Proof.
  intros Hw. unfold calc_zchi2_batch. destruct (Qeq_bool (sumQ w) 0) eqn:E. { apply Qeq_bool_iff in E. contradiction. }
  destruct (mapM _ (seq 0 nz)) as [r|e]; [|discriminate]. cbn [rbind]. intros H. injection H as <- <-. eauto.
Qed.
Lemma batch_at S alg args prior spectra tdata w f wf nz nb z c i : ~ sumQ w == 0 ->
  calc_zchi2_batch S alg args prior spectra tdata w f wf nz nb = Ok (z, c) -> (i < nz)%nat ->
  zchi2_at S alg args prior nb spectra tdata w f wf i = Ok (nth i z 0, nth i c []).
Proof.
  intros Hw H Hi. destruct (batch_inv _ _ _ _ _ _ _ _ _ _ _ _ _ Hw H) as (r & Hr & -> & ->).
  apply mapM_Forall2 in Hr.
  destruct (Forall2_nth _ _ _ i i Hr) as (y & Hy & He).
  { rewrite (nth_error_nth' _ O) by now rewrite seq_length. now rewrite seq_nth. }
  rewrite He. f_equal.
  rewrite (nth_error_nth (map fst r) i 0 (x := fst y)) by now rewrite nth_error_map, Hy.
  rewrite (nth_error_nth (map snd r) i [] (x := snd y)) by now rewrite nth_error_map, Hy. apply surjective_pairing.
Qed.
Lemma spectral_data_inv spectra w f wf : spectral_data spectra = Ok (w, f, wf) ->
  w = concat (map s_ivar spectra) /\ f = concat (map s_flux spectra) /\ length w = length f /\
  wf = map2 (fun w f => Qred (w * f)) w f.
Proof.
  unfold spectral_data. destruct spectra as [|s l]; [discriminate|].
  destruct (Nat.eqb_spec (length (concat (map s_ivar (s :: l)))) (length (concat (map s_flux (s :: l))))); [|discriminate].
  intros H. injection H as <- <- <-. auto.
Qed.
Lemma wflux_at w f p : length w = length f -> at1 (map2 (fun w f => Qred (w * f)) w f) p == at1 w p * at1 f p.
Proof.
  intros Hl. unfold at1. destruct (Nat.lt_ge_cases p (length w)).
  - rewrite (map2_nth _ _ 0 0) by lia. apply Qred_correct.
  - rewrite !nth_overflow by (rewrite ?map2_length; lia). lra.
Qed.

(* the objective minimised by a solution of the normal equations *)
Lemma normal_solution_optimal nb w f wf T prior M x c :
  nonneg w -> length T = length w -> length w = length f -> wf = map2 (fun w f => Qred (w * f)) w f ->
  match prior with None => True | Some P => psd nb P end ->
  add_prior nb (normal_M nb w T) prior = Ok M -> solves M (tdot nb T wf) x -> length c = nb ->
  let reg c := match prior with None => 0 | Some P => quad nb P c end in
  chi2 (length T) nb w f T x + reg x <= chi2 (length T) nb w f T c + reg c.
Proof.
  intros Hw HT Hl Ewf HP HM [Hx Hs] Hc reg. rewrite tdot_length in Hx, Hs.
  assert (Hp : forall p, (p < length T)%nat -> 0 <= at1 w p).
  { intros p Hp. apply (proj1 (Forall_forall _ _) Hw). apply nth_In. lia. }
  assert (Hy : forall j, (j < nb)%nat -> at1 (tdot nb T wf) j == bigsum (length T) (fun p => at2 T p j * (at1 w p * at1 f p))).
  { intros j Hj. rewrite tdot_at. 2: exact Hj.
    2: subst wf; rewrite map2_length; lia.
    apply bigsum_ext. intros p _. rewrite Ewf, wflux_at by exact Hl. reflexivity. }
  destruct prior as [P|].
  - destruct HP as (HPl & HPr & Hsym & Hpsd). cbn [add_prior] in HM.
    destruct ((length P =? nb)%nat && forallb (fun r => (length r =? nb)%nat) P) eqn:EP; [|discriminate]. injection HM as <-.
    subst reg. cbn beta iota. unfold chi2, quad.
    apply (lsq_optimal (length T) nb (at1 w) (at1 f) (at2 T) (at2 P) Hp Hsym) with (x := at1 x) (c := at1 c).
    + intros d. specialize (Hpsd (map d (seq 0 nb))). unfold quad in Hpsd.
      rewrite (bigsum_ext nb _ (fun j => bigsum nb (fun k => d j * at2 P j k * d k))) in Hpsd; [exact Hpsd|].
      intros j Hj. apply bigsum_ext. intros k Hk. unfold at1. rewrite !nth_tab by assumption. reflexivity.
    + intros j Hj. rewrite <- Hy by exact Hj. rewrite <- (Hs j Hj). apply bigsum_ext. intros k Hk.
      assert (Ea : at2 (map2 (map2 (fun a b => Qred (a + b))) (normal_M nb w T) P) j k == at2 (normal_M nb w T) j k + at2 P j k).
      { unfold at2. rewrite (map2_nth _ _ [] []) by (rewrite ?normal_M_length; lia).
        assert (length (nth j (normal_M nb w T) []) = nb) by (apply (proj1 (Forall_forall _ _) (normal_M_rows nb w T)); apply nth_In; rewrite normal_M_length; lia).
        assert (length (nth j P []) = nb) by (apply (proj1 (Forall_forall _ _) HPr); apply nth_In; lia).
        rewrite (map2_nth _ _ 0 0) by lia. apply Qred_correct. }
      rewrite Ea, normal_M_at by (auto; lia). reflexivity.
  - injection HM as <-. subst reg. cbn beta iota.
    assert (Q0 : forall c, bigsum nb (fun j => bigsum nb (fun k => c j * (fun _ _ => 0) j k * c k)) == 0).
    { intros d. apply bigsum_zero. intros. apply bigsum_zero. intros. cbn beta. ring. }
    pose proof (lsq_optimal (length T) nb (at1 w) (at1 f) (at2 T) (fun _ _ => 0) Hp) as L.
    specialize (L ltac:(intros; reflexivity) ltac:(intros d; rewrite (Q0 d); lra) (at1 x) (at1 c)).
    cbn beta zeta in L. rewrite !Q0 in L. apply L.
    intros j Hj. rewrite <- Hy by exact Hj. rewrite <- (Hs j Hj). apply bigsum_ext. intros k Hk.
    rewrite normal_M_at by (auto; lia). ring.
Qed.
