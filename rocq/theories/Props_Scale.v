(* Units of flux: C158. *)
From Verif Require Import Prelude PreludeFacts NumX Facts2 Model_Fitz Spec_Fitz Proof_Fitz Model_Rebin Model_Dist Model_Zscan Spec_Zscan Proof_Zscan Model_Piece Model_IO Model_Zfind Model_Targets Model_Desi Spec_Desi Proof_Desi2 Proof_Desi4 Props_Desi Proof_Table
  Model_Run Spec_Run Proof_Run Proof_Run2 Proof_Run3 Proof_Run7 Model_RunMPI Model_RunDesi Spec_RunDesi Proof_RunDesi Proof_Dead2 Spec_Scale Proof_Scale Proof_Scale2 Proof_Scale3 Proof_Scale4 Props_GPU Props_Zscan2 Props_Fitz Props_Run Props_RunDesi.
Open Scope nat_scope.
Local Arguments Qred : simpl never.

Section Props.
Variables (slv : solvers) (argsort : list xq -> list nat) (polyfit : list Q -> list Q -> option (Q * Q * Q)) (isqrt : Q -> Q).
Variable trans : option string -> Q -> Q -> Q.
Variables (nminima nz : nat).
Variables (hashf : hash_arg -> Z) (tocsr : dia -> csr) (fb : fbits).
Notation run := (run slv argsort polyfit isqrt trans nminima nz).
Notation rrdesi := (rrdesi slv argsort polyfit isqrt trans nminima nz hashf tocsr fb).

(* Spectra in other units (flux times c, inverse variance divided by c^2) give the same table, with the coefficients times c, or the same error; for templates without the penalty for negative [OII]. *)
Theorem C158_run_partial : forall c ps tgs tgs', (0 < c)%Q -> Forall no_penalty ps -> Forall (fun p => homogeneous slv (t_method (p_core p))) ps -> Forall2 (rescaled_target c) tgs tgs' ->
  run ps tgs' = match run ps tgs with Ok tab => Ok (map (in_units c) tab) | Err e => Err e end.
Proof. intros c ps tgs tgs' Hc N H F. rewrite (run_scale slv argsort polyfit isqrt trans nminima nz c Hc ps tgs tgs' N H F). reflexivity. Qed.

Definition wu (c : Q) (w : wrow) : wrow := {| w_id := w_id w; w_zwarn := w_zwarn w; w_spectype := w_spectype w; w_subtype := w_subtype w; w_coeff := map (fun a => Qred (c * a)) (w_coeff w); w_z := w_z w; w_method := w_method w; w_rest := w_rest w |}.
Lemma orw_u c b m w : orw b m (wu c w) = wu c (orw b m w). Proof. destruct b; reflexivity. Qed.
Lemma reset_u c b w : reset b (wu c w) = wu c (reset b w).
Proof.
  destruct b; [|reflexivity]. unfold reset, wu. f_equal. cbn [w_coeff]. rewrite !map_map. apply map_ext. intros _. symmetry. transitivity (Qred 0); [apply Qred_complete; ring|reflexivity].
Qed.
Lemma flag_u c fm w : flag_row fb fm (wu c w) = wu c (flag_row fb fm w).
Proof. unfold flag_row. cbv zeta. change (w_id (wu c w)) with (w_id w). now rewrite !orw_u, reset_u, !orw_u. Qed.
Lemma reflag_units c fm r : reflag fb fm (in_units c r) = in_units c (reflag fb fm r).
Proof. unfold reflag. change (to_w (in_units c r)) with (wu c (to_w r)). rewrite flag_u. reflexivity. Qed.
Lemma rescaled_rows c {R} (fs fs' : list (sfile R)) t : Forall2 (file_rescaled c) fs fs' -> Forall2 (row_rescaled c) (target_rows fs t) (target_rows fs' t).
Proof.
  intro F. unfold target_rows. induction F as [|f f' fs fs' (A & B & C & D) _ IH]; [constructor|]. cbn [filter]. rewrite <- B. destruct (zmem t (sf_keep f)); [|exact IH]. cbn [map concat]. apply Forall2_app; [|exact IH]. rewrite <- C, <- A.
  assert (G : forall bs, incl bs (sf_bands f) -> Forall2 (row_rescaled c) (concat (map (fun b => Spec_Desi.rows_of (sf_ids f) t (full_rows f b)) bs)) (concat (map (fun b => Spec_Desi.rows_of (sf_ids f) t (full_rows f' b)) bs))); [|apply G, incl_refl].
  induction bs as [|b bs IHb]; intro I; [constructor|]. cbn [map concat]. apply Forall2_app; [|apply IHb; intros x Hx; apply I; now right]. specialize (D b (I b (or_introl eq_refl))). clear -D. unfold Spec_Desi.rows_of. revert D. generalize (full_rows f b) as l. generalize (full_rows f' b) as l'. generalize (sf_ids f) as ids. clear.
  induction ids as [|i ids IH]; intros l' l D; [constructor|]. destruct D as [|r r' l l' H D]; [constructor|]. cbn [combine filter fst]. destruct (i =? t)%Z; cbn [map snd]; [constructor; [exact H|]|]; now apply IH.
Qed.
Lemma rescaled_ids c (fs fs' : list (sfile dia)) : Forall2 (file_rescaled c) fs fs' -> map sf_keep fs = map sf_keep fs'.
Proof. induction 1 as [|f f' l l' (_ & B & _) _ IH]; [reflexivity|]. cbn [map]. now rewrite B, IH. Qed.

(* The same for rrdesi: files with the flux in other units.  Coadded spectra: without cosmic ray rejection and for inverse variances >= 0. *)
Theorem C158_rrdesi_partial : forall c o ps ds ds' fs fs' tab, (0 < c)%Q -> open_files o ds = Ok fs -> open_files o ds' = Ok fs' -> in_order fs -> in_order fs' ->
  Forall no_penalty ps -> Forall (fun p => homogeneous slv (t_method (p_core p))) ps ->
  (o_allspec o = false -> (o_cosmics o <= 0)%Q /\ forall f b r, In f fs -> In b (sf_bands f) -> In r (full_rows f b) -> ivar_nonneg r) ->
  Forall2 (file_rescaled c) fs fs' -> map df_fm ds = map df_fm ds' -> rrdesi o ps ds = Ok tab -> rrdesi o ps ds' = Ok (map (in_units c) tab).
Proof.
  intros c o ps ds ds' fs fs' tab Hc E E' Or Or' N H Al F Fm Hr. apply (rrdesi_run slv argsort polyfit isqrt trans nminima nz hashf tocsr fb o ps ds fs tab E Or) in Hr as (tgs & tab0 & Ei & R & Hr & ->). apply (rrdesi_run slv argsort polyfit isqrt trans nminima nz hashf tocsr fb o ps ds' fs' _ E' Or').
  assert (X : exists tgs', Forall2 (rescaled_target c) tgs tgs' /\ forall g, In g tgs' -> reads hashf tocsr o fs' g).
  { clear -R F Or' Hc Al. induction tgs as [|g tgs IH]; [exists []; split; [constructor|intros g []]|]. destruct IH as (m & Fm & Rm); [intros; apply R; now right|].
    destruct (reads_scale hashf tocsr c Hc o fs fs' g) as (g' & Rg & Vg).
    - intro Ho. destruct (Al Ho) as [Q _]. destruct (qlt 0 (o_cosmics o)) eqn:B; [|reflexivity]. apply qlt_iff in B. lra.
    - apply rescaled_rows, F.
    - intros Ho r Hr. destruct (Al Ho) as [_ P]. unfold target_rows in Hr. apply in_concat in Hr as (l1 & Hl & Hr). apply in_map_iff in Hl as (f & <- & Hf). apply filter_In in Hf as [Hf _]. apply in_concat in Hr as (l2 & Hl & Hr). apply in_map_iff in Hl as (b & <- & Hb). unfold Spec_Desi.rows_of in Hr. apply in_map_iff in Hr as ([i x] & Ex & Hx). apply filter_In in Hx as [Hx _]. apply in_combine_r in Hx. cbn in Ex. subst x. exact (P f b r Hf Hb Hx).
    - intros r' Hr. pose proof (expect_rows (Build_dia [] [] 0) (o_negflux o) fs' (g_id g) (proj1 Or')) as Ex. destruct (Forall2_in_r _ _ _ _ Ex Hr) as (s & _ & Hs). now exists s.
    - apply R. now left.
    - exists (g' :: m). split; [now constructor|]. intros x [<-|Hx]; auto. }
  destruct X as (tgs' & V & R'). exists tgs', (map (in_units c) tab0). rewrite (ids_scale c tgs tgs' V), Ei. split; [unfold all_ids; now rewrite (rescaled_ids _ _ _ F)|]. split; [exact R'|]. split.
  - rewrite (C158_run_partial c ps tgs tgs' Hc N H V). pose proof Hr as Hr2. destruct (run ps tgs); [|discriminate]. assert (Ea : a = tab0) by congruence. now rewrite Ea.
  - rewrite !map_map. assert (Ef : fibermap ds' fs' = fibermap ds fs). { clear -F Fm. unfold fibermap. revert ds ds' Fm. induction F as [|f f' fs fs' (_ & B & _) _ IH]; intros [|d ds] [|d' ds'] Fm; try discriminate; [reflexivity..|]. cbn [combine map concat fst snd]. injection Fm as Ed Fm. rewrite Ed, B, (IH ds ds' Fm). reflexivity. }
    rewrite Ef. apply map_ext. intro r. symmetry. apply reflag_units.
Qed.
End Props.

(* An exact solver of regular systems is homogeneous. *)
Lemma at1_scale k v j : (at1 (scale_vec k v) j == k * at1 v j)%Q.
Proof. unfold at1. exact (times_nth k _ _ j (scale_times k v)). Qed.
Lemma at2_scale k M r j : (at2 (map (scale_vec k) M) r j == k * at2 M r j)%Q.
Proof. unfold at2. assert (E : nth r (map (scale_vec k) M) [] = scale_vec k (nth r M [])) by (change [] with (scale_vec k []) at 1; apply map_nth). exact (eq_ind_r (fun v : list Q => (nth j v 0 == k * nth j (nth r M []) 0)%Q) (at1_scale k (nth r M []) j) E). Qed.
Lemma regular_scale k n M : (0 < k)%Q -> regular n M <-> regular n (map (scale_vec k) M).
Proof.
  intro Hk. assert (E : forall x r, (bigsum n (fun j => at2 (map (scale_vec k) M) r j * at1 x j) == k * bigsum n (fun j => at2 M r j * at1 x j))%Q) by (intros x r; rewrite <- bigsum_scale; apply bigsum_ext; intros i _; rewrite at2_scale; ring).
  split; intros H x L Z; apply H; try exact L; intros r Hr; specialize (Z r Hr); rewrite E in *; [|rewrite Z; ring]. apply Qmult_integral in Z as [Z|Z]; [rewrite Z in Hk; discriminate|exact Z].
Qed.
Lemma solves_scale k l M y x : (0 < k)%Q -> solves M y x -> solves (map (scale_vec k) M) (scale_vec l y) (scale_vec (l / k) x).
Proof.
  intros Hk [L H]. assert (Ly : length (scale_vec l y) = length y) by apply map_length. split; [rewrite Ly; unfold scale_vec at 1; now rewrite map_length|]. rewrite Ly. intros r Hr. rewrite at1_scale, <- (H r Hr), <- bigsum_scale. apply bigsum_ext. intros i _. rewrite at2_scale, at1_scale. field. intro E. rewrite E in Hk. discriminate.
Qed.
Lemma canon_scale k v : Forall (fun a => Qred a = a) (scale_vec k v).
Proof. apply Forall_forall. intros a Ha. apply in_map_iff in Ha as (b & <- & _). apply Qred_complete, Qred_correct. Qed.
Theorem C158_exact_solver_homogeneous : forall slv alg, Model_Zscan.upper alg = "PCA"%string -> exact_solver slv -> homogeneous slv alg.
Proof.
  intros slv alg Ha X k l M y Hk Hl. unfold solve_matrices. rewrite Ha. change ("PCA" =? "PCA")%string with true. cbv iota zeta. destruct (X M y) as [X1 X2]. destruct (X (map (scale_vec k) M) (scale_vec l y)) as [Y1 Y2]. assert (Ly : length (scale_vec l y) = length y) by apply map_length. rewrite Ly in Y1.
  destruct (linsolve slv M y) as [x|e] eqn:E.
  - apply Y1. destruct (proj1 (X1 x) eq_refl) as (R & S & _). split; [now apply regular_scale|]. split; [now apply solves_scale|apply canon_scale].
  - rewrite (X2 e eq_refl). destruct (linsolve slv (map (scale_vec k) M) (scale_vec l y)) as [x'|e'] eqn:E'; [|now rewrite (Y2 e' eq_refl)]. exfalso. destruct (proj1 (Y1 x') eq_refl) as (R & S & _). apply regular_scale in R; [|exact Hk].
    assert (Z : Err e = Ok (scale_vec (k / l) x')); [|discriminate]. apply X1. split; [exact R|]. split; [|apply canon_scale]. destruct S as [L S]. rewrite Ly in L, S. split; [unfold scale_vec; now rewrite map_length|]. intros r Hr. specialize (S r Hr). rewrite at1_scale in S.
    assert (A : (at1 y r == (1 / l) * (l * at1 y r))%Q) by (field; intro Z; rewrite Z in Hl; discriminate). rewrite A, <- S, <- bigsum_scale. apply bigsum_ext. intros i _. rewrite at2_scale, at1_scale. field. intro Z; rewrite Z in Hl; discriminate.
Qed.

(* ---------------- concrete runs ---------------- *)
Lemma demo_homogeneous : homogeneous demo "PCA".
Proof.
  intros k l M y Hk Hl. unfold solve_matrices. change (Model_Zscan.upper "PCA") with "PCA"%string. change ("PCA" =? "PCA")%string with true. cbv iota zeta. cbn [linsolve demo].
  destruct M as [|[|m [|m2 r]] [|M2 M3]]; try reflexivity; destruct y as [|v [|v2 y]]; try reflexivity; cbn [map scale_vec].
  assert (E : Qeq_bool (Qred (k * m)) 0 = Qeq_bool m 0). { destruct (Qeq_bool m 0) eqn:B; [apply Qeq_bool_iff in B; apply Qeq_bool_iff; rewrite Qred_correct, B; ring|]. destruct (Qeq_bool (Qred (k * m)) 0) eqn:B'; [|reflexivity]. exfalso. apply Qeq_bool_iff in B'. rewrite Qred_correct in B'. apply Qeq_bool_neq in B. apply Qmult_integral in B' as [B'|B']; [rewrite B' in Hk; discriminate|contradiction]. }
  rewrite E. destruct (Qeq_bool m 0) eqn:B; [reflexivity|]. apply Qeq_bool_neq in B. unfold scale_vec. cbn [map]. do 2 f_equal. apply Qred_complete. rewrite !Qred_correct. field. split; [exact B|]. intro Z; rewrite Z in Hk; discriminate.
Qed.
(* a galaxy template with [OII] *)
Definition oii : tmpl := {| p_core := {| t_rrtype := "GALAXY"; t_method := "PCA"; t_wave := [1863#2; 1863; 3726; 7452; 14904]; t_flux := [[1; -(2); 1; 4; -(2)]] |}; p_sub := ""; p_igm := None; p_zs := [0; 1#2; 1] |}%Q.
Definition tgc (c : Q) : targ := tg 7 1 [3726; 7452]%Q [1 / (c * c); 1 / (c * c)]%Q [c * -(2); c * -(1)]%Q.
Definition zs_of (r : res (list frow)) : list Q := match r with Ok t => map (fun x => Qred (Model_Zfind.f_z x)) t | Err _ => [] end.
Lemma oii_1 : zs_of (erun [oii] [tgc 1]) = [0; 516754579 # 885757688]%Q.
Proof. vm_compute. reflexivity. Qed.
Lemma oii_100 : zs_of (erun [oii] [tgc 100]) = [25984596605 # 29401500808]%Q.
Proof. vm_compute. reflexivity. Qed.
Lemma zs_hd r q l : zs_of r = q :: l -> exists tab x, r = Ok (x :: tab) /\ Qred (Model_Zfind.f_z x) = q.
Proof. destruct r as [[|x tab]|]; cbn; try discriminate. intro H. injection H as H _. now exists tab, x. Qed.
Lemma tgc_scaled : rescaled_target 100 (tgc 1) (tgc 100).
Proof. split; [reflexivity|]. repeat constructor. Qed.
(* In general the units do matter: with a PCA galaxy template the penalty, which is a flux and not a chi2, is added to the chi2.  A spectrum with best redshift 0 has, in units a hundred times smaller, best redshift 0.88. *)
Theorem C158_refuted : exists c p g g' r r' tab tab', (0 < c)%Q /\ homogeneous demo (t_method (p_core p)) /\ rescaled_target c g g' /\
  erun [p] [g] = Ok (r :: tab) /\ erun [p] [g'] = Ok (r' :: tab') /\ (Model_Zfind.f_z r == 0)%Q /\ (8 # 10 < Model_Zfind.f_z r')%Q.
Proof.
  destruct (zs_hd _ _ _ oii_1) as (tab & r & E1 & Z1). destruct (zs_hd _ _ _ oii_100) as (tab' & r' & E2 & Z2). exists 100%Q, oii, (tgc 1), (tgc 100), r, r', tab, tab'. split; [reflexivity|]. split; [exact demo_homogeneous|]. split; [exact tgc_scaled|]. split; [exact E1|]. split; [exact E2|].
  rewrite <- (Qred_correct (Model_Zfind.f_z r)), <- (Qred_correct (Model_Zfind.f_z r')), Z1, Z2. split; reflexivity.
Qed.
(* a star, three times the flux *)
Example C158_nonvacuous : no_penalty st /\ homogeneous demo (t_method (p_core st)) /\ rescaled_target 3 g1 (tg 7 1 [20; 30]%Q [1#9; 1#9]%Q [15; 6]%Q) /\ zs_of (erun [st] [g1]) <> [].
Proof. split; [left; discriminate|]. split; [exact demo_homogeneous|]. split; [split; [reflexivity|]; repeat constructor|]. vm_compute. discriminate. Qed.
Print Assumptions C158_run_partial. Print Assumptions C158_rrdesi_partial. Print Assumptions C158_refuted. Print Assumptions C158_exact_solver_homogeneous.
