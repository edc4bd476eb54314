(* The run in other units of flux, continued: the scan, the fit, the run. *)
From Verif Require Import Prelude PreludeFacts NumX Facts2 Model_Fitz Proof_Fitz Model_Rebin Model_Dist Model_Zscan Spec_Zscan Proof_Zscan3 Model_Piece Model_IO Model_Zfind Proof_Table
  Model_Run Proof_Run Spec_Scale Proof_Scale.
Open Scope nat_scope.
Local Arguments Qred : simpl never.

Lemma times_len c l l' : times c l l' -> length l' = length l.
Proof. intro H. symmetry. exact (Forall2_len _ _ _ H). Qed.
Lemma times_app c a a' b b' : times c a a' -> times c b b' -> times c (a ++ b) (a' ++ b').
Proof. apply Forall2_app. Qed.
Lemma times_concat {A} c (f f' : A -> list Q) (P : A -> A -> Prop) l l' : Forall2 P l l' -> (forall s s', P s s' -> times c (f s) (f' s')) -> times c (concat (map f l)) (concat (map f' l')).
Proof. intros F H. induction F; [constructor|]. cbn [map concat]. apply times_app; auto. Qed.
Lemma times_sum c l l' : times c l l' -> (sumQ l' == c * sumQ l)%Q.
Proof. unfold sumQ. induction 1 as [|x y l l' E _ IH]; cbn [fold_right]; [ring|]. rewrite E, IH. ring. Qed.
Lemma scale_times k v : times k v (scale_vec k v).
Proof. unfold times, scale_vec. induction v; cbn [map]; constructor; [apply Qred_correct|assumption]. Qed.
Lemma scale_zeros c n : scale_vec c (repeat 0%Q n) = repeat 0%Q n.
Proof. apply (h_zeros (fun a => Qred (c * a))). transitivity (Qred 0); [|reflexivity]. apply Qred_complete. ring. Qed.
Lemma scale_vec_eq a b v : (a == b)%Q -> scale_vec a v = scale_vec b v.
Proof. intro E. unfold scale_vec. apply map_ext. intro x. apply Qred_complete. now rewrite E. Qed.
Lemma dot_times k r v v' : times k v v' -> dot r v' = Qred (k * dot r v).
Proof.
  intro H. unfold dot. apply Qred_complete. rewrite Qred_correct. revert r. unfold sumQ. induction H as [|x y l l' E _ IH]; intros [|a r]; cbn [map2 fold_right]; try ring. rewrite (IH r), E. ring.
Qed.
Lemma mul_times k w w' : times k w w' -> forall r, times k (map2 Qmult w r) (map2 Qmult w' r).
Proof. induction 1 as [|x y l l' E _ IH]; intros [|a r]; cbn [map2]; constructor; [rewrite E; ring|apply IH]. Qed.
Lemma normal_scale k nb w w' Tb : times k w w' -> normal_M nb w' Tb = map (scale_vec k) (normal_M nb w Tb).
Proof. intro H. unfold normal_M, scale_vec. rewrite map_map. apply map_ext. intro i. rewrite map_map. apply map_ext. intro j. apply dot_times. now apply mul_times. Qed.
Lemma tdot_scale l nb Tb v v' : times l v v' -> tdot nb Tb v' = scale_vec l (tdot nb Tb v).
Proof. intro H. unfold tdot, scale_vec. rewrite map_map. apply map_ext. intro i. now apply dot_times. Qed.
Lemma times_map2 a b c (op op2 : Q -> Q -> Q) l l' m m' : times a l l' -> times b m m' -> (forall x y x' y', (x' == a * x)%Q -> (y' == b * y)%Q -> (op2 x' y' == c * op x y)%Q) -> times c (map2 op l m) (map2 op2 l' m').
Proof. intros H M O. revert m m' M. induction H as [|x x' l l' E _ IH]; intros m m' [|y y' k k' E' M]; cbn [map2]; constructor; [now apply O|now apply IH]. Qed.

Section S.
Variables (slv : solvers) (argsort : list xq -> list nat) (polyfit : list Q -> list Q -> option (Q * Q * Q)) (isqrt : Q -> Q).
Variable trans : option string -> Q -> Q -> Q.
Variables (nminima nz : nat).
Variable c : Q.
Hypothesis cpos : (0 < c)%Q.
Notation k := (1 / (c * c))%Q.
Notation l := (1 / c)%Q.
Notation h := (fun a : Q => Qred (c * a)).
Lemma hzero : h 0%Q = 0%Q.
Proof. cbv beta. transitivity (Qred 0); [|reflexivity]. apply Qred_complete. ring. Qed.
Lemma cne : ~ (c == 0)%Q. Proof. intro E. rewrite E in cpos. discriminate. Qed.
Lemma kpos : (0 < k)%Q. Proof. apply Qlt_shift_div_l; [nra|ring_simplify; reflexivity]. Qed.
Lemma lpos : (0 < l)%Q. Proof. apply Qlt_shift_div_l; [exact cpos|ring_simplify; reflexivity]. Qed.
Lemma lk : (l / k == c)%Q. Proof. field. exact cne. Qed.

Lemma design_scale nb td i s s' : Forall2 (rescaled c) s s' -> dot_product_sparse_one nb s' td i = dot_product_sparse_one nb s td i.
Proof.
  intro F. unfold dot_product_sparse_one. f_equal. induction F as [|a b s s' (E & R & _) _ IH]; [reflexivity|]. cbn [mapM]. now rewrite <- E, <- R, IH.
Qed.
Lemma chi2_scale f f' w w' Tb x : times c f f' -> times k w w' -> chi2_of f' (mvec Tb (scale_vec c x)) w' = chi2_of f (mvec Tb x) w.
Proof.
  intros F W. unfold chi2_of, dot. apply Qred_complete. assert (M : times c (mvec Tb x) (mvec Tb (scale_vec c x))).
  { unfold mvec, times. induction Tb as [|r Tb IH]; cbn [map]; constructor; [|exact IH]. rewrite (dot_times c r x (scale_vec c x) (scale_times c x)). apply Qred_correct. }
  revert M. generalize (mvec Tb x) as m, (mvec Tb (scale_vec c x)) as m'. revert f f' F. unfold sumQ. induction W as [|a b w w' Ew _ IH]; intros f f' F m m' M; [destruct F, M; reflexivity|]. destruct F as [|x1 x2 f f' Ef F]; [reflexivity|]. destruct M as [|y1 y2 m m' Em M]; [reflexivity|]. cbn [map2 fold_right]. rewrite (IH _ _ F _ _ M), Ew, Ef, Em. field. exact cne.
Qed.
Lemma zchi2_scale alg nb s s' td w w' f f' wf wf' i : homogeneous slv alg -> Forall2 (rescaled c) s s' -> times k w w' -> times c f f' -> times l wf wf' ->
  zchi2_at slv alg None None nb s' td w' f' wf' i = rmap (fun qv => (fst qv, scale_vec c (snd qv))) (zchi2_at slv alg None None nb s td w f wf i).
Proof.
  intros H F W Fl Wf. unfold zchi2_at. rewrite (design_scale nb td i s s' F). destruct (dot_product_sparse_one nb s td i) as [Tb|]; cbn [rbind]; [|reflexivity]. rewrite (times_len _ _ _ W), (times_len _ _ _ Fl), (times_len _ _ _ Wf). destruct (negb _); [reflexivity|]. cbn [add_prior rbind]. cbv zeta.
  rewrite (normal_scale k nb w w' Tb W), (tdot_scale l nb Tb wf wf' Wf), (H k l _ _ kpos lpos). destruct (solve_matrices slv alg None (normal_M nb w Tb) (tdot nb Tb wf)) as [x|[]]; cbn [rmap fst snd]; rewrite ?scale_zeros; try reflexivity.
  rewrite (scale_vec_eq _ _ x lk). assert (El : length (scale_vec c x) = length x) by apply map_length. rewrite El. destruct (length x =? nb); [|reflexivity]. cbn [rmap fst snd]. now rewrite (chi2_scale f f' w w' Tb x Fl W).
Qed.
Lemma batch_scale alg nb s s' td w w' f f' wf wf' n : homogeneous slv alg -> Forall2 (rescaled c) s s' -> times k w w' -> times c f f' -> times l wf wf' ->
  calc_zchi2_batch slv alg None None s' td w' f' wf' n nb = rmap (fun r => (fst r, map (scale_vec c) (snd r))) (calc_zchi2_batch slv alg None None s td w f wf n nb).
Proof.
  intros H F W Fl Wf. unfold calc_zchi2_batch. assert (E : Qeq_bool (sumQ w') 0 = Qeq_bool (sumQ w) 0).
  { pose proof (times_sum _ _ _ W) as E. destruct (Qeq_bool (sumQ w) 0) eqn:B.
    - apply Qeq_bool_iff in B. apply Qeq_bool_iff. rewrite E, B. ring.
    - apply Qeq_bool_neq in B. destruct (Qeq_bool (sumQ w') 0) eqn:B'; [|reflexivity]. exfalso. apply Qeq_bool_iff in B'. apply B. rewrite B' in E. assert (X : (sumQ w == c * c * (k * sumQ w))%Q) by (field; exact cne). rewrite X, <- E. ring. }
  rewrite E. destruct (Qeq_bool (sumQ w) 0).
  - cbn [rmap fst snd]. do 2 f_equal. clear. induction n; [reflexivity|]. cbn [repeat map]. now rewrite scale_zeros, <- IHn.
  - eapply rmap_bind; [apply mapM_rmap_same; intros i _; apply (zchi2_scale alg nb s s' td w w' f f' wf wf' i H F W Fl Wf)|]. intros r _. cbn [rmap fst snd]. now rewrite !map_map.
Qed.
Lemma spectral_scale s s' : Forall2 (rescaled c) s s' -> match spectral_data s, spectral_data s' with Ok (w, f, wf), Ok (w', f', wf') => times k w w' /\ times c f f' /\ times l wf wf' | Err e, Err e' => e = e' | _, _ => False end.
Proof.
  intro F. assert (W : times k (concat (map s_ivar s)) (concat (map s_ivar s'))) by (eapply times_concat; [exact F|intros a b (_ & _ & _ & X); exact X]). assert (Fl : times c (concat (map s_flux s)) (concat (map s_flux s'))) by (eapply times_concat; [exact F|intros a b (_ & _ & X & _); exact X]).
  unfold spectral_data. destruct F; [reflexivity|]. cbv zeta. rewrite (times_len _ _ _ W), (times_len _ _ _ Fl). destruct (_ =? _); [|reflexivity]. split; [exact W|]. split; [exact Fl|]. eapply times_map2; [exact W|exact Fl|]. cbv beta. intros u v u' v' E1 E2. rewrite !Qred_correct, E1, E2. field. exact cne.
Qed.
Lemma no_oii p : no_penalty p -> OIItemplate (p_core p) = None.
Proof. intro H. unfold OIItemplate. destruct (String.eqb_spec (t_rrtype (p_core p)) "GALAXY"); [|reflexivity]. destruct (String.eqb_spec (t_method (p_core p)) "PCA"); [|reflexivity]. exfalso. destruct H; contradiction. Qed.

Definition hz (x : vec * list vec * vec) : vec * list vec * vec := (fst (fst x), map (scale_vec c) (snd (fst x)), snd x).
Lemma target_scale p td n s s' : no_penalty p -> homogeneous slv (t_method (p_core p)) -> Forall2 (rescaled c) s s' -> zchi2_target slv (p_core p) td n s' = rmap hz (zchi2_target slv (p_core p) td n s).
Proof.
  intros N H F. unfold zchi2_target. pose proof (spectral_scale s s' F) as D. destruct (spectral_data s) as [[[w f] wf]|e], (spectral_data s') as [[[w' f'] wf']|e']; try contradiction; cbn [rbind]; [|now subst]. destruct D as (W & Fl & Wf). cbv zeta.
  pose proof (batch_scale (t_method (p_core p)) (length (t_flux (p_core p))) s s' td w w' f f' wf wf' n H F W Fl Wf) as B. unfold calc_zchi2_batch in B |- *. rewrite (no_oii p N).
  assert (E : Qeq_bool (sumQ w') 0 = Qeq_bool (sumQ w) 0).
  { clear -W cpos. pose proof (times_sum _ _ _ W) as E. destruct (Qeq_bool (sumQ w) 0) eqn:B.
    - apply Qeq_bool_iff in B. apply Qeq_bool_iff. rewrite E, B. ring.
    - apply Qeq_bool_neq in B. destruct (Qeq_bool (sumQ w') 0) eqn:B'; [|reflexivity]. exfalso. apply Qeq_bool_iff in B'. apply B. rewrite B' in E. assert (X : (sumQ w == c * c * (k * sumQ w))%Q) by (field; exact cne). rewrite X, <- E. ring. }
  rewrite E in *. destruct (Qeq_bool (sumQ w) 0).
  - cbn [rmap]. unfold hz. cbn [fst snd]. do 3 f_equal. clear. induction n; [reflexivity|]. cbn [repeat map]. now rewrite scale_zeros, <- IHn.
  - eapply rmap_bind; [exact B|]. intros r _. cbn [rmap]. destruct r as [r1 r2]. reflexivity.
Qed.

Lemma data_scale g g' : rescaled_target c g g' -> Forall2 (rescaled c) (data_of g) (data_of g').
Proof. intros [_ F]. unfold data_of. induction F as [|? ? ? ? [_ H] _ IH]; cbn [map]; constructor; assumption. Qed.
Lemma own_scale g g' : rescaled_target c g g' -> own_grids g' = own_grids g.
Proof.
  intros [_ F]. unfold own_grids. generalize (@nil (Z * list Q)) as d. induction F as [|s s' m m' [Ew (Eh & _)] _ IH]; intro d; [reflexivity|]. cbn [fold_left]. assert (Eq : q_hash s' = q_hash s) by (symmetry; exact Eh). rewrite <- Ew, Eq. apply IH.
Qed.
Lemma grids_scale tgs tgs' : Forall2 (rescaled_target c) tgs tgs' -> grids tgs' = grids tgs.
Proof.
  intro F. unfold grids. assert (X : Forall2 (fun s s' => q_wave s = q_wave s' /\ q_hash s = q_hash s') (flat_map g_spectra tgs) (flat_map g_spectra tgs')).
  { induction F as [|g g' m m' [_ H] _ IH]; cbn [flat_map]; [constructor|]. apply Forall2_app; [|exact IH]. eapply Forall2_impl; [|exact H]. intros s s' [E (Eh & _)]. now split. }
  generalize (@nil (Z * list Q)) as d. induction X as [|s s' m m' [Ew Eh] _ IH]; intro d; [reflexivity|]. cbn [fold_left]. rewrite <- Ew, <- Eh. apply IH.
Qed.
Lemma npix_scale g g' : rescaled_target c g g' -> npixels g' = npixels g.
Proof.
  intro G. unfold npixels. assert (W : times k (concat (map s_ivar (data_of g))) (concat (map s_ivar (data_of g')))) by (eapply times_concat; [apply (data_scale _ _ G)|intros a b (_ & _ & _ & X); exact X]). f_equal.
  induction W as [|x y m m' E _ IH]; [reflexivity|]. cbn [filter]. assert (B : qlt 0 y = qlt 0 x).
  { destruct (qlt 0 x) eqn:B.
    - apply qlt_iff in B. apply qlt_iff. rewrite E. pose proof kpos. nra.
    - apply qlt_false in B. destruct (qlt 0 y) eqn:B'; [|reflexivity]. exfalso. apply qlt_iff in B'. rewrite E in B'. pose proof kpos as K. assert (k * x <= k * 0)%Q by (apply Qmult_le_l; assumption). lra. }
  rewrite B. destruct (qlt 0 x); cbn [length]; [f_equal|]; exact IH.
Qed.
Lemma fit_scale p g g' zc : no_penalty p -> homogeneous slv (t_method (p_core p)) -> rescaled_target c g g' -> fit_target slv argsort polyfit isqrt trans nminima nz p g' zc = rmap (map (hfit h)) (fit_target slv argsort polyfit isqrt trans nminima nz p g zc).
Proof.
  intros N H G. unfold fit_target. pose proof (data_scale _ _ G) as F. pose proof (spectral_scale _ _ F) as D. destruct (spectral_data (data_of g)) as [[[w f] wf]|e], (spectral_data (data_of g')) as [[[w' f'] wf']|e']; try contradiction; cbn [rbind]; [|now subst]. destruct D as (W & Fl & Wf).
  assert (X : forall z, chi2_at slv trans p g' w' f' wf' z = rmap (fun qv => (fst qv, scale_vec c (snd qv))) (chi2_at slv trans p g w f wf z)).
  { intro z. unfold chi2_at. rewrite (own_scale _ _ G). destruct (tdata _ _ _ _) as [d|]; cbn [rbind]; [|reflexivity]. eapply rmap_bind; [apply (batch_scale _ _ _ _ d w w' f f' wf wf' 1 H F W Fl Wf)|]. intros [r1 r2] _. cbn [rmap fst snd]. destruct r2; reflexivity. }
  apply fitz_h.
  - intro z. unfold fine_scan. rewrite X. destruct (chi2_at slv trans p g w f wf z) as [[q v]|]; cbn [rmap rbind fst snd]; [|reflexivity]. unfold penalty. now rewrite (no_oii p N).
  - intro z. unfold coeff_at. rewrite X. destruct (chi2_at slv trans p g w f wf z) as [[q v]|]; reflexivity.
  - apply h_zeros, hzero.
Qed.

Notation hs := (hscans h).
Lemma put_all_h r m : put_all (hs r) (map (fun x => (fst x, hent2 h (snd x))) m) = rmap hs (put_all r m).
Proof.
  unfold put_all. assert (X : forall acc acc', acc' = rmap hs acc -> fold_left (fun acc x => do r <- acc; put r (fst x) (fst (snd x)) (snd (snd x))) (map (fun x => (fst x, hent2 h (snd x))) m) acc' = rmap hs (fold_left (fun acc x => do r <- acc; put r (fst x) (fst (snd x)) (snd (snd x))) m acc)); [|now apply X].
  induction m as [|x m IH]; intros acc acc' E; [exact E|]. cbn [map fold_left]. apply IH. eapply rmap_bind; [exact E|]. intros r0 _. cbn [fst snd hent2]. apply put_h.
Qed.
Lemma scan_scale tgs tgs' p td r : no_penalty p -> homogeneous slv (t_method (p_core p)) -> Forall2 (rescaled_target c) tgs tgs' -> scan_template slv tgs' (hs r) p td = rmap hs (scan_template slv tgs r p td).
Proof.
  intros N H F. unfold scan_template, calc_zchi2.
  assert (X : mapM (zchi2_target slv (p_core p) td (length (p_zs p))) (map data_of tgs') = rmap (map hz) (mapM (zchi2_target slv (p_core p) td (length (p_zs p))) (map data_of tgs))).
  { eapply (mapM_rmap (Forall2 (rescaled c))); [|intros s s' G; now apply target_scale]. induction F; cbn [map]; constructor; [now apply data_scale|assumption]. }
  eapply rmap_bind; [exact X|]. intros rows _. rewrite <- put_all_h. f_equal. clear X. revert rows. induction F as [|g g' m m' [E _] _ IH]; intro rows; [reflexivity|]. destruct rows as [|[[a b] d] rows]; [reflexivity|]. cbn [combine map hz fst snd]. rewrite IH, E. reflexivity.
Qed.
Lemma fit_one_scale p r g g' : no_penalty p -> homogeneous slv (t_method (p_core p)) -> rescaled_target c g g' -> fit_one slv argsort polyfit isqrt trans nminima nz p (hs r) g' = rmap hs (fit_one slv argsort polyfit isqrt trans nminima nz p r g).
Proof.
  intros N H G. unfold fit_one. rewrite <- (proj1 G), dget_h. destruct (Model_Dist.dget r (g_id g)) as [d|]; [|reflexivity]. cbn [option_map]. rewrite sget_h. destruct (sget d (full_type p)) as [e|]; [|reflexivity]. cbn [option_map]. eapply rmap_bind; [apply (fit_scale p g g' _ N H G)|]. intros fs _. rewrite (npix_scale g g' G). apply (put_h h r (g_id g) (full_type p) {| e_zchi2 := e_zchi2 e; e_penalty := e_penalty e; e_fits := Some (npixels g, fs) |}).
Qed.
Lemma ids_scale tgs tgs' : Forall2 (rescaled_target c) tgs tgs' -> map g_id tgs' = map g_id tgs.
Proof. induction 1 as [|? ? ? ? [E _] _ IH]; [reflexivity|]. cbn [map]. now rewrite E, IH. Qed.
Lemma empty_scale tgs tgs' : Forall2 (rescaled_target c) tgs tgs' -> empty_scans tgs' = hs (empty_scans tgs).
Proof.
  intro F. unfold empty_scans. assert (X : forall d d', d' = hs d -> fold_left (fun d g => dset d (g_id g) []) tgs' d' = hs (fold_left (fun d g => dset d (g_id g) []) tgs d)); [|now apply X].
  induction F as [|g g' m m' [E _] _ IH]; intros d d' Ed; [exact Ed|]. cbn [fold_left]. apply IH. rewrite Ed, <- E. exact (dset_h h d (g_id g) []).
Qed.
Lemma fold_rmap {A} (f f' : scans -> A -> res scans) m acc : (forall r x, In x m -> f' (hs r) x = rmap hs (f r x)) -> fold_left (fun acc x => do r <- acc; f' r x) m (rmap hs acc) = rmap hs (fold_left (fun acc x => do r <- acc; f r x) m acc).
Proof.
  revert acc. induction m as [|x m IH]; intros acc H; [reflexivity|]. cbn [fold_left]. rewrite <- IH by (intros; apply H; now right). f_equal. destruct acc; cbn [rmap rbind]; [apply H; now left|reflexivity].
Qed.
Lemma in_by_type ps p : In p (by_type ps) -> In p ps.
Proof. unfold by_type. intro H. apply isort_in in H. exact H. Qed.

Lemma run_scale ps tgs tgs' : Forall no_penalty ps -> Forall (fun p => homogeneous slv (t_method (p_core p))) ps -> Forall2 (rescaled_target c) tgs tgs' ->
  run slv argsort polyfit isqrt trans nminima nz ps tgs' = rmap (map (in_units c)) (run slv argsort polyfit isqrt trans nminima nz ps tgs).
Proof.
  intros N H F. rewrite Forall_forall in N, H. unfold run. rewrite (grids_scale _ _ F), (ids_scale _ _ F), (empty_scale _ _ F). destruct (mapM (fun p => tdata trans p (grids tgs) (p_zs p)) ps) as [tds|]; cbn [rbind]; [|reflexivity].
  assert (X : forall m r, (forall p td, In (p, td) m -> In p ps) -> scan_all slv tgs' (hs r) m = rmap hs (scan_all slv tgs r m)).
  { induction m as [|[p td] m IH]; intros r I; [reflexivity|]. cbn [scan_all]. pose proof (I p td (or_introl eq_refl)) as Ip. eapply rmap_bind; [apply (scan_scale tgs tgs' p td r (N p Ip) (H p Ip) F)|]. intros r' _. apply IH. intros; eapply I; right; eassumption. }
  eapply rmap_bind; [apply X; intros p td I; eapply in_combine_l; exact I|]. intros r _.
  assert (Y : forall p, In p ps -> forall acc, fold_left (fun acc g => do r <- acc; fit_one slv argsort polyfit isqrt trans nminima nz p r g) tgs' (rmap hs acc) = rmap hs (fold_left (fun acc g => do r <- acc; fit_one slv argsort polyfit isqrt trans nminima nz p r g) tgs acc)).
  { intros p Ip. clear -F N H Ip cpos. induction F as [|g g' m m' G _ IH]; intro acc; [reflexivity|]. cbn [fold_left]. rewrite <- IH. f_equal. destruct acc as [r|]; cbn [rmap rbind]; [apply (fit_one_scale p r g g' (N p Ip) (H p Ip) G)|reflexivity]. }
  eapply rmap_bind; [unfold fit_all; apply (fold_rmap (fit_template slv argsort polyfit isqrt trans nminima nz tgs) (fit_template slv argsort polyfit isqrt trans nminima nz tgs') (by_type ps) (Ok r)); intros r0 p Ip; unfold fit_template; apply (Y p (in_by_type ps p Ip) (Ok r0))|].
  intros r1 _. eapply rmap_bind; [apply results_h|]. intros d _. destruct (distinct_ids (map g_id tgs)); [|reflexivity]. apply (zfind_h h hzero).
Qed.
End S.
