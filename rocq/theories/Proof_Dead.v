(* The run does not depend on the flux of pixels without weight. *)
From Verif Require Import Prelude PreludeFacts NumX Facts2 Model_Fitz Proof_Fitz Model_Rebin Model_Dist Model_Zscan Proof_Zscan3 Model_Piece Model_IO Model_Zfind Model_Targets Model_Desi Spec_Desi Proof_Desi4 Proof_Table
  Model_Run Proof_Run Proof_Run2 Proof_Run3 Model_RunMPI Model_RunDesi Spec_RunDesi Proof_RunDesi Spec_Dead.
Open Scope nat_scope.

(* weights w; f and f' agree where w is not zero *)
Inductive veq : list Q -> list Q -> list Q -> Prop :=
| veq_nil : veq [] [] []
| veq_cons w f f' ws fs fs' : w = 0%Q \/ f = f' -> veq ws fs fs' -> veq (w :: ws) (f :: fs) (f' :: fs').
Lemma veq_app w f f' v h h' : veq w f f' -> veq v h h' -> veq (w ++ v) (f ++ h) (f' ++ h').
Proof. intros H H2. induction H; cbn [app]; [exact H2|constructor; auto]. Qed.
Lemma veq_len w f f' : veq w f f' -> length f = length w /\ length f' = length w.
Proof. induction 1 as [|? ? ? ? ? ? _ _ [A B]]; cbn; split; congruence. Qed.
Lemma veq_sym w f f' : veq w f f' -> veq w f' f.
Proof. induction 1; constructor; [intuition congruence|assumption]. Qed.
Lemma veq_nth w f f' : length f = length w -> length f' = length w -> (forall i, i < length w -> nth i w 0%Q = 0%Q \/ nth i f 0%Q = nth i f' 0%Q) -> veq w f f'.
Proof.
  revert f f'. induction w as [|a w IH]; intros [|b f] [|c f'] L L' H; try discriminate; constructor.
  - exact (H 0 (Nat.lt_0_succ _)).
  - apply IH; [now injection L|now injection L'|]. intros i Hi. apply (H (S i)). cbn. lia.
Qed.
Lemma veq_at w f f' i : veq w f f' -> nth i w 0%Q = 0%Q \/ nth i f 0%Q = nth i f' 0%Q.
Proof. intro H. revert i. induction H; intros [|i]; cbn [nth]; auto. Qed.
Lemma veq_prod w f f' : veq w f f' -> map2 (fun w f => Qred (w * f)) w f = map2 (fun w f => Qred (w * f)) w f'.
Proof. induction 1 as [|a b c w f f' H _ IH]; [reflexivity|]. cbn [map2]. rewrite IH. f_equal. destruct H as [->| ->]; [|reflexivity]. apply Qred_complete. ring. Qed.
Lemma veq_chi2 w f f' m : veq w f f' -> chi2_of f m w = chi2_of f' m w.
Proof.
  intro H. unfold chi2_of, dot. apply Qred_complete. revert m. induction H as [|a b c w f f' H _ IH]; intro m; [reflexivity|]. destruct m as [|x m]; [reflexivity|]. cbn [map2]. unfold sumQ in *. cbn [fold_right]. rewrite (IH m). destruct H as [->| ->]; [ring|reflexivity].
Qed.

(* spectra *)
Definition sveq (s s' : spectrum) : Prop := s_hash s = s_hash s' /\ Model_Zscan.s_ivar s = Model_Zscan.s_ivar s' /\ s_R s = s_R s' /\ veq (Model_Zscan.s_ivar s) (Model_Zscan.s_flux s) (Model_Zscan.s_flux s').
Lemma sveq_data l l' : Forall2 sveq l l' -> concat (map Model_Zscan.s_ivar l) = concat (map Model_Zscan.s_ivar l') /\ veq (concat (map Model_Zscan.s_ivar l)) (concat (map Model_Zscan.s_flux l)) (concat (map Model_Zscan.s_flux l')).
Proof. induction 1 as [|s s' l l' (_ & E & _ & V) _ [I1 I2]]; cbn [map concat]; [split; [reflexivity|constructor]|]. split; [now rewrite E, I1|now apply veq_app]. Qed.
Lemma sveq_spectral l l' : Forall2 sveq l l' -> match spectral_data l, spectral_data l' with Ok (w, f, wf), Ok (w', f', wf') => w = w' /\ wf = wf' /\ veq w f f' | Err e, Err e' => e = e' | _, _ => False end.
Proof.
  intro F. destruct (sveq_data l l' F) as [E V]. destruct (veq_len _ _ _ V) as [L L']. unfold spectral_data. destruct F; [reflexivity|]. cbv zeta. rewrite <- E, L, L', !Nat.eqb_refl. repeat split; [now apply veq_prod|exact V].
Qed.
Lemma rbind_eq {A B} (m m' : res A) (k k' : A -> res B) : m = m' -> (forall x, k x = k' x) -> rbind m k = rbind m' k'.
Proof. intros <- H. destruct m; cbn; [apply H|reflexivity]. Qed.
Lemma mapM_F2eq {A B C} (f : A -> res C) (h : B -> res C) l m : Forall2 (fun a b => f a = h b) l m -> mapM f l = mapM h m.
Proof. induction 1 as [|a b l m E _ IH]; [reflexivity|]. cbn [mapM]. now rewrite E, IH. Qed.
Lemma sveq_design nb td i l l' : Forall2 sveq l l' -> dot_product_sparse_one nb l td i = dot_product_sparse_one nb l' td i.
Proof. intro F. unfold dot_product_sparse_one. f_equal. apply mapM_F2eq. eapply Forall2_impl; [|exact F]. intros s s' (E & _ & R & _). now rewrite E, R. Qed.

Section R.
Variables (slv : solvers) (argsort : list xq -> list nat) (polyfit : list Q -> list Q -> option (Q * Q * Q)) (isqrt : Q -> Q).
Variable trans : option string -> Q -> Q -> Q.
Variables (nminima nz : nat).
Notation run := (run slv argsort polyfit isqrt trans nminima nz).

Lemma sveq_batch alg args prior l l' td w f f' wf n nb : Forall2 sveq l l' -> veq w f f' -> calc_zchi2_batch slv alg args prior l td w f wf n nb = calc_zchi2_batch slv alg args prior l' td w f' wf n nb.
Proof.
  intros F V. unfold calc_zchi2_batch. destruct (Qeq_bool (sumQ w) 0); [reflexivity|]. f_equal. apply mapM_ext. intros i _. unfold zchi2_at. rewrite (sveq_design nb td i l l' F). destruct (dot_product_sparse_one nb l' td i) as [Tb|]; cbn [rbind]; [|reflexivity].
  destruct (veq_len _ _ _ V) as [L L']. rewrite L, L'. destruct (negb _); [reflexivity|]. destruct (add_prior _ _ _); cbn [rbind]; [|reflexivity]. destruct (solve_matrices _ _ _ _ _) as [c|]; [|reflexivity]. now rewrite (veq_chi2 w f f' _ V).
Qed.
Lemma sveq_scan t td n l l' : Forall2 sveq l l' -> zchi2_target slv t td n l = zchi2_target slv t td n l'.
Proof.
  intro F. unfold zchi2_target. pose proof (sveq_spectral l l' F) as D. destruct (spectral_data l) as [[[w f] wf]|e], (spectral_data l') as [[[w' f'] wf']|e']; try contradiction; cbn [rbind]; [|now subst]. destruct D as (<- & <- & V). destruct (Qeq_bool (sumQ w) 0); [reflexivity|]. now rewrite (sveq_batch _ _ _ l l' td w f f' wf n _ F V).
Qed.

(* targets *)
Definition gveq (g g' : targ) : Prop := g_id g = g_id g' /\ Forall2 (fun s s' => q_wave s = q_wave s' /\ sveq (q_spec s) (q_spec s')) (g_spectra g) (g_spectra g').
Lemma gveq_data g g' : gveq g g' -> Forall2 sveq (data_of g) (data_of g').
Proof. intros [_ F]. unfold data_of. induction F as [|? ? ? ? [_ H] _ IH]; cbn [map]; constructor; assumption. Qed.
Lemma gveq_own g g' : gveq g g' -> own_grids g = own_grids g'.
Proof.
  intros [_ F]. unfold own_grids. generalize (@nil (Z * list Q)) as d. induction F as [|s s' l l' [Ew (Eh & _)] _ IH]; intro d; [reflexivity|]. cbn [fold_left]. assert (Eq : q_hash s = q_hash s') by exact Eh. rewrite Ew, Eq. apply IH.
Qed.
Lemma gveq_grids tgs tgs' : Forall2 gveq tgs tgs' -> grids tgs = grids tgs'.
Proof.
  intro F. unfold grids. assert (X : Forall2 (fun s s' => q_wave s = q_wave s' /\ q_hash s = q_hash s') (flat_map g_spectra tgs) (flat_map g_spectra tgs')).
  { induction F as [|g g' l l' [_ H] _ IH]; cbn [flat_map]; [constructor|]. apply Forall2_app; [|exact IH]. eapply Forall2_impl; [|exact H]. intros s s' [E (Eh & _)]. now split. }
  generalize (@nil (Z * list Q)) as d. induction X as [|s s' l l' [Ew Eh] _ IH]; intro d; [reflexivity|]. cbn [fold_left]. rewrite Ew, Eh. apply IH.
Qed.
Lemma gveq_npix g g' : gveq g g' -> npixels g = npixels g'.
Proof. intro G. unfold npixels. now rewrite (proj1 (sveq_data _ _ (gveq_data g g' G))). Qed.

Lemma mapM_fext {A B} (f h : A -> res B) l : (forall a, f a = h a) -> mapM f l = mapM h l.
Proof. intro H. induction l as [|a l IH]; [reflexivity|]. cbn [mapM]. now rewrite H, IH. Qed.
Lemma fitz_ext {C} neg1 (sc sc' : Q -> res Q) (rf rf' : Q -> res C) zero mvd zs (zc : list xq) : (forall z, sc z = sc' z) -> (forall z, rf z = rf' z) ->
  fitz (E := Q) argsort polyfit isqrt neg1 sc rf zero mvd nminima nz zs None zc = fitz argsort polyfit isqrt neg1 sc' rf' zero mvd nminima nz zs None zc.
Proof.
  intros Hs Hr. unfold fitz. destruct (negb _); [reflexivity|]. destruct (find_minima argsort zc) as [m|]; cbn [rbind]; [|reflexivity].
  assert (X : forall imin, refine polyfit isqrt neg1 sc rf zero nz zs imin = refine polyfit isqrt neg1 sc' rf' zero nz zs imin).
  { intro imin. unfold refine. destruct (rs zs (imin - 1)); cbn [rbind]; [|reflexivity]. destruct (rs zs (Nat.min _ _)); cbn [rbind]; [|reflexivity]. destruct (linspace _ _ _) as [|z0 zz]; [reflexivity|]. rewrite (mapM_fext sc sc' _ Hs). destruct (mapM sc' (z0 :: zz)); cbn [rbind]; [|reflexivity].
    match goal with |- context [minfit ?p ?q ?r ?s ?t] => destruct (minfit p q r s t) as [[[zm sg] ym] w0] end. now rewrite Hr. }
  assert (Y : forall r, fit_loop polyfit isqrt neg1 sc rf zero mvd nminima nz zs None m r = fit_loop polyfit isqrt neg1 sc' rf' zero mvd nminima nz zs None m r); [|now rewrite Y].
  induction m as [|i m IH]; intro r; [reflexivity|]. cbn [fit_loop]. destruct (length r =? nminima); [reflexivity|]. destruct (rs zs i); cbn [rbind]; [|reflexivity]. destruct (too_close _ _ _); [apply IH|]. rewrite X. destruct (refine _ _ _ _ _ _ _ _ _); cbn [rbind]; [|reflexivity]. destruct (too_close _ _ _); [apply IH|]. destruct (finish _ _); cbn [rbind]; [apply IH|reflexivity].
Qed.
Lemma gveq_fit p g g' zc : gveq g g' -> fit_target slv argsort polyfit isqrt trans nminima nz p g zc = fit_target slv argsort polyfit isqrt trans nminima nz p g' zc.
Proof.
  intro G. unfold fit_target. pose proof (gveq_data _ _ G) as F. pose proof (sveq_spectral _ _ F) as D. destruct (spectral_data (data_of g)) as [[[w f] wf]|e], (spectral_data (data_of g')) as [[[w' f'] wf']|e']; try contradiction; cbn [rbind]; [|now subst]. destruct D as (<- & <- & V).
  assert (X : forall z, chi2_at slv trans p g w f wf z = chi2_at slv trans p g' w f' wf z). { intro z. unfold chi2_at. rewrite (gveq_own _ _ G). destruct (tdata _ _ _ _) as [d|]; cbn [rbind]; [|reflexivity]. now rewrite (sveq_batch _ _ _ _ _ d w f f' wf 1 _ F V). }
  apply fitz_ext; intro z; [unfold fine_scan|unfold coeff_at]; now rewrite X.
Qed.
Lemma gveq_ids tgs tgs' : Forall2 gveq tgs tgs' -> map g_id tgs = map g_id tgs'.
Proof. induction 1 as [|? ? ? ? [E _] _ IH]; [reflexivity|]. cbn [map]. now rewrite E, IH. Qed.
Lemma gveq_empty tgs tgs' : Forall2 gveq tgs tgs' -> empty_scans tgs = empty_scans tgs'.
Proof. intro F. unfold empty_scans. generalize (@nil (Z * list (string * entry))) as d. induction F as [|? ? ? ? [E _] _ IH]; intro d; [reflexivity|]. cbn [fold_left]. rewrite E. apply IH. Qed.
Lemma gveq_scan tgs tgs' p td r : Forall2 gveq tgs tgs' -> scan_template slv tgs r p td = scan_template slv tgs' r p td.
Proof.
  intro F. unfold scan_template, calc_zchi2. assert (X : mapM (zchi2_target slv (p_core p) td (length (p_zs p))) (map data_of tgs) = mapM (zchi2_target slv (p_core p) td (length (p_zs p))) (map data_of tgs')).
  { apply mapM_F2eq. induction F as [|g g' l l' G _ IH]; cbn [map]; constructor; [apply sveq_scan, gveq_data, G|exact IH]. }
  apply (rbind_eq _ _ _ _ X). intro rows. f_equal. clear X. revert rows. induction F as [|g g' l l' [E _] _ IH]; intro rows; [reflexivity|]. destruct rows as [|[[a b] c] rows]; [reflexivity|]. cbn [combine map]. now rewrite E, IH.
Qed.
Lemma gveq_fit_one p r g g' : gveq g g' -> fit_one slv argsort polyfit isqrt trans nminima nz p r g = fit_one slv argsort polyfit isqrt trans nminima nz p r g'.
Proof. intro G. unfold fit_one. rewrite (proj1 G). destruct (dget r (g_id g')); [|reflexivity]. destruct (sget _ _); [|reflexivity]. rewrite (gveq_fit p g g' _ G), (gveq_npix g g' G). reflexivity. Qed.
Lemma run_dead ps tgs tgs' : Forall2 gveq tgs tgs' -> run ps tgs = run ps tgs'.
Proof.
  intro F. unfold Model_Run.run. rewrite (gveq_grids _ _ F), (gveq_empty _ _ F), (gveq_ids _ _ F). destruct (mapM _ ps) as [tds|]; cbn [rbind]; [|reflexivity].
  assert (X : forall l r, scan_all slv tgs r l = scan_all slv tgs' r l). { induction l as [|[p td] l IH]; intro r; [reflexivity|]. cbn [scan_all]. rewrite (gveq_scan _ _ p td r F). destruct (scan_template _ _ _ _ _); cbn [rbind]; [apply IH|reflexivity]. }
  rewrite X. destruct (scan_all _ _ _ _) as [r|]; cbn [rbind]; [|reflexivity].
  assert (Y : forall p acc, fold_left (fun acc g => do r <- acc; fit_one slv argsort polyfit isqrt trans nminima nz p r g) tgs acc = fold_left (fun acc g => do r <- acc; fit_one slv argsort polyfit isqrt trans nminima nz p r g) tgs' acc).
  { intro p. clear -F. induction F as [|g g' l l' G _ IH]; intro acc; [reflexivity|]. cbn [fold_left]. destruct acc as [r|e]; cbn [rbind]; [rewrite (gveq_fit_one p r g g' G)|]; apply IH. }
  assert (Z : fit_all slv argsort polyfit isqrt trans nminima nz tgs r ps = fit_all slv argsort polyfit isqrt trans nminima nz tgs' r ps); [|now rewrite Z].
  unfold fit_all. generalize (Ok r) as acc. induction (by_type ps) as [|p l IH]; intro acc; [reflexivity|]. cbn [fold_left]. destruct acc as [r0|e]; cbn [rbind]; [|apply IH]. unfold fit_template. rewrite Y. apply IH.
Qed.
End R.
