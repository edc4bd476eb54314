(* A run on data in order succeeds exactly when the templates reach over the spectra. *)
From Verif Require Import Prelude PreludeFacts NumX Facts2 Model_Fitz Spec_Fitz Proof_Fitz Proof_Fitz2 Props_Fitz Model_Rebin Spec_Rebin Proof_Rebin Proof_Rebin2 Proof_Rebin3 Props_Rebin Model_Dist Proof_Dist3 Model_Rank Proof_Table Model_Zscan Spec_Zscan Proof_Zscan Proof_Zscan2 Proof_Zscan3 Proof_Zscan4 Props_Zscan
  Model_Piece Spec_Piece Proof_Piece Proof_Piece2 Model_IO Spec_IO Proof_IO Model_Zfind Proof_Zfind Model_Run Spec_Run Proof_Run Proof_Run2 Proof_Run3 Proof_Run4 Proof_Run5 Proof_Run6 Proof_RunMPI.
Open Scope nat_scope.
Local Notation dget := Model_Dist.dget. Local Notation dset := Model_Dist.dset.

Lemma sound_usable p : sound_template p -> usable p.
Proof.
  intros (H1 & H2 & H3 & _). split; [exact H1|]. split; [exact H3|]. destruct (Nat.eq_dec (length (t_wave (p_core p))) 1) as [E|E]; [rewrite E; exact H3|].
  assert (L : 0 < length (t_wave (p_core p))) by (destruct (t_wave (p_core p)); [congruence|cbn; lia]). pose proof (H2 0 (length (t_wave (p_core p)) - 1) ltac:(lia) ltac:(lia)). lra.
Qed.
Definition sound_wave (w : list Q) : Prop := 2 <= length w /\ strictly_increasing w /\ (0 < nth 0 w 0)%Q.
Lemma covered_guarded p w e z : 2 <= length w -> centers2edges w = Ok e -> (covered p w z <-> guarded (t_wave (p_core p)) e z).
Proof.
  intros L E. destruct (C36_edges w L) as (e' & E' & Le & _ & H0 & H1). assert (e' = e) by congruence. subst e'. unfold covered, guarded. replace (length e - 1) with (length w) by lia. now rewrite H0, H1.
Qed.

Section R.
Variables (slv : solvers) (argsort : list xq -> list nat) (polyfit : list Q -> list Q -> option (Q * Q * Q)) (isqrt : Q -> Q).
Variable trans : option string -> Q -> Q -> Q.
Variables (nminima nz : nat).
Hypothesis Hsort : argsort_ok argsort.
Notation tdata := (tdata trans).
Notation fit_target := (fit_target slv argsort polyfit isqrt trans nminima nz).
Notation solo := (solo slv argsort polyfit isqrt trans nminima nz).
Notation run := (run slv argsort polyfit isqrt trans nminima nz).

Lemma template_exists p w z : sound_template p -> sound_wave w -> (-1 < z)%Q -> covered p w z -> exists A, template_on trans p w z A.
Proof.
  intros (T1 & T2 & T3 & T4 & _) (L & I & P) Hz Cv. destruct (C36_edges w L) as (e & E & Le & _). destruct (C36_brackets w e I E) as [Ie _].
  apply (covered_guarded p w e z L E) in Cv.
  destruct (row_exists (t_wave (p_core p)) (t_flux (p_core p)) T2) with (e := e) (z := z) as [row Hr]; auto; [now apply Forall_forall|lia|lra|].
  exists (map (fun i => map (fun v => Qred (v * trans (p_igm p) z (nth i w 0%Q))) (nth i row [])) (seq 0 (length w))). exists e, row. split; [exact E|]. split; [exact Hr|]. split; [now rewrite map_length, seq_length|].
  intros i Hi. now rewrite (nth_tab (fun i => map (fun v => Qred (v * trans (p_igm p) z (nth i w 0%Q))) (nth i row []))) by exact Hi.
Qed.
Lemma template_covered p w z A : 2 <= length w -> template_on trans p w z A -> covered p w z.
Proof. intros L (e & row & E & Hr & _). apply (covered_guarded p w e z L E). apply row_at_of in Hr. apply Hr. Qed.
Lemma tdata_covered p dw zs : sound_template p -> zs <> [] -> Forall (fun z => (-1 < z)%Q) zs -> Forall (fun kw => sound_wave (snd kw)) dw ->
  ((exists td, tdata p dw zs = Ok td) <-> forall kw z, In kw dw -> In z zs -> covered p (snd kw) z).
Proof.
  intros S Hz Hm Hd. pose proof (sound_usable p S) as U. rewrite Forall_forall in Hm, Hd. split.
  - intros [td H] kw z Hk Iz. apply tdata_rows in H; [|exact U|exact Hz]. destruct (In_nth_error _ _ Hk) as [i Hi]. destruct (Forall2_nth _ _ _ i kw H Hi) as (kd & _ & _ & F).
    destruct (In_nth_error _ _ Iz) as [j Hj]. destruct (Forall2_nth _ _ _ j z F Hj) as (A & _ & HA). apply (template_covered p (snd kw) z A); [apply (Hd kw Hk)|exact HA].
  - intro H. destruct (F2_build (fun (kw : Z * list Q) (kd : Z * list mat) => fst kd = fst kw /\ Forall2 (template_on trans p (snd kw)) zs (snd kd)) dw) as [td Ht].
    + intros kw Hk. destruct (F2_build (template_on trans p (snd kw)) zs) as [m Hm']; [|exists (fst kw, m); now split]. intros z Iz. apply template_exists; auto.
    + exists td. now apply tdata_rows.
Qed.
(* one redshift that is not covered *)
Lemma tdata_two p dw z : sound_template p -> Forall (fun kw => sound_wave (snd kw)) dw -> (exists td, tdata p dw [z] = Ok td) \/ (tdata p dw [z] = Err ValueError /\ ((-1 < z)%Q -> exists kw, In kw dw /\ ~ covered p (snd kw) z)).
Proof.
  intros S Hd. pose proof (sound_usable p S) as U. pose proof S as (T1 & T2 & T3 & T4 & _).
  assert (GD : (forall kw, In kw dw -> covered p (snd kw) z) \/ exists kw, In kw dw /\ ~ covered p (snd kw) z).
  { clear Hd. induction dw as [|kw dw IH]; [left; intros kw []|]. destruct IH as [IH|(k & I & N)]; [|right; exists k; split; [now right|exact N]].
    unfold covered.
    destruct (Qlt_le_dec (nth 0 (snd kw) 0 - (nth 1 (snd kw) 0 - nth 0 (snd kw) 0) / 2)%Q (nth 0 (t_wave (p_core p)) 0 * (1 + z))%Q) as [A|A]; [right; exists kw; split; [now left|]; intros [B _]; lra|].
    destruct (Qlt_le_dec (nth (length (t_wave (p_core p)) - 1) (t_wave (p_core p)) 0 * (1 + z))%Q (nth (length (snd kw) - 1) (snd kw) 0 + (nth (length (snd kw) - 1) (snd kw) 0 - nth (length (snd kw) - 2) (snd kw) 0) / 2)%Q) as [B|B]; [right; exists kw; split; [now left|]; intros [_ C]; lra|].
    left. intros k [<-|I]; [now split|now apply IH]. }
  pose proof Hd as Hd'.
  rewrite Forall_forall in Hd.
  assert (POS : forall kw, In kw dw -> covered p (snd kw) z -> (-1 < z)%Q).
  { intros kw Hk [_ C]. destruct (Hd kw Hk) as (L & I & P). destruct U as (_ & _ & W).
    assert (PL : (0 < nth (length (snd kw) - 1) (snd kw) 0)%Q) by (pose proof (I 0 (length (snd kw) - 1) ltac:(lia) ltac:(lia)); lra).
    assert (PD : (0 < nth (length (snd kw) - 1) (snd kw) 0 - nth (length (snd kw) - 2) (snd kw) 0)%Q) by (pose proof (I (length (snd kw) - 2) (length (snd kw) - 1) ltac:(lia) ltac:(lia)); lra).
    rewrite Qhalf in C. destruct (Qlt_le_dec (-1) z) as [Y|Y]; [exact Y|]. exfalso.
    assert (M : (nth (length (t_wave (p_core p)) - 1) (t_wave (p_core p)) 0 * (1 + z) <= nth (length (t_wave (p_core p)) - 1) (t_wave (p_core p)) 0 * 0)%Q) by (rewrite !(Qmult_comm (nth (length (t_wave (p_core p)) - 1) (t_wave (p_core p)) 0%Q)); apply Qmult_le_compat_r; [lra|exact W]). lra. }
  destruct GD as [C|(kw & I & N)].
  - destruct dw as [|kw dw].
    + left. exists []. apply tdata_rows; [exact U|discriminate|constructor].
    + left. assert (Hz : (-1 < z)%Q) by (apply (POS kw); [now left|apply C; now left]).
      apply (tdata_covered p (kw :: dw) [z] S); [discriminate|constructor; [exact Hz|constructor]|exact Hd'|]. intros k z' Hk [<-|[]]. now apply C.
  - right. split; [|intros _; now exists kw]. unfold Model_Run.tdata.
    assert (R : rebin_template (t_wave (p_core p)) (t_flux (p_core p)) [z] (DWave dw) false None None = Err ValueError).
    { unfold rebin_template, odef. rewrite (get_nth (t_wave (p_core p)) 0) by (destruct (t_wave (p_core p)); [congruence|cbn; lia]). cbn [rbind]. rewrite (getm1_0 (t_wave (p_core p)) T1). cbn [rbind].
      match goal with |- mapM ?f _ = _ => set (g := f) end.
      assert (One : forall x, In x dw -> (exists b, g x = Ok b) \/ g x = Err ValueError).
      { intros [k' w'] I'. pose proof (Hd _ I') as W'. destruct W' as (L & Iw & P'). cbn [snd] in L, Iw, P'. destruct (C36_edges w' L) as (e & Ee & Le & _). destruct (C36_brackets w' e Iw Ee) as [Ie _].
        unfold g. cbn [fst snd]. rewrite Ee. cbn [rbind].
        destruct (guarded_dec (t_wave (p_core p)) e z) as [G|G].
        - left. apply (covered_guarded p w' e z L Ee) in G. assert (Hz : (-1 < z)%Q) by now apply (POS (k', w') I'). apply (covered_guarded p w' e z L Ee) in G.
          destruct (row_exists (t_wave (p_core p)) (t_flux (p_core p)) T2) with (e := e) (z := z) as [row Hr]; auto; [now apply Forall_forall|lia|lra|].
          assert (T : trapz_rebin (t_wave (p_core p)) (Y2 (t_flux (p_core p))) e (ZArray [z]) false (Some (nth 0 (t_wave (p_core p)) 0 * (1 + amax [z]))%Q) (Some (nth (length (t_wave (p_core p)) - 1) (t_wave (p_core p)) 0 * (1 + amin [z]))%Q) None None = Ok (V3 [row])).
          { apply trapz_rows; auto; [apply U|intros ->; cbn in Le; lia|discriminate|]. exists [row]. split; [reflexivity|]. constructor; [exact Hr|constructor]. }
          rewrite T. cbn [rbind]. eauto.
        - right. rewrite trapz_one; [reflexivity|intros ->; cbn in Le; lia|exact G]. }
      destruct (mapM_two g ValueError dw One) as [[m Em]|Em]; [|exact Em]. exfalso.
      apply mapM_Forall2 in Em. destruct (In_nth_error _ _ I) as [i Hi]. destruct (Forall2_nth _ _ _ i kw Em Hi) as (y & _ & Ey).
      destruct (Hd _ I) as (L & Iw & P'). destruct (C36_edges (snd kw) L) as (e & Ee & Le & _).
      unfold g in Ey. destruct kw as [k w]. cbn [fst snd] in *. rewrite Ee in Ey. cbn [rbind] in Ey. rewrite trapz_one in Ey; [discriminate|intros ->; cbn in Le; lia|].
      intro G. apply N. now apply (covered_guarded p w e z L Ee). }
    now rewrite R.
Qed.
Lemma between p w a b z : sound_template p -> covered p w a -> covered p w b -> (a <= z)%Q -> (z <= b)%Q -> covered p w z.
Proof.
  intros S [_ Ca] [Cb _] Ha Hb. destruct (sound_usable p S) as (_ & W0 & W1). split.
  - eapply Qle_trans; [|exact Cb]. rewrite !(Qmult_comm (nth 0 (t_wave (p_core p)) 0%Q)). apply Qmult_le_compat_r; [lra|exact W0].
  - eapply Qle_trans; [exact Ca|]. rewrite !(Qmult_comm (nth (length (t_wave (p_core p)) - 1) (t_wave (p_core p)) 0%Q)). apply Qmult_le_compat_r; [lra|exact W1].
Qed.
(* one batch of one redshift or many *)
Hypothesis HR : solvers_return slv.
Lemma solve_two alg M y : (exists c, solve_matrices slv alg None M y = Ok c /\ length c = length y) \/ solve_matrices slv alg None M y = Err LinAlgError \/ solve_matrices slv alg None M y = Err NotImplementedError.
Proof.
  destruct HR as (H1 & H2 & H3). unfold solve_matrices. destruct (String.eqb (Model_Zscan.upper alg) "PCA").
  - specialize (H1 M y). destruct (linsolve slv M y) as [c|e]; [left; exists c; split; [reflexivity|exact H1]|right; left; now rewrite H1].
  - destruct (String.eqb (Model_Zscan.upper alg) "NMF" || String.eqb (Model_Zscan.upper alg) "NNLS").
    + specialize (H2 M y). destruct (nnls slv M y) as [c|e]; [left; exists c; split; [reflexivity|exact H2]|right; left; reflexivity].
    + destruct (String.eqb (Model_Zscan.upper alg) "BVLS"); [|now right; right]. specialize (H3 M y (the_bounds None y)). destruct (bvls slv M y _) as [c|e]; [left; exists c; split; [reflexivity|exact H3]|right; left; now rewrite H3].
Qed.
Section G.
Variable g : targ.
Hypothesis Sg : sound_target g.
Lemma spectral_ok : exists w f wf, spectral_data (data_of g) = Ok (w, f, wf) /\ length w = list_sum (map (fun s => r_nrow (s_R (q_spec s))) (g_spectra g)) /\ length f = length w /\ length wf = length w.
Proof.
  destruct Sg as [Ne F]. unfold spectral_data, data_of. destruct (g_spectra g) as [|s0 ss] eqn:Es; [congruence|]. rewrite <- Es in *. clear Es.
  assert (L : length (concat (map s_ivar (map q_spec (g_spectra g)))) = list_sum (map (fun s => r_nrow (s_R (q_spec s))) (g_spectra g)) /\ length (concat (map s_flux (map q_spec (g_spectra g)))) = list_sum (map (fun s => r_nrow (s_R (q_spec s))) (g_spectra g))).
  { clear Ne. induction F as [|s l (_ & _ & _ & _ & H1 & H2) _ [I1 I2]]; [now split|]. cbn [map concat]. rewrite !app_length, I1, I2, H1, H2. now split. }
  destruct L as [L1 L2]. destruct (map q_spec (g_spectra g)) as [|x l] eqn:Em; [destruct (g_spectra g); [congruence|discriminate]|]. rewrite <- Em in *. rewrite L1, L2, Nat.eqb_refl.
  do 3 eexists. split; [reflexivity|]. split; [exact L1|]. split; [now rewrite L1|]. rewrite map2_length. rewrite L1, L2. apply Nat.min_id.
Qed.
Lemma at_ok p td w f wf i n : sound_template p -> spectral_data (data_of g) = Ok (w, f, wf) ->
  (forall s, In s (g_spectra g) -> exists m, dget td (q_hash s) = Some m /\ length m = n /\ Forall (fun A => length A = length (q_wave s)) m) -> i < n ->
  exists c x, zchi2_at slv (t_method (p_core p)) None None (nbasis p) (data_of g) td w f wf i = Ok (x, c).
Proof.
  intros S Ed Ht Hi. destruct spectral_ok as (w' & f' & wf' & E' & Lw & Lf & Lwf). assert (X : (w', f', wf') = (w, f, wf)) by congruence. injection X as -> -> ->. clear E'.
  assert (D : exists blocks, mapM (fun s => match dget td (s_hash s) with None => Err KeyError | Some T => match nth_error T i with None => Err IndexError | Some A => csr_dot (s_R s) (nbasis p) A end end) (data_of g) = Ok blocks /\
     length (concat blocks) = list_sum (map (fun s => r_nrow (s_R (q_spec s))) (g_spectra g)) /\ length blocks = length (g_spectra g)).
  { destruct Sg as [_ F]. unfold data_of. clear Lw Ed. induction F as [|s l (_ & _ & _ & Hc & _) F IH]; [now exists []|]. destruct IH as (bl & E & L & L2); [intros; apply Ht; now right|].
    destruct (Ht s (or_introl eq_refl)) as (m & Hm & Lm & Fm). destruct (nth_error_lt_ex m i) as [A HA]; [lia|].
    pose proof (proj1 (Forall_forall _ _) Fm A (nth_error_In _ _ HA)) as LA. cbn [map mapM]. unfold q_hash in Hm. rewrite Hm, HA. unfold csr_dot at 1. rewrite Hc. unfold mat, vec in *. rewrite LA, Nat.eqb_refl. cbn [rbind]. rewrite E. cbn [rbind].
    eexists. split; [reflexivity|]. cbn [concat list_sum fold_right map length]. rewrite app_length, map_length, seq_length. unfold list_sum in L. split; [now rewrite L|now rewrite L2]. }
  destruct D as (blocks & Db & Lb & Lbl).
  assert (DP : dot_product_sparse_one (nbasis p) (data_of g) td i = Ok (concat blocks)).
  { unfold dot_product_sparse_one. refine (eq_trans (f_equal (fun r => rbind r _) Db) _). cbn [rbind]. destruct blocks; [exfalso; destruct Sg as [Ne _]; destruct (g_spectra g); [congruence|discriminate]|reflexivity]. }
  unfold zchi2_at. rewrite DP.
  cbn [rbind]. assert (LL : length (concat blocks) = length w) by (now rewrite Lb, Lw). rewrite LL, Lf, Lwf, Nat.eqb_refl. cbn [andb negb add_prior rbind].
  destruct (solve_two (t_method (p_core p)) (normal_M (nbasis p) w (concat blocks)) (tdot (nbasis p) (concat blocks) wf)) as [(c & E & Lc)|[E|E]]; rewrite E; [|now eexists; eexists|now eexists; eexists].
  assert (Ln : length (tdot (nbasis p) (concat blocks) wf) = nbasis p) by (unfold tdot; now rewrite map_length, seq_length). rewrite Ln in Lc. unfold vec in *. rewrite Lc, Nat.eqb_refl. now eexists; eexists.
Qed.
Lemma rows_of_tdata p dw zs td : sound_template p -> zs <> [] -> tdata p dw zs = Ok td -> (forall s, In s (g_spectra g) -> dget dw (q_hash s) = Some (q_wave s)) ->
  forall s, In s (g_spectra g) -> exists m, dget td (q_hash s) = Some m /\ length m = length zs /\ Forall (fun A => length A = length (q_wave s)) m.
Proof.
  intros S Hz Ht Own s Hs. apply tdata_rows in Ht; [|now apply sound_usable|exact Hz]. pose proof (F2_dget (fun w m => Forall2 (template_on trans p w) zs m) dw td Ht (q_hash s)) as D. rewrite (Own s Hs) in D. destruct D as (m & Hm & Fm).
  exists m. split; [exact Hm|]. split; [symmetry; now apply Forall2_len in Fm|]. apply Forall_forall. intros A HA. destruct (Forall2_in_r _ _ _ A Fm HA) as (z & _ & e & row & _ & _ & LA & _). exact LA.
Qed.
Lemma batch_ok p dw zs td w f wf : sound_template p -> zs <> [] -> tdata p dw zs = Ok td -> (forall s, In s (g_spectra g) -> dget dw (q_hash s) = Some (q_wave s)) -> spectral_data (data_of g) = Ok (w, f, wf) ->
  exists r, calc_zchi2_batch slv (t_method (p_core p)) None None (data_of g) td w f wf (length zs) (nbasis p) = Ok r.
Proof.
  intros S Hz Ht Own Ed. unfold calc_zchi2_batch. destruct (Qeq_bool (sumQ w) 0); [now eexists|].
  destruct (mapM_all (zchi2_at slv (t_method (p_core p)) None None (nbasis p) (data_of g) td w f wf) (seq 0 (length zs))) as [r Er]; [|rewrite Er; now eexists].
  intros i Hi. apply in_seq in Hi. destruct (at_ok p td w f wf i (length zs) S Ed) as (c & x & E); [now apply (rows_of_tdata p dw)|lia|now exists (x, c)].
Qed.
Lemma scan_ok p dw zs td : sound_template p -> zs <> [] -> tdata p dw zs = Ok td -> (forall s, In s (g_spectra g) -> dget dw (q_hash s) = Some (q_wave s)) -> exists row, zchi2_target slv (p_core p) td (length zs) (data_of g) = Ok row.
Proof.
  intros S Hz Ht Own. destruct spectral_ok as (w & f & wf & Ed & _). unfold zchi2_target. rewrite Ed. cbn [rbind]. destruct (Qeq_bool (sumQ w) 0); [now eexists|].
  destruct (batch_ok p dw zs td w f wf S Hz Ht Own Ed) as [r Er]. unfold nbasis in Er. rewrite Er. now eexists.
Qed.
Lemma own_sound : hashes_tell_grids [g] -> Forall (fun kw => sound_wave (snd kw)) (own_grids g).
Proof.
  intros _. destruct Sg as [_ F]. unfold own_grids.
  assert (K : forall ss d, Forall (fun kw => sound_wave (snd kw)) d -> Forall (fun s => sound_wave (q_wave s)) ss -> Forall (fun kw => sound_wave (snd kw)) (fold_left (fun d s => dset d (q_hash s) (q_wave s)) ss d)).
  { induction ss as [|s ss IH]; intros d Hd Hs; [exact Hd|]. cbn [fold_left]. inversion Hs; subst. apply IH; [|assumption]. clear -Hd H1.
    induction d as [|[k v] d IH]; cbn [Model_Dist.dset]; [constructor; [exact H1|constructor]|]. inversion Hd; subst. destruct (Z.eqb _ _); constructor; auto. }
  apply K; [constructor|]. eapply Forall_impl; [|exact F]. intros s (A & B & C & _). now repeat split.
Qed.
Lemma own_in kw : In kw (own_grids g) -> exists s, In s (g_spectra g) /\ q_wave s = snd kw.
Proof.
  unfold own_grids. assert (K : forall ss d kw, In kw (fold_left (fun d s => dset d (q_hash s) (q_wave s)) ss d) -> In kw d \/ exists s, In s ss /\ q_wave s = snd kw).
  { induction ss as [|s ss IH]; intros d k Hk; [now left|]. cbn [fold_left] in Hk. destruct (IH _ _ Hk) as [I|(s' & I & E)]; [|right; exists s'; split; [now right|exact E]].
    assert (X : In k d \/ q_wave s = snd k). { clear -I. induction d as [|[a v] d IH]; cbn [Model_Dist.dset] in I; [destruct I as [<-|[]]; now right|]. destruct (Z.eqb _ _); destruct I as [<-|I]; [now right|left; now right|left; now left|]. destruct (IH I) as [H|H]; [left; now right|now right]. }
    destruct X as [X|X]; [now left|right; exists s; split; [now left|exact X]]. }
  intro H. destruct (K _ _ _ H) as [[]|X]. exact X.
Qed.
Lemma fit_ok p zc : 0 < nz -> sound_template p -> hashes_tell_grids [g] -> length zc = length (p_zs p) -> (forall s z, In s (g_spectra g) -> In z (p_zs p) -> covered p (q_wave s) z) -> exists fs, fit_target p g zc = Ok fs.
Proof.
  intros Hn S C Lz Cv. destruct spectral_ok as (w & f & wf & Ed & _). unfold Model_Run.fit_target. rewrite Ed. cbn [rbind].
  pose proof S as (T1 & T2 & T3 & T4 & L2 & Mono & Gt).
  assert (Own : forall s, In s (g_spectra g) -> dget (own_grids g) (q_hash s) = Some (q_wave s)) by (intros s Hs; now apply own_get).
  assert (Z0 : p_zs p <> []) by (intro E; rewrite E in L2; cbn in L2; lia).
  assert (I0 : In (hd 0%Q (p_zs p)) (p_zs p)) by (destruct (p_zs p); [congruence|now left]). assert (I1 : In (last (p_zs p) 0%Q) (p_zs p)) by now apply last_in.
  assert (IN : forall z, (hd 0 (p_zs p) <= z)%Q -> (z <= last (p_zs p) 0)%Q -> exists td, tdata p (own_grids g) [z] = Ok td).
  { intros z A B. destruct (tdata_two p (own_grids g) z S (own_sound C)) as [H|[_ H]]; [exact H|]. exfalso. destruct H as (kw & I & N). { rewrite Forall_forall in Gt. specialize (Gt _ I0). cbv beta in Gt. lra. }
    apply N. destruct (own_in kw I) as (s & Hs & <-). now apply (between p (q_wave s) (hd 0%Q (p_zs p)) (last (p_zs p) 0%Q)); auto. }
  assert (AT : forall z td, tdata p (own_grids g) [z] = Ok td -> exists x, chi2_at slv trans p g w f wf z = Ok x).
  { intros z td Ht. unfold chi2_at. rewrite Ht. cbn [rbind]. destruct (batch_ok p (own_grids g) [z] td w f wf S) as [r Er]; auto; [discriminate|]. cbn [length] in Er. rewrite Er. now eexists. }
  apply fitz_ok; [exact Hsort|exact L2|exact Hn| | | |now rewrite map_length].
  - intros i j Hij Hj. apply (sorted_nth_le _ Mono i j); [exact Hij| |]; apply nth_error_nth'; lia.
  - intros z A B. destruct (IN z A B) as [td Ht]. destruct (AT z td Ht) as [x E]. unfold fine_scan. rewrite E. now eexists.
  - intro z. destruct (tdata_two p (own_grids g) z S (own_sound C)) as [[td Ht]|[E _]].
    + left. destruct (AT z td Ht) as [x Ex]. unfold coeff_at. rewrite Ex. now eexists.
    + right. split; [unfold coeff_at, chi2_at; now rewrite E|]. destruct (Qlt_le_dec z (hd 0 (p_zs p))%Q) as [A|A]; [now left|]. destruct (Qlt_le_dec (last (p_zs p) 0%Q) z) as [B|B]; [now right|]. exfalso. destruct (IN z A B) as [td Ht]. congruence.
Qed.
End G.
Lemma one_ok ps g : 0 < nz -> 0 < nminima -> ps <> [] -> NoDup (map full_type ps) -> (forall p, In p ps -> sound_template p /\ full_type p <> "meta"%string /\ exists ts, parse_fulltype (full_type p) = Ok ts) -> sound_target g -> hashes_tell_grids [g] ->
  (forall p s z, In p ps -> In s (g_spectra g) -> In z (p_zs p) -> covered p (q_wave s) z) -> exists tab, run ps [g] = Ok tab.
Proof.
  intros Hn Hmi Hne Nf HP Sg C Cv.
  assert (Own : forall s, In s (g_spectra g) -> dget (grids [g]) (q_hash s) = Some (q_wave s)).
  { intros s Hs. apply (grids_get [g] (q_hash s) (q_wave s) (grids_once [g] C)). exists s. split; [apply in_flat_map; exists g; split; [now left|exact Hs]|now split]. }
  assert (Gs : forall kw, In kw (grids [g]) -> exists s, In s (g_spectra g) /\ q_wave s = snd kw).
  { intros [h w] Hk. assert (G : dget (grids [g]) h = Some w) by (apply dget_in; [apply grids_nodup|exact Hk]). apply (grids_get [g] h w (grids_once [g] C)) in G as (s & Is & _ & Es). apply in_flat_map in Is as (g' & [<-|[]] & Is). now exists s. }
  assert (Gw : Forall (fun kw => sound_wave (snd kw)) (grids [g])).
  { apply Forall_forall. intros kw Hk. destruct (Gs kw Hk) as (s & Hs & <-). destruct Sg as [_ F]. rewrite Forall_forall in F. destruct (F s Hs) as (A & B & D & _). now repeat split. }
  destruct (mapM_all (fun p => tdata p (grids [g]) (p_zs p)) ps) as [tds Ht].
  { intros p Hp. destruct (HP p Hp) as (S & _). pose proof S as (_ & _ & _ & _ & L2 & _ & Gt). apply tdata_covered; auto; [intro E; rewrite E in L2; cbn in L2; lia|]. intros kw z Hk Hz. destruct (Gs kw Hk) as (s & Hs & <-). now apply Cv. }
  assert (L : length tds = length ps) by (apply mapM_Forall2, Forall2_len in Ht; now symmetry).
  destruct (solo_build slv argsort polyfit isqrt trans nminima nz ps tds g L Nf) as [bs Hs].
  { intros p td I. assert (Hp : In p ps) by now apply in_combine_l in I. apply (mapM_combine _ _ _ Ht) in I. destruct (HP p Hp) as (S & _ & ts & Hts). pose proof S as (_ & _ & _ & _ & L2 & _ & _).
    assert (Z0 : p_zs p <> []) by (intro E; rewrite E in L2; cbn in L2; lia).
    destruct (scan_ok g Sg p (grids [g]) (p_zs p) td S Z0 I Own) as [row Er]. pose proof (Proof_RunMPI.zchi2_rows slv trans p (grids [g]) (p_zs p) td (data_of g) (sound_usable p S) Z0 I) as K. rewrite Er in K. destruct K as (_ & K1 & K2).
    destruct (fit_ok g Sg p (map2 Qplus (fst (fst row)) (snd row)) Hn S C) as [fs Hf]; [rewrite map2_length; unfold vec in *; lia|intros s z; now apply Cv|].
    exists row, fs, ts. split; [exact Er|]. now split. }
  pose proof (solo_inv _ _ _ _ _ _ _ _ _ _ _ L Hs) as F.
  destruct (blocks_width _ _ _ _ _ _ _ Hsort _ _ _ _ Hmi F) as (_ & Fn & _).
  assert (A : exists t, assemble_target nminima None (g_id g) bs = Ok t).
  { unfold assemble_target. rewrite Fn. destruct bs as [|b bs]; [|now eexists]. exfalso. apply Forall2_len in F. cbn [length] in F. destruct ps as [|p ps']; [congruence|].
    assert (It : In (full_type p) (typed (p :: ps'))). { unfold typed. apply filter_In. split; [apply keys_of_in, in_map; now left|]. destruct (HP p (or_introl eq_refl)) as (_ & M & _). destruct (String.eqb_spec (full_type p) "meta"); [contradiction|reflexivity]. }
    destruct (typed (p :: ps')); [destruct It|discriminate]. }
  destruct A as [t At]. destruct (table_width _ _ _ _ _ _ _ Hsort _ _ _ _ _ Hmi F At) as [W _].
  destruct (standardise_total (list_max_nat (map nbasis ps)) t) as [tab St]; [rewrite W; apply width_le|]. exists tab. apply run_one. exists tds, bs, t. now repeat split.
Qed.
Lemma run_covered ps tgs : 0 < nz -> 0 < nminima -> ps <> [] -> tgs <> [] -> NoDup (map full_type ps) -> NoDup (map g_id tgs) -> hashes_tell_grids tgs ->
  (forall p, In p ps -> sound_template p /\ full_type p <> "meta"%string /\ exists ts, parse_fulltype (full_type p) = Ok ts) -> (forall g, In g tgs -> sound_target g) ->
  ((exists tab, run ps tgs = Ok tab) <-> forall p g s z, In p ps -> In g tgs -> In s (g_spectra g) -> In z (p_zs p) -> covered p (q_wave s) z).
Proof.
  intros Hn Hmi Hne Hng Nf N C HP HG. split.
  - intros [tab H] p g s z Ip Ig Is Iz. apply run_ok in H as (tds & bss & Ht & _); [|exact N]. destruct (HP p Ip) as (S & _).
    apply mapM_Forall2 in Ht. destruct (In_nth_error _ _ Ip) as [i Hi]. destruct (Forall2_nth _ _ _ i p Ht Hi) as (td & _ & Etd).
    assert (G : dget (grids tgs) (q_hash s) = Some (q_wave s)) by (apply (grids_get tgs (q_hash s) (q_wave s) (grids_once tgs C)); exists s; split; [apply in_flat_map; now exists g|now split]).
    assert (K : In (q_hash s, q_wave s) (grids tgs)) by (apply dget_in; [apply grids_nodup|exact G]).
    apply tdata_rows in Etd; [|now apply sound_usable|intro E; rewrite E in Iz; destruct Iz]. destruct (In_nth_error _ _ K) as [k Hk]. destruct (Forall2_nth _ _ _ k _ Etd Hk) as (kd & _ & _ & F). cbn [snd] in F.
    destruct (In_nth_error _ _ Iz) as [j Hj]. destruct (Forall2_nth _ _ _ j z F Hj) as (A & _ & HA). apply (template_covered p (q_wave s) z A); [|exact HA].
    destruct (HG g Ig) as [_ Fs]. rewrite Forall_forall in Fs. apply (Fs s Is).
  - intro Cv. apply run_all; auto. intros g Ig. apply one_ok; auto; [|intros p s z Ip Is Iz; now apply (Cv p g)]. eapply hashes_incl; [|exact C]. intros g' [<-|[]]. exact Ig.
Qed.
End R.
