(* Where the rows of the table come from. *)
From Verif Require Import Prelude PreludeFacts NumX Facts2 Model_Fitz Spec_Fitz Proof_Fitz Proof_Fitz2 Props_Fitz Model_Rebin Model_Dist Proof_Dist3 Model_Rank Proof_Table Model_Zscan Spec_Zscan Proof_Zscan Proof_Zscan2 Proof_Zscan3 Proof_Zscan4 Props_Zscan
  Model_Piece Spec_Piece Proof_Piece Model_IO Model_Zfind Proof_Zfind Model_Run Spec_Run Proof_Run Proof_Run2 Proof_Run3 Proof_Run4.
Open Scope nat_scope.
Local Notation dget := Model_Dist.dget. Local Notation dset := Model_Dist.dset.

Lemma hashes_own g d : (forall s s', In s (g_spectra g) -> In s' (g_spectra g) -> q_hash s = q_hash s' -> q_wave s = q_wave s') ->
  forall ss, (forall s, In s ss -> In s (g_spectra g)) -> (forall h w, dget d h = Some w -> exists s, In s (g_spectra g) /\ q_hash s = h /\ q_wave s = w) ->
  forall s, In s ss -> dget (fold_left (fun d s => dset d (q_hash s) (q_wave s)) ss d) (q_hash s) = Some (q_wave s).
Proof.
  intros C ss. revert d.
  assert (K : forall ss d h, dget (fold_left (fun d s => dset d (q_hash s) (q_wave s)) ss d) h = dget d h \/ exists s, In s ss /\ q_hash s = h /\ dget (fold_left (fun d s => dset d (q_hash s) (q_wave s)) ss d) h = Some (q_wave s)).
  { clear. induction ss as [|s ss IH]; intros d h; [now left|]. cbn [fold_left]. destruct (IH (dset d (q_hash s) (q_wave s)) h) as [E|(s' & I & H1 & H2)].
    - rewrite E, dget_dset. destruct (Z.eqb_spec (q_hash s) h) as [Eh|]; [|now left]. right. exists s. split; [now left|]. now split.
    - right. exists s'. split; [now right|now split]. }
  induction ss as [|s0 ss IH]; intros d Hin Hd s I; [destruct I|]. cbn [fold_left]. destruct I as [->|I].
  - destruct (K ss (dset d (q_hash s) (q_wave s)) (q_hash s)) as [E|(s' & I & H1 & H2)].
    + rewrite E, dget_dset, Z.eqb_refl. reflexivity.
    + rewrite H2. f_equal. apply C; [apply Hin; now right|apply Hin; now left|exact H1].
  - apply IH; [intros; apply Hin; now right| |exact I]. intros h w. rewrite dget_dset. destruct (Z.eqb_spec (q_hash s0) h) as [Eh|]; [|apply Hd]. intro E. injection E as <-. exists s0. split; [apply Hin; now left|now split].
Qed.
Lemma own_get g s : hashes_tell_grids [g] -> In s (g_spectra g) -> dget (own_grids g) (q_hash s) = Some (q_wave s).
Proof.
  intros C I. unfold own_grids. apply (hashes_own g []); auto; [|intros h w E; discriminate].
  intros a b Ha Hb. apply (C g g); auto; now left.
Qed.

Section R.
Variables (slv : solvers) (argsort : list xq -> list nat) (polyfit : list Q -> list Q -> option (Q * Q * Q)) (isqrt : Q -> Q).
Variable trans : option string -> Q -> Q -> Q.
Variables (nminima nz : nat).
Hypothesis Hsort : argsort_ok argsort.
Notation tdata := (tdata trans).
Notation fit_target := (fit_target slv argsort polyfit isqrt trans nminima nz).
Notation solo := (solo slv argsort polyfit isqrt trans nminima nz).
Notation run := (run slv argsort polyfit isqrt trans nminima nz).
Notation fitted := (fitted slv argsort polyfit isqrt trans nminima nz).
Notation template_on := (template_on trans). Notation design_of := (design_of trans).

Lemma zwarn_nonneg p g zc fs x : fit_target p g zc = Ok fs -> In x fs -> (0 <= Model_Fitz.f_zwarn x)%Z.
Proof.
  unfold Model_Run.fit_target. destruct (spectral_data (data_of g)) as [[[w f] wf]|]; cbn [rbind]; [|discriminate]. intros H Hx.
  destruct (fitz_parts _ _ _ _ _ _ _ _ _ _ _ _ _ _ Hsort H) as (minima & results & Hl & Hne & Hm & Hr & Hp & _).
  destruct (fit_loop_inv _ _ _ _ _ _ _ _ _ _ _ minima [] results Hr (Nat.le_0_l _) (pw_nil _)) as (_ & _ & I3 & _).
  eapply Permutation_in in Hx; [|exact Hp]. destruct (I3 x Hx) as [[]|(i & r0 & _ & H1 & H2)].
  destruct (finish_same _ _ _ H2) as (_ & _ & _ & _ & _ & F6). subst r0. destruct (refine_refined _ _ _ _ _ _ _ _ _ _ H1) as (zlo & zhi & zmin & sg & ym & w0 & HR & _).
  assert (W0 : (0 <= w0)%Z). { destruct (Nat.lt_ge_cases nz 3) as [L|L].
    - pose proof (rf_few _ _ _ _ _ _ _ _ _ _ _ _ _ _ _ _ HR L) as E. injection E as _ _ _ ->. unfold BAD_MINFIT. lia.
    - pose proof (rf_min3 _ _ _ _ _ _ _ _ _ _ _ _ _ _ _ _ HR L) as E. apply C28_minfit_flags_bad_fits in E as (_ & _ & _ & [->| ->] & _); unfold BAD_MINFIT; lia. }
  destruct (rf_flags _ _ _ _ _ _ _ _ _ _ _ _ _ _ _ _ HR) as (zsec & zpen & _ & _ & _ & E). rewrite E. cbv zeta.
  assert (LO : forall a b, (0 <= a)%Z -> (0 <= b)%Z -> (0 <= Z.lor a b)%Z) by (intros; apply Z.lor_nonneg; now split).
  assert (F1 : (0 <= Z_FITLIMIT)%Z) by (unfold Z_FITLIMIT; lia). assert (F2 : (0 <= BAD_MINFIT)%Z) by (unfold BAD_MINFIT; lia).
  repeat match goal with |- context [if ?b then _ else _] => destruct b end; repeat first [assumption|apply LO].
Qed.
Lemma to_N_bit z i : (0 <= z)%Z -> N.testbit (Z.to_N z) i = Z.testbit z (Z.of_N i).
Proof. intro H. rewrite <- (Z2N.id z) at 2 by exact H. symmetry. apply Z.testbit_of_N. Qed.
(* one row: a fit of one template to one target *)
Lemma row_source ps tgs tab o : NoDup (map g_id tgs) -> run ps tgs = Ok tab -> In o tab -> exists g p td row fs x ts,
  In g tgs /\ In p ps /\ pick (full_type p) ps = Some p /\ full_type p <> "meta"%string /\ parse_fulltype (full_type p) = Ok ts /\
  tdata p (grids tgs) (p_zs p) = Ok td /\ scan_of slv (p, td) g = Ok row /\
  fit_target p g (map2 Qplus (fst (fst row)) (snd row)) = Ok fs /\ In x fs /\ f_tid o = g_id g /\ f_type o = stake 6 (fst ts) /\ f_sub o = snd ts /\
  Model_Zfind.f_z o = Model_Fitz.f_z x /\ Model_Zfind.f_zerr o = Model_Fitz.f_zerr x /\ Model_Zfind.f_chi2 o = Fin (Model_Fitz.f_chi2 x) /\ f_npix o = npixels g /\ f_ncoeff o = N.of_nat (nbasis p) /\
  (forall k, nth k (Model_Zfind.f_coeff o) 0%Q = nth k (Model_Fitz.f_coeff x) 0%Q) /\
  exists small : bool, forall b, N.testbit (Model_Zfind.f_zwarn o) b = (Z.testbit (Model_Fitz.f_zwarn x) (Z.of_N b) || (N.eqb b 9 && N.eqb (npixels g) 0) || (N.eqb b 1 && N.ltb (npixels g) (10 * N.of_nat (nbasis p))) || (N.eqb b 2 && small))%bool.
Proof.
  intros N H Ho. destruct (run_parts slv argsort polyfit isqrt trans nminima nz Hsort ps tgs tab N H) as (tds & bss & ts & cut & Ht & P & F & A & E & Hcut). subst tab.
  apply in_concat in Ho as (l & Hl & Ho). apply in_map_iff in Hl as (t & <- & It). apply in_map_iff in Ho as (o' & <- & Io).
  destruct (Forall2_in_r _ _ _ t A It) as ([g bs] & Igb & At). cbn [fst snd] in At.
  assert (Ig : In g tgs) by now apply in_combine_l in Igb.
  assert (Hf : Forall2 (fitted ps tds g) (typed ps) bs).
  { clear -F Igb. induction F as [|g' bs' l l' [_ H] _ IH]; [destruct Igb|]. cbn in Igb. destruct Igb as [Eq|I]; [injection Eq as -> ->; exact H|now apply IH]. }
  destruct (blocks_width _ _ _ _ _ _ _ Hsort _ _ _ _ P Hf) as (Wf & _ & _).
  destruct (out_row _ _ _ _ _ At o' Io) as (b & r & Ib & Ir & O1 & O2 & O3 & O4 & O5 & O6 & O7 & O8 & O9 & small & O10).
  destruct (Forall2_in_r _ _ _ b Hf Ib) as (ft & Ift & Hb). destruct (fitted_wf _ _ _ _ _ _ _ Hsort _ _ _ _ _ Hb) as (_ & _ & Q). destruct (Q P) as (_ & q & Hq & Hw). clear Q.
  destruct Hb as (p & td & row & fs & ty & Hp & Ipt & Hrow & Hfit & Hparse & ->). assert (q = p) by congruence. subst q. unfold mkblock in Ir, O8, Hw. cbn [b_rows b_width] in *. apply in_map_iff in Ir as (x & <- & Ix).
  destruct (pick_some _ _ _ Hp) as [Ip Eft]. unfold typed in Ift. apply filter_In in Ift as [_ Nm]. rewrite <- Eft in *.
  exists g, p, td, row, fs, x, ty. split; [exact Ig|]. split; [exact Ip|]. split; [exact Hp|]. split; [intro C; rewrite C in Nm; discriminate|]. split; [exact Hparse|].
  split; [|split; [exact Hrow|split; [exact Hfit|split; [exact Ix|]]]].
  { apply mapM_Forall2 in Ht. clear -Ht Ipt. induction Ht as [|q t ps tds H _ IH]; [destruct Ipt|]. cbn in Ipt. destruct Ipt as [Eq|I]; [injection Eq as -> ->; exact H|now apply IH]. }
  rewrite final_tid. split; [exact O1|]. cbn [Model_Zfind.f_z Model_Zfind.f_zerr Model_Zfind.f_chi2 f_npix f_type f_sub Model_Zfind.f_coeff] in *.
  assert (FF : f_type (finalised (list_max_nat (map nbasis ps)) cut o') = stake 6 (f_type o') /\ f_sub (finalised (list_max_nat (map nbasis ps)) cut o') = f_sub o' /\ Model_Zfind.f_z (finalised (list_max_nat (map nbasis ps)) cut o') = Model_Zfind.f_z o'
    /\ Model_Zfind.f_zerr (finalised (list_max_nat (map nbasis ps)) cut o') = Model_Zfind.f_zerr o' /\ Model_Zfind.f_chi2 (finalised (list_max_nat (map nbasis ps)) cut o') = Model_Zfind.f_chi2 o'
    /\ f_npix (finalised (list_max_nat (map nbasis ps)) cut o') = f_npix o' /\ f_ncoeff (finalised (list_max_nat (map nbasis ps)) cut o') = f_ncoeff o' /\ Model_Zfind.f_zwarn (finalised (list_max_nat (map nbasis ps)) cut o') = Model_Zfind.f_zwarn o').
  { unfold finalised. destruct cut; repeat split. }
  destruct FF as (-> & -> & -> & -> & -> & -> & -> & ->). rewrite O2, O3, O4, O5, O6, O7, O8. do 6 (split; [reflexivity|]). split; [now rewrite Hw|]. split.
  - intro k. rewrite (final_coeff nminima (g_id g) bs t _ cut o' k At Wf Io) by (intros n En; now apply (Hcut n En t)). rewrite O9. apply nth_pad.
  - exists small. intro bit. rewrite O10. cbv zeta.
    assert (Ex : N.testbit (Model_Zfind.f_zwarn (prepared None (g_id g) (max_width bs) {| b_width := match fs with [] => 1 | x :: _ => length (Model_Fitz.f_coeff x) end; b_rows := b_rows (mkblock ty (npixels g) fs) |} {| f_tid := 0; f_type := fst ty; f_sub := snd ty; Model_Zfind.f_z := Model_Fitz.f_z x; Model_Zfind.f_zerr := Model_Fitz.f_zerr x;
                                     Model_Zfind.f_chi2 := Fin (Model_Fitz.f_chi2 x); Model_Zfind.f_zwarn := Z.to_N (Model_Fitz.f_zwarn x); f_npix := npixels g; f_ncoeff := 0;
                                     Model_Zfind.f_coeff := Model_Fitz.f_coeff x; f_lim := 0%Q; f_znum := 0; f_dchi2 := Fin 0 |})) bit = (Z.testbit (Model_Fitz.f_zwarn x) (Z.of_N bit) || (N.eqb bit 9 && N.eqb (npixels g) 0) || (N.eqb bit 1 && N.ltb (npixels g) (10 * N.of_nat (nbasis p))))%bool).
    { unfold prepared. rewrite flag_row_bits. cbn [Model_Zfind.f_zwarn f_npix f_ncoeff set_tid set_coeff set_prep b_width]. rewrite (to_N_bit (Model_Fitz.f_zwarn x) bit) by (eapply zwarn_nonneg; eassumption). rewrite andb_false_r, orb_false_r. rewrite Hw. reflexivity. }
    unfold mkblock in Ex. cbn [b_rows] in Ex. unfold mkblock.
    destruct small.
    + rewrite N.lor_spec. rewrite Ex. unfold ZW_SMALL_DELTA_CHI2. rewrite pow2_bit, andb_true_r. reflexivity.
    + rewrite Ex. now rewrite andb_false_r, orb_false_r.
Qed.
(* the redshift of a fit *)
Lemma fit_range p g zc fs x : nondecreasing (p_zs p) -> fit_target p g zc = Ok fs -> In x fs -> (hd 0 (p_zs p) <= Model_Fitz.f_z x /\ Model_Fitz.f_z x <= last (p_zs p) 0)%Q.
Proof.
  intros Hs. unfold Model_Run.fit_target. destruct (spectral_data (data_of g)) as [[[w f] wf]|]; cbn [rbind]; [|discriminate]. intros H Hx.
  destruct (fitz_parts _ _ _ _ _ _ _ _ _ _ _ _ _ _ Hsort H) as (minima & results & Hl & Hne & Hm & Hr & Hp & _).
  destruct (fit_loop_inv _ _ _ _ _ _ _ _ _ _ _ minima [] results Hr (Nat.le_0_l _) (pw_nil _)) as (_ & _ & I3 & _).
  eapply Permutation_in in Hx; [|exact Hp]. destruct (I3 x Hx) as [[]|(i & r0 & _ & H1 & H2)].
  destruct (finish_same _ _ _ H2) as (_ & _ & _ & _ & _ & F6). subst r0. destruct (refine_refined _ _ _ _ _ _ _ _ _ _ H1) as (zlo & zhi & zmin & sg & ym & w0 & HR & _).
  pose proof (rf_lo _ _ _ _ _ _ _ _ _ _ _ _ _ _ _ _ HR) as Lo. pose proof (rf_hi _ _ _ _ _ _ _ _ _ _ _ _ _ _ _ _ HR) as Hi.
  assert (MON : forall a b u v, nth_error (p_zs p) a = Some u -> nth_error (p_zs p) b = Some v -> a <= b -> (u <= v)%Q).
  { intros a b u v Ha Hb Hab. exact (sorted_nth_le _ Hs a b u v Hab Ha Hb). }
  assert (LT : i - 1 <= Nat.min (i + 1) (length (p_zs p) - 1)) by (apply nth_error_Some_lt in Lo; lia).
  destruct (refined_range _ _ _ _ _ _ _ _ _ _ _ _ _ _ _ _ HR (MON _ _ _ _ Lo Hi LT)) as [R1 R2].
  assert (Z0 : p_zs p <> []) by (intro C; rewrite C in Lo; destruct (i - 1); discriminate).
  assert (E0 : nth_error (p_zs p) 0 = Some (hd 0%Q (p_zs p))) by (destruct (p_zs p); [congruence|reflexivity]).
  assert (E1 : nth_error (p_zs p) (length (p_zs p) - 1) = Some (last (p_zs p) 0%Q)).
  { destruct (exists_last Z0) as (l & a & ->). rewrite last_last, app_length. cbn [length]. replace (length l + 1 - 1) with (length l) by lia. rewrite nth_error_app2, Nat.sub_diag by lia. reflexivity. }
  split; [apply Qle_trans with zlo; [|exact R1]; eapply MON; [exact E0|exact Lo|lia]|apply Qle_trans with zhi; [exact R2|]; eapply MON; [exact Hi|exact E1|lia]].
Qed.
(* the coefficients of an unflagged fit *)
Lemma fit_coeff p g zc fs x w f wf : fit_target p g zc = Ok fs -> In x fs -> Z.testbit (Model_Fitz.f_zwarn x) 10 = false -> spectral_data (data_of g) = Ok (w, f, wf) ->
  exists y, chi2_at slv trans p g w f wf (Model_Fitz.f_z x) = Ok (y, Model_Fitz.f_coeff x).
Proof.
  unfold Model_Run.fit_target. intros H Hx Hf Hd. rewrite Hd in H. cbn [rbind] in H.
  pose proof (C31_coefficients_good_fit_partial argsort polyfit isqrt (-1)%Q (fine_scan slv trans p g w f wf) (coeff_at slv trans p g w f wf) (repeat 0%Q (nbasis p)) (String.eqb (t_rrtype (p_core p)) "STAR") nminima nz (p_zs p) None (map Fin zc) fs x Hsort eq_refl) as C.
  specialize (C H Hx Hf).
  assert (K : forall z v, coeff_at slv trans p g w f wf z = Ok v -> exists y, chi2_at slv trans p g w f wf z = Ok (y, v)).
  { intros z v. unfold coeff_at. destruct (chi2_at slv trans p g w f wf z) as [[y c]|]; cbn [rbind snd]; [|discriminate]. intro E. injection E as <-. now exists y. }
  exact (K _ _ C).
Qed.
(* the design matrix of the refined fit is the template on the spectra of the target *)
Lemma design_spec p g z td T : usable p -> hashes_tell_grids [g] -> tdata p (own_grids g) [z] = Ok td -> is_design (nbasis p) (data_of g) td 0 T -> design_of p g z T.
Proof.
  intros U C Ht (blocks & -> & F). exists blocks. split; [reflexivity|]. apply tdata_rows in Ht; [|exact U|discriminate].
  unfold data_of in F. apply F2_map_l in F.
  assert (G : forall ss, (forall s, In s ss -> In s (g_spectra g)) -> forall blocks, Forall2 (fun (s : rspec) (B : list vec) => exists A : mat, (exists L : list mat, dget td (s_hash (q_spec s)) = Some L /\ nth_error L 0 = Some A) /\ length B = r_nrow (s_R (q_spec s)) /\
      (forall p0 j : nat, p0 < r_nrow (s_R (q_spec s)) -> j < nbasis p -> (at2 B p0 j == bigsum (r_ncol (s_R (q_spec s))) (fun l : nat => Rent (s_R (q_spec s)) p0 l * at2 A l j))%Q)) ss blocks ->
     Forall2 (fun s B => exists A, template_on p (q_wave s) z A /\ length B = r_nrow (s_R (q_spec s)) /\
      forall i j, i < r_nrow (s_R (q_spec s)) -> j < nbasis p -> (at2 B i j == bigsum (r_ncol (s_R (q_spec s))) (fun l => Rent (s_R (q_spec s)) i l * at2 A l j))%Q) ss blocks); [|now apply G].
  clear F. induction ss as [|s ss IH]; intros Hin bl F; inversion F as [|? B ? bl' (A & (L & HL & HA) & HB & Hv) F']; subst; [constructor|]. constructor; [|apply IH; [intros; apply Hin; now right|exact F']].
  exists A. split; [|now split]. pose proof (F2_dget (fun w m => Forall2 (template_on p w) [z] m) (own_grids g) td Ht (q_hash s)) as D.
  rewrite (own_get g s C (Hin s (or_introl eq_refl))) in D. destruct D as (m & Hm & Fm). assert (E : Some m = Some L) by (rewrite <- Hm; exact HL). injection E as ->. inversion Fm as [|? A' ? ? HA' _]; subst. cbn in HA. now injection HA as ->.
Qed.
Lemma unflagged_optimal p g zc fs x : linsolve_ok slv -> t_method (p_core p) = "PCA"%string -> usable p -> hashes_tell_grids [g] ->
  Forall (fun s => wf_csr (s_R s)) (data_of g) -> Forall (fun s => nonneg (s_ivar s)) (data_of g) -> ~ (sumQ (pixels s_ivar g) == 0)%Q ->
  fit_target p g zc = Ok fs -> In x fs -> Z.testbit (Model_Fitz.f_zwarn x) 10 = false ->
  exists T, design_of p g (Model_Fitz.f_z x) T /\ length (Model_Fitz.f_coeff x) = nbasis p /\
   ((forall c', length c' = nbasis p -> (chi2 (length T) (nbasis p) (pixels s_ivar g) (pixels s_flux g) T (Model_Fitz.f_coeff x) <= chi2 (length T) (nbasis p) (pixels s_ivar g) (pixels s_flux g) T c')%Q)
    \/ (Model_Fitz.f_coeff x = repeat 0%Q (nbasis p) /\ exists M y e, linsolve slv M y = Err e)).
Proof.
  intros HS Hm U C Hw Hn Hz H Hx Hf.
  destruct (spectral_data (data_of g)) as [[[w f] wf]|] eqn:Ed; [|unfold Model_Run.fit_target in H; rewrite Ed in H; discriminate].
  destruct (fit_coeff _ _ _ _ _ _ _ _ H Hx Hf Ed) as [y Hy]. unfold chi2_at in Hy. destruct (tdata p (own_grids g) [Model_Fitz.f_z x]) as [td|] eqn:Et; cbn [rbind] in Hy; [|discriminate].
  destruct (calc_zchi2_batch _ _ _ _ _ _ _ _ _ _ _) as [[zs cs]|] eqn:Eb; cbn [rbind fst snd] in Hy; [|discriminate].
  pose proof (spectral_data_inv _ _ _ _ Ed) as (Ew & Ef & Elen & _).
  assert (Nw : nonneg w). { subst w. unfold nonneg. apply Forall_forall. intros v Hv. apply in_concat in Hv as (l & Hl & Hv). apply in_map_iff in Hl as (s & <- & Hs). pose proof (proj1 (Forall_forall _ _) Hn s Hs) as Q. unfold nonneg in Q. exact (proj1 (Forall_forall _ _) Q v Hv). }
  assert (Zw : ~ (sumQ w == 0)%Q) by (subst w; exact Hz).
  rewrite Hm in Eb. pose proof (batch_at _ _ _ _ _ _ _ _ _ _ _ _ _ 0 Zw Eb (le_n 1)) as H0.
  assert (X : exists Tb, is_design (nbasis p) (data_of g) td 0 Tb). { apply zchi2_at_cases in H0 as (Tb & M & H1 & _). exists Tb. now apply dpso_design. }
  destruct X as [T HT]. exists T. split; [now apply (design_spec p g _ td)|].
  assert (Ex : Model_Fitz.f_coeff x = nth 0 cs []) by (assert (E : hd [] cs = Model_Fitz.f_coeff x) by congruence; rewrite <- E; now destruct cs).
  unfold pixels. rewrite <- Ew, <- Ef. rewrite Ex. destruct (C43_least_squares slv None (data_of g) td w f wf 1 (nbasis p) zs cs 0 T HS Ed Nw Zw Hw Eb (le_n 1) HT) as [(A & _ & B)|(_ & A & M & v & e & B & _)].
  - split; [exact A|]. left. exact B.
  - rewrite A. split; [apply repeat_length|]. right. split; [reflexivity|]. now exists M, v, e.
Qed.
End R.

Section R2.
Variables (slv : solvers) (argsort : list xq -> list nat) (polyfit : list Q -> list Q -> option (Q * Q * Q)) (isqrt : Q -> Q).
Variable trans : option string -> Q -> Q -> Q.
Variables (nminima nz : nat).
Hypothesis Hsort : argsort_ok argsort.
Notation fit_target := (fit_target slv argsort polyfit isqrt trans nminima nz).
(* the refinement sets only these two flags *)
Lemma fit_bits p g zc fs x b : fit_target p g zc = Ok fs -> In x fs -> Z.testbit (Model_Fitz.f_zwarn x) b = true -> b = 5%Z \/ b = 10%Z.
Proof.
  unfold Model_Run.fit_target. destruct (spectral_data (data_of g)) as [[[w f] wf]|]; cbn [rbind]; [|discriminate]. intros H Hx.
  destruct (fitz_parts _ _ _ _ _ _ _ _ _ _ _ _ _ _ Hsort H) as (minima & results & Hl & Hne & Hm & Hr & Hp & _).
  destruct (fit_loop_inv _ _ _ _ _ _ _ _ _ _ _ minima [] results Hr (Nat.le_0_l _) (pw_nil _)) as (_ & _ & I3 & _).
  eapply Permutation_in in Hx; [|exact Hp]. destruct (I3 x Hx) as [[]|(i & r0 & _ & H1 & H2)].
  destruct (finish_same _ _ _ H2) as (_ & _ & _ & _ & _ & F6). subst r0. destruct (refine_refined _ _ _ _ _ _ _ _ _ _ H1) as (zlo & zhi & zmin & sg & ym & w0 & HR & _).
  set (okw := fun a : Z => forall b, Z.testbit a b = true -> b = 5%Z \/ b = 10%Z).
  assert (P10 : okw BAD_MINFIT). { intros k. change BAD_MINFIT with (2 ^ 10)%Z. destruct (Z.ltb_spec k 0); [rewrite Z.testbit_neg_r by lia; discriminate|]. rewrite Z.pow2_bits_eqb by lia. intro E. apply Z.eqb_eq in E. lia. }
  assert (P5 : okw Z_FITLIMIT). { intros k. change Z_FITLIMIT with (2 ^ 5)%Z. destruct (Z.ltb_spec k 0); [rewrite Z.testbit_neg_r by lia; discriminate|]. rewrite Z.pow2_bits_eqb by lia. intro E. apply Z.eqb_eq in E. lia. }
  assert (P0 : okw 0%Z) by (intros k; rewrite Z.bits_0; discriminate).
  assert (LO : forall a c, okw a -> okw c -> okw (Z.lor a c)). { intros a c Ha Hc k E. rewrite Z.lor_spec in E. apply orb_true_iff in E as [E|E]; auto. }
  assert (W0 : okw w0). { destruct (Nat.lt_ge_cases nz 3) as [L|L].
    - pose proof (rf_few _ _ _ _ _ _ _ _ _ _ _ _ _ _ _ _ HR L) as E. assert (w0 = BAD_MINFIT) by congruence. subst w0. exact P10.
    - pose proof (rf_min3 _ _ _ _ _ _ _ _ _ _ _ _ _ _ _ _ HR L) as E. apply C28_minfit_flags_bad_fits in E as (_ & _ & _ & [->| ->] & _); assumption. }
  destruct (rf_flags _ _ _ _ _ _ _ _ _ _ _ _ _ _ _ _ HR) as (zsec & zpen & _ & _ & _ & E). rewrite E. cbv zeta.
  assert (G : forall v, okw v -> Z.testbit v b = true -> b = 5%Z \/ b = 10%Z) by (intros v Hv; apply Hv). apply G.
  repeat match goal with |- context [if ?c then _ else _] => destruct c end; repeat first [assumption|apply LO].
Qed.
End R2.
