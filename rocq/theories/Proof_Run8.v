(* The chi2 of a row of the table. *)
From Verif Require Import Prelude PreludeFacts NumX Facts2 Model_Fitz Spec_Fitz Proof_Fitz Proof_Fitz2 Props_Fitz Model_Rebin Model_Dist Proof_Dist3 Model_Rank Proof_Table Model_Zscan Spec_Zscan Proof_Zscan Proof_Zscan2 Proof_Zscan3 Proof_Zscan4 Props_Zscan
  Model_Piece Spec_Piece Proof_Piece Model_IO Model_Zfind Proof_Zfind Model_Run Spec_Run Proof_Run Proof_Run2 Proof_Run3 Proof_Run4 Proof_Run5 Proof_RunMPI.
Open Scope nat_scope.
Local Notation dget := Model_Dist.dget. Local Notation dset := Model_Dist.dset.

Section R.
Variables (slv : solvers) (argsort : list xq -> list nat) (polyfit : list Q -> list Q -> option (Q * Q * Q)) (isqrt : Q -> Q).
Variable trans : option string -> Q -> Q -> Q.
Variables (nminima nz : nat).
Hypothesis Hsort : argsort_ok argsort.
Notation tdata := (tdata trans).
Notation fit_target := (fit_target slv argsort polyfit isqrt trans nminima nz).
Notation on_curve := (on_curve slv trans).

Lemma design_spec_of p g dw z td T : usable p -> (forall s, In s (g_spectra g) -> dget dw (q_hash s) = Some (q_wave s)) -> tdata p dw [z] = Ok td -> is_design (nbasis p) (data_of g) td 0 T -> design_of trans p g z T.
Proof.
  intros U Own Ht (blocks & -> & F). exists blocks. split; [reflexivity|]. apply tdata_rows in Ht; [|exact U|discriminate].
  unfold data_of in F. apply F2_map_l in F.
  assert (G : forall ss, (forall s, In s ss -> In s (g_spectra g)) -> forall blocks, Forall2 (fun (s : rspec) (B : list vec) => exists A : mat, (exists L : list mat, dget td (s_hash (q_spec s)) = Some L /\ nth_error L 0 = Some A) /\ length B = r_nrow (s_R (q_spec s)) /\
      (forall p0 j : nat, p0 < r_nrow (s_R (q_spec s)) -> j < nbasis p -> (at2 B p0 j == bigsum (r_ncol (s_R (q_spec s))) (fun l : nat => Rent (s_R (q_spec s)) p0 l * at2 A l j))%Q)) ss blocks ->
     Forall2 (fun s B => exists A, template_on trans p (q_wave s) z A /\ length B = r_nrow (s_R (q_spec s)) /\
      forall i j, i < r_nrow (s_R (q_spec s)) -> j < nbasis p -> (at2 B i j == bigsum (r_ncol (s_R (q_spec s))) (fun l => Rent (s_R (q_spec s)) i l * at2 A l j))%Q) ss blocks); [|now apply G].
  clear F. induction ss as [|s ss IH]; intros Hin bl F; inversion F as [|? B ? bl' (A & (L & HL & HA) & HB & Hv) F']; subst; [constructor|]. constructor; [|apply IH; [intros; apply Hin; now right|exact F']].
  exists A. split; [|now split]. pose proof (F2_dget (fun w m => Forall2 (template_on trans p w) [z] m) dw td Ht (q_hash s)) as D.
  rewrite (Own s (Hin s (or_introl eq_refl))) in D. destruct D as (m & Hm & Fm). assert (E : Some m = Some L) by (rewrite <- Hm; exact HL). injection E as ->. inversion Fm as [|? A' ? ? HA' _]; subst. cbn in HA. now injection HA as ->.
Qed.

Lemma penalty_spec p c : t_method (p_core p) = "PCA"%string -> Forall (fun r => length r = length (t_wave (p_core p))) (t_flux (p_core p)) -> length c = nbasis p -> oii_penalty (p_core p) c (penalty p c).
Proof.
  intros Hm Hr Hc. unfold oii_penalty, penalty. destruct (OIItemplate (p_core p)) as [A|] eqn:EA.
  - pose proof (OII_sum (p_core p) c A EA Hr Hc) as E. unfold negOII_row. cbv zeta.
    split.
    + intros _. destruct (qlt (sumQ (vecmat c A (length (hd [] A)))) 0) eqn:El.
      * apply qlt_iff in El. rewrite Qred_correct. rewrite E in *. split; intro; [exfalso; lra|reflexivity].
      * apply qlt_false in El. rewrite E in El. split; intro; lra.
    + intro C. exfalso. unfold OIItemplate in EA. destruct (String.eqb_spec (t_rrtype (p_core p)) "GALAXY"); [contradiction|discriminate].
  - split; [|intros _; reflexivity]. intro Eg. exfalso. unfold OIItemplate in EA. rewrite Eg, Hm in EA. discriminate.
Qed.

Section G.
Variables (p : tmpl) (g : targ).
Hypotheses (HS : linsolve_ok slv) (Hm : t_method (p_core p) = "PCA"%string) (U : usable p) (Hr : Forall (fun r => length r = length (t_wave (p_core p))) (t_flux (p_core p)))
  (Hw : Forall (fun s => wf_csr (s_R s)) (data_of g)) (Hn : Forall (fun s => nonneg (s_ivar s)) (data_of g)) (Hz : ~ (sumQ (pixels s_ivar g) == 0)%Q).

(* the sentinel carries the penalty of zero coefficients, which is zero *)
Lemma point_ok dw z td w f wf zs cs : (forall s, In s (g_spectra g) -> dget dw (q_hash s) = Some (q_wave s)) -> tdata p dw [z] = Ok td -> spectral_data (data_of g) = Ok (w, f, wf) ->
  calc_zchi2_batch slv (t_method (p_core p)) None None (data_of g) td w f wf 1 (nbasis p) = Ok (zs, cs) -> on_curve p g z (hd 0%Q zs + penalty p (hd [] cs)).
Proof.
  intros Own Ht Ed Eb. pose proof (spectral_data_inv _ _ _ _ Ed) as (Ew & Ef & Elen & _).
  assert (Nw : nonneg w). { subst w. unfold nonneg. apply Forall_forall. intros v Hv. apply in_concat in Hv as (l & Hl & Hv). apply in_map_iff in Hl as (s & <- & Hs). pose proof (proj1 (Forall_forall _ _) Hn s Hs) as Q. unfold nonneg in Q. exact (proj1 (Forall_forall _ _) Q v Hv). }
  assert (Zw : ~ (sumQ w == 0)%Q) by (subst w; exact Hz).
  rewrite Hm in Eb. pose proof (batch_at _ _ _ _ _ _ _ _ _ _ _ _ _ 0 Zw Eb (le_n 1)) as H0.
  assert (X : exists Tb, is_design (nbasis p) (data_of g) td 0 Tb). { apply zchi2_at_cases in H0 as (Tb & M & H1 & _). exists Tb. now apply dpso_design. }
  destruct X as [T HT]. assert (Ez : hd 0%Q zs = nth 0 zs 0%Q) by now destruct zs. assert (Ec : hd [] cs = nth 0 cs []) by now destruct cs.
  unfold Spec_Run.on_curve. exists T, (nth 0 cs []), (penalty p (nth 0 cs [])). split; [now apply (design_spec_of p g dw z td)|]. rewrite Ez, Ec.
  unfold pixels. rewrite <- Ew, <- Ef. destruct (C43_least_squares slv None (data_of g) td w f wf 1 (nbasis p) zs cs 0 T HS Ed Nw Zw Hw Eb (le_n 1) HT) as [(A & B & D)|(B & A & M & v & e & D & D1 & D2 & D3)].
  - split; [exact A|]. split; [now apply penalty_spec|]. left. split; [|exact D]. now rewrite B.
  - assert (L : length (nth 0 cs []) = nbasis p) by (rewrite A; apply repeat_length). split; [exact L|]. pose proof (penalty_spec p (nth 0 cs []) Hm Hr L) as PS. split; [exact PS|]. right.
    split; [|split; [exact A|exists M, v, e; split; [exact D|split; [exact D1|split; [exact D2|exact D3]]]]]. rewrite B. assert (P0 : (penalty p (nth 0 cs []) == 0)%Q).
    { destruct PS as [P1 P2]. destruct (string_dec (t_rrtype (p_core p)) "GALAXY") as [E|E]; [|now apply P2]. apply (P1 E). rewrite A. assert (Z0 : (OII_flux (p_core p) (repeat 0%Q (nbasis p)) == 0)%Q).
      { unfold OII_flux. apply bigsum_zero. intros l _. destruct (_ && _); [|reflexivity]. apply bigsum_zero. intros b _.
        assert (K : at1 (repeat 0%Q (nbasis p)) b = 0%Q) by (unfold at1; destruct (Nat.lt_ge_cases b (nbasis p)); [apply nth_repeat|apply nth_overflow; now rewrite repeat_length]). rewrite K. lra. }
      rewrite Z0. lra. }
    rewrite P0. unfold HUGE_CHI2. lra.
Qed.
Lemma fine_curve w f wf z v : hashes_tell_grids [g] -> spectral_data (data_of g) = Ok (w, f, wf) -> fine_scan slv trans p g w f wf z = Ok v -> on_curve p g z v.
Proof.
  intros C Ed H. unfold fine_scan, chi2_at in H. destruct (tdata p (own_grids g) [z]) as [td|] eqn:Et; cbn [rbind] in H; [|discriminate]. destruct (calc_zchi2_batch _ _ _ _ _ _ _ _ _ _ _) as [[zs cs]|] eqn:Eb; cbn [rbind fst snd] in H; [|discriminate].
  assert (E : (hd 0 zs + penalty p (hd [] cs))%Q = v) by congruence. rewrite <- E. apply (point_ok (own_grids g) z td w f wf); auto. intros s Hs. now apply own_get.
Qed.
Lemma coarse_curve dw z x pen : (forall s, In s (g_spectra g) -> dget dw (q_hash s) = Some (q_wave s)) -> at_z slv trans p dw (data_of g) z = Ok (x, pen) -> on_curve p g z (x + pen)%Q.
Proof.
  intros Own H. unfold at_z in H. destruct (tdata p dw [z]) as [td|] eqn:Et; cbn [rbind] in H; [|discriminate]. unfold zchi2_target in H. destruct (spectral_data (data_of g)) as [[[w f] wf]|] eqn:Ed; cbn [rbind] in H; [|discriminate].
  pose proof (spectral_data_inv _ _ _ _ Ed) as (Ew & _). destruct (Qeq_bool (sumQ w) 0) eqn:Eq; [exfalso; apply Qeq_bool_iff in Eq; apply Hz; unfold pixels; rewrite <- Ew; exact Eq|].
  destruct (calc_zchi2_batch _ _ _ _ _ _ _ _ _ _ _) as [[zs cs]|] eqn:Eb; cbn [rbind fst snd] in H; [|discriminate].
  pose proof (point_ok dw z td w f wf zs cs Own Et Ed Eb) as K.
  assert (E1 : x = hd 0%Q zs) by (injection H as H1 _; symmetry; exact H1). assert (E2 : pen = penalty p (hd [] cs)); [|now rewrite E1, E2].
  unfold penalty. unfold vec in *. destruct (OIItemplate (p_core p)) as [A|]; [|injection H as _ H2; symmetry; exact H2].
  injection H as _ H2. unfold calc_negOII_penalty in H2. rewrite <- H2.
  destruct cs as [|c cs]; [|reflexivity]. exfalso. assert (Zw : ~ (sumQ w == 0)%Q) by (intro Q; apply Qeq_bool_iff in Q; congruence). destruct (batch_inv _ _ _ _ _ _ _ _ _ _ _ _ _ Zw Eb) as (q & Hq & _ & Hc). apply mapM_Forall2, Forall2_len in Hq. cbn in Hq. destruct q; [discriminate|discriminate].
Qed.
End G.

Lemma three (l : list Q) j : j + 2 < length l -> firstn 3 (skipn j l) = [nth j l 0%Q; nth (j + 1) l 0%Q; nth (j + 2) l 0%Q].
Proof.
  revert l. induction j as [|j IH]; intros l H.
  - destruct l as [|a [|b [|c l]]]; cbn in H; try lia. reflexivity.
  - destruct l as [|a l]; cbn in H; [lia|]. cbn [skipn]. rewrite IH by lia. reflexivity.
Qed.
Lemma linspace_nth lo hi n t : 2 <= n -> t < n -> nth t (linspace lo hi n) 0%Q = (lo + inject_Z (Z.of_nat t) * (hi - lo) / inject_Z (Z.of_nat (n - 1)))%Q.
Proof.
  intros H1 H2. unfold linspace. rewrite (nth_indep _ 0%Q (if n =? 1 then lo else (lo + inject_Z (Z.of_nat 0) * (hi - lo) / inject_Z (Z.of_nat (n - 1)))%Q)) by (rewrite map_length, seq_length; exact H2).
  rewrite (map_nth (fun i => if n =? 1 then lo else (lo + inject_Z (Z.of_nat i) * (hi - lo) / inject_Z (Z.of_nat (n - 1)))%Q)), seq_nth by exact H2. cbn [Nat.add]. destruct (Nat.eqb_spec n 1); [lia|reflexivity].
Qed.
Lemma mono_fine lo hi n zz : fine_grid lo hi n zz -> (lo <= hi)%Q -> forall a b, a <= b -> b < n -> (nth a zz 0 <= nth b zz 0)%Q.
Proof.
  intros [L F] Hle a b Hab Hb. rewrite (F a), (F b) by lia. destruct (Nat.eq_dec n 1) as [->|]; [assert (a = 0) by lia; assert (b = 0) by lia; subst; lra|].
  assert (P : (0 < inject_Z (Z.of_nat (n - 1)))%Q) by (apply inj_pos; lia).
  assert (Q1 : (inject_Z (Z.of_nat a) <= inject_Z (Z.of_nat b))%Q) by (rewrite <- Zle_Qle; lia).
  apply Qplus_le_r. unfold Qdiv. apply Qmult_le_compat_r; [|apply Qinv_le_0_compat; lra]. apply Qmult_le_compat_r; [exact Q1|lra].
Qed.
Lemma mono_zz lo hi n zz : fine_grid lo hi n zz -> (hi <= lo)%Q -> forall a b, a <= b -> b < n -> (nth b zz 0 <= nth a zz 0)%Q.
Proof.
  intros [L F] Hle a b Hab Hb. rewrite (F a), (F b) by lia. destruct (Nat.eq_dec n 1) as [->|]; [assert (a = 0) by lia; assert (b = 0) by lia; subst; lra|].
  assert (P : (0 < inject_Z (Z.of_nat (n - 1)))%Q) by (apply inj_pos; lia).
  assert (Q1 : (inject_Z (Z.of_nat a) <= inject_Z (Z.of_nat b))%Q) by (rewrite <- Zle_Qle; lia).
  apply Qplus_le_r. unfold Qdiv. apply Qmult_le_compat_r; [|apply Qinv_le_0_compat; lra].
  assert (X : (0 <= (inject_Z (Z.of_nat b) - inject_Z (Z.of_nat a)) * (lo - hi))%Q) by (apply Qmult_le_0_compat; lra). lra.
Qed.

Lemma lor10 w : Z.testbit (Z.lor w BAD_MINFIT) 10 = true.
Proof. rewrite Z.lor_spec, orb_true_r. reflexivity. Qed.
Lemma lor10f w : Z.testbit (Z.lor w Z_FITLIMIT) 10 = Z.testbit w 10.
Proof. rewrite Z.lor_spec. cbn. apply orb_false_r. Qed.
Lemma dip_of zc i : local_min (map Fin zc) i -> dip zc i.
Proof.
  intros (H1 & H2 & H3). rewrite map_length in *. assert (K : forall a, a < length zc -> nth a (map Fin zc) NaN = Fin (nth a zc 0%Q)).
  { intros a Ha. rewrite (nth_indep _ NaN (Fin 0)) by (now rewrite map_length). apply map_nth. }
  split; [exact H1|]. split; intro H.
  - specialize (H2 H). rewrite !K in H2 by lia. cbn in H2. now apply Qle_bool_iff.
  - specialize (H3 H). rewrite !K in H3 by lia. cbn in H3. now apply Qle_bool_iff.
Qed.
Lemma fit_curve p g zc fs x : nondecreasing (p_zs p) -> Forall (fun z => -1 < z)%Q (p_zs p) -> 3 <= nz -> fit_target p g zc = Ok fs -> In x fs ->
  exists w f wf i zlo zhi zz yy k, spectral_data (data_of g) = Ok (w, f, wf) /\ dip zc i /\ length zc = length (p_zs p) /\ nth_error (p_zs p) (i - 1) = Some zlo /\ nth_error (p_zs p) (Nat.min (i + 1) (length (p_zs p) - 1)) = Some zhi /\
   fine_grid zlo zhi nz zz /\ mapM (fine_scan slv trans p g w f wf) zz = Ok yy /\ smallest_at yy k /\ read_off polyfit zz yy k (Model_Fitz.f_z x) (Model_Fitz.f_chi2 x) (Z.testbit (Model_Fitz.f_zwarn x) 10).
Proof.
  intros Hs Hm1 Hnz. unfold Model_Run.fit_target. destruct (spectral_data (data_of g)) as [[[w f] wf]|]; cbn [rbind]; [|discriminate]. intros H Hx.
  destruct (fitz_parts _ _ _ _ _ _ _ _ _ _ _ _ _ _ Hsort H) as (minima & results & Hl & Hne & Hm & Hr & Hp & _).
  destruct (fit_loop_inv _ _ _ _ _ _ _ _ _ _ _ minima [] results Hr (Nat.le_0_l _) (pw_nil _)) as (_ & _ & I3 & _).
  eapply Permutation_in in Hx; [|exact Hp]. destruct (I3 x Hx) as [[]|(i & r0 & Ii & H1 & H2)].
  destruct (finish_same _ _ _ H2) as (_ & _ & _ & _ & _ & F6). subst r0. destruct (refine_refined _ _ _ _ _ _ _ _ _ _ H1) as (zlo & zhi & zmin & sg & ym & w0 & HR & _).
  destruct (find_minima_ok argsort (map Fin zc) Hsort Hne) as (out & Eo & _ & Hin & _). assert (out = minima) by congruence. subst out.
  destruct HR as [R1 R2 R3 R4 R5 R6 R7 R8 R9 R10 R11 (zsec & zpen & R12 & R13 & R14 & R15)]. clear R7 R11.
  assert (LT : i - 1 <= Nat.min (i + 1) (length (p_zs p) - 1)) by (apply nth_error_Some_lt in R1; lia).
  pose proof (sorted_nth_le _ Hs _ _ _ _ LT R1 R2) as Hlh.
  assert (FG : fine_grid zlo zhi nz (Model_Fitz.f_zz x)). { rewrite R4. split; [apply linspace_length|]. intros t Ht. rewrite linspace_nth by lia. reflexivity. }
  pose proof (mapM_length _ _ _ R5) as Ly. pose proof FG as [Lz Fv].
  set (k := argmin (Model_Fitz.f_zzchi2 x)) in *.
  assert (Ny : Model_Fitz.f_zzchi2 x <> []) by (intro C; rewrite C in Ly; cbn in Ly; lia).
  pose proof (argmin_spec _ Ny) as SM. fold k in SM.
  exists w, f, wf, i, zlo, zhi, (Model_Fitz.f_zz x), (Model_Fitz.f_zzchi2 x), k. split; [reflexivity|]. split; [apply dip_of, Hin, Ii|]. split; [rewrite map_length in Hl; exact Hl|]. split; [exact R1|]. split; [exact R2|]. split; [exact FG|]. split; [exact R5|]. split; [exact SM|].
  specialize (R6 Hnz). destruct SM as (Sk & _ & _). rewrite Ly, Lz in Sk.
  assert (Hj : exists j, j = Nat.min (Nat.max k 1) (nz - 2) - 1) by now eexists. destruct Hj as [j Ej]. rewrite <- Ej in R6. rewrite !three in R6 by lia.
  exists j. split; [lia|]. split; [lia|]. split; [lia|]. split; [lia|].
  assert (HD : hd 0%Q (Model_Fitz.f_zz x) = nth 0 (Model_Fitz.f_zz x) 0%Q) by (destruct (Model_Fitz.f_zz x); reflexivity).
  assert (OUT : (zmin < hd 0 (Model_Fitz.f_zz x))%Q \/ (last (Model_Fitz.f_zz x) 0 < zmin)%Q -> Z.testbit (Model_Fitz.f_zwarn x) 10 = true).
  { intro O. rewrite R15. cbv zeta. assert (Eo' : qlt zmin (hd 0%Q (Model_Fitz.f_zz x)) || qlt (last (Model_Fitz.f_zz x) 0%Q) zmin = true) by (apply orb_true_iff; destruct O as [O|O]; [left|right]; now apply qlt_iff).
    rewrite Eo'. repeat match goal with |- context [if ?b then Z.lor _ Z_FITLIMIT else _] => destruct b end; rewrite ?lor10f, ?lor10; reflexivity. }
  assert (W : Z.testbit (Model_Fitz.f_zwarn x) 10 = false -> Z.testbit w0 10 = false).
  { intro B. destruct (Z.testbit w0 10) eqn:E0; [|reflexivity]. rewrite R15 in B. cbv zeta in B. exfalso. revert B.
    repeat match goal with |- context [if ?b then Z.lor _ Z_FITLIMIT else _] => destruct b end;
    repeat match goal with |- context [if ?b then Z.lor _ BAD_MINFIT else _] => destruct b end; rewrite ?lor10f, ?lor10, ?E0; discriminate. }
  destruct (Qlt_le_dec zmin (hd 0 (Model_Fitz.f_zz x))%Q) as [O|O1]; [left; split; [apply OUT; now left|apply R10; now left]|].
  destruct (Qlt_le_dec (last (Model_Fitz.f_zz x) 0%Q) zmin) as [O|O2]; [left; split; [apply OUT; now right|apply R10; now right]|]. right.
  destruct (R9 O1 O2) as [Ez Ey].
  assert (NB : (-1 < zmin)%Q). { rewrite HD, (Fv 0) in O1 by lia. assert (Z0 : (-1 < zlo)%Q) by (rewrite Forall_forall in Hm1; apply Hm1; eapply nth_error_In; exact R1).
    assert (T0 : (zlo + inject_Z (Z.of_nat 0) * (zhi - zlo) / inject_Z (Z.of_nat (nz - 1)) == zlo)%Q) by (change (inject_Z (Z.of_nat 0)) with 0%Q; unfold Qdiv; ring). rewrite T0 in O1. lra. }
  destruct (C28_minfit_flags_bad_fits _ _ _ _ _ _ _ _ _ _ R6) as (_ & B2 & B3 & B4 & B5).
  destruct (polyfit _ _) as [[[a b] c]|] eqn:Ep; [|specialize (B2 eq_refl); exfalso; assert (EZ : zmin = (-1)%Q) by congruence; rewrite EZ in NB; lra].
  exists a, b, c. split; [reflexivity|].
  assert (Na : ~ (a == 0)%Q) by (intro C; specialize (B3 a b c eq_refl C); assert (EZ : zmin = (-1)%Q) by congruence; rewrite EZ in NB; lra).
  rewrite Ez, Ey. unfold minfit in R6. cbn [length Nat.ltb Nat.leb] in R6. rewrite Ep in R6. destruct (Qeq_bool a 0) eqn:Ea; [apply Qeq_bool_iff in Ea; contradiction|]. cbv zeta in R6.
  assert (V : zmin = (- b / (2 * a))%Q /\ ym = (- (b * b) / (4 * a) + c)%Q) by (destruct (qlt 0 a); split; congruence). destruct V as [V1 V2].
  split; [split; [exact Na|split; [now rewrite V1|rewrite V2; field; exact Na]]|].
  intro B. specialize (W B). destruct B4 as [B4|B4]; [|rewrite B4 in W; discriminate]. destruct (B5 B4) as (a' & b' & c' & P' & A0 & _ & Y0 & (u & Iu & Hu) & (v & Iv & Hv)).
  assert (a' = a) by congruence. subst a'. split; [exact A0|]. split; [exact Y0|].
  assert (M : forall s t, s <= t -> t < nz -> (nth s (Model_Fitz.f_zz x) 0 <= nth t (Model_Fitz.f_zz x) 0)%Q) by (intros s t; apply (mono_fine zlo zhi nz); assumption).
  split.
  - apply Qle_lt_trans with u; [|exact Hu]. destruct Iu as [<-|[<-|[<-|[]]]]; apply M; lia.
  - apply Qlt_le_trans with v; [exact Hv|]. destruct Iv as [<-|[<-|[<-|[]]]]; apply M; lia.
Qed.
Lemma scan_curve p g dw td row : linsolve_ok slv -> t_method (p_core p) = "PCA"%string -> usable p -> Forall (fun r => length r = length (t_wave (p_core p))) (t_flux (p_core p)) ->
  Forall (fun s => wf_csr (s_R s)) (data_of g) -> Forall (fun s => nonneg (s_ivar s)) (data_of g) -> ~ (sumQ (pixels s_ivar g) == 0)%Q ->
  (forall s, In s (g_spectra g) -> dget dw (q_hash s) = Some (q_wave s)) -> p_zs p <> [] -> tdata p dw (p_zs p) = Ok td -> zchi2_target slv (p_core p) td (length (p_zs p)) (data_of g) = Ok row ->
  Forall2 (on_curve p g) (p_zs p) (map2 Qplus (fst (fst row)) (snd row)).
Proof.
  intros HS Hm U Hr Hw Hn Hz Own Hzs Ht Hrow. pose proof (zchi2_rows slv trans p dw (p_zs p) td (data_of g) U Hzs Ht) as K. rewrite Hrow in K. destruct K as (K & L1 & L2).
  apply mapM_Forall2 in K. assert (G : forall zs a b, length a = length zs -> length b = length zs -> Forall2 (fun z y => at_z slv trans p dw (data_of g) z = Ok y) zs (combine a b) -> Forall2 (on_curve p g) zs (map2 Qplus a b)).
  { induction zs as [|z zs IH]; intros [|x a] [|y b] La Lb F; try discriminate; [constructor|]. cbn [combine map2] in *. inversion F as [|? ? ? ? F1 F2]; subst. constructor; [|apply IH; [now injection La|now injection Lb|exact F2]].
    now apply (coarse_curve p g HS Hm U Hr Hw Hn Hz dw). }
  now apply G.
Qed.
End R.
