(* Spectra that are exactly a template. *)
From Verif Require Import Prelude PreludeFacts NumX Facts2 Model_Fitz Spec_Fitz Proof_Fitz Proof_Fitz2 Props_Fitz Model_Rebin Model_Dist Proof_Dist3 Model_Rank Proof_Table Model_Zscan Spec_Zscan Proof_Zscan Proof_Zscan2 Proof_Zscan3 Proof_Zscan4 Props_Zscan
  Model_Piece Spec_Piece Proof_Piece Model_IO Model_Zfind Proof_Zfind Model_Run Spec_Run Proof_Run Proof_Run2 Proof_Run3 Proof_Run4 Proof_Run5 Proof_RunMPI Proof_Run6 Proof_Run8 Spec_IO Proof_IO Props_Run Spec_Perfect.
Open Scope nat_scope.
Local Notation dget := Model_Dist.dget. Local Notation dset := Model_Dist.dset.

(* ---------- algebra ---------- *)
Lemma Qsq0 (a b : Q) : (0 <= b)%Q -> (b * (a * a) == 0)%Q -> (b == 0 \/ a == 0)%Q.
Proof. intros _ H. apply Qmult_integral in H as [H|H]; [now left|]. apply Qmult_integral in H. right. tauto. Qed.
Lemma wsq_nonneg (b a : Q) : (0 <= b)%Q -> (0 <= b * (a * a))%Q.
Proof. intro H. apply Qmult_le_0_compat; [exact H|apply Qsq_nonneg]. Qed.
Lemma at1_nonneg v i : nonneg v -> (0 <= at1 v i)%Q.
Proof. intro H. unfold at1. destruct (Nat.lt_ge_cases i (length v)); [|rewrite nth_overflow by assumption; lra]. unfold nonneg in H. rewrite Forall_forall in H. apply H. now apply nth_In. Qed.
Lemma chi2_ge0 n nb w f T c : nonneg w -> (0 <= chi2 n nb w f T c)%Q.
Proof. intro H. apply bigsum_nonneg. intros i _. apply wsq_nonneg. now apply at1_nonneg. Qed.
Lemma chi2_zero n nb w f T c : nonneg w -> (chi2 n nb w f T c <= 0)%Q -> forall i, i < n -> (at1 w i == 0 \/ at1 f i == model_at nb T c i)%Q.
Proof.
  intros Hw H i Hi. pose proof (bigsum_all_zero n _ (fun i _ => wsq_nonneg (at1 w i) (at1 f i - model_at nb T c i) (at1_nonneg w i Hw)) H i Hi) as K. cbv beta in K.
  apply Qsq0 in K; [|now apply at1_nonneg]. destruct K as [K|K]; [now left|right; lra].
Qed.
Lemma chi2_exact n nb w f T c : (forall i, i < n -> (at1 w i == 0 \/ at1 f i == model_at nb T c i)%Q) -> (chi2 n nb w f T c == 0)%Q.
Proof. intro H. apply bigsum_zero. intros i Hi. destruct (H i Hi) as [->| ->]; ring. Qed.
Definition vminus (a b : vec) : vec := map2 Qminus a b.
Lemma vminus_len a b n : length a = n -> length b = n -> length (vminus a b) = n.
Proof. intros. unfold vminus. rewrite map2_length. lia. Qed.
Lemma vminus_at a b j : length a = length b -> (at1 (vminus a b) j == at1 a j - at1 b j)%Q.
Proof.
  intro L. unfold at1, vminus. destruct (Nat.lt_ge_cases j (length a)).
  - rewrite (map2_nth _ _ 0%Q 0%Q) by lia. reflexivity.
  - rewrite !nth_overflow by (rewrite ?map2_length; lia). ring.
Qed.
Lemma model_minus nb T a b i : length a = length b -> (model_at nb T (vminus a b) i == model_at nb T a i - model_at nb T b i)%Q.
Proof. intro L. unfold model_at. rewrite <- bigsum_minus. apply bigsum_ext. intros j _. rewrite vminus_at by exact L. ring. Qed.
(* v^T (T^T W T) v = sum of w (T v)^2 *)
Lemma gram_quad n nb w T M v : (forall j k, j < nb -> k < nb -> (at2 M j k == bigsum n (fun q => at2 T q j * (at1 w q * at2 T q k)))%Q) ->
  (bigsum nb (fun j => at1 v j * bigsum nb (fun k => at2 M j k * at1 v k)) == bigsum n (fun q => at1 w q * (model_at nb T v q * model_at nb T v q)))%Q.
Proof.
  intro HM. transitivity (bigsum nb (fun j => bigsum n (fun q => at1 v j * (at2 T q j * (at1 w q * model_at nb T v q)))))%Q.
  - apply bigsum_ext. intros j Hj. rewrite bigsum_scale. apply Qmult_comp; [reflexivity|].
    transitivity (bigsum nb (fun k => bigsum n (fun q => at2 T q j * (at1 w q * at2 T q k) * at1 v k)))%Q.
    { apply bigsum_ext. intros k Hk. rewrite HM by assumption. now rewrite bigsum_scale_r. }
    rewrite bigsum_swap. apply bigsum_ext. intros q Hq. unfold model_at.
    transitivity (bigsum nb (fun k => (at2 T q j * at1 w q) * (at2 T q k * at1 v k)))%Q; [apply bigsum_ext; intros; ring|]. rewrite bigsum_scale. ring.
  - rewrite bigsum_swap. apply bigsum_ext. intros q Hq.
    transitivity (bigsum nb (fun j => (at1 w q * model_at nb T v q) * (at2 T q j * at1 v j)))%Q; [apply bigsum_ext; intros; ring|]. rewrite bigsum_scale. unfold model_at at 2. unfold model_at. ring.
Qed.
Lemma OII_flux_ext t c c' : (forall j, j < length (t_flux t) -> (at1 c j == at1 c' j)%Q) -> (OII_flux t c == OII_flux t c')%Q.
Proof. intro H. unfold OII_flux. apply bigsum_ext. intros l _. destruct (_ && _); [|reflexivity]. apply bigsum_ext. intros j Hj. now rewrite H. Qed.
Lemma pen_nonneg t c v : oii_penalty t c v -> (0 <= v)%Q.
Proof.
  intros [P1 P2]. destruct (string_dec (t_rrtype t) "GALAXY") as [E|E]; [|rewrite (P2 E); lra]. destruct (P1 E) as [A B].
  destruct (Qlt_le_dec (OII_flux t c) 0) as [L|L]; [rewrite B by lra; lra|rewrite A by exact L; lra].
Qed.

Section R.
Variables (slv : solvers) (argsort : list xq -> list nat) (polyfit : list Q -> list Q -> option (Q * Q * Q)) (isqrt : Q -> Q).
Variable trans : option string -> Q -> Q -> Q.
Variables (nminima nz : nat).
Hypothesis Hsort : argsort_ok argsort.
Notation tdata := (tdata trans).
Notation fit_target := (fit_target slv argsort polyfit isqrt trans nminima nz).
Notation run := (run slv argsort polyfit isqrt trans nminima nz).
Notation fitted := (fitted slv argsort polyfit isqrt trans nminima nz).
Notation on_curve := (on_curve slv trans).

Lemma perfect_value p g z v : nonneg (pixels s_ivar g) -> fails_when_singular slv (nbasis p) -> is_template trans p g z -> on_curve p g z v -> (v == 0)%Q.
Proof.
  intros Hw Sing (Det & c0 & (L0 & N0) & Ph) (T & c & pen & HT & Lc & Hp & H).
  assert (N1 : forall i, i < length T -> (at1 (pixels s_ivar g) i == 0 \/ at1 (pixels s_flux g) i == model_at (nbasis p) T c0 i)%Q) by (intros i Hi; now apply (N0 T i)).
  destruct H as [(Hv & Hmin)|(Hv & _ & M & y & e & Es & Ly & Sq & HM)].
  - assert (Z : (chi2 (length T) (nbasis p) (pixels s_ivar g) (pixels s_flux g) T c <= 0)%Q).
    { pose proof (Hmin c0 L0) as K. rewrite (chi2_exact _ _ _ _ _ c0 N1) in K. exact K. }
    pose proof (chi2_ge0 (length T) (nbasis p) (pixels s_ivar g) (pixels s_flux g) T c Hw) as Z'.
    assert (EQ : forall j, j < nbasis p -> (at1 c j == at1 c0 j)%Q).
    { intros j Hj. assert (K : (at1 (vminus c c0) j == 0)%Q).
      { apply (Det T (vminus c c0) HT); [apply vminus_len; assumption| |exact Hj]. intros i Hi. destruct (chi2_zero _ _ _ _ _ _ Hw Z i Hi) as [K|K]; [now left|]. destruct (N1 i Hi) as [K'|K']; [now left|]. right. rewrite model_minus by lia. rewrite <- K, <- K'. ring. }
      rewrite vminus_at in K by lia. lra. }
    rewrite Hv. assert (P0 : (pen == 0)%Q); [|rewrite P0; lra]. destruct Hp as [P1 P2]. destruct (string_dec (t_rrtype (p_core p)) "GALAXY") as [E|E]; [|now apply P2].
    apply (P1 E). rewrite (OII_flux_ext _ c c0) by exact EQ. now apply Ph.
  - exfalso. destruct (Sing M y e Ly Sq Es) as (u & Lu & (j & Hj & Nj) & Ku). apply Nj. apply (Det T u HT Lu); [|exact Hj].
    pose proof (gram_quad (length T) (nbasis p) (pixels s_ivar g) T M u HM) as G.
    assert (G0 : (bigsum (nbasis p) (fun j => at1 u j * bigsum (nbasis p) (fun k => at2 M j k * at1 u k)) == 0)%Q) by (apply bigsum_zero; intros i Hi; rewrite (Ku i Hi); ring).
    rewrite G0 in G. intros i Hi. symmetry in G.
    assert (K : (bigsum (length T) (fun q => at1 (pixels s_ivar g) q * (model_at (nbasis p) T u q * model_at (nbasis p) T u q)) <= 0)%Q) by (rewrite G; lra).
    pose proof (bigsum_all_zero _ _ (fun i _ => wsq_nonneg (at1 (pixels s_ivar g) i) (model_at (nbasis p) T u i) (at1_nonneg _ i Hw)) K i Hi) as K1. cbv beta in K1. apply Qsq0 in K1; [exact K1|now apply at1_nonneg].
Qed.
Lemma curve_nonneg p g z v : nonneg (pixels s_ivar g) -> on_curve p g z v -> (0 <= v)%Q.
Proof.
  intros Hw (T & c & pen & HT & Lc & Hp & [(Hv & _)|(Hv & _)]); [|rewrite Hv; lra]. pose proof (pen_nonneg _ _ _ Hp) as P. pose proof (chi2_ge0 (length T) (nbasis p) (pixels s_ivar g) (pixels s_flux g) T c Hw) as Q0. rewrite Hv. lra.
Qed.
Lemma pos_value p g z v : nonneg (pixels s_ivar g) -> not_template trans p g z -> on_curve p g z v -> (0 < v)%Q.
Proof.
  intros Hw Nt (T & c & pen & HT & Lc & Hp & [(Hv & _)|(Hv & _)]); [|rewrite Hv; lra]. pose proof (pen_nonneg _ _ _ Hp) as P. pose proof (chi2_ge0 (length T) (nbasis p) (pixels s_ivar g) (pixels s_flux g) T c Hw) as Q0.
  destruct (Qlt_le_dec 0 (chi2 (length T) (nbasis p) (pixels s_ivar g) (pixels s_flux g) T c)) as [K|K]; [rewrite Hv; lra|]. exfalso.
  destruct (Nt T c HT Lc) as (i & Hi & N1 & N2). destruct (chi2_zero _ _ _ _ _ _ Hw K i Hi) as [K1|K1]; [exact (N1 K1)|exact (N2 K1)].
Qed.
(* the fit of the smallest chi2 of the scan *)
Lemma fit_first p g zc fs i : nondecreasing (p_zs p) -> Forall (fun z => -1 < z)%Q (p_zs p) -> 3 <= nz -> 0 < nminima -> fit_target p g zc = Ok fs ->
  i < length zc -> (forall t, t < length zc -> t <> i -> (nth i zc 0 < nth t zc 0)%Q) ->
  exists x w f wf zlo zhi zz yy k, In x fs /\ (zlo <= Model_Fitz.f_z x /\ Model_Fitz.f_z x <= zhi)%Q /\ spectral_data (data_of g) = Ok (w, f, wf) /\ nth_error (p_zs p) (i - 1) = Some zlo /\ nth_error (p_zs p) (Nat.min (i + 1) (length (p_zs p) - 1)) = Some zhi /\
   zz = linspace zlo zhi nz /\ fine_grid zlo zhi nz zz /\ mapM (fine_scan slv trans p g w f wf) zz = Ok yy /\ smallest_at yy k /\ read_off polyfit zz yy k (Model_Fitz.f_z x) (Model_Fitz.f_chi2 x) (Z.testbit (Model_Fitz.f_zwarn x) 10).
Proof.
  intros Hs Hm1 Hnz Hnm. unfold Model_Run.fit_target. destruct (spectral_data (data_of g)) as [[[w f] wf]|]; cbn [rbind]; [|discriminate]. intros H Hi0 Huq.
  destruct (fitz_parts _ _ _ _ _ _ _ _ _ _ _ _ _ _ Hsort H) as (minima & results & Hl & Hne & Hm & Hr & Hp & _).
  assert (NAN : forall t, t < length (map Fin zc) -> isnan (nth t (map Fin zc) NaN) = false).
  { intros t Ht. rewrite map_length in Ht. rewrite (nth_indep _ NaN (Fin 0)) by (now rewrite map_length). rewrite map_nth. reflexivity. }
  destruct (C27_first_is_global_minimum argsort (map Fin zc) Hsort Hne NAN) as (i' & rest & Em & Hi & Hmin). rewrite map_length in Hi, Hmin.
  assert (i' = i).
  { destruct (Nat.eq_dec i' i) as [E|E]; [exact E|]. exfalso. specialize (Huq i' Hi E). specialize (Hmin i Hi0).
    rewrite !(nth_indep _ NaN (Fin 0)) in Hmin by (now rewrite map_length). rewrite !map_nth in Hmin. cbn in Hmin. apply Qle_bool_iff in Hmin. lra. }
  subst i'. rewrite Hm in Em. injection Em as ->.
  destruct (fit_loop_first _ _ _ _ _ _ _ _ _ _ _ i rest results Hnm Hr) as (r & x & more & H1 & H2 & H3).
  assert (Hx : In x fs) by (eapply Permutation_in; [symmetry; exact Hp|rewrite H3; left; reflexivity]).
  destruct (finish_same _ _ _ H2) as (_ & _ & _ & _ & _ & F6). subst r. destruct (refine_refined _ _ _ _ _ _ _ _ _ _ H1) as (zlo & zhi & zmin & sg & ym & w0 & HR & _).
  assert (LT0 : i - 1 <= Nat.min (i + 1) (length (p_zs p) - 1)) by (pose proof (nth_error_Some_lt _ _ _ (rf_lo _ _ _ _ _ _ _ _ _ _ _ _ _ _ _ _ HR)); lia).
  pose proof (sorted_nth_le _ Hs _ _ _ _ LT0 (rf_lo _ _ _ _ _ _ _ _ _ _ _ _ _ _ _ _ HR) (rf_hi _ _ _ _ _ _ _ _ _ _ _ _ _ _ _ _ HR)) as Hlh0.
  pose proof (refined_range _ _ _ _ _ _ _ _ _ _ _ _ _ _ _ _ HR Hlh0) as RNG.
  destruct HR as [R1 R2 R3 R4 R5 R6 R7 R8 R9 R10 R11 (zsec & zpen & R12 & R13 & R14 & R15)]. clear R7 R11.
  assert (LT : i - 1 <= Nat.min (i + 1) (length (p_zs p) - 1)) by (apply nth_error_Some_lt in R1; lia).
  pose proof (sorted_nth_le _ Hs _ _ _ _ LT R1 R2) as Hlh.
  assert (FG : fine_grid zlo zhi nz (Model_Fitz.f_zz x)). { rewrite R4. split; [apply linspace_length|]. intros t Ht. rewrite linspace_nth by lia. reflexivity. }
  pose proof (mapM_length _ _ _ R5) as Ly. pose proof FG as [Lz Fv].
  set (k := argmin (Model_Fitz.f_zzchi2 x)) in *.
  assert (Ny : Model_Fitz.f_zzchi2 x <> []) by (intro C; rewrite C in Ly; cbn in Ly; lia).
  pose proof (argmin_spec _ Ny) as SM. fold k in SM.
  exists x, w, f, wf, zlo, zhi, (Model_Fitz.f_zz x), (Model_Fitz.f_zzchi2 x), k. split; [exact Hx|]. split; [exact RNG|]. split; [reflexivity|]. split; [exact R1|]. split; [exact R2|]. split; [exact R4|]. split; [exact FG|]. split; [exact R5|]. split; [exact SM|].
  specialize (R6 Hnz). destruct SM as (Sk & _ & _). rewrite Ly, Lz in Sk.
  assert (Hj : exists j, j = Nat.min (Nat.max k 1) (nz - 2) - 1) by now eexists. destruct Hj as [j Ej]. rewrite <- Ej in R6. rewrite !three in R6 by lia.
  exists j. split; [lia|]. split; [lia|]. split; [lia|]. split; [lia|].
  assert (HD : hd 0%Q (Model_Fitz.f_zz x) = nth 0 (Model_Fitz.f_zz x) 0%Q) by (destruct (Model_Fitz.f_zz x); reflexivity).
  assert (OUT : (zmin < hd 0 (Model_Fitz.f_zz x))%Q \/ (last (Model_Fitz.f_zz x) 0 < zmin)%Q -> Z.testbit (Model_Fitz.f_zwarn x) 10 = true).
  { intro O. rewrite R15. cbv zeta. assert (Eo' : qlt zmin (hd 0%Q (Model_Fitz.f_zz x)) || qlt (last (Model_Fitz.f_zz x) 0%Q) zmin = true) by (apply orb_true_iff; destruct O as [O|O]; [left|right]; now apply qlt_iff).
    rewrite Eo'. repeat match goal with |- context [if ?b then Z.lor _ Z_FITLIMIT else _] => destruct b end; rewrite ?lor10f, ?lor10; reflexivity. }
  assert (W : Z.testbit (Model_Fitz.f_zwarn x) 10 = false -> Z.testbit w0 10 = false).
  { intro B. destruct (Z.testbit w0 10) eqn:E0; [|reflexivity]. rewrite R15 in B. cbv zeta in B. exfalso. revert B.
    repeat match goal with |- context [if ?b then Z.lor _ Z_FITLIMIT else _] => destruct b end;
    repeat match goal with |- context [if ?b then Z.lor _ BAD_MINFIT else _] => destruct b end; rewrite ?lor10f, ?lor10, ?E0; discriminate. }
  destruct (Qlt_le_dec zmin (hd 0 (Model_Fitz.f_zz x))%Q) as [O|O1]; [left; split; [apply OUT; now left|apply R10; now left]|].
  destruct (Qlt_le_dec (last (Model_Fitz.f_zz x) 0%Q) zmin) as [O|O2]; [left; split; [apply OUT; now right|apply R10; now right]|]. right.
  destruct (R9 O1 O2) as [Ez Ey].
  assert (NB : (-1 < zmin)%Q). { rewrite HD, (Fv 0) in O1 by lia. assert (Z0 : (-1 < zlo)%Q) by (rewrite Forall_forall in Hm1; apply Hm1; eapply nth_error_In; exact R1).
    assert (T0 : (zlo + inject_Z (Z.of_nat 0) * (zhi - zlo) / inject_Z (Z.of_nat (nz - 1)) == zlo)%Q) by (change (inject_Z (Z.of_nat 0)) with 0%Q; unfold Qdiv; ring). rewrite T0 in O1. lra. }
  destruct (C28_minfit_flags_bad_fits _ _ _ _ _ _ _ _ _ _ R6) as (_ & B2 & B3 & B4 & B5).
  destruct (polyfit _ _) as [[[a b] c]|] eqn:Ep; [|specialize (B2 eq_refl); exfalso; assert (EZ : zmin = (-1)%Q) by congruence; rewrite EZ in NB; lra].
  exists a, b, c. split; [reflexivity|].
  assert (Na : ~ (a == 0)%Q) by (intro C; specialize (B3 a b c eq_refl C); assert (EZ : zmin = (-1)%Q) by congruence; rewrite EZ in NB; lra).
  rewrite Ez, Ey. unfold minfit in R6. cbn [length Nat.ltb Nat.leb] in R6. rewrite Ep in R6. destruct (Qeq_bool a 0) eqn:Ea; [apply Qeq_bool_iff in Ea; contradiction|]. cbv zeta in R6.
  assert (V : zmin = (- b / (2 * a))%Q /\ ym = (- (b * b) / (4 * a) + c)%Q) by (destruct (qlt 0 a); split; congruence). destruct V as [V1 V2].
  split; [split; [exact Na|split; [now rewrite V1|rewrite V2; field; exact Na]]|].
  intro B. specialize (W B). destruct B4 as [B4|B4]; [|rewrite B4 in W; discriminate]. destruct (B5 B4) as (a' & b' & c' & P' & A0 & _ & Y0 & (u & Iu & Hu) & (v & Iv & Hv)).
  assert (a' = a) by congruence. subst a'. split; [exact A0|]. split; [exact Y0|].
  assert (M : forall s t, s <= t -> t < nz -> (nth s (Model_Fitz.f_zz x) 0 <= nth t (Model_Fitz.f_zz x) 0)%Q) by (intros s t; apply (mono_fine zlo zhi nz); assumption).
  split.
  - apply Qle_lt_trans with u; [|exact Hu]. destruct Iu as [<-|[<-|[<-|[]]]]; apply M; lia.
  - apply Qlt_le_trans with v; [exact Hv|]. destruct Iv as [<-|[<-|[<-|[]]]]; apply M; lia.
Qed.

(* a minimum with the value zero is flagged *)
Lemma lsq_interp a b c u v w r s t : ~ (u == v)%Q -> ~ (u == w)%Q -> ~ (v == w)%Q -> least_squares a b c [u; v; w] [r; s; t] ->
  forall x y, In (x, y) [(u, r); (v, s); (w, t)] -> (a * (x * x) + b * x + c == y)%Q.
Proof.
  intros D1 D2 D3 L x y I.
  assert (N1 : ~ (u - v == 0)%Q) by (intro; apply D1; lra). assert (N2 : ~ (u - w == 0)%Q) by (intro; apply D2; lra). assert (N3 : ~ (v - w == 0)%Q) by (intro; apply D3; lra).
  set (k1 := (r / ((u - v) * (u - w)))%Q). set (k2 := (s / ((v - u) * (v - w)))%Q). set (k3 := (t / ((w - u) * (w - v)))%Q).
  assert (M1 : ~ (v - u == 0)%Q) by (intro; apply D1; lra). assert (M2 : ~ (w - u == 0)%Q) by (intro; apply D2; lra). assert (M3 : ~ (w - v == 0)%Q) by (intro; apply D3; lra).
  pose proof (L (k1 + k2 + k3)%Q (- (k1 * (v + w) + k2 * (u + w) + k3 * (u + v)))%Q (k1 * (v * w) + k2 * (u * w) + k3 * (u * v))%Q) as K.
  assert (Z : (ssr (k1 + k2 + k3) (- (k1 * (v + w) + k2 * (u + w) + k3 * (u + v))) (k1 * (v * w) + k2 * (u * w) + k3 * (u * v)) [u; v; w] [r; s; t] == 0)%Q).
  { unfold ssr. cbn [combine map sumQ fold_right fst snd]. cbv zeta.
    assert (A1 : ((k1 + k2 + k3) * (u * u) + - (k1 * (v + w) + k2 * (u + w) + k3 * (u + v)) * u + (k1 * (v * w) + k2 * (u * w) + k3 * (u * v)) - r == 0)%Q) by (unfold k1, k2, k3; field; repeat split; assumption).
    assert (A2 : ((k1 + k2 + k3) * (v * v) + - (k1 * (v + w) + k2 * (u + w) + k3 * (u + v)) * v + (k1 * (v * w) + k2 * (u * w) + k3 * (u * v)) - s == 0)%Q) by (unfold k1, k2, k3; field; repeat split; assumption).
    assert (A3 : ((k1 + k2 + k3) * (w * w) + - (k1 * (v + w) + k2 * (u + w) + k3 * (u + v)) * w + (k1 * (v * w) + k2 * (u * w) + k3 * (u * v)) - t == 0)%Q) by (unfold k1, k2, k3; field; repeat split; assumption).
    rewrite A1, A2, A3. ring. }
  rewrite Z in K. pose proof (ssr_nonneg a b c [u; v; w] [r; s; t]) as P.
  apply (ssr_zero_all a b c [u; v; w] [r; s; t]); [lra|exact I].
Qed.
Lemma vertex_le a b c x y0 : (0 < a -> a * (x * x) + b * x + c == 0 -> y0 == c - b * b / (4 * a) -> y0 <= 0)%Q.
Proof.
  intros Ha H E. assert (N : ~ (a == 0)%Q) by lra.
  assert (F : (y0 == - ((2 * a * x + b) * (2 * a * x + b)) / (4 * a))%Q).
  { rewrite E. setoid_replace c with (- (a * (x * x) + b * x))%Q by lra. field. exact N. }
  rewrite F. setoid_replace (- ((2 * a * x + b) * (2 * a * x + b)) / (4 * a))%Q with (- (((2 * a * x + b) * (2 * a * x + b)) / (4 * a)))%Q by (field; exact N).
  assert (P : (0 <= ((2 * a * x + b) * (2 * a * x + b)) / (4 * a))%Q); [|lra].
  apply Qle_shift_div_l; [lra|]. pose proof (Qsq_nonneg (2 * a * x + b)). lra.
Qed.
Lemma fine_strict lo hi n zz : fine_grid lo hi n zz -> (lo < hi)%Q -> forall a b, a < b -> b < n -> (nth a zz 0 < nth b zz 0)%Q.
Proof.
  intros [L F] Hlt a b Hab Hb. rewrite (F a), (F b) by lia.
  assert (P : (0 < inject_Z (Z.of_nat (n - 1)))%Q) by (apply inj_pos; lia).
  assert (Q1 : (inject_Z (Z.of_nat a) < inject_Z (Z.of_nat b))%Q) by (rewrite <- Zlt_Qlt; lia).
  apply Qplus_lt_r. unfold Qdiv. apply Qmult_lt_compat_r; [now apply Qinv_lt_0_compat|]. apply Qmult_lt_compat_r; [lra|exact Q1].
Qed.
Lemma zero_flagged lo hi zz yy k z y bad : polyfit3_ok polyfit -> fine_grid lo hi nz zz -> (lo < hi)%Q -> length yy = length zz -> smallest_at yy k -> (nth k yy 0 == 0)%Q -> read_off polyfit zz yy k z y bad -> bad = true.
Proof.
  intros PF FG Hlt Ly SM Z0 (j & J1 & J2 & J3 & J4 & R). destruct bad; [reflexivity|]. exfalso. destruct R as [(B & _)|(a & b & c & Ep & (Na & Hz & Hy) & B)]; [discriminate|].
  destruct (B eq_refl) as (A0 & Y0 & _). pose proof FG as [Lz _].
  assert (D1 : ~ (nth j zz 0 == nth (j + 1) zz 0)%Q) by (intro E; pose proof (fine_strict lo hi nz zz FG Hlt j (j + 1)) as K; lapply K; [|lia]; intro K1; lapply K1; [|lia]; intro; lra).
  assert (D2 : ~ (nth j zz 0 == nth (j + 2) zz 0)%Q) by (intro E; pose proof (fine_strict lo hi nz zz FG Hlt j (j + 2)) as K; lapply K; [|lia]; intro K1; lapply K1; [|lia]; intro; lra).
  assert (D3 : ~ (nth (j + 1) zz 0 == nth (j + 2) zz 0)%Q) by (intro E; pose proof (fine_strict lo hi nz zz FG Hlt (j + 1) (j + 2)) as K; lapply K; [|lia]; intro K1; lapply K1; [|lia]; intro; lra).
  destruct (PF [nth j zz 0%Q; nth (j + 1) zz 0%Q; nth (j + 2) zz 0%Q] [nth j yy 0%Q; nth (j + 1) yy 0%Q; nth (j + 2) yy 0%Q] eq_refl eq_refl) as (a' & b' & c' & Ep' & LS).
  { exists (nth j zz 0%Q), (nth (j + 1) zz 0%Q), (nth (j + 2) zz 0%Q). cbn. tauto. }
  rewrite Ep in Ep'. injection Ep' as <- <- <-.
  assert (K : (a * (nth k zz 0 * nth k zz 0) + b * nth k zz 0 + c == nth k yy 0)%Q).
  { apply (lsq_interp _ _ _ _ _ _ _ _ _ D1 D2 D3 LS). assert (KK : k = j \/ k = j + 1 \/ k = j + 2) by lia. destruct KK as [->|[->| ->]]; cbn; tauto. }
  rewrite Z0 in K. pose proof (vertex_le a b c _ y A0 K Hy). lra.
Qed.

(* ---------- the rows of the only template of a type ---------- *)
Lemma filter_none_c {A} (f : A -> bool) l : (forall x, In x l -> f x = false) -> filter f l = [].
Proof. induction l as [|a l IH]; intro H; [reflexivity|]. cbn. rewrite (H a (or_introl eq_refl)). apply IH. intros; apply H; now right. Qed.
Lemma kept_block n tid bs1 b bs2 t r : length (b_rows b) <= n -> (forall b' r', In b' (bs1 ++ bs2) -> In r' (b_rows b') -> f_type r' <> f_type r) -> assemble_target n None tid (bs1 ++ b :: bs2) = Ok t -> In r (b_rows b) ->
  exists o, In o t /\ f_type o = f_type r /\ f_sub o = f_sub r /\ Model_Zfind.f_z o = Model_Zfind.f_z r /\ Model_Zfind.f_chi2 o = Model_Zfind.f_chi2 r /\ f_tid o = tid /\ N.testbit (Model_Zfind.f_zwarn o) 10 = N.testbit (Model_Zfind.f_zwarn r) 10.
Proof.
  intros L T A Hr. pose proof (out_eq _ _ _ _ _ A) as E. set (bs := bs1 ++ b :: bs2) in *. set (x := prepared None tid (max_width bs) b r).
  set (rows := sort_rows (flagged_rows None tid bs)) in *.
  assert (Hx : In x rows) by (apply sort_rows_in, flagged_rows_in; exists b, r; split; [unfold bs; apply in_app_iff; right; now left|split; [exact Hr|reflexivity]]).
  assert (Lr : length (of_type (f_type x) rows) <= length (b_rows b)).
  { unfold rows, sort_rows, of_type. rewrite (Permutation_length (filter_perm (fun q => String.eqb (f_type q) (f_type x)) _ _ (Permutation_sym (isort_perm row_le (flagged_rows None tid bs))))). fold (of_type (f_type x) (flagged_rows None tid bs)).
    rewrite flagged_concat. unfold of_type.
    assert (NO : forall l, (forall b', In b' l -> In b' (bs1 ++ bs2)) -> filter (fun q => String.eqb (f_type q) (f_type x)) (concat (map (ranked_block tid (max_width bs)) (filter nonempty l))) = []).
    { intros l Hl. apply filter_none_c. intros q Hq. apply in_concat in Hq as (qs & Hqs & Hq). apply in_map_iff in Hqs as (b' & <- & Hb'). apply filter_In in Hb' as [Hb' _]. unfold ranked_block in Hq. apply in_map_iff in Hq as (r' & <- & Hr').
      apply String.eqb_neq. exact (T b' r' (Hl b' Hb') Hr'). }
    unfold bs at 2. rewrite filter_app, map_app, concat_app, filter_app. rewrite (NO bs1) by (intros; apply in_app_iff; now left). cbn [app filter].
    destruct (nonempty b).
    - cbn [map concat]. rewrite filter_app. rewrite (NO bs2) by (intros; apply in_app_iff; now right). rewrite app_nil_r. fold (of_type (f_type x) (ranked_block tid (max_width bs) b)). etransitivity; [apply of_type_le|]. unfold ranked_block. now rewrite map_length.
    - rewrite (NO bs2) by (intros; apply in_app_iff; now right). cbn. lia. }
  assert (Hy : In x (trim n rows)).
  { apply in_of_type. rewrite trim_of_type by apply sort_rows_sorted. rewrite firstn_all2; [exact (proj1 (in_of_type x rows) Hx)|]. clear -Lr L. lia. }
  apply In_nth_error in Hy as [i Hi]. destruct (number_rows_nth _ _ _ Hi) as (d & s & _ & _ & En).
  exists (numbered i x d s). split; [rewrite E; eapply nth_error_In, En|]. destruct (numbered_fields i x d s) as (-> & -> & -> & -> & _ & -> & _ & _ & _ & _ & _ & _ & ->).
  do 5 (split; [reflexivity|]).
  assert (X : N.testbit (Model_Zfind.f_zwarn x) 10 = N.testbit (Model_Zfind.f_zwarn r) 10).
  { unfold x, prepared. rewrite flag_row_bits. cbn [Model_Zfind.f_zwarn f_npix f_ncoeff set_tid set_coeff set_prep]. cbn [N.eqb Pos.eqb andb]. now rewrite !orb_false_r. }
  rewrite <- X. destruct s; [|reflexivity]. rewrite N.lor_spec. cbn [ZW_SMALL_DELTA_CHI2 N.testbit Pos.testbit]. unfold ZW_SMALL_DELTA_CHI2. rewrite pow2_bit. now rewrite orb_false_r.
Qed.
Lemma kept_row ps tgs tab g p : NoDup (map g_id tgs) -> run ps tgs = Ok tab -> In g tgs -> In p ps -> (forall q, In q ps -> plain_names q) -> full_type p <> "meta"%string -> alone_of_type ps p ->
  exists td row fs, tdata p (grids tgs) (p_zs p) = Ok td /\ scan_of slv (p, td) g = Ok row /\ fit_target p g (map2 Qplus (fst (fst row)) (snd row)) = Ok fs /\ 0 < nminima /\
   forall x, In x fs -> exists o, In o tab /\ f_tid o = g_id g /\ f_type o = stake 6 (t_rrtype (p_core p)) /\ f_sub o = p_sub p /\ Model_Zfind.f_z o = Model_Fitz.f_z x /\ Model_Zfind.f_chi2 o = Fin (Model_Fitz.f_chi2 x) /\ N.testbit (Model_Zfind.f_zwarn o) 10 = Z.testbit (Model_Fitz.f_zwarn x) 10.
Proof.
  intros N H Hg Hp PN NM AL. destruct (run_parts slv argsort polyfit isqrt trans nminima nz Hsort ps tgs tab N H) as (tds & bss & ts & cut & Ht & P & F & A & E & _).
  assert (PA : forall q, In q ps -> parse_fulltype (full_type q) = Ok (t_rrtype (p_core q), p_sub q)).
  { intros q Hq. destruct (PN q Hq) as ((T1 & O1) & (T2 & O2) & N3). unfold full_type. rewrite parse_make by (rewrite ?(strip_id _ T1), ?(strip_id _ T2); auto). now rewrite (strip_id _ T1), (strip_id _ T2). }
  assert (FF : Forall2 (fun g' bs => Forall2 (fitted ps tds g') (typed ps) bs) tgs bss) by (eapply Forall2_impl; [|exact F]; intros ? ? [_ K]; exact K).
  destruct (in_both _ _ _ _ _ FF A g Hg) as (bs & t & Igb & Hf & At & Itt & _). cbn [fst snd] in At.
  assert (Ity : In (full_type p) (typed ps)). { unfold typed. apply filter_In. split; [apply keys_of_in, in_map, Hp|]. destruct (String.eqb_spec (full_type p) "meta"); [contradiction|reflexivity]. }
  assert (NT : NoDup (typed ps)) by (apply NoDup_filter, keys_of_nodup).
  apply in_split in Ity as (k1 & k2 & Ek). rewrite Ek in Hf, NT.
  apply Forall2_app_inv_l in Hf as (bs1 & bs' & F1 & F2 & ->). inversion F2 as [|? b ? bs2 Hb F2']; subst.
  pose proof Hb as (q & td & row & fs & ty & Hq & Ipt & Hrow & Hfit & Hparse & Eb).
  assert (q = p). { destruct (pick_some _ _ _ Hq) as [Iq Eq]. apply AL; [exact Iq|]. pose proof (PA q Iq) as K. rewrite Eq, (PA p Hp) in K. congruence. } subst q.
  rewrite (PA p Hp) in Hparse. assert (ty = (t_rrtype (p_core p), p_sub p)) by congruence. subst ty.
  exists td, row, fs. split; [|split; [exact Hrow|split; [exact Hfit|split; [exact P|]]]].
  { apply mapM_Forall2 in Ht. clear -Ht Ipt. induction Ht as [|q t ps tds H _ IH]; [destruct Ipt|]. cbn in Ipt. destruct Ipt as [Eq|I]; [injection Eq as -> ->; exact H|now apply IH]. }
  intros x Hx. destruct (fitted_wf _ _ _ _ _ _ _ Hsort _ _ _ _ _ Hb) as (_ & Ln & _).
  set (r := {| f_tid := 0; f_type := t_rrtype (p_core p); f_sub := p_sub p; Model_Zfind.f_z := Model_Fitz.f_z x; Model_Zfind.f_zerr := Model_Fitz.f_zerr x;
               Model_Zfind.f_chi2 := Fin (Model_Fitz.f_chi2 x); Model_Zfind.f_zwarn := Z.to_N (Model_Fitz.f_zwarn x); f_npix := npixels g; f_ncoeff := 0;
               Model_Zfind.f_coeff := Model_Fitz.f_coeff x; f_lim := 0%Q; f_znum := 0; f_dchi2 := Fin 0 |}).
  assert (Ir : In r (b_rows b)) by (rewrite Eb; unfold mkblock; cbn [b_rows fst snd]; apply in_map_iff; exists x; split; [reflexivity|exact Hx]).
  assert (OT : forall ks bl, Forall2 (fitted ps tds g) ks bl -> ~ In (full_type p) ks -> forall b' r', In b' bl -> In r' (b_rows b') -> f_type r' <> f_type r).
  { intros ks bl FK NK b' r' Hb' Hr'. destruct (Forall2_in_r _ _ _ b' FK Hb') as (ft & Ift & (q & td' & row' & fs' & ty' & Hq' & _ & _ & _ & Hparse' & ->)). destruct (pick_some _ _ _ Hq') as [Iq Eq]. subst ft.
    rewrite (PA q Iq) in Hparse'. assert (ty' = (t_rrtype (p_core q), p_sub q)) by congruence. subst ty'. unfold mkblock in Hr'. cbn [b_rows fst snd] in Hr'. apply in_map_iff in Hr' as (x' & <- & _). cbn [f_type r]. intro C. apply NK. rewrite <- (AL q Iq C). exact Ift. }
  assert (NK1 : ~ In (full_type p) k1) by (intro C; apply NoDup_remove_2 in NT; apply NT, in_app_iff; now left).
  assert (NK2 : ~ In (full_type p) k2) by (intro C; apply NoDup_remove_2 in NT; apply NT, in_app_iff; now right).
  destruct (kept_block nminima (g_id g) bs1 b bs2 t r Ln) as (o & Io & O1 & O2 & O3 & O4 & O5 & O6); [|exact At|exact Ir|].
  { intros b' r' Hb'. apply in_app_iff in Hb' as [Hb'|Hb']; [exact (OT k1 bs1 F1 NK1 b' r' Hb')|exact (OT k2 bs2 F2' NK2 b' r' Hb')]. }
  exists (finalised (list_max_nat (map nbasis ps)) cut o).
  assert (QQ : forall m c q, f_type (finalised m c q) = stake 6 (f_type q) /\ f_sub (finalised m c q) = f_sub q /\ Model_Zfind.f_z (finalised m c q) = Model_Zfind.f_z q /\ Model_Zfind.f_zwarn (finalised m c q) = Model_Zfind.f_zwarn q /\ Model_Zfind.f_chi2 (finalised m c q) = Model_Zfind.f_chi2 q) by (intros m [c|] q; now repeat split).
  destruct (QQ (list_max_nat (map nbasis ps)) cut o) as (-> & -> & -> & -> & ->). rewrite final_tid, O1, O2, O3, O4, O5, O6.
  split; [apply in_concat; exists (map (finalised (list_max_nat (map nbasis ps)) cut) t); split; [now apply in_map|now apply in_map]|]. do 5 (split; [reflexivity|]).
  cbn [Model_Zfind.f_zwarn r]. rewrite to_N_bit by (eapply zwarn_nonneg; eassumption). reflexivity.
Qed.
End R.
