(* C123: the resolution matrix of a BOSS spectrum. *)
From Verif Require Import Prelude Model_BossR Proof_BossR.
From Coq Require Import Reals Lra Psatz.
Open Scope R_scope.

(* entry (i, j): the gaussian of the width of pixel j, cut at h pixels, divided by its sum over the pixels *)
Theorem C123_entries : forall n h wd i j, (i < n)%nat -> (j < n)%nat ->
  Rmat n h wd i j =
  (if Z.leb (Z.abs (Z.of_nat j - Z.of_nat i)) (Z.of_nat h) then exp (- (IZR (Z.of_nat j - Z.of_nat i) * IZR (Z.of_nat j - Z.of_nat i)) / 2 / (wd j * wd j)) else 0)
  / rsum n (fun i' => if Z.leb (Z.abs (Z.of_nat j - Z.of_nat i')) (Z.of_nat h) then exp (- (IZR (Z.of_nat j - Z.of_nat i') * IZR (Z.of_nat j - Z.of_nat i')) / 2 / (wd j * wd j)) else 0).
Proof. intros n h wd i j Hi Hj. rewrite Rmat_at by assumption. reflexivity. Qed.
Theorem C123_columns_sum_to_one : forall n h wd j, (j < n)%nat -> rsum n (fun i => Rmat n h wd i j) = 1.
Proof. intros n h wd j. apply column_one. Qed.
Theorem C123_not_negative : forall n h wd i j, (i < n)%nat -> (j < n)%nat -> 0 <= Rmat n h wd i j <= 1.
Proof.
  intros n h wd i j Hi Hj. rewrite Rmat_at by assumption. pose proof (Tcol_pos n h wd j Hj) as P. 
  set (v := if near h i j then _ else 0). assert (V : 0 <= v) by (unfold v; destruct (near h i j); [left; apply exp_pos|lra]).
  assert (V2 : v <= Tcol n h wd j).
  { unfold Tcol. set (f := fun i0 => if near h i0 j then _ else 0). change v with (f i).
    assert (N : forall i0, 0 <= f i0) by (intro i0; unfold f; destruct (near h i0 j); [left; apply exp_pos|lra]). clear - Hi N.
    induction n as [|m IH]; [lia|]. cbn. destruct (Nat.eq_dec i m) as [->|]; [pose proof (rsum_nonneg m f (fun k _ => N k)); lra|]. specialize (IH ltac:(lia)). pose proof (N m). lra. }
  split; [apply Rmult_le_pos; [exact V|left; now apply Rinv_0_lt_compat]|]. apply Rmult_le_reg_r with (Tcol n h wd j); [exact P|]. unfold Rdiv. rewrite Rmult_assoc, Rinv_l by lra. lra.
Qed.
(* the total flux of a model is not changed by the resolution *)
Theorem C123_flux_conserved : forall n h wd x, rsum n (apply_R n h wd x) = rsum n x.
Proof. intros. apply flux_kept. Qed.
(* the band is wide enough for two sigma of every pixel *)
Theorem C123_band : forall w wmax, 0 <= w <= wmax -> 2 * w <= INR (half_width wmax).
Proof.
  intros w wmax H. unfold half_width. destruct (base_Int_part (- wmax)) as [B1 B2]. rewrite INR_IZR_INZ, Z2Nat.id.
  - rewrite mult_IZR, opp_IZR. lra.
  - assert (IZR (Int_part (- wmax)) <= IZR 0) by lra. apply le_IZR in H0. lia.
Qed.
(* but a flat spectrum does not stay flat: the rows do not sum to one, even with equal widths *)
(* the widths used are positive, and unchanged when they were *)
Theorem C123_widths : forall w, 1 / 100000 <= fix_width w /\ (1 / 100000 <= w -> fix_width w = w).
Proof. intro w. unfold fix_width. destruct (Rlt_dec w (1 / 100000)); split; intros; lra. Qed.
Theorem C123_flat_refuted : forall w, 0 < w -> apply_R 3 2 (fun _ => w) (fun _ => 1) 0 <> 1.
Proof.
  intros w Hw E. unfold apply_R in E. cbn [rsum] in E. rewrite !Rmat_at in E by lia. unfold near, Tcol in E. cbn [rsum] in E.
  change (Z.leb (Z.abs (Z.of_nat 0 - Z.of_nat 0)) (Z.of_nat 2)) with true in E. change (Z.leb (Z.abs (Z.of_nat 1 - Z.of_nat 0)) (Z.of_nat 2)) with true in E. change (Z.leb (Z.abs (Z.of_nat 2 - Z.of_nat 0)) (Z.of_nat 2)) with true in E.
  unfold near in E. cbn -[IZR exp Rinv] in E.
  set (a := exp (- (IZR (-1) * IZR (-1)) / 2 / (w * w))) in *.
  assert (Ha : 0 < a < 1).
  { split; [apply exp_pos|]. unfold a. rewrite <- exp_0. apply exp_increasing. apply Ropp_lt_cancel. rewrite Ropp_0. unfold Rdiv. replace (- (- (IZR (-1) * IZR (-1)) * / 2 * / (w * w))) with (/ 2 * / (w * w)) by lra.
    apply Rmult_lt_0_compat; [lra|]. apply Rinv_0_lt_compat. nra. }
  assert (E0 : exp (- (0 * 0) / 2 / (w * w)) = 1). { rewrite <- exp_0. f_equal. unfold Rdiv. lra. }
  assert (E1 : exp (- (1 * 1) / 2 / (w * w)) = a). { unfold a. f_equal. lra. }
  assert (E4 : exp (- (2 * 2) / 2 / (w * w)) = a * a * a * a). { unfold a. rewrite <- !exp_plus. f_equal. lra. }
  assert (E5 : exp (- (IZR (-2) * IZR (-2)) / 2 / (w * w)) = a * a * a * a). { rewrite <- E4. f_equal. lra. }
  rewrite ?E0, ?E1, ?E4, ?E5 in E.
  replace ((0 + 1 / (0 + 1 + a + a * a * a * a) * 1 + a / (0 + a + 1 + a) * 1 + a * a * a * a / (0 + a * a * a * a + a + 1) * 1)) with ((1 + a * a * a * a) / (1 + a + a * a * a * a) + a / (1 + 2 * a)) in E by (field; nra).
  assert (P1 : 0 < 1 + a + a * a * a * a) by nra. assert (P2 : 0 < 1 + 2 * a) by lra.
  assert (E6 : (1 + a * a * a * a) * (1 + 2 * a) + a * (1 + a + a * a * a * a) = (1 + a + a * a * a * a) * (1 + 2 * a)).
  { apply (Rmult_eq_compat_r ((1 + a + a * a * a * a) * (1 + 2 * a))) in E. rewrite Rmult_1_l in E. rewrite <- E. field. lra. }
  assert (E7 : a * (a * a * a * a - a) = 0) by lra. apply Rmult_integral in E7. destruct E7 as [E7|E7]; [lra|]. assert (a * a * a = 1) by (apply Rmult_eq_reg_l with a; [lra|lra]). nra.
Qed.
Example C123_ex : exists wd : nat -> R, (forall j, 0 < wd j) /\ rsum 2 (fun i => Rmat 2 4 wd i 1) = 1.
Proof. exists (fun j => 1 + INR j). split; [intro j; pose proof (pos_INR j); lra|]. apply C123_columns_sum_to_one. lia. Qed.
Print Assumptions C123_columns_sum_to_one.
Print Assumptions C123_flux_conserved.
Print Assumptions C123_flat_refuted.
