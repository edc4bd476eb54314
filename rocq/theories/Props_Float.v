(* C162-C164: chi2 in double precision, for every order of summation. *)
From Coq Require Import ZArith Reals Lra Lia List Bool Permutation.
From Flocq Require Import Core.Core IEEE754.BinarySingleNaN.
From Verif Require Import Model_Float Spec_Float Proof_Float Proof_Float2.
Import ListNotations.
Open Scope R_scope.

(* C162 *)
Theorem C162_never_negative : forall o flux model w,
  Forall not_negative w -> not_negative (chi2 o flux model w).
Proof.
  intros o flux model w H. apply nneg_ltb. apply dot_nneg.
  - apply map2_P, resid_nneg.
  - eapply Forall_impl; [|exact H]. intros x Hx. now apply nneg_ltb.
Qed.

Theorem C162_a_number_partial : forall o flux model w,
  Forall (within 510) flux -> Forall (within 510) model -> Forall weight w ->
  is_nan (chi2 o flux model w) = false.
Proof.
  intros o flux model w Hf Hm Hw. apply (dot_num o). now apply resids_weight. exact Hw.
Qed.

(* 1e200, in a masked pixel *)
Definition huge : b64 := flit 1 664.
Lemma one_val : B2R (fint 1) = 1. Proof. vm_compute. lra. Qed.
Lemma zero_val : B2R (fint 0) = 0. Proof. vm_compute. lra. Qed.
Lemma one_weight : weight (fint 1). Proof. split; [reflexivity|]. rewrite one_val. lra. Qed.
Lemma nil_weight : weight (fint 0). Proof. split; [reflexivity|]. rewrite zero_val. lra. Qed.
Lemma huge_finite : finite huge. Proof. reflexivity. Qed.
Theorem C162_a_number_refuted : exists o flux model w,
  Forall finite flux /\ Forall finite model /\ Forall weight w /\ once o (length w) /\
  is_nan (chi2 o flux model w) = true.
Proof.
  exists (DPlus (DProd 0) (DProd 1)), [huge; fint 3], [fint 0; fint 1], [fint 0; fint 1].
  pose proof one_weight. pose proof nil_weight. pose proof huge_finite.
  split; [repeat constructor; auto|]. split; [repeat constructor; auto|]. split; [auto|].
  split; [apply Permutation_refl|]. vm_compute. reflexivity.
Qed.

(* C163 *)
Theorem C163_masked_pixels_partial : forall o flux model flux' model' w,
  length model = length flux -> length flux' = length flux -> length model' = length flux ->
  Forall (within 510) flux -> Forall (within 510) model ->
  Forall (within 510) flux' -> Forall (within 510) model' -> Forall weight w ->
  (forall i, (i < length flux)%nat ->
     masked (nth i w fzero) \/
     (nth i flux fzero = nth i flux' fzero /\ nth i model fzero = nth i model' fzero)) ->
  chi2 o flux model w = chi2 o flux' model' w.
Proof.
  intros o flux model flux' model' w L1 L2 L3 Hf Hm Hf' Hm' Hw H. apply dot_masked.
  - now rewrite !map2_len by congruence.
  - intros i Hi. rewrite map2_len in Hi by congruence.
    rewrite (map2_nth resid2 flux model fzero fzero fzero i) by auto.
    rewrite (map2_nth resid2 flux' model' fzero fzero fzero i) by (congruence || lia).
    destruct (H i Hi) as [M|[E1 E2]].
    + right.
      assert (W : forall x, In x flux \/ In x model \/ In x flux' \/ In x model' -> within 510 x).
      { intros x [I|[I|[I|I]]]; [apply (proj1 (Forall_forall _ _) Hf)|apply (proj1 (Forall_forall _ _) Hm)
          |apply (proj1 (Forall_forall _ _) Hf')|apply (proj1 (Forall_forall _ _) Hm')]; exact I. }
      repeat split; try exact M.
      * apply sq_plain. apply resid_fin; apply W; [left|right; left]; apply nth_In; lia.
      * apply sq_plain, resid_fin; apply W; [left|right; left]; apply nth_In; lia.
      * apply sq_plain. apply resid_fin; apply W; [right; right; left|right; right; right]; apply nth_In; lia.
      * apply sq_plain, resid_fin; apply W; [right; right; left|right; right; right]; apply nth_In; lia.
      * apply (nth_P weight); [apply zero_weight|exact Hw].
    + left. now rewrite E1, E2.
Qed.

Theorem C163_masked_pixels_refuted : exists o flux flux' model w,
  Forall finite flux /\ Forall finite flux' /\ Forall finite model /\ Forall weight w /\ once o (length w) /\
  (forall i, (i < length flux)%nat -> masked (nth i w fzero) \/ nth i flux fzero = nth i flux' fzero) /\
  chi2 o flux model w <> chi2 o flux' model w.
Proof.
  exists (DPlus (DProd 0) (DProd 1)), [huge; fint 3], [fint 2; fint 3], [fint 0; fint 1], [fint 0; fint 1].
  pose proof one_weight. pose proof nil_weight. pose proof huge_finite.
  split; [repeat constructor; auto|]. split; [repeat constructor; auto|]. split; [repeat constructor; auto|]. split; [auto|].
  split; [apply Permutation_refl|]. split.
  - cbn [length]. intros [|[|i]] Hi; [left; apply zero_val|right; reflexivity|lia].
  - intros C. apply (f_equal is_nan) in C. vm_compute in C. discriminate.
Qed.

(* C164 *)
Lemma pow_up k : 2 * INR k * u <= 1 -> (1 + u) ^ k <= 1 + 2 * INR k * u.
Proof.
  pose proof u_pos as U. induction k as [|k IH]; intros H; [cbn; lra|].
  rewrite S_INR in *. assert (0 <= INR k) by apply pos_INR. cbn [pow].
  specialize (IH ltac:(nra)). assert (2 * INR k * u * u <= u) by nra.
  assert ((1 + u) * (1 + u) ^ k <= (1 + u) * (1 + 2 * INR k * u)) by (apply Rmult_le_compat_l; lra). lra.
Qed.
Lemma pow_down k : 1 - INR k * u <= (1 - u) ^ k.
Proof.
  pose proof u_pos as U. induction k as [|k IH]; [cbn; lra|]. rewrite S_INR. cbn [pow].
  assert (0 <= INR k) by apply pos_INR.
  assert ((1 - u) * (1 - INR k * u) <= (1 - u) * (1 - u) ^ k) by (apply Rmult_le_compat_l; lra).
  assert (0 <= INR k * u * u) by (apply Rmult_le_pos; [apply Rmult_le_pos; lra|lra]). lra.
Qed.

Lemma chi2_bounds o flux model w : length model = length flux -> length w = length flux ->
  Forall (within 510) flux -> Forall (within 510) model -> Forall weight w -> once o (length flux) ->
  is_finite (chi2 o flux model w) = true ->
  let n := INR (length flux) in
  0 <= exact_chi2 flux model w /\ 0 <= total w /\
  (1 - u) ^ (depth o + 3) * exact_chi2 flux model w - eta * (total w + n) <= B2R (chi2 o flux model w)
  <= (1 + u) ^ (depth o + 3) * (exact_chi2 flux model w + eta * (total w + n)).
Proof.
  intros L1 L2 Hf Hm Hw O F n. pose proof u_pos as U. pose proof eta_pos as E.
  destruct (dot_acc o (map2 resid2 flux model) w (resids_weight _ _ Hf Hm) Hw F) as (T0 & L & Up).
  unfold once in O. rewrite (Permutation_length O), seq_length in L, Up. fold n in L, Up.
  rewrite (term_sum_perm _ _ _ O) in *.
  set (t := fun i => B2R (nth i (map2 resid2 flux model) fzero) * B2R (nth i w fzero)) in *.
  set (x := fun i => (B2R (nth i flux fzero) - B2R (nth i model fzero)) ^ 2 * B2R (nth i w fzero)).
  set (v := fun i => B2R (nth i w fzero)).
  assert (W : forall i, 0 <= v i) by (intros i; apply (nth_P weight); [apply zero_weight|exact Hw]).
  assert (X : forall i, 0 <= x i) by (intros i; unfold x; apply Rmult_le_pos; [apply pow2_ge_0|apply W]).
  rewrite exact_sum by auto. fold x. rewrite total_sum, L2. fold v.
  assert (B : forall i, In i (seq 0 (length flux)) -> (1 - u) ^ 3 * x i + - eta * v i <= t i <= (1 + u) ^ 3 * x i + eta * v i).
  { intros i Hi. apply in_seq in Hi. unfold t. rewrite (map2_nth resid2 flux model fzero fzero fzero i) by (auto; lia).
    assert (A1 : within 510 (nth i flux fzero)) by (apply (proj1 (Forall_forall _ _) Hf), nth_In; lia).
    assert (A2 : within 510 (nth i model fzero)) by (apply (proj1 (Forall_forall _ _) Hm), nth_In; lia).
    pose proof (resid_acc _ _ A1 A2) as [R1 R2]. specialize (W i). unfold x. fold (v i).
    split.
    - apply (Rmult_le_compat_r (v i)) in R1; [lra|easy].
    - apply (Rmult_le_compat_r (v i)) in R2; [lra|easy]. }
  assert (BL := term_sum_le _ _ (seq 0 (length flux)) (fun i Hi => proj1 (B i Hi))).
  assert (BU := term_sum_le _ _ (seq 0 (length flux)) (fun i Hi => proj2 (B i Hi))).
  rewrite term_sum_lin in BL, BU.
  set (TX := term_sum x _) in *. set (TV := term_sum v _) in *. set (T := term_sum t _) in *.
  assert (P1 : 0 <= TX) by (apply term_sum_nneg; auto). assert (P2 : 0 <= TV) by (apply term_sum_nneg; auto).
  assert (Pn : 0 <= n) by apply pos_INR.
  split; [easy|]. split; [easy|].
  rewrite !pow_add. set (P := (1 + u) ^ depth o) in *. set (Q := (1 - u) ^ depth o) in *.
  assert (HP : 1 <= P) by (apply pow_R1_Rle; lra).
  assert (HQ : 0 <= Q <= 1).
  { split; [apply pow_le; lra|]. apply (Rle_trans _ (1 ^ depth o)); [apply pow_incr; lra|rewrite pow1; lra]. }
  assert (H3 : 1 <= (1 + u) ^ 3) by (apply pow_R1_Rle; lra).
  split.
  - apply (Rle_trans _ (Q * T - eta * n)); [|exact L].
    apply (Rmult_le_compat_l Q) in BL; [|easy].
    assert (0 <= (1 - Q) * (eta * TV)) by (apply Rmult_le_pos; [lra|apply Rmult_le_pos; lra]). lra.
  - apply (Rle_trans _ _ _ Up). rewrite Rmult_assoc. apply Rmult_le_compat_l; [lra|].
    assert (0 <= ((1 + u) ^ 3 - 1) * (eta * (TV + n))) by (apply Rmult_le_pos; [lra|apply Rmult_le_pos; lra]). lra.
Qed.

Theorem C164_accuracy_partial : forall o flux model w,
  length model = length flux -> length w = length flux ->
  Forall (within 510) flux -> Forall (within 510) model -> Forall weight w ->
  once o (length flux) -> finite (chi2 o flux model w) ->
  2 * INR (depth o + 3) * half_ulp <= 1 ->
  Rabs (B2R (chi2 o flux model w) - exact_chi2 flux model w) <=
    2 * INR (depth o + 3) * half_ulp * exact_chi2 flux model w
    + 2 * tiny * (total w + INR (length flux)).
Proof.
  intros o flux model w L1 L2 Hf Hm Hw O F K.
  destruct (chi2_bounds o flux model w L1 L2 Hf Hm Hw O F) as (X0 & W0 & L & Up).
  change half_ulp with u in *. change tiny with eta in *.
  set (X := exact_chi2 flux model w) in *. set (C := B2R _) in *. set (k := (depth o + 3)%nat) in *.
  assert (Pn : 0 <= INR (length flux)) by apply pos_INR.
  set (V := total w + INR (length flux)) in *. assert (V0 : 0 <= V) by (unfold V; lra).
  pose proof u_pos as U. pose proof eta_pos as E.
  pose proof (pow_up k K) as PU. pose proof (pow_down k) as PD.
  assert (Kn : 0 <= INR k) by apply pos_INR.
  assert (EV : 0 <= eta * V) by (apply Rmult_le_pos; lra).
  apply Rabs_le. split.
  - apply (Rmult_le_compat_r X) in PD; [|easy].
    assert (0 <= INR k * u * X) by (apply Rmult_le_pos; [apply Rmult_le_pos; lra|lra]). lra.
  - assert ((1 + u) ^ k * (X + eta * V) <= (1 + 2 * INR k * u) * (X + eta * V)) by (apply Rmult_le_compat_r; lra).
    assert (2 * INR k * u * (eta * V) <= 1 * (eta * V)) by (apply Rmult_le_compat_r; lra). lra.
Qed.

Theorem C164_order_refuted : exists o o' flux model w,
  length model = length flux /\ length w = length flux /\
  Forall (within 510) flux /\ Forall (within 510) model /\ Forall weight w /\
  once o (length flux) /\ once o' (length flux) /\
  finite (chi2 o flux model w) /\ finite (chi2 o' flux model w) /\
  chi2 o flux model w <> chi2 o' flux model w.
Proof.
  exists (DPlus (DPlus (DProd 0) (DProd 1)) (DProd 2)), (DPlus (DProd 0) (DPlus (DProd 1) (DProd 2))),
    [fint 1; fint 1; fint 1], [fint 0; fint 0; fint 0], [fint (2^53); fint 1; fint 1].
  assert (B1 : B2R (fint 1) = 1) by (vm_compute; lra).
  assert (B0 : B2R (fint 0) = 0) by (vm_compute; lra).
  assert (P1 : 1 <= bpow radix2 510) by (change 1 with (bpow radix2 0); now apply bpow_le).
  assert (W1 : within 510 (fint 1)) by (split; [reflexivity|]; rewrite B1, Rabs_R1; lra).
  assert (W0 : within 510 (fint 0)) by (split; [reflexivity|]; rewrite B0, Rabs_R0; lra).
  assert (V1 : weight (fint 1)) by (split; [reflexivity|]; rewrite B1; lra).
  assert (V2 : weight (fint (2 ^ 53))) by (split; [reflexivity|]; vm_compute; lra).
  split; [reflexivity|]. split; [reflexivity|]. split; [auto|]. split; [auto|]. split; [auto|].
  split; [apply Permutation_refl|]. split; [apply Permutation_refl|].
  split; [vm_compute; reflexivity|]. split; [vm_compute; reflexivity|].
  intros C. apply (f_equal (fun x => Beqb x (fint (2^53)))) in C. vm_compute in C. discriminate.
Qed.

(* the hypotheses of the accuracy theorem are met: three pixels, one of them masked *)
Example C164_sound : exists o flux model w,
  length model = length flux /\ length w = length flux /\
  Forall (within 510) flux /\ Forall (within 510) model /\ Forall weight w /\
  once o (length flux) /\ finite (chi2 o flux model w) /\ 2 * INR (depth o + 3) * half_ulp <= 1 /\
  Beqb (chi2 o flux model w) (fint 5) = true.
Proof.
  exists (DFma 2 (DPlus (DProd 0) (DProd 1))), [fint 3; fint 1; fint 7], [fint 2; fint 3; fint 0], [fint 1; fint 1; fint 0].
  assert (B0 : B2R (fint 0) = 0) by (vm_compute; lra).
  assert (B1 : B2R (fint 1) = 1) by (vm_compute; lra).
  assert (G : 8 <= bpow radix2 510) by (replace 8 with (bpow radix2 3) by (vm_compute; lra); now apply bpow_le).
  assert (WI : forall z, In z [0;1;2;3;7]%Z -> within 510 (fint z)).
  { intros z Hz. split.
    - repeat (destruct Hz as [<-|Hz]; [reflexivity|]). destruct Hz.
    - apply (Rle_trans _ 8); [|exact G].
      repeat (destruct Hz as [<-|Hz]; [vm_compute; repeat destruct (Rcase_abs _); lra|]). destruct Hz. }
  assert (V1 : weight (fint 1)) by (split; [reflexivity|]; rewrite B1; lra).
  assert (V0 : weight (fint 0)) by (split; [reflexivity|]; rewrite B0; lra).
  split; [reflexivity|]. split; [reflexivity|].
  split; [repeat (constructor; [apply WI; cbn; auto 6|]); constructor|]. split; [repeat (constructor; [apply WI; cbn; auto 6|]); constructor|]. split; [auto|].
  split; [apply (Permutation_cons_app [0%nat; 1%nat] []); apply Permutation_refl|].
  split; [vm_compute; reflexivity|]. split; [|vm_compute; reflexivity].
  unfold half_ulp. replace (INR (_ + 3)) with (bpow radix2 2 + 2) by (vm_compute; lra).
  assert (bpow radix2 (-53) <= bpow radix2 (-4)) by now apply bpow_le.
  replace (bpow radix2 (-4)) with (/16) in H by (vm_compute; lra). pose proof (bpow_gt_0 radix2 (-53)). replace (bpow radix2 2) with 4 by (vm_compute; lra). lra.
Qed.

Print Assumptions C162_never_negative.
Print Assumptions C162_a_number_partial.
Print Assumptions C162_a_number_refuted.
Print Assumptions C163_masked_pixels_partial.
Print Assumptions C163_masked_pixels_refuted.
Print Assumptions C164_accuracy_partial.
Print Assumptions C164_order_refuted.
