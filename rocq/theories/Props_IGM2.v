(* C94: at very short wavelengths the Inoue14 transmission exceeds 1. *)
From Verif Require Import Prelude PreludeFacts Model_IGM Spec_IGM Proof_IGM Props_IGM.
Require Import Reals Lra Psatz.
Local Open Scope R_scope.
Lemma rsum_le {A} (f g : A -> R) l : (forall x, In x l -> f x <= g x) -> rsum (map f l) <= rsum (map g l).
Proof. intros H. induction l as [|a l IH]; [cbn; lra|]. cbn. apply Rplus_le_compat; [apply H; now left|]. apply IH. intros; apply H; now right. Qed.
Lemma rsum_Q {A} (f : A -> Q) l : rsum (map (fun x => Q2R (f x)) l) = Q2R (sumQ (map f l)).
Proof. induction l as [|a l IH]; [cbn; now rewrite Q2R_0'|]. cbn [map rsum fold_right sumQ]. change (fold_right Rplus 0 (map (fun x => Q2R (f x)) l)) with (rsum (map (fun x => Q2R (f x)) l)). rewrite IH. rewrite <- Qreals.Q2R_plus. reflexivity. Qed.
Lemma rsum_scale {A} (f : A -> R) c l : rsum (map (fun x => f x * c) l) = rsum (map f l) * c.
Proof. induction l as [|a l IH]; cbn; [ring|]. unfold rsum in IH. rewrite IH. ring. Qed.
Lemma A1_total : rsum (map (fun l => Q2R (l_A1 l)) inoue_lines) <= 1/10.
Proof. rewrite rsum_Q. replace (1/10) with (Q2R (1#10)) by (unfold Q2R; cbn; lra). apply Q2R_le. vm_compute. reflexivity. Qed.
Lemma D1_total : rsum (map (fun l => Q2R (l_D1 l)) inoue_lines) <= 1/10.
Proof. rewrite rsum_Q. replace (1/10) with (Q2R (1#10)) by (unfold Q2R; cbn; lra). apply Q2R_le. vm_compute. reflexivity. Qed.
Definition short : R := Rpower 3 (-(10/3)).
Lemma short_pos : 0 < short. Proof. apply exp_pos. Qed.
Lemma short_lt1 : short < 1. Proof. unfold short. rewrite <- (Rpower_O 3) by lra. apply Rpower_lt; lra. Qed.
Lemma short_m3 : Rpower short (-(3/10)) = 3.
Proof. unfold short. rewrite Rpower_mult. replace (-(10/3) * -(3/10)) with 1 by lra. apply Rpower_1. lra. Qed.
Lemma short_12 : Rpower short (12/10) = 1/81.
Proof. unfold short. rewrite Rpower_mult. replace (-(10/3) * (12/10)) with (- INR 4) by (cbn; lra). rewrite Rpower_Ropp, Rpower_pow by lra. cbn. lra. Qed.
Lemma rel_le lam : lamL <= lam -> 0 < lamL * short / lam <= short.
Proof.
  intros H. pose proof lamL_pos. pose proof short_pos. split; [unfold Rdiv; apply Rmult_lt_0_compat; [nra|apply Rinv_0_lt_compat; lra]|].
  apply (Rmult_le_reg_r lam); [lra|]. replace (lamL * short / lam * lam) with (lamL * short) by (field; lra). nra.
Qed.
(* z = 0, lambda = 911.8 A * 3^(-10/3) = 23.4 A *)
Theorem C94_short_wavelength_refuted : exists z lo, 0 <= z /\ 0 < lo /\ 1 < T_of inoue z lo.
Proof.
  pose proof lamL_pos as HL. pose proof short_pos as S0. pose proof short_lt1 as S1.
  exists 0, (lamL * short). split; [lra|]. split; [nra|]. unfold T_of, inoue. rewrite <- exp_0 at 1. apply exp_increasing.
  set (lo := lamL * short) in *. assert (Hlo : 0 < lo) by (unfold lo; nra). assert (Hu : lo / lamL = short) by (unfold lo; field; lra).
  assert (H1 : tLCLAF 0 lo <= 1/81).
  { unfold tLCLAF. cbv zeta. rewrite Hu. unfold ltb, geb. replace (1 + 0) with 1 by ring. rewrite !Rpower_1_base.
    destruct (Rlt_dec lo (lamL * 1)); [|unfold lo in *; nra]. destruct (Rlt_dec 0 (12/10)); [|lra]. destruct (Rlt_dec 0 (47/10)); [|lra]. destruct (Rlt_dec lo (lamL * (1 + 12/10))); [|unfold lo in *; nra]. cbn [andb negb].
    rewrite short_12. pose proof (exp_pos (21/10 * ln short)) as P. change (0 < Rpower short (21/10)) in P. lra. }
  assert (H2 : tLCDLA 0 lo <= 2113/10000 - 7661/100000 * 3).
  { rewrite LCDLA_pub by exact Hlo. unfold pub_LC_DLA. rewrite Hu, short_m3. replace (1 + 0) with 1 by ring. rewrite Rpower_1_base. destruct (Rlt_dec short 1); [|lra]. destruct (Rlt_dec 0 2); [|lra]. pose proof (pow2_ge_0 short). lra. }
  assert (H3 : tLSLAF 0 lo <= 1/10 * (1/81)).
  { unfold tLSLAF. eapply Rle_trans; [|apply Rmult_le_compat_r; [|exact A1_total]; lra]. rewrite <- rsum_scale. apply rsum_le. intros l Hl. destruct (lines_ok l Hl) as (_ & Hlam & A1 & _).
    rewrite LSLAF_pub by lra. unfold pub_LS_LAF. cbv zeta. destruct (rel_le _ Hlam) as [X0 X1]. fold lo in X0, X1. assert (0 <= Q2R (l_A1 l) * (1/81)) by nra.
    destruct (Rlt_dec lo _); [|assumption]. destruct (Rlt_dec (lo / Q2R (l_lam l)) (22/10)); [|lra]. apply Rmult_le_compat_l; [exact A1|]. rewrite <- short_12. apply Rpower_le_mono; lra. }
  assert (H4 : tLSDLA 0 lo <= 1/10 * (1/81)).
  { unfold tLSDLA. eapply Rle_trans; [|apply Rmult_le_compat_r; [|exact D1_total]; lra]. rewrite <- rsum_scale. apply rsum_le. intros l Hl. destruct (lines_ok l Hl) as (_ & Hlam & _ & _ & _ & D1 & _).
    rewrite LSDLA_pub by lra. unfold pub_LS_DLA. cbv zeta. destruct (rel_le _ Hlam) as [X0 X1]. fold lo in X0, X1. assert (0 <= Q2R (l_D1 l) * (1/81)) by nra.
    destruct (Rlt_dec lo _); [|assumption]. destruct (Rlt_dec (lo / Q2R (l_lam l)) 3); [|lra]. apply Rmult_le_compat_l; [exact D1|]. rewrite <- short_12.
    eapply Rle_trans; [|apply (Rpower_le_mono (lo / Q2R (l_lam l))); lra].
    rewrite <- Rpower_pow by exact X0. set (x := lo / Q2R (l_lam l)) in *. unfold Rpower. assert (ln x < 0) by (rewrite <- ln_1; apply ln_increasing; lra).
    destruct (Req_dec (INR 2 * ln x) (12/10 * ln x)) as [->|]; [lra|]. left. apply exp_increasing. cbn. lra. }
  lra.
Qed.
Print Assumptions C94_short_wavelength_refuted.
Example C94_nonvacuous : lamL <= 4000 / (1 + 3) /\ T_of inoue 3 4000 <= 1.
Proof. assert (H : lamL <= 4000 / (1 + 3)) by (unfold lamL; lra). split; [exact H|]. now apply C94_inoue_partial; [lra|]. Qed.
