(* The parabola fit in double precision. *)
From Coq Require Import ZArith Reals Lra Lia List Bool.
From Flocq Require Import Core.Core IEEE754.BinarySingleNaN.
From Verif Require Import Model_Float Model_Float3 Spec_Float Proof_Float Proof_Float2 Proof_Float3.
Import ListNotations.
Open Scope R_scope.

Lemma four : is_finite (fint 4) = true /\ B2R (fint 4) = 4. Proof. apply fint_val. cbn. lia. Qed.
Lemma rnd_far k a : (0 <= k)%R -> 1 <= k -> a <> 0 -> generic_format radix2 fexp a -> rnd (k * a) <> 0.
Proof.
  intros _ K A G E. destruct (Rlt_or_le 0 a) as [P|P].
  - assert (a <= rnd (k * a)) by (rewrite <- (rnd_id a G) at 1; apply rnd_mono; nra). lra.
  - assert (a < 0) by lra. assert (rnd (k * a) <= a) by (rewrite <- (rnd_id a G) at 2; apply rnd_mono; nra). lra.
Qed.
(* a quotient by an infinite or non-zero number *)
Lemma div_num (x y : b64) : is_finite x = true -> is_nan y = false -> (is_finite y = true -> B2R y <> 0) -> is_nan (fdiv x y) = false.
Proof.
  intros Fx Ny H. destruct (is_finite y) eqn:Fy.
  - now apply (div_rounds x y Fx Fy (H eq_refl)).
  - destruct y as [s|s| |s m e h]; try discriminate. destruct x as [s'|s'| |s' m' e' h']; try discriminate; reflexivity.
Qed.
Lemma opp_val (x : b64) : B2R (Bopp x) = - B2R x /\ is_finite (Bopp x) = is_finite x /\ is_nan (Bopp x) = is_nan x.
Proof. split; [apply B2R_Bopp|]. split; [apply is_finite_Bopp|now destruct x]. Qed.
Lemma center_num (a b : b64) : is_finite a = true -> B2R a <> 0 -> is_finite b = true -> is_nan (fdiv (Bopp b) (fmul (fint 2) a)) = false.
Proof.
  intros Fa Na Fb. destruct two as [F2 V2]. pose proof (mul_rounds _ _ F2 Fa) as [N V].
  apply div_num; [rewrite (proj1 (proj2 (opp_val b))); exact Fb|exact N|].
  intros F. pose proof (rounds_fin _ _ (mul_rounds _ _ F2 Fa) F) as W. rewrite V2 in W. rewrite W.
  apply rnd_far; try lra. apply fmt.
Qed.
Lemma zero_iff (a : b64) : is_finite a = true -> Beqb a fzero = false -> B2R a <> 0.
Proof.
  intros F H E. rewrite eqb_fin in H by easy. rewrite E in H. revert H. case Req_bool_spec; [discriminate|]. intros N. now elim N.
Qed.
Lemma pos_iff (a : b64) : Bltb fzero a = true -> is_finite a = true -> 0 < B2R a.
Proof. intros H F. rewrite ltb_fin in H by easy. revert H. case Rlt_bool_spec; [easy|discriminate]. Qed.

(* xerr *)
Lemma bfmt k : (-1022 <= k <= 1023)%Z -> generic_format radix2 fexp (bpow radix2 k).
Proof. intros H. apply generic_format_bpow. rewrite fexp_FLT. unfold FLT_exp. lia. Qed.
Lemma bpow_sqrt k : sqrt (bpow radix2 (2 * k)) = bpow radix2 k.
Proof. replace (2 * k)%Z with (k + k)%Z by lia. rewrite bpow_plus. apply sqrt_square. apply Rlt_le, bpow_gt_0. Qed.
Lemma err_pos (a : b64) : is_finite a = true -> 0 < B2R a -> is_finite (fdiv (fint 1) (fsqrt a)) = true /\ 0 < B2R (fdiv (fint 1) (fsqrt a)).
Proof.
  intros Fa Pa. destruct one as [F1 V1].
  pose proof (Bsqrt_correct 53 1024 _ _ mode_NE a) as (VS & FS & _).
  change (round radix2 _ _ (sqrt (B2R a))) with (rnd (sqrt (B2R a))) in VS.
  assert (FS' : is_finite (fsqrt a) = true).
  { unfold fsqrt. rewrite FS. destruct a as [s|s| |s m e h]; try discriminate; [easy|]. destruct s; [|easy].
    exfalso. cbn in Pa. apply (Rlt_asym _ _ Pa). now apply F2R_lt_0. }
  assert (LB : bpow radix2 (-537) <= B2R (fsqrt a)).
  { unfold fsqrt. rewrite VS. rewrite <- (rnd_id (bpow radix2 (-537))) by (apply bfmt; lia). apply rnd_mono.
    rewrite <- bpow_sqrt. apply sqrt_le_1_alt. change (2 * -537)%Z with (SpecFloat.emin 53 1024).
    rewrite <- (Rabs_pos_eq (B2R a)) by lra. apply abs_B2R_ge_emin. destruct a as [s|s| |s m e h]; try discriminate; [cbn in Pa; lra|reflexivity]. }
  assert (UB : B2R (fsqrt a) <= bpow radix2 512).
  { unfold fsqrt. rewrite VS. rewrite <- (rnd_id (bpow radix2 512)) by (apply bfmt; lia). apply rnd_mono.
    rewrite <- bpow_sqrt. apply sqrt_le_1_alt. pose proof (B_lt_big a) as B. apply Rabs_def2 in B. change (bpow radix2 (2 * 512)) with big. lra. }
  pose proof (bpow_gt_0 radix2 (-537)) as P1.
  assert (D : rounds (fdiv (fint 1) (fsqrt a)) (1 / B2R (fsqrt a))).
  { rewrite <- V1. apply div_rounds; auto. lra. }
  assert (U1 : 1 / B2R (fsqrt a) <= bpow radix2 537).
  { replace (bpow radix2 537) with (/ bpow radix2 (-537)) by (now rewrite <- bpow_opp). unfold Rdiv. rewrite Rmult_1_l. now apply Rinv_le. }
  assert (L1 : bpow radix2 (-512) <= 1 / B2R (fsqrt a)).
  { change (-512)%Z with (- (512))%Z. rewrite bpow_opp. unfold Rdiv. rewrite Rmult_1_l. apply Rinv_le; lra. }
  apply rnd_mono in U1. rewrite (rnd_id (bpow radix2 537)) in U1 by (apply bfmt; lia).
  apply rnd_mono in L1. rewrite (rnd_id (bpow radix2 (-512))) in L1 by (apply bfmt; lia).
  pose proof (bpow_gt_0 radix2 (-512)) as P2.
  assert (BB : bpow radix2 537 < big) by (apply bpow_lt; lia).
  destruct (rounds_small _ _ D) as [F V]; [rewrite Rabs_pos_eq by lra; lra|]. split; [exact F|]. rewrite V. lra.
Qed.

(* y0 *)
Lemma low_num (s a c : b64) : is_nan s = false -> Bltb s fzero = false -> is_finite a = true -> 0 < B2R a <= bpow radix2 1021 -> is_finite c = true ->
  let y := fadd (fdiv (Bopp s) (fmul (fint 4) a)) c in
  is_nan y = false /\ (Bleb y fzero = false -> is_finite y = true /\ 0 < B2R y).
Proof.
  intros Ns Ps Fa [Pa Ua] Fc y. destruct four as [F4 V4].
  assert (M : rounds (fmul (fint 4) a) (4 * B2R a)) by (rewrite <- V4; now apply mul_rounds).
  assert (U4 : rnd (4 * B2R a) <= bpow radix2 1023).
  { rewrite <- (rnd_id (bpow radix2 1023)) by (apply bfmt; lia). apply rnd_mono.
    replace (bpow radix2 1023) with (4 * bpow radix2 1021) by (change 4 with (bpow radix2 2); rewrite <- bpow_plus; reflexivity). lra. }
  assert (L4 : B2R a <= rnd (4 * B2R a)). { rewrite <- (rnd_B a) at 1. apply rnd_mono. lra. }
  assert (BB : bpow radix2 1023 < big) by (apply bpow_lt; lia).
  destruct (rounds_small _ _ M) as [Fm Vm]; [rewrite Rabs_pos_eq by lra; lra|].
  destruct (is_finite s) eqn:Fs.
  - destruct (opp_val s) as (Vo & Fo & _). rewrite Fs in Fo.
    assert (S0 : 0 <= B2R s). { rewrite ltb_fin in Ps by easy. revert Ps. case Rlt_bool_spec; [discriminate|]. easy. }
    assert (D : rounds (fdiv (Bopp s) (fmul (fint 4) a)) (B2R (Bopp s) / B2R (fmul (fint 4) a))) by (apply div_rounds; auto; lra).
    set (q := fdiv (Bopp s) (fmul (fint 4) a)) in *.
    assert (R0 : B2R (Bopp s) / B2R (fmul (fint 4) a) <= 0).
    { rewrite Vo. unfold Rdiv. assert (0 < / B2R (fmul (fint 4) a)) by (apply Rinv_0_lt_compat; lra). nra. }
    apply rnd_mono in R0. rewrite rnd_0 in R0.
    destruct (is_finite q) eqn:Fq.
    + pose proof (rounds_fin _ _ D Fq) as Vq. pose proof (add_rounds _ _ Fq Fc) as A. fold y in A.
      split; [apply A|]. intros H. rewrite leb_val in H by (destruct A; easy). cbn [val fzero] in H.
      assert (Py : 0 < val y). { revert H. case Rle_bool_spec; [discriminate|]. cbn. easy. }
      assert (Uy : val y <= B2R c).
      { rewrite (proj2 A). apply (Rle_trans _ (clamp (rnd (B2R c)))); [apply clamp_mono, rnd_mono; lra|]. rewrite rnd_B, clamp_fin. lra. }
      pose proof (B_lt_big c) as Bc. apply Rabs_def2 in Bc. pose proof big_pos.
      assert (Fy : is_finite y = true) by (apply fin_val; [apply A|lra]). split; [exact Fy|]. now rewrite <- val_fin.
    + assert (Q : q = B754_infinity true).
      { destruct D as [N V]. destruct q as [t|t| |t m e h]; try discriminate. destruct t; [reflexivity|]. cbn [val] in V.
        exfalso. pose proof big_pos. assert (clamp (rnd (B2R (Bopp s) / B2R (fmul (fint 4) a))) <= clamp 0) by now apply clamp_mono.
        rewrite (clamp_id 0) in H0 by (rewrite Rabs_R0; lra). lra. }
      unfold y. rewrite Q. destruct c as [t|t| |t m e h]; try discriminate; (split; [reflexivity|intros H; vm_compute in H; discriminate H]).
  - destruct s as [t|t| |t m e h]; try discriminate. destruct t; [vm_compute in Ps; discriminate Ps|].
    assert (Q : fdiv (Bopp (B754_infinity false)) (fmul (fint 4) a) = B754_infinity true).
    { destruct (fmul (fint 4) a) as [t|t| |t m e h] eqn:E; try discriminate; [cbn in Vm; lra|].
      destruct t; [|reflexivity]. exfalso. assert (X : B2R (B754_finite true m e h) < 0) by (cbn; now apply F2R_lt_0). lra. }
    unfold y. rewrite Q. destruct c as [t|t| |t m e h]; try discriminate; (split; [reflexivity|intros H; vm_compute in H; discriminate H]).
Qed.

(* comparisons with an arbitrary number *)
Lemma num_cases (x b : b64) : is_nan x = false -> is_finite b = true ->
  (Bltb x b = false -> B2R b <= val x) /\ (Bltb b x = false -> val x <= B2R b) /\ (Bleb x b = false -> B2R b < val x) /\ (Bleb b x = false -> val x < B2R b).
Proof.
  intros Nx Fb. pose proof (finite_notnan b Fb) as Nb. rewrite !ltb_val, !leb_val, (val_fin b) by assumption.
  split; [|split; [|split]]; [case Rlt_bool_spec|case Rlt_bool_spec|case Rle_bool_spec|case Rle_bool_spec]; easy.
Qed.
Lemma between_fin (x a b : b64) : is_nan x = false -> is_finite a = true -> is_finite b = true -> B2R a <= val x <= B2R b ->
  is_finite x = true /\ val x = B2R x.
Proof.
  intros N Fa Fb H. pose proof (B_lt_big a) as A. pose proof (B_lt_big b) as B. apply Rabs_def2 in A. apply Rabs_def2 in B.
  assert (F : is_finite x = true) by (apply fin_val; [easy|lra]). split; [exact F|now apply val_fin].
Qed.

Lemma first_eq_some v l k : (exists x, In x l /\ Beqb x v = true) -> exists j, first_eq k v l = Some (k + j)%nat /\ (j < length l)%nat /\ Beqb (nth j l fzero) v = true.
Proof.
  revert k. induction l as [|a l IH]; intros k (x & I & E); [easy|]. cbn [first_eq].
  destruct (Beqb a v) eqn:Ea.
  - exists 0%nat. cbn. split; [f_equal; lia|]. split; [lia|easy].
  - destruct I as [->|I]; [congruence|]. destruct (IH (S k)) as (j & J1 & J2 & J3); [now exists x|].
    exists (S j). cbn. split; [rewrite J1; f_equal; lia|]. split; [lia|easy].
Qed.
