(* More facts in double precision: velocities, spacing of the fine grid, coadds of masked pixels. *)
From Verif Require Import Prelude.
From Coq Require Import Reals Lra.
From Flocq Require Import Core.Core IEEE754.BinarySingleNaN.
From Verif Require Import Model_Float Model_Float2 Spec_Float Proof_Float Proof_Float2 Proof_Float3 Proof_Float4 Proof_Float5 Proof_Float6 Proof_Float7.
Import ListNotations.
Open Scope R_scope.

(* ---- get_dv *)
Lemma near1 a b x y : Rabs (a - 1) <= x -> Rabs (b - 1) <= y -> Rabs (a * b - 1) <= x + y + x * y.
Proof.
  intros A B. replace (a * b - 1) with ((a - 1) + (b - 1) + (a - 1) * (b - 1)) by ring.
  apply (Rle_trans _ _ _ (Rabs_triang _ _)). apply Rplus_le_compat; [apply (Rle_trans _ _ _ (Rabs_triang _ _)); lra|].
  rewrite Rabs_mult. apply Rmult_le_compat; auto using Rabs_pos.
Qed.
Lemma rnd_rel0 r : r = 0 \/ bpow radix2 (-1022) <= Rabs r -> exists f, rnd r = r * f /\ Rabs (f - 1) <= u.
Proof.
  intros [->|H].
  - exists 1. rewrite rnd_0, Rminus_diag_eq, Rabs_R0 by reflexivity. pose proof u_pos. lra.
  - destruct (rnd_rel r H) as (e & E & B). exists (1 + e). split; [exact E|]. now replace (1 + e - 1) with e by ring.
Qed.
Lemma u_small : u <= / 1024.
Proof. unfold u. change (/ 1024) with (bpow radix2 (-10)). apply bpow_le; lia. Qed.
Lemma inv_near f : Rabs (f - 1) <= u -> Rabs (/ f - 1) <= 2 * u.
Proof.
  intros H. pose proof u_small. pose proof u_pos. apply Rabs_le_inv in H. apply Rabs_le.
  assert (f * / f = 1) by (apply Rinv_r; lra). assert (0 < / f) by (apply Rinv_0_lt_compat; lra). split; nra.
Qed.
Lemma cspeed_val : finite cspeed /\ exists f, B2R cspeed = 299792.458 * f /\ Rabs (f - 1) <= u.
Proof.
  destruct (fint_val 299792458 ltac:(lia)) as [F1 E1], (fint_val 1000 ltac:(lia)) as [F2 E2].
  assert (F : finite cspeed) by reflexivity. split; [exact F|].
  assert (N : B2R (fint 1000) <> 0) by lra.
  unfold cspeed in *. rewrite (rounds_fin _ _ (div_rounds _ _ F1 F2 N) F), E1, E2.
  replace (299792458 / 1000) with 299792.458 by lra. apply rnd_rel0. right.
  apply (Rle_trans _ (bpow radix2 0)); [apply bpow_le; lia|]. change (bpow radix2 0) with 1. rewrite Rabs_pos_eq; lra.
Qed.
Lemma dv_acc z zref : within 100 z -> within 100 zref -> - / 2 <= B2R zref ->
  B2R z = B2R zref \/ bpow radix2 (-900) <= Rabs (B2R z - B2R zref) ->
  finite (get_dv z zref) /\
  Rabs (B2R (get_dv z zref) - 299792.458 * (B2R z - B2R zref) / (1 + B2R zref)) <=
    8 * u * Rabs (299792.458 * (B2R z - B2R zref) / (1 + B2R zref)).
Proof.
  intros [Fz Bz] [Fr Br] L D. pose proof u_small as US. pose proof u_pos as UP.
  destruct cspeed_val as (Fc & fc & Ec & Hc). destruct one as [F1 E1].
  set (c := 299792.458) in *. assert (c0 : 1 < c) by (unfold c; lra).
  assert (B100 : bpow radix2 101 = 2 * bpow radix2 100) by (change 101%Z with (100 + 1)%Z; apply bp1).
  assert (P100 : 1 <= bpow radix2 100) by (change 1 with (bpow radix2 0); apply bpow_le; lia).
  assert (Kc : Rabs (B2R cspeed) <= bpow radix2 20).
  { rewrite Ec. apply Rabs_le_inv in Hc. change (bpow radix2 20) with 1048576. rewrite Rabs_pos_eq; unfold c; nra. }
  apply Rabs_le_inv in Bz, Br.
  (* z - zref *)
  destruct (pow2 101 _ _ ltac:(lia) (sub_rounds z zref Fz Fr)) as [Fd Bd]; [apply Rabs_le; lra|].
  pose proof (rounds_fin _ _ (sub_rounds z zref Fz Fr) Fd) as Ed.
  set (d := B2R z - B2R zref) in *.
  destruct (rnd_rel0 d) as (fd & Efd & Hfd).
  { destruct D as [D|D]; [left; unfold d; lra|right]. apply (Rle_trans _ (bpow radix2 (-900))); [apply bpow_le; lia|exact D]. }
  rewrite Efd in Ed.
  (* c * *)
  destruct (pow2 121 _ _ ltac:(lia) (mul_rounds cspeed _ Fc Fd)) as [Fm Bm].
  { rewrite Rabs_mult. change 121%Z with (20 + 101)%Z. rewrite bpow_plus. apply Rmult_le_compat; auto using Rabs_pos. }
  pose proof (rounds_fin _ _ (mul_rounds cspeed _ Fc Fd) Fm) as Em. rewrite Ed, Ec in Em.
  apply Rabs_le_inv in Hc. pose proof Hfd as Hfd0. apply Rabs_le_inv in Hfd.
  assert (NU : c * fc * (d * fd) = 0 \/ bpow radix2 (-901) <= Rabs (c * fc * (d * fd))).
  { destruct D as [D|D]; [left; unfold d; rewrite D; ring|right].
    rewrite !Rabs_mult, (Rabs_pos_eq c), (Rabs_pos_eq fc), (Rabs_pos_eq fd) by lra.
    pose proof (bpow_gt_0 radix2 (-901)).
    assert (E9 : bpow radix2 (-900) = 2 * bpow radix2 (-901)) by (change (-900)%Z with (-901 + 1)%Z; apply bp1).
    change (B2R z - B2R zref) with d in D.
    assert (K1 : bpow radix2 (-901) <= Rabs d * fd) by nra.
    assert (K2 : 1 <= c * fc) by (unfold c in *; lra). nra. }
  destruct (rnd_rel0 (c * fc * (d * fd))) as (fm & Efm & Hfm).
  { destruct NU as [NU|NU]; [now left|right]. apply (Rle_trans _ (bpow radix2 (-901))); [apply bpow_le; lia|exact NU]. }
  rewrite Efm in Em.
  (* 1 + zref *)
  destruct (pow2 101 _ _ ltac:(lia) (add_rounds (fint 1) zref F1 Fr)) as [Fa Ba]; [rewrite E1; apply Rabs_le; lra|].
  pose proof (rounds_fin _ _ (add_rounds (fint 1) zref F1 Fr) Fa) as Ea. rewrite E1 in Ea.
  destruct (rnd_rel0 (1 + B2R zref)) as (fa & Efa & Hfa).
  { right. apply (Rle_trans _ (bpow radix2 (-1))); [apply bpow_le; lia|]. change (bpow radix2 (-1)) with (/ 2). rewrite Rabs_pos_eq; lra. }
  rewrite Efa in Ea. pose proof (inv_near fa Hfa) as Hia. apply Rabs_le_inv in Hfa.
  assert (A0 : B2R (fadd (fint 1) zref) <> 0) by (rewrite Ea; apply Rmult_integral_contrapositive; split; lra).
  assert (Q : B2R (fmul cspeed (fsub z zref)) / B2R (fadd (fint 1) zref) = c * d / (1 + B2R zref) * (fc * fd * fm * / fa)).
  { rewrite Em, Ea. field. split; lra. }
  assert (QB : Rabs (B2R (fmul cspeed (fsub z zref)) / B2R (fadd (fint 1) zref)) <= bpow radix2 123).
  { unfold Rdiv. rewrite Rabs_mult, Ea. change 123%Z with (121 + 2)%Z. rewrite bpow_plus. apply Rmult_le_compat; auto using Rabs_pos.
    change (bpow radix2 2) with 4. rewrite Rabs_pos_eq; [|left; apply Rinv_0_lt_compat; nra].
    replace 4 with (/ / 4) by lra. apply Rinv_le; nra. }
  pose proof (div_rounds _ _ Fm Fa A0) as R. fold (get_dv z zref) in R.
  destruct (pow2 123 _ _ ltac:(lia) R QB) as [F _]. split; [exact F|].
  rewrite (rounds_fin _ _ R F).
  assert (AQ : c * d / (1 + B2R zref) = 0 \/ bpow radix2 (-1022) <= Rabs (B2R (fmul cspeed (fsub z zref)) / B2R (fadd (fint 1) zref))).
  { destruct D as [D|D]; [left; unfold d; rewrite D; unfold Rdiv; ring|right].
    destruct NU as [NU|NU].
    - exfalso. pose proof (bpow_gt_0 radix2 (-900)). assert (d <> 0) by (intros K; fold d in D; rewrite K, Rabs_R0 in D; lra).
      assert (c <> 0) by lra. assert (fc <> 0) by lra. assert (fd <> 0) by lra.
      revert NU. apply Rmult_integral_contrapositive_currified; now apply Rmult_integral_contrapositive_currified.
    - rewrite Em, Ea. unfold Rdiv. rewrite Rabs_mult, (Rabs_mult _ fm). apply Rabs_le_inv in Hfm.
      rewrite (Rabs_pos_eq fm), (Rabs_pos_eq (/ _)) by (try lra; left; apply Rinv_0_lt_compat; nra).
      assert (I : bpow radix2 (-102) <= / ((1 + B2R zref) * fa)).
      { change (-102)%Z with (- (102))%Z. rewrite bpow_opp. apply Rinv_le; [nra|]. change 102%Z with (101 + 1)%Z. rewrite bp1, B100. nra. }
      apply (Rle_trans _ (bpow radix2 (-902) * bpow radix2 (-102))); [rewrite <- bpow_plus; apply bpow_le; lia|].
      apply Rmult_le_compat; [apply bpow_ge_0|apply bpow_ge_0| |exact I].
      assert (E9 : bpow radix2 (-901) = 2 * bpow radix2 (-902)) by (change (-901)%Z with (-902 + 1)%Z; apply bp1).
      pose proof (bpow_gt_0 radix2 (-902)). nra. }
  set (X := c * d / (1 + B2R zref)) in *. rewrite Q in *.
  destruct AQ as [AQ|AQ].
  - rewrite AQ, Rmult_0_l, rnd_0, Rminus_diag_eq, Rabs_R0 by reflexivity. lra.
  - destruct (rnd_rel0 _ (or_intror AQ)) as (fq & -> & Hfq).
    assert (Hcd : Rabs (fc - 1) <= u) by (apply Rabs_le; lra).
    pose proof (near1 _ _ _ _ Hcd Hfd0) as N1. pose proof (near1 _ _ _ _ N1 Hfm) as N2.
    pose proof (near1 _ _ _ _ N2 Hia) as N3. pose proof (near1 _ _ _ _ N3 Hfq) as N4.
    replace (X * (fc * fd * fm * / fa) * fq - X) with (X * (fc * fd * fm * / fa * fq - 1)) by ring.
    rewrite Rabs_mult, Rmult_comm. apply Rmult_le_compat_r; [apply Rabs_pos|]. apply (Rle_trans _ _ _ N4).
    clear - US UP. generalize dependent u. intros v V1 V2.
    assert (v * v <= v * / 1024) by (apply Rmult_le_compat_l; lra).
    assert (0 <= v * v) by nra.
    assert (v * v * v <= v * v * / 1024) by (apply Rmult_le_compat_l; lra).
    assert (0 <= v * v * v) by nra.
    assert (v * v * v * v <= v * v * v * / 1024) by (apply Rmult_le_compat_l; lra).
    assert (0 <= v * v * v * v) by nra.
    assert (v * v * v * v * v <= v * v * v * v * / 1024) by (apply Rmult_le_compat_l; lra). lra.
Qed.

(* ---- spacing of np.linspace *)
Lemma lin_spacing lo hi n i : (2 <= n)%nat -> (Z.of_nat n <= 2 ^ 20)%Z ->
  within 900 lo -> within 900 hi -> bpow radix2 (-900) <= B2R hi - B2R lo -> (i < n)%nat ->
  Rabs (B2R (lin_at lo hi n i) - (B2R lo + INR i * (B2R hi - B2R lo) / INR (n - 1))) <= 8 * u * (Rabs (B2R lo) + Rabs (B2R hi)).
Proof.
  intros N2 N20 Wl Wh G Hi. pose proof u_small as US. pose proof u_pos as UP.
  set (l := B2R lo) in *. set (h := B2R hi) in *. set (W := h - l) in *.
  assert (W0 : 0 < W) by (pose proof (bpow_gt_0 radix2 (-900)); lra).
  assert (WB : W <= Rabs l + Rabs h).
  { unfold W. pose proof (Rle_abs h). pose proof (Rle_abs (- l)). rewrite Rabs_Ropp in *. lra. }
  assert (M1 : 1 <= INR (n - 1)) by (apply (le_INR 1); lia).
  destruct (Nat.eq_dec (S i) n) as [E|E].
  { unfold lin_at. rewrite (proj2 (Nat.eqb_eq (S i) n) E). replace (n - 1)%nat with i by lia.
    replace (n - 1)%nat with i in M1 by lia.
    replace (l + INR i * W / INR i) with h by (unfold W; field; lra).
    fold h. rewrite Rminus_diag_eq, Rabs_R0 by reflexivity. pose proof (Rabs_pos l). pose proof (Rabs_pos h). nra. }
  destruct (lin_inner lo hi n Wl Wh N2 N20 G i ltac:(lia)) as (F & B & Ev).
  destruct (delta_fin lo hi n Wl Wh N2 G) as ((Fd & Bd) & Ed & Ld).
  destruct (step_spec lo hi n Wl Wh N2 N20 G) as ((Fs & Bs) & Es & Ls & Us).
  pose proof (quot_low lo hi n Wl Wh N2 N20 G) as QL.
  rewrite <- INR_IZR_INZ in *. set (M := INR (n - 1)) in *. fold l h in Es, QL, Ld, Ed. fold W in Es, QL, Ld, Ed.
  destruct (rnd_rel0 W) as (fd & Efd & Hfd).
  { right. apply (Rle_trans _ (bpow radix2 (-900))); [apply bpow_le; lia|]. rewrite Rabs_pos_eq; lra. }
  destruct (rnd_rel0 (rnd W / M)) as (fs & Efs & Hfs).
  { right. pose proof (bpow_gt_0 radix2 (-920)). apply (Rle_trans _ (bpow radix2 (-920))); [apply bpow_le; lia|]. rewrite Rabs_pos_eq; lra. }
  rewrite Efd in Efs. rewrite Efd, Efs in Es.
  assert (I0 : 0 <= INR i) by apply pos_INR.
  destruct (rnd_rel0 (INR i * B2R (step lo hi n))) as (fp & Efp & Hfp).
  { destruct i as [|i]; [left; cbn [INR]; ring|right]. pose proof (bpow_gt_0 radix2 (-920)).
    assert (1 <= INR (S i)) by (apply (le_INR 1); lia).
    apply (Rle_trans _ (bpow radix2 (-920))); [apply bpow_le; lia|]. rewrite Rabs_pos_eq; nra. }
  (* the sum is of two floats *)
  assert (R : exists p : b64, B2R p = rnd (INR i * B2R (step lo hi n))).
  { destruct (fint_val (Z.of_nat i) ltac:(lia)) as [Fk Ek]. rewrite <- INR_IZR_INZ in Ek.
    pose proof (mul_rounds _ _ Fk Fs) as R. rewrite Ek in R.
    assert (Kb : INR i <= bpow radix2 20).
    { rewrite INR_IZR_INZ. change (bpow radix2 20) with (IZR (2 ^ 20)). apply IZR_le. lia. }
    destruct (pow2 921 _ _ ltac:(lia) R) as [Fp _].
    { rewrite Rabs_mult, (Rabs_pos_eq (INR i)) by easy. change 921%Z with (20 + 901)%Z. rewrite bpow_plus.
      apply Rmult_le_compat; auto using Rabs_pos. }
    exists (fmul (fint (Z.of_nat i)) (step lo hi n)). exact (rounds_fin _ _ R Fp). }
  destruct R as (p & Ep). rewrite <- Ep in Ev. destruct (rnd_add_err p lo) as (e & Ee & He). rewrite Ee in Ev. fold l in Ev.
  rewrite Efp, Es in Ep.
  assert (T : B2R p = INR i * W / M * (fd * fs * fp)) by (rewrite Ep; field; lra).
  pose proof (near1 _ _ _ _ (near1 _ _ _ _ Hfd Hfs) Hfp) as Nf. set (f := fd * fs * fp) in *.
  set (T0 := INR i * W / M) in *.
  assert (T0B : 0 <= T0 <= W).
  { unfold T0. assert (INR i <= M) by (apply le_INR; lia). assert (Iv : 0 < / M) by (apply Rinv_0_lt_compat; lra).
    assert (INR i * / M <= 1) by (apply (Rmult_le_reg_r M); [lra|]; rewrite Rmult_assoc, Rinv_l; lra).
    assert (0 <= INR i * / M) by (apply Rmult_le_pos; lra).
    replace (INR i * W / M) with (W * (INR i * / M)) by (unfold Rdiv; ring). split; nra. }
  rewrite Ev, T.
  assert (f4 : Rabs (f - 1) <= 4 * u).
  { apply (Rle_trans _ _ _ Nf). assert (u * u <= u * / 1024) by (apply Rmult_le_compat_l; lra).
    assert (0 <= u * u) by nra. assert (u * u * u <= u * u * / 1024) by (apply Rmult_le_compat_l; lra). lra. }
  replace ((T0 * f + l) * (1 + e) - (l + T0)) with (T0 * (f - 1) + (T0 * (f - 1) + (T0 + l)) * e) by ring.
  assert (A1 : Rabs (T0 * (f - 1)) <= W * (4 * u)).
  { rewrite Rabs_mult, (Rabs_pos_eq T0) by easy. apply Rmult_le_compat; try apply Rabs_pos; easy. }
  assert (A2 : Rabs (T0 + l) <= Rabs l + Rabs h).
  { apply Rabs_le. pose proof (Rabs_pos l). pose proof (Rabs_pos h). pose proof (Rle_abs h). pose proof (Rle_abs (- l)). rewrite Rabs_Ropp in *. unfold W in T0B. lra. }
  set (S := Rabs l + Rabs h) in *.
  apply (Rle_trans _ _ _ (Rabs_triang _ _)). rewrite (Rabs_mult _ e).
  assert (A3 : Rabs (T0 * (f - 1) + (T0 + l)) <= W * (4 * u) + S) by (apply (Rle_trans _ _ _ (Rabs_triang _ _)); lra).
  assert (A4 : Rabs (T0 * (f - 1) + (T0 + l)) * Rabs e <= (W * (4 * u) + S) * u) by (apply Rmult_le_compat; try apply Rabs_pos; easy).
  assert (A5 : W * (4 * u) <= S * (4 * u)) by (apply Rmult_le_compat_r; lra).
  assert (A6 : W * (4 * u) * u <= S * (4 * u) * / 1024).
  { apply Rmult_le_compat; try lra. apply Rmult_le_pos; lra. }
  assert (0 <= S * u) by (apply Rmult_le_pos; lra). lra.
Qed.

(* ---- a pixel masked in every exposure *)
Lemma fsum_masked o ivar : Forall weight ivar -> finite (fsum o ivar) -> Forall masked ivar -> B2R (fsum o ivar) = 0.
Proof.
  intros W F M. induction o as [i|a IHa b IHb]; cbn [fsum] in *.
  - apply (nth_P (fun v => B2R v = 0)); [reflexivity|exact M].
  - destruct (fadd_fin _ _ F) as [Fa Fb]. rewrite (rounds_fin _ _ (add_rounds _ _ Fa Fb) F), IHa, IHb by assumption.
    rewrite Rplus_0_r. apply rnd_0.
Qed.
Lemma total_abs_sum l : total_abs l = term_sum (fun i => Rabs (B2R (nth i l fzero))) (seq 0 (length l)).
Proof.
  transitivity (term_sum (fun i => Rabs (B2R (nth i l fzero))) (map (fun i => i) (seq 0 (length l)))); [|now rewrite map_id].
  induction l as [|v l IH]; [reflexivity|]. cbn [total_abs length seq map term_sum nth]. f_equal. rewrite IH, !map_id.
  rewrite <- seq_shift. generalize (seq 0 (length l)). induction l0 as [|k l0 IH']; [reflexivity|]. cbn [map term_sum nth]. now rewrite IH'.
Qed.
Lemma pow_up' k : 2 * INR k * u <= 1 -> (1 + u) ^ k <= 1 + 2 * INR k * u.
Proof.
  pose proof u_pos as U. induction k as [|k IH]; intros H; [cbn; lra|].
  rewrite S_INR in *. assert (0 <= INR k) by apply pos_INR. cbn [pow].
  specialize (IH ltac:(nra)). assert (2 * INR k * u * u <= u) by nra.
  assert ((1 + u) * (1 + u) ^ k <= (1 + u) * (1 + 2 * INR k * u)) by (apply Rmult_le_compat_l; lra). lra.
Qed.
Lemma coadd_masked o ivar flux : each_once o (length flux) -> flux <> [] -> (Z.of_nat (length flux) <= 2 ^ 53)%Z ->
  Forall weight ivar -> Forall masked ivar -> finite (coadd_weight o ivar) -> finite (coadd_flux o ivar flux) ->
  2 * INR (sdepth o) * u <= 1 ->
  let n := INR (length flux) in
  Rabs (B2R (coadd_flux o ivar flux) - total flux / n) <= 4 * INR (sdepth o + 1) * u * (total_abs flux / n) + eta.
Proof.
  intros O Ne Ln Wv Mk Fw Ff K n. pose proof u_pos as UP. pose proof eta_pos as EP.
  unfold coadd_weight in Fw. unfold coadd_flux in *. cbv zeta in *.
  assert (Z0 : feq (fsum o ivar) fzero = true).
  { unfold feq. rewrite eqb_fin by (exact Fw || reflexivity). rewrite (fsum_masked o ivar Wv Fw Mk). apply Req_bool_true. reflexivity. }
  rewrite Z0 in *. destruct (fint_val (Z.of_nat (length flux)) ltac:(lia)) as [Fn En]. rewrite <- INR_IZR_INZ in En. fold n in En.
  assert (n1 : 1 <= n) by (apply (le_INR 1); destruct flux; [easy|cbn [length]; lia]).
  pose proof (fdiv_fin _ _ Ff Fn) as Fs.
  assert (Nz : B2R (fint (Z.of_nat (length flux))) <> 0) by lra.
  rewrite (rounds_fin _ _ (div_rounds _ _ Fs Fn Nz) Ff), En.
  destruct (fsum_abs o flux Fs) as (A0 & TA & Er). unfold each_once in O.
  rewrite !(term_sum_perm _ _ _ O), <- total_sum, <- total_abs_sum in *.
  set (S := B2R (fsum o flux)) in *. set (T := total flux) in *. set (A := total_abs flux) in *. set (d := INR (sdepth o)) in *.
  assert (d0 : 0 <= d) by apply pos_INR.
  assert (E1 : Rabs (S - T) <= 2 * d * u * A).
  { apply (Rle_trans _ _ _ Er). apply Rmult_le_compat_r; [easy|]. pose proof (pow_up' (sdepth o) K). fold d in H. lra. }
  destruct (rnd_err (S / n)) as (e & h & -> & He & Hh).
  rewrite plus_INR. cbn [INR]. fold d.
  assert (iv : 0 < / n) by (apply Rinv_0_lt_compat; lra).
  replace (S / n * (1 + e) + h - T / n) with ((S - T) * / n + (S * / n) * e + h) by (unfold Rdiv; ring).
  assert (SB : Rabs S <= A + 2 * d * u * A).
  { replace S with ((S - T) + T) by ring. apply (Rle_trans _ _ _ (Rabs_triang _ _)). lra. }
  apply (Rle_trans _ _ _ (Rabs_triang _ _)). apply Rplus_le_compat; [|lra].
  apply (Rle_trans _ _ _ (Rabs_triang _ _)). rewrite !Rabs_mult, (Rabs_pos_eq (/ n)) by lra.
  assert (X1 : Rabs (S - T) * / n <= 2 * d * u * A * / n) by (apply Rmult_le_compat_r; lra).
  assert (X2 : Rabs S * / n * Rabs e <= (A + 2 * d * u * A) * / n * u).
  { apply Rmult_le_compat; try apply Rabs_pos; auto; [apply Rmult_le_pos; [apply Rabs_pos|lra]|]. apply Rmult_le_compat_r; lra. }
  set (B := A * / n) in *. assert (B0 : 0 <= B) by (apply Rmult_le_pos; lra).
  replace (2 * d * u * A * / n) with (2 * d * u * B) in X1 by (unfold B; ring).
  replace ((A + 2 * d * u * A) * / n * u) with (B * u + (2 * d * u) * (B * u)) in X2 by (unfold B; ring).
  fold (Rdiv A n). unfold Rdiv. fold B.
  assert (Bu : 0 <= B * u) by (apply Rmult_le_pos; lra).
  assert (2 * d * u * (B * u) <= B * u) by (rewrite <- (Rmult_1_l (B * u)) at 2; apply Rmult_le_compat_r; lra).
  assert (0 <= d * (B * u)) by (apply Rmult_le_pos; lra). lra.
Qed.
