(* Conversion to single precision. *)
From Coq Require Import ZArith Reals Lra Lia List Bool String.
From Flocq Require Import Core.Core IEEE754.BinarySingleNaN Relative.
From Verif Require Import Model_Float Spec_Float Proof_Float Proof_Float3 Model_Single Spec_Single.
Import ListNotations.
Open Scope R_scope.

Definition fexp32 := SpecFloat.fexp 24 128.
Definition rnd32 (r : R) : R := round radix2 fexp32 ZnearestE r.
Definition big32 : R := bpow radix2 128.
Global Instance vexp32 : Valid_exp fexp32 := fexp_correct 24 128 p24.
Global Instance mexp32 : Monotone_exp fexp32 := fexp_monotone 24 128.

Lemma rnd32_spec r : rounded32 r = rnd32 r. Proof. reflexivity. Qed.
Lemma rnd32_mono a b : a <= b -> rnd32 a <= rnd32 b.
Proof. intros H; apply round_le; auto with typeclass_instances. Qed.
Lemma rnd32_opp a : rnd32 (- a) = - rnd32 a. Proof. apply round_NE_opp. Qed.
Lemma rnd32_0 : rnd32 0 = 0. Proof. apply round_0; auto with typeclass_instances. Qed.
Lemma rnd32_id r : generic_format radix2 fexp32 r -> rnd32 r = r.
Proof. intros H; apply round_generic; auto with typeclass_instances. Qed.
Lemma big32_pos : 0 < big32. Proof. apply bpow_gt_0. Qed.
Lemma big32_format : generic_format radix2 fexp32 big32.
Proof. apply generic_format_bpow. vm_compute. discriminate. Qed.
Lemma limit_val : limit32 = F2R (Float radix2 (2 ^ 25 - 1) 103).
Proof.
  unfold limit32, F2R. cbn [Fnum Fexp]. replace (bpow radix2 128) with (bpow radix2 25 * bpow radix2 103) by (rewrite <- bpow_plus; reflexivity).
  rewrite minus_IZR. change (IZR (2 ^ 25)) with (bpow radix2 25). lra.
Qed.
Lemma limit_pos : 0 < limit32. Proof. rewrite limit_val. now apply F2R_gt_0. Qed.
Lemma limit_up : big32 <= rnd32 limit32.
Proof.
  pose proof (binary_normalize_correct 24 128 _ _ mode_NE (2 ^ 25 - 1) 103 false) as C. cbn zeta in C. rewrite <- limit_val in C.
  change (round radix2 _ _ limit32) with (rnd32 limit32) in C. change (bpow radix2 128) with big32 in C.
  revert C. case Rlt_bool_spec.
  - intros _ (_ & F & _). vm_compute in F. discriminate.
  - intros H _. rewrite Rabs_right in H; [easy|]. apply Rle_ge. rewrite <- rnd32_0. apply rnd32_mono. pose proof limit_pos. lra.
Qed.
Definition max32 : R := bpow radix2 128 - bpow radix2 104.
Lemma max32_val : max32 = F2R (Float radix2 (2 ^ 24 - 1) 104).
Proof.
  unfold max32, F2R. cbn [Fnum Fexp]. replace (bpow radix2 128) with (bpow radix2 24 * bpow radix2 104) by (rewrite <- bpow_plus; reflexivity).
  rewrite minus_IZR. change (IZR (2 ^ 24)) with (bpow radix2 24). lra.
Qed.
Lemma max32_format : generic_format radix2 fexp32 max32.
Proof.
  change fexp32 with (FLT_exp (-149) 24). apply generic_format_FLT.
  exists (Float radix2 (2 ^ 24 - 1) 104); [apply max32_val|cbn; lia|cbn; lia].
Qed.
Lemma max32_lt : max32 < big32. Proof. unfold max32, big32. pose proof (bpow_gt_0 radix2 104). lra. Qed.
Lemma succ_max : succ radix2 fexp32 max32 = big32.
Proof.
  rewrite succ_eq_pos.
  - assert (M : (mag radix2 max32 : Z) = 128%Z).
    { apply mag_unique_pos. change (128 - 1)%Z with 127%Z. unfold max32.
      replace (bpow radix2 128) with (2 * bpow radix2 127) by (change 2 with (bpow radix2 1); rewrite <- bpow_plus; reflexivity).
      assert (bpow radix2 104 < bpow radix2 127) by (apply bpow_lt; lia). pose proof (bpow_gt_0 radix2 104). lra. }
    rewrite ulp_neq_0.
    + unfold cexp. rewrite M. change (fexp32 128) with 104%Z. unfold max32, big32. lra.
    + rewrite max32_val. apply Rgt_not_eq. now apply F2R_gt_0.
  - rewrite max32_val. apply Rlt_le. now apply F2R_gt_0.
Qed.
Lemma limit_down r : r < limit32 -> rnd32 r <= max32.
Proof.
  intros H. apply round_N_le_midp; auto with typeclass_instances; [apply max32_format|].
  rewrite succ_max. unfold max32, big32, limit32 in *.
  replace (bpow radix2 104) with (2 * bpow radix2 103) by (change 2 with (bpow radix2 1); rewrite <- bpow_plus; reflexivity). lra.
Qed.
Lemma small_fits r : Rabs r < limit32 -> Rabs (rnd32 r) < big32.
Proof.
  intros H. apply Rabs_def2 in H. pose proof max32_lt. apply Rabs_def1.
  - pose proof (limit_down r). lra.
  - pose proof (limit_down (- r)) as D. rewrite rnd32_opp in D. lra.
Qed.
Lemma large_up r : limit32 <= Rabs r -> big32 <= Rabs (rnd32 r).
Proof.
  intros H. pose proof limit_up. pose proof limit_pos. destruct (Rle_or_lt 0 r) as [P|P].
  - rewrite Rabs_right in H by lra. apply rnd32_mono in H. apply (Rle_trans _ _ _ limit_up). apply (Rle_trans _ _ _ H). apply Rle_abs.
  - rewrite Rabs_left in H by lra. apply rnd32_mono in H. rewrite rnd32_opp in H. apply (Rle_trans _ _ _ limit_up). apply (Rle_trans _ _ _ H).
    rewrite <- Rabs_Ropp. apply Rle_abs.
Qed.

Lemma fin_f2r (x : b64) : forall s m e h, x = B754_finite s m e h -> B2R x = F2R (Float radix2 (cond_Zopp s (Zpos m)) e).
Proof. intros s m e h ->. reflexivity. Qed.

Theorem to32_small (x : b64) : is_finite x = true -> Rabs (B2R x) < limit32 ->
  is_finite (to32 x) = true /\ B2R (to32 x) = rounded32 (B2R x) /\ Bsign (to32 x) = Bsign x.
Proof.
  intros F H. destruct x as [s|s| |s m e h]; try discriminate.
  - cbn [to32 is_finite B2R Bsign]. rewrite rnd32_spec, rnd32_0. easy.
  - unfold to32. pose proof (binary_normalize_correct 24 128 _ _ mode_NE (cond_Zopp s (Zpos m)) e s) as C. cbn zeta in C.
    pose proof (small_fits _ H) as L. cbn [B2R] in *.
    change (round radix2 _ _ (F2R (Float radix2 (cond_Zopp s (Zpos m)) e))) with (rnd32 (F2R (Float radix2 (cond_Zopp s (Zpos m)) e))) in C.
    change (bpow radix2 128) with big32 in C. rewrite Rlt_bool_true in C by exact L. destruct C as (C1 & C2 & C3).
    split; [exact C2|]. split; [exact C1|]. rewrite C3. cbn [Bsign].
    destruct s; cbn [cond_Zopp].
    + rewrite Rcompare_Lt; [reflexivity|]. now apply F2R_lt_0.
    + rewrite Rcompare_Gt; [reflexivity|]. now apply F2R_gt_0.
Qed.
Theorem to32_large (x : b64) : is_finite x = true -> limit32 <= Rabs (B2R x) -> to32 x = B754_infinity (Bsign x).
Proof.
  intros F H. destruct x as [s|s| |s m e h]; try discriminate.
  - cbn [B2R] in H. rewrite Rabs_R0 in H. pose proof limit_pos. lra.
  - unfold to32. pose proof (binary_normalize_correct 24 128 _ _ mode_NE (cond_Zopp s (Zpos m)) e s) as C. cbn zeta in C.
    pose proof (large_up _ H) as L. cbn [B2R] in *.
    change (round radix2 _ _ (F2R (Float radix2 (cond_Zopp s (Zpos m)) e))) with (rnd32 (F2R (Float radix2 (cond_Zopp s (Zpos m)) e))) in C.
    change (bpow radix2 128) with big32 in C. rewrite Rlt_bool_false in C by exact L.
    unfold binary_overflow in C. cbn [overflow_to_inf] in C.
    assert (E : Rlt_bool (F2R (Float radix2 (cond_Zopp s (Zpos m)) e)) 0 = s).
    { destruct s; cbn [cond_Zopp]; [apply Rlt_bool_true; now apply F2R_lt_0|apply Rlt_bool_false; apply Rlt_le; now apply F2R_gt_0]. }
    rewrite E in C. cbn [Bsign]. destruct (binary_normalize _ _ _ _ _ _ _ _); cbn in C; congruence.
Qed.

Definition val32 (x : b32) : R := match x with B754_infinity s => if s then - big32 else big32 | _ => B2R x end.
Definition clamp32 (r : R) : R := Rmax (- big32) (Rmin big32 r).
Lemma clamp32_mono a b : a <= b -> clamp32 a <= clamp32 b.
Proof. intros H. unfold clamp32. apply Rle_max_compat_l. now apply Rle_min_compat_l. Qed.
Lemma val32_fin (x : b32) : is_finite x = true -> val32 x = B2R x. Proof. destruct x; easy. Qed.
Lemma to32_nan (x : b64) : is_nan (to32 x) = is_nan x.
Proof.
  destruct (is_finite x) eqn:F; [|destruct x; easy]. rewrite (finite_notnan x F). destruct (Rlt_or_le (Rabs (B2R x)) limit32) as [H|H].
  - destruct (to32_small x F H) as (F' & _). destruct (to32 x); easy.
  - now rewrite (to32_large x F H).
Qed.
Lemma to32_val (x : b64) : is_nan x = false -> val32 (to32 x) = clamp32 (rnd32 (val x)).
Proof.
  intros N. pose proof big32_pos. destruct (is_finite x) eqn:F.
  - rewrite val_fin by easy. destruct (Rlt_or_le (Rabs (B2R x)) limit32) as [H1|H1].
    + destruct (to32_small x F H1) as (F' & V & _). rewrite val32_fin by easy. rewrite V, rnd32_spec.
      pose proof (small_fits _ H1) as L. apply Rabs_def2 in L. unfold clamp32. rewrite Rmin_right by lra. rewrite Rmax_right by lra. reflexivity.
    + rewrite (to32_large x F H1). cbn [val32]. pose proof (large_up _ H1) as L. pose proof limit_pos.
      destruct (sign_nonneg x F) as [S1 S2]. unfold clamp32.
      destruct (Rle_or_lt 0 (B2R x)) as [P|P].
      * rewrite Rabs_right in H1 by lra. rewrite S1 by lra. assert (0 <= rnd32 (B2R x)) by (rewrite <- rnd32_0; now apply rnd32_mono).
        rewrite Rabs_right in L by lra. rewrite Rmin_left by lra. rewrite Rmax_right by lra. reflexivity.
      * rewrite S2 by lra. assert (rnd32 (B2R x) <= 0) by (rewrite <- rnd32_0; apply rnd32_mono; lra).
        rewrite Rabs_left1 in L by lra. rewrite Rmin_right by lra. rewrite Rmax_left by lra. reflexivity.
  - destruct x as [s|s| |s m e h]; try easy. cbn [to32 val32 val].
    assert (B : big32 <= rnd32 big). { rewrite <- (rnd32_id big32 big32_format). apply rnd32_mono. unfold big32, big. apply bpow_le. lia. }
    unfold clamp32. destruct s.
    + rewrite rnd32_opp. rewrite Rmin_right by lra. rewrite Rmax_left by lra. reflexivity.
    + rewrite Rmin_left by lra. rewrite Rmax_right by lra. reflexivity.
Qed.
Lemma B_lt_big32 (x : b32) : Rabs (B2R x) < big32. Proof. apply abs_B2R_lt_emax. Qed.
Lemma leb_val32 (x y : b32) : is_nan x = false -> is_nan y = false -> Bleb x y = Rle_bool (val32 x) (val32 y).
Proof.
  intros Hx Hy. pose proof big32_pos. pose proof (B_lt_big32 x) as Bx. pose proof (B_lt_big32 y) as By.
  apply Rabs_def2 in Bx. apply Rabs_def2 in By.
  destruct (is_finite x) eqn:Fx, (is_finite y) eqn:Fy.
  - rewrite !val32_fin by easy. now apply Bleb_correct.
  - destruct y as [s|s| |s m e h]; try easy. rewrite (val32_fin x) by easy.
    destruct s; cbn [val32]; [rewrite Rle_bool_false by lra|rewrite Rle_bool_true by lra];
      destruct x as [s'|s'| |s' m' e' h']; try easy; now destruct s'.
  - destruct x as [s|s| |s m e h]; try easy. rewrite (val32_fin y) by easy.
    destruct s; cbn [val32]; [rewrite Rle_bool_true by lra|rewrite Rle_bool_false by lra];
      destruct y as [s'|s'| |s' m' e' h']; try easy; now destruct s'.
  - destruct x as [s|s| |s m e h]; try easy. destruct y as [s'|s'| |s' m' e' h']; try easy.
    destruct s, s'; cbn [val32]; try (rewrite Rle_bool_true by lra; reflexivity); rewrite Rle_bool_false by lra; reflexivity.
Qed.
Lemma leb_nan {p e} (x y : binary_float p e) : Bleb x y = true -> is_nan x = false /\ is_nan y = false.
Proof. destruct x as [s|s| |s m e' h], y as [s'|s'| |s' m' e'' h']; unfold Bleb; cbn; try easy; now destruct s. Qed.
Theorem to32_leb (x y : b64) : Bleb x y = true -> Bleb (to32 x) (to32 y) = true.
Proof.
  intros H. destruct (leb_nan _ _ H) as [Nx Ny]. rewrite leb_val32 by now rewrite to32_nan.
  rewrite leb_val in H by assumption. rewrite !to32_val by assumption. apply Rle_bool_true.
  revert H. case Rle_bool_spec; [intros H _|discriminate]. now apply clamp32_mono, rnd32_mono.
Qed.
Lemma ltb_not_leb {p e} (x y : binary_float p e) : Bltb x y = true -> Bleb y x = false.
Proof.
  intros H. unfold Bltb, Bleb, SpecFloat.SFltb, SpecFloat.SFleb in *.
  change (SpecFloat.SFcompare (B2SF x) (B2SF y)) with (Bcompare x y) in H.
  change (SpecFloat.SFcompare (B2SF y) (B2SF x)) with (Bcompare y x).
  rewrite Bcompare_swap. destruct (Bcompare x y) as [[]|]; easy.
Qed.
Theorem to32_ltb (x y : b64) : Bltb (to32 x) (to32 y) = true -> is_nan x = false -> is_nan y = false -> Bltb x y = true.
Proof.
  intros H Nx Ny. rewrite ltb_leb by assumption. destruct (Bleb y x) eqn:E; [|reflexivity].
  apply to32_leb in E. apply ltb_not_leb in H. congruence.
Qed.

Theorem rnd32_rel r : normal32 <= Rabs r -> Rabs (rounded32 r - r) <= bpow radix2 (-24) * Rabs r.
Proof.
  intros H. rewrite rnd32_spec. unfold rnd32. change fexp32 with (FLT_exp (-149) 24).
  replace (bpow radix2 (-24)) with (/ 2 * bpow radix2 (- 24 + 1)).
  - apply relative_error_N_FLT; [lia|]. unfold normal32 in H. exact H.
  - change (/ 2) with (bpow radix2 (-1)). rewrite <- bpow_plus. reflexivity.
Qed.

Lemma wrap_aux h z : (0 < h)%Z -> ((z + h) mod (2 * h) - h)%Z = z <-> (- h <= z < h)%Z.
Proof.
  intros Hh. pose proof (Z.mod_pos_bound (z + h) (2 * h) ltac:(lia)) as B. split.
  - revert B. generalize ((z + h) mod (2 * h))%Z. intros m. lia.
  - intros H1. rewrite Z.mod_small by lia. lia.
Qed.
Lemma wrap_id n z : (0 < n)%Z -> wrap n z = z <-> (- 2 ^ (n - 1) <= z < 2 ^ (n - 1))%Z.
Proof.
  intros Hn. unfold wrap. assert (E : (2 ^ n = 2 * 2 ^ (n - 1))%Z).
  { replace n with (Z.succ (n - 1))%Z at 1 by lia. apply Z.pow_succ_r. lia. }
  rewrite E.
  apply wrap_aux. apply Z.pow_pos_nonneg; lia.
Qed.
Lemma cut_long n s : (String.length s <= n)%nat -> cut n s = s.
Proof.
  unfold cut. revert n. induction s as [|c s IH]; intros n H; cbn in *; [now destruct n|].
  destruct n; [lia|]. cbn. rewrite IH by lia. reflexivity.
Qed.
Lemma maxlen_ge l r : In r l -> (String.length (w_subtype r) <= maxlen l)%nat.
Proof. unfold maxlen. induction l as [|a l IH]; cbn; [easy|]. intros [->|H]; [lia|]. specialize (IH H). lia. Qed.
