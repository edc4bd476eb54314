(* Basic facts about the float operations of Model_Float. *)
From Coq Require Import ZArith Reals Lra Lia List Bool.
From Flocq Require Import Core.Core IEEE754.BinarySingleNaN Relative Plus_error.
From Verif Require Import Model_Float.
Import ListNotations.
Open Scope R_scope.

Definition fexp := SpecFloat.fexp 53 1024.
Definition rnd (r : R) : R := round radix2 fexp ZnearestE r.
Definition big : R := bpow radix2 1024.
Global Instance vexp : Valid_exp fexp := fexp_correct 53 1024 p53.
Global Instance mexp : Monotone_exp fexp := fexp_monotone 53 1024.

Lemma fexp_FLT : fexp = FLT_exp (-1074) 53. Proof. reflexivity. Qed.
Lemma rnd_mono a b : a <= b -> rnd a <= rnd b.
Proof. intros H; apply round_le; auto with typeclass_instances. Qed.
Lemma rnd_0 : rnd 0 = 0. Proof. apply round_0; auto with typeclass_instances. Qed.
Lemma rnd_nonneg a : 0 <= a -> 0 <= rnd a. Proof. intros H; rewrite <- rnd_0; now apply rnd_mono. Qed.
Lemma rnd_opp a : rnd (- a) = - rnd a. Proof. apply round_NE_opp. Qed.
Lemma fmt (x : b64) : generic_format radix2 fexp (B2R x). Proof. apply generic_format_B2R. Qed.
Lemma rnd_id r : generic_format radix2 fexp r -> rnd r = r.
Proof. intros H; apply round_generic; auto with typeclass_instances. Qed.
Lemma rnd_B (x : b64) : rnd (B2R x) = B2R x. Proof. apply rnd_id, fmt. Qed.
Lemma rnd_le_B a (x : b64) : a <= B2R x -> rnd a <= B2R x.
Proof. intros H; rewrite <- (rnd_B x); now apply rnd_mono. Qed.
Lemma rnd_ge_B a (x : b64) : B2R x <= a -> B2R x <= rnd a.
Proof. intros H; rewrite <- (rnd_B x); now apply rnd_mono. Qed.

(* the real number meant by a float; an infinity counts as 2^1024 *)
Definition val (x : b64) : R :=
  match x with B754_infinity s => if s then - big else big | _ => B2R x end.
Definition clamp (r : R) : R := if Rlt_bool (Rabs r) big then r else if Rlt_bool r 0 then - big else big.
Lemma big_pos : 0 < big. Proof. apply bpow_gt_0. Qed.
Lemma val_fin (x : b64) : is_finite x = true -> val x = B2R x. Proof. destruct x; easy. Qed.
Lemma B_lt_big (x : b64) : Rabs (B2R x) < big. Proof. apply abs_B2R_lt_emax. Qed.
Lemma val_bounds (x : b64) : - big <= val x <= big.
Proof.
  pose proof big_pos. pose proof (B_lt_big x) as H1. apply Rabs_def2 in H1.
  destruct x as [s|s| |s m e h]; cbn [val] in *; try lra. destruct s; lra.
Qed.
Lemma fin_val (x : b64) : is_nan x = false -> - big < val x < big -> is_finite x = true.
Proof. destruct x as [s|s| |s m e h]; cbn [is_nan val is_finite]; try (intros; (reflexivity || discriminate)). intros _ H. destruct s; lra. Qed.
Lemma clamp_mono a b : a <= b -> clamp a <= clamp b.
Proof.
  intros H. unfold clamp. pose proof big_pos.
  destruct (Rlt_bool_spec (Rabs a) big) as [Ha|Ha], (Rlt_bool_spec (Rabs b) big) as [Hb|Hb]; try lra;
    destruct (Rlt_bool_spec a 0), (Rlt_bool_spec b 0); unfold Rabs in *;
    repeat destruct (Rcase_abs _); lra.
Qed.
Lemma clamp_id r : Rabs r < big -> clamp r = r.
Proof. intros H. unfold clamp. now rewrite Rlt_bool_true. Qed.
Lemma clamp_fin (x : b64) : clamp (B2R x) = B2R x. Proof. apply clamp_id, B_lt_big. Qed.

Lemma B2SF_inf (x : b64) s : B2SF x = SpecFloat.S754_infinity s -> x = B754_infinity s.
Proof. destruct x; cbn; congruence. Qed.

Lemma sign_nonneg (x : b64) : is_finite x = true -> (0 < B2R x -> Bsign x = false) /\ (B2R x < 0 -> Bsign x = true).
Proof.
  destruct x as [s|s| |s m e h]; cbn; try easy; intros _; try (split; intros; lra).
  destruct s; split; intros H; try reflexivity; exfalso.
  - assert (F2R (Float radix2 (Z.neg m) e) < 0) by (apply F2R_lt_0; easy). unfold SpecFloat.cond_Zopp in H; cbn in H. lra.
  - assert (0 < F2R (Float radix2 (Z.pos m) e)) by (apply F2R_gt_0; easy). cbn in H. lra.
Qed.

(* an operation whose exact result is r *)
Definition rounds (x : b64) (r : R) : Prop := is_nan x = false /\ val x = clamp (rnd r).

Lemma rnd_sign r : (0 < rnd r -> 0 < r) /\ (rnd r < 0 -> r < 0).
Proof.
  split; intros H; apply Rnot_le_lt; intros C; apply rnd_mono in C; rewrite rnd_0 in C; lra.
Qed.

Lemma inf_rounds s r (x : b64) : B2SF x = SpecFloat.S754_infinity s -> big <= Rabs (rnd r) ->
  (s = true -> r <= 0) -> (s = false -> 0 <= r) -> rounds x r.
Proof.
  intros E Hb H1 H2. apply B2SF_inf in E. subst x. split; [reflexivity|]. cbn [val].
  pose proof big_pos. pose proof (rnd_sign r).
  unfold clamp. rewrite Rlt_bool_false by lra.
  destruct s.
  - specialize (H1 eq_refl). assert (rnd r <= 0) by (rewrite <- rnd_0; now apply rnd_mono).
    destruct (Rlt_bool_spec (rnd r) 0); [reflexivity|]. rewrite Rabs_left1 in Hb; lra.
  - specialize (H2 eq_refl). assert (0 <= rnd r) by now apply rnd_nonneg.
    rewrite Rlt_bool_false by lra. reflexivity.
Qed.
Lemma fin_rounds (x : b64) r : Rlt_bool (Rabs (rnd r)) big = true -> B2R x = rnd r -> is_finite x = true -> rounds x r.
Proof.
  intros H E F. split; [destruct x; easy|]. rewrite val_fin by easy. rewrite clamp_id; [easy|].
  revert H. case Rlt_bool_spec; easy.
Qed.

Lemma finite_notnan (x : b64) : is_finite x = true -> is_nan x = false. Proof. destruct x; easy. Qed.

Lemma add_rounds (x y : b64) : is_finite x = true -> is_finite y = true -> rounds (fadd x y) (B2R x + B2R y).
Proof.
  intros Fx Fy. pose proof (Bplus_correct 53 1024 _ _ mode_NE x y Fx Fy) as H.
  change (round radix2 _ _ (B2R x + B2R y)) with (rnd (B2R x + B2R y)) in H. change (bpow radix2 1024) with big in H.
  destruct (Rlt_bool (Rabs (rnd (B2R x + B2R y))) big) eqn:Eb.
  - destruct H as (H1 & H2 & _). now apply fin_rounds.
  - destruct H as (H1 & H2). apply (inf_rounds (Bsign x)); auto.
    + revert Eb. case Rlt_bool_spec; easy.
    + intros Hs. pose proof (sign_nonneg x Fx). pose proof (sign_nonneg y Fy).
      apply Rnot_lt_le. intros C. destruct (Rle_or_lt (B2R x) 0), (Rle_or_lt (B2R y) 0); try lra; intuition congruence.
    + intros Hs. pose proof (sign_nonneg x Fx). pose proof (sign_nonneg y Fy).
      apply Rnot_lt_le. intros C. destruct (Rle_or_lt 0 (B2R x)), (Rle_or_lt 0 (B2R y)); try lra; intuition congruence.
Qed.
Lemma sub_rounds (x y : b64) : is_finite x = true -> is_finite y = true -> rounds (fsub x y) (B2R x - B2R y).
Proof.
  intros Fx Fy. pose proof (Bminus_correct 53 1024 _ _ mode_NE x y Fx Fy) as H.
  change (round radix2 _ _ (B2R x - B2R y)) with (rnd (B2R x - B2R y)) in H. change (bpow radix2 1024) with big in H.
  destruct (Rlt_bool (Rabs (rnd (B2R x - B2R y))) big) eqn:Eb.
  - destruct H as (H1 & H2 & _). now apply fin_rounds.
  - destruct H as (H1 & H2). apply (inf_rounds (Bsign x)); auto.
    + revert Eb. case Rlt_bool_spec; easy.
    + intros Hs. pose proof (sign_nonneg x Fx). pose proof (sign_nonneg y Fy).
      rewrite Hs in H2. assert (Bsign y = false) by now destruct (Bsign y).
      apply Rnot_lt_le. intros C. destruct (Rle_or_lt (B2R x) 0), (Rle_or_lt 0 (B2R y)); try lra; intuition congruence.
    + intros Hs. pose proof (sign_nonneg x Fx). pose proof (sign_nonneg y Fy).
      rewrite Hs in H2. assert (Bsign y = true) by now destruct (Bsign y).
      apply Rnot_lt_le. intros C. destruct (Rle_or_lt 0 (B2R x)), (Rle_or_lt (B2R y) 0); try lra; intuition congruence.
Qed.
Lemma xor_sign (x y : b64) : is_finite x = true -> is_finite y = true ->
  (xorb (Bsign x) (Bsign y) = true -> B2R x * B2R y <= 0) /\ (xorb (Bsign x) (Bsign y) = false -> 0 <= B2R x * B2R y).
Proof.
  intros Fx Fy. pose proof (sign_nonneg x Fx) as [A B]. pose proof (sign_nonneg y Fy) as [C D].
  split; intros H.
  - destruct (Rtotal_order (B2R x) 0) as [X|[X|X]]; [|rewrite X; lra|];
    destruct (Rtotal_order (B2R y) 0) as [Y|[Y|Y]]; try (rewrite Y; lra).
    + rewrite (B X), (D Y) in H. discriminate.
    + nra. + nra. + rewrite (A X), (C Y) in H; discriminate.
  - destruct (Rtotal_order (B2R x) 0) as [X|[X|X]]; [|rewrite X; lra|];
    destruct (Rtotal_order (B2R y) 0) as [Y|[Y|Y]]; try (rewrite Y; lra).
    + nra. + rewrite (B X), (C Y) in H; discriminate. + rewrite (A X), (D Y) in H; discriminate. + nra.
Qed.
Lemma mul_rounds (x y : b64) : is_finite x = true -> is_finite y = true -> rounds (fmul x y) (B2R x * B2R y).
Proof.
  intros Fx Fy. pose proof (Bmult_correct 53 1024 _ _ mode_NE x y) as H.
  change (round radix2 _ _ (B2R x * B2R y)) with (rnd (B2R x * B2R y)) in H. change (bpow radix2 1024) with big in H.
  destruct (Rlt_bool (Rabs (rnd (B2R x * B2R y))) big) eqn:Eb.
  - destruct H as (H1 & H2 & _). apply fin_rounds; auto. unfold fmul. rewrite H2, Fx, Fy. reflexivity.
  - apply (inf_rounds (xorb (Bsign x) (Bsign y))); auto.
    + revert Eb. case Rlt_bool_spec; easy.
    + apply (proj1 (xor_sign x y Fx Fy)).
    + apply (proj2 (xor_sign x y Fx Fy)).
Qed.
Lemma div_rounds (x y : b64) : is_finite x = true -> is_finite y = true -> B2R y <> 0 -> rounds (fdiv x y) (B2R x / B2R y).
Proof.
  intros Fx Fy Hy. pose proof (Bdiv_correct 53 1024 _ _ mode_NE x y Hy) as H.
  change (round radix2 _ _ (B2R x / B2R y)) with (rnd (B2R x / B2R y)) in H. change (bpow radix2 1024) with big in H.
  assert (E : B2R x / B2R y = (B2R x * B2R y) * (/ B2R y * / B2R y)) by (field; auto).
  assert (P : 0 < / B2R y * / B2R y).
  { destruct (Rtotal_order (B2R y) 0) as [C|[C|C]]; try easy.
    - apply Rinv_lt_0_compat in C. nra.
    - apply Rinv_0_lt_compat in C. nra. }
  destruct (Rlt_bool (Rabs (rnd (B2R x / B2R y))) big) eqn:Eb.
  - destruct H as (H1 & H2 & _). apply fin_rounds; auto. unfold fdiv. rewrite H2, Fx. reflexivity.
  - apply (inf_rounds (xorb (Bsign x) (Bsign y))); auto.
    + revert Eb. case Rlt_bool_spec; easy.
    + intros Hs. pose proof (proj1 (xor_sign x y Fx Fy) Hs). rewrite E. nra.
    + intros Hs. pose proof (proj2 (xor_sign x y Fx Fy) Hs). rewrite E. nra.
Qed.
Lemma fma_rounds (x y z : b64) : is_finite x = true -> is_finite y = true -> is_finite z = true ->
  rounds (ffma x y z) (B2R x * B2R y + B2R z).
Proof.
  intros Fx Fy Fz. pose proof (Bfma_correct 53 1024 _ _ mode_NE x y z Fx Fy Fz) as H. cbv zeta in H.
  set (r := B2R x * B2R y + B2R z) in *.
  change (round radix2 _ _ r) with (rnd r) in H. change (bpow radix2 1024) with big in H.
  destruct (Rlt_bool (Rabs (rnd r)) big) eqn:Eb.
  - destruct H as (H1 & H2 & _). now apply fin_rounds.
  - apply (inf_rounds (Rlt_bool r 0)); auto.
    + revert Eb. case Rlt_bool_spec; easy.
    + case Rlt_bool_spec; [lra|easy].
    + case Rlt_bool_spec; [easy|lra].
Qed.

(* comparisons are those of val *)
Lemma leb_val (x y : b64) : is_nan x = false -> is_nan y = false -> Bleb x y = Rle_bool (val x) (val y).
Proof.
  intros Hx Hy. pose proof big_pos. pose proof (B_lt_big x) as Bx. pose proof (B_lt_big y) as By.
  apply Rabs_def2 in Bx. apply Rabs_def2 in By.
  destruct (is_finite x) eqn:Fx, (is_finite y) eqn:Fy.
  - rewrite !val_fin by easy. now apply Bleb_correct.
  - destruct y as [s|s| |s m e h]; try easy. rewrite (val_fin x) by easy.
    destruct s; cbn [val]; [rewrite Rle_bool_false by lra|rewrite Rle_bool_true by lra];
      destruct x as [s'|s'| |s' m' e' h']; try easy; now destruct s'.
  - destruct x as [s|s| |s m e h]; try easy. rewrite (val_fin y) by easy.
    destruct s; cbn [val]; [rewrite Rle_bool_true by lra|rewrite Rle_bool_false by lra];
      destruct y as [s'|s'| |s' m' e' h']; try easy; now destruct s'.
  - destruct x as [s|s| |s m e h]; try easy. destruct y as [s'|s'| |s' m' e' h']; try easy.
    destruct s, s'; cbn [val]; try (rewrite Rle_bool_true by lra; reflexivity); rewrite Rle_bool_false by lra; reflexivity.
Qed.
Lemma ltb_leb (x y : b64) : is_nan x = false -> is_nan y = false -> Bltb x y = negb (Bleb y x).
Proof.
  intros Hx Hy. unfold Bltb, Bleb, SpecFloat.SFltb, SpecFloat.SFleb.
  change (SpecFloat.SFcompare (B2SF x) (B2SF y)) with (Bcompare x y).
  change (SpecFloat.SFcompare (B2SF y) (B2SF x)) with (Bcompare y x).
  rewrite Bcompare_swap. destruct (Bcompare y x) as [[]|] eqn:E; try reflexivity.
  exfalso. revert E. destruct x as [s|s| |s m e h], y as [s'|s'| |s' m' e' h']; unfold Bcompare; cbn;
    repeat match goal with |- context [if ?b then _ else _] => destruct b end; try easy;
    repeat match goal with |- context [match ?b with _ => _ end] => destruct b end; easy.
Qed.
Lemma ltb_val (x y : b64) : is_nan x = false -> is_nan y = false -> Bltb x y = Rlt_bool (val x) (val y).
Proof.
  intros Hx Hy. rewrite ltb_leb, leb_val by easy. unfold Rle_bool, Rlt_bool.
  rewrite (Rcompare_sym (val y)). destruct (Rcompare (val x) (val y)); reflexivity.
Qed.

(* not below zero, or NaN *)
Definition nneg (x : b64) : Prop :=
  match x with B754_infinity s | B754_finite s _ _ _ => s = false | _ => True end.
Lemma nneg_ltb (x : b64) : nneg x <-> Bltb x fzero = false.
Proof. destruct x as [[]|[]| |[] m e h]; cbn; unfold Bltb; cbn; intuition congruence. Qed.
Lemma nneg_val (x : b64) : is_nan x = false -> (nneg x <-> 0 <= val x).
Proof.
  intros Hx. rewrite nneg_ltb, ltb_val by easy. change (val fzero) with 0.
  destruct (Rlt_bool_spec (val x) 0); intuition (try congruence; lra).
Qed.
Lemma nneg_nan (x : b64) : is_nan x = true -> nneg x. Proof. destruct x; easy. Qed.
Lemma clamp_nneg r : 0 <= r -> 0 <= clamp r.
Proof.
  intros H. unfold clamp. pose proof big_pos. destruct (Rlt_bool_spec (Rabs r) big); [easy|]. rewrite Rlt_bool_false; lra.
Qed.
Lemma rounds_nneg (x : b64) r : rounds x r -> 0 <= r -> nneg x.
Proof. intros (N & V) H. apply nneg_val; [easy|]. rewrite V. now apply clamp_nneg, rnd_nonneg. Qed.
Lemma fin_nneg (x : b64) : is_finite x = true -> (nneg x <-> 0 <= B2R x).
Proof. intros F. rewrite nneg_val by now apply finite_notnan. now rewrite val_fin. Qed.

Lemma rounds_fin (x : b64) r : rounds x r -> is_finite x = true -> B2R x = rnd r.
Proof.
  intros (N & V) F. rewrite <- val_fin by easy. rewrite V. unfold clamp.
  destruct (Rlt_bool_spec (Rabs (rnd r)) big) as [H|H]; [reflexivity|exfalso].
  pose proof (B_lt_big x) as B. apply Rabs_def2 in B. rewrite <- val_fin, V in B by easy. unfold clamp in B.
  rewrite Rlt_bool_false in B by lra. destruct (Rlt_bool (rnd r) 0); lra.
Qed.
Lemma rounds_small (x : b64) r : rounds x r -> Rabs (rnd r) < big -> is_finite x = true /\ B2R x = rnd r.
Proof.
  intros H B. assert (F : is_finite x = true).
  { destruct H as (N & V). apply fin_val; [easy|]. rewrite V, clamp_id by easy. now apply Rabs_def2 in B. }
  split; [easy|]. now apply rounds_fin.
Qed.
Lemma rounds_between x r (a b : b64) : rounds x r -> is_finite a = true -> is_finite b = true ->
  B2R a <= r <= B2R b -> is_finite x = true /\ B2R x = rnd r /\ B2R a <= B2R x <= B2R b.
Proof.
  intros H Fa Fb [H1 H2]. pose proof (rnd_ge_B _ _ H1) as L. pose proof (rnd_le_B _ _ H2) as U.
  assert (B : Rabs (rnd r) < big).
  { pose proof (B_lt_big a) as A. pose proof (B_lt_big b) as B. apply Rabs_def2 in A. apply Rabs_def2 in B. apply Rabs_def1; lra. }
  destruct (rounds_small _ _ H B) as (F & E). rewrite E. auto.
Qed.
Lemma rounds_mono x r y s : rounds x r -> rounds y s -> r <= s -> val x <= val y.
Proof. intros (_ & V) (_ & W) H. rewrite V, W. now apply clamp_mono, rnd_mono. Qed.

(* the two relative error bounds *)
Definition u : R := bpow radix2 (-53).
Definition eta : R := bpow radix2 (-1074).
Lemma u_pos : 0 < u < 1. Proof. unfold u. split; [apply bpow_gt_0|]. change 1 with (bpow radix2 0). now apply bpow_lt. Qed.
Lemma eta_pos : 0 < eta. Proof. apply bpow_gt_0. Qed.
Lemma rnd_err r : exists e h, rnd r = r * (1 + e) + h /\ Rabs e <= u /\ Rabs h <= eta / 2.
Proof.
  destruct (error_N_FLT radix2 (-1074) 53 ltac:(easy) (fun x => negb (Z.even x)) r) as (e & h & H1 & H2 & _ & H4).
  exists e, h. repeat split.
  - exact H4.
  - replace u with (/ 2 * bpow radix2 (- (53) + 1)); [exact H1|].
    change (/2) with (bpow radix2 (-1)). rewrite <- bpow_plus. reflexivity.
  - replace (eta / 2) with (/ 2 * bpow radix2 (-1074)) by (unfold eta; field). exact H2.
Qed.
Lemma rnd_add_err (x y : b64) : exists e, rnd (B2R x + B2R y) = (B2R x + B2R y) * (1 + e) /\ Rabs e <= u.
Proof.
  destruct (FLT_plus_error_N_ex radix2 (-1074) 53 (fun z => negb (Z.even z)) (B2R x) (B2R y) (fmt x) (fmt y)) as (e & H1 & H2).
  exists e. split; [exact H2|]. apply (Rle_trans _ _ _ H1).
  assert (E : u_ro radix2 53 = u).
  { unfold u_ro, u. change (/2) with (bpow radix2 (-1)). rewrite <- bpow_plus. reflexivity. }
  rewrite E. pose proof u_pos. apply (Rmult_le_reg_r (1 + u)); [lra|]. unfold Rdiv. rewrite Rmult_assoc, Rinv_l by lra. nra.
Qed.
