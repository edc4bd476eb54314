(* Minima of floats, and differences. *)
From Coq Require Import ZArith Reals Lra Lia List Bool.
From Flocq Require Import Core.Core IEEE754.BinarySingleNaN.
From Verif Require Import Model_Float Spec_Float Proof_Float Proof_Float2.
Import ListNotations.
Open Scope R_scope.

Lemma leb_fin (x y : b64) : finite x -> finite y -> Bleb x y = Rle_bool (B2R x) (B2R y).
Proof. apply Bleb_correct. Qed.
Lemma ltb_fin (x y : b64) : finite x -> finite y -> Bltb x y = Rlt_bool (B2R x) (B2R y).
Proof. apply Bltb_correct. Qed.
Lemma eqb_fin (x y : b64) : finite x -> finite y -> Beqb x y = Req_bool (B2R x) (B2R y).
Proof. apply Beqb_correct. Qed.
Lemma nn (x : b64) : finite x -> is_nan x = false. Proof. apply finite_notnan. Qed.

Lemma fmin_cases x y : finite x -> finite y -> (fmin x y = x /\ B2R x <= B2R y) \/ (fmin x y = y /\ B2R y <= B2R x).
Proof.
  intros Fx Fy. unfold fmin. rewrite (nn x Fx), (nn y Fy), leb_fin by easy.
  destruct (Rle_bool_spec (B2R x) (B2R y)); [left|right]; split; auto; lra.
Qed.
Lemma fmax_cases x y : finite x -> finite y -> (fmax x y = x /\ B2R y <= B2R x) \/ (fmax x y = y /\ B2R x <= B2R y).
Proof.
  intros Fx Fy. unfold fmax. rewrite (nn x Fx), (nn y Fy), leb_fin by easy.
  destruct (Rle_bool_spec (B2R y) (B2R x)); [left|right]; split; auto; lra.
Qed.
Lemma minimum_spec x l : finite x -> Forall finite l ->
  In (minimum x l) (x :: l) /\ forall y, In y (x :: l) -> B2R (minimum x l) <= B2R y.
Proof.
  intros Fx H. revert x Fx. induction H as [|a l Fa H IH]; intros x Fx; cbn [minimum fold_left].
  - split; [now left|]. intros y [<-|[]]. lra.
  - fold (minimum (fmin x a) l). destruct (fmin_cases x a Fx Fa) as [[E L]|[E L]]; rewrite E.
    + destruct (IH x Fx) as [I M]. split; [destruct I as [I|I]; [left|right; right]; auto|].
      intros y [<-|[<-|Hy]]; [apply M; now left| |apply M; now right].
      apply (Rle_trans _ (B2R x)); [apply M; now left|easy].
    + destruct (IH a Fa) as [I M]. split; [now right|].
      intros y [<-|[<-|Hy]]; [|apply M; now left|apply M; now right].
      apply (Rle_trans _ (B2R a)); [apply M; now left|easy].
Qed.
Lemma maximum_spec x l : finite x -> Forall finite l ->
  In (maximum x l) (x :: l) /\ forall y, In y (x :: l) -> B2R y <= B2R (maximum x l).
Proof.
  intros Fx H. revert x Fx. induction H as [|a l Fa H IH]; intros x Fx; cbn [maximum fold_left].
  - split; [now left|]. intros y [<-|[]]. lra.
  - fold (maximum (fmax x a) l). destruct (fmax_cases x a Fx Fa) as [[E L]|[E L]]; rewrite E.
    + destruct (IH x Fx) as [I M]. split; [destruct I as [I|I]; [left|right; right]; auto|].
      intros y [<-|[<-|Hy]]; [apply M; now left| |apply M; now right].
      apply (Rle_trans _ (B2R x)); [easy|apply M; now left].
    + destruct (IH a Fa) as [I M]. split; [now right|].
      intros y [<-|[<-|Hy]]; [|apply M; now left|apply M; now right].
      apply (Rle_trans _ (B2R a)); [easy|apply M; now left].
Qed.

Lemma rounded_rnd r : rounded r = rnd r. Proof. reflexivity. Qed.
(* the difference of two floats is zero only if they are equal *)
Lemma diff_zero (x y : b64) : rnd (B2R x - B2R y) = 0 -> B2R x = B2R y.
Proof.
  intros H. destruct (rnd_add_err x (Bopp y)) as (e & H1 & H2). rewrite B2R_Bopp in H1.
  change (B2R x + - B2R y) with (B2R x - B2R y) in H1. rewrite H in H1. pose proof u_pos.
  apply Rabs_le_inv in H2. symmetry in H1. apply Rmult_integral in H1. lra.
Qed.
(* b - a for 0 <= a <= b *)
Lemma sub_weights a b : weight a -> weight b -> B2R a <= B2R b ->
  weight (fsub b a) /\ B2R (fsub b a) = rnd (B2R b - B2R a).
Proof.
  intros [Fa Ha] [Fb Hb] L.
  destruct (rounds_between _ _ fzero b (sub_rounds b a Fb Fa) eq_refl Fb) as (F & E & B).
  { cbn. lra. }
  cbn in B. split; [split; [exact F|lra]|exact E].
Qed.

Lemma deltas_nth pre c later d : nth (length pre) (deltas (pre ++ c :: later)) d = delta_of c later.
Proof. induction pre as [|x pre IH]; [reflexivity|]. exact IH. Qed.

Lemma delta_spec c later : weight (c_chi2 c) -> Forall (fun d => weight (c_chi2 d)) later ->
  Forall (fun d => B2R (c_chi2 c) <= B2R (c_chi2 d)) later ->
  (delta_of c later = fzero /\ forall d, In d later -> eligible c d = false) \/
  (exists d, In d later /\ eligible c d = true /\
     (forall e, In e later -> eligible c e = true -> B2R (c_chi2 d) <= B2R (c_chi2 e)) /\
     weight (delta_of c later) /\ B2R (delta_of c later) = rnd (B2R (c_chi2 d) - B2R (c_chi2 c))).
Proof.
  intros Wc Wl S. rewrite Forall_forall in Wl, S. unfold delta_of.
  destruct (filter (eligible c) later) as [|d l] eqn:E.
  - left. split; [reflexivity|]. intros e He. destruct (eligible c e) eqn:Ee; [|reflexivity].
    assert (I : In e (filter (eligible c) later)) by now apply filter_In. rewrite E in I. destruct I.
  - right. assert (M : forall e, In e (d :: l) <-> In e later /\ eligible c e = true) by (intros e; rewrite <- E; apply filter_In).
    set (f := fun e => fsub (c_chi2 e) (c_chi2 c)).
    assert (K : forall e, In e (d :: l) -> weight (f e) /\ B2R (f e) = rnd (B2R (c_chi2 e) - B2R (c_chi2 c))).
    { intros e He. apply M in He. destruct He as [He _]. apply sub_weights; auto. }
    change (fsub (c_chi2 d) (c_chi2 c)) with (f d). change (fun e => fsub (c_chi2 e) (c_chi2 c)) with f.
    destruct (minimum_spec (f d) (map f l)) as [I Min].
    { apply (K d). now left. }
    { apply Forall_forall. intros y Hy. apply in_map_iff in Hy. destruct Hy as (e & <- & He). apply K. now right. }
    change (f d :: map f l) with (map f (d :: l)) in I, Min.
    apply in_map_iff in I. destruct I as (m & Em & Im).
    (* several candidates may have the same rounded difference: take the one with the smallest chi2 *)
    assert (B : exists b, In b (d :: l) /\ forall e, In e (d :: l) -> B2R (c_chi2 b) <= B2R (c_chi2 e)).
    { clear. revert d. induction l as [|a l IH]; intros d.
      - exists d. split; [now left|]. intros e [<-|[]]. lra.
      - destruct (IH a) as (b & Ib & Mb). destruct (Rle_or_lt (B2R (c_chi2 d)) (B2R (c_chi2 b))).
        + exists d. split; [now left|]. intros e [<-|He]; [lra|]. specialize (Mb e He). lra.
        + exists b. split; [now right|]. intros e [<-|He]; [lra|auto]. }
    destruct B as (b & Ib & Mb). exists b. destruct (proj1 (M b) Ib) as [Ib1 Ib2].
    split; [easy|]. split; [easy|]. split; [intros e He Ee; apply Mb, M; auto|].
    rewrite <- Em. destruct (K m Im) as [Wm Vm]. split; [easy|].
    apply Rle_antisym.
    + rewrite Em. destruct (K b Ib) as [_ <-]. apply Min. now apply in_map.
    + rewrite Vm. apply rnd_mono. specialize (Mb m Im). lra.
Qed.

Lemma fint_val n : (Z.abs n <= 2 ^ 53)%Z -> is_finite (fint n) = true /\ B2R (fint n) = IZR n.
Proof.
  intros H. pose proof (binary_normalize_correct 53 1024 _ _ mode_NE n 0 false) as C.
  assert (G : F2R (Float radix2 n 0) = IZR n) by (unfold F2R; cbn; lra).
  assert (GF : generic_format radix2 fexp (IZR n)).
  { rewrite fexp_FLT. apply generic_format_FLT. destruct (Z.eq_dec (Z.abs n) (2 ^ 53)) as [Eq|Ne].
    - exists (Float radix2 (n / 2 ^ 53) 53).
      + assert (n = 2 ^ 53 \/ n = - 2 ^ 53)%Z as [-> | ->] by lia; unfold F2R; cbn; lra.
      + assert (n = 2 ^ 53 \/ n = - 2 ^ 53)%Z as [-> | ->] by lia; reflexivity.
      + cbn. lia.
    - exists (Float radix2 n 0); [now rewrite G|cbn; cbn in *; lia|cbn; lia]. }
  rewrite G in C. cbv zeta in C. change (round radix2 (SpecFloat.fexp 53 1024) (round_mode mode_NE) (IZR n)) with (rnd (IZR n)) in C.
  rewrite (rnd_id _ GF) in C.
  rewrite Rlt_bool_true in C.
  - destruct C as (A & B & _). auto.
  - rewrite <- abs_IZR. apply (Rle_lt_trans _ (IZR (2 ^ 53))); [now apply IZR_le|].
    change (IZR (2 ^ 53)) with (bpow radix2 53). now apply bpow_lt.
Qed.
Lemma nine : is_finite (fint 9) = true /\ B2R (fint 9) = 9. Proof. apply fint_val. cbn. lia. Qed.
Lemma one : is_finite (fint 1) = true /\ B2R (fint 1) = 1. Proof. apply fint_val. cbn. lia. Qed.
Lemma two : is_finite (fint 2) = true /\ B2R (fint 2) = 2. Proof. apply fint_val. cbn. lia. Qed.

Lemma abs_sub_weights a b : weight a -> weight b ->
  finite (fabs (fsub b a)) /\ B2R (fabs (fsub b a)) = Rabs (rnd (B2R b - B2R a)).
Proof.
  intros Wa Wb. pose proof (sub_rounds b a (proj1 Wb) (proj1 Wa)) as R.
  assert (B : Rabs (rnd (B2R b - B2R a)) < big).
  { destruct Wa as [Fa Ha], Wb as [Fb Hb]. pose proof (B_lt_big a) as A. pose proof (B_lt_big b) as B.
    apply Rabs_def2 in A, B. 
    assert (rnd (B2R b - B2R a) <= B2R b) by (apply rnd_le_B; lra).
    assert (- B2R a <= rnd (B2R b - B2R a)) by (rewrite <- B2R_Bopp; apply rnd_ge_B; rewrite B2R_Bopp; lra).
    apply Rabs_def1; lra. }
  destruct (rounds_small _ _ R B) as [F E]. unfold finite, fabs. rewrite is_finite_Babs, B2R_Babs, E. auto.
Qed.

Lemma dbl_format r : generic_format radix2 fexp r -> generic_format radix2 fexp (2 * r).
Proof.
  rewrite fexp_FLT. intros H. apply FLT_format_generic in H; [|easy]. destruct H as [f E M X].
  apply generic_format_FLT. exists (Float radix2 (Fnum f) (Fexp f + 1)).
  - rewrite E. unfold F2R. cbn [Fnum Fexp]. rewrite bpow_plus. change (bpow radix2 1) with 2. ring.
  - exact M.
  - cbn [Fexp]. lia.
Qed.

Lemma reduced_spec wmin wmax w : within 1000 wmin -> within 1000 wmax -> within 1000 w ->
  B2R wmin <= B2R w <= B2R wmax -> B2R wmin < B2R wmax ->
  finite (reduced wmin wmax w) /\
  B2R (reduced wmin wmax w) = rnd (rnd (2 * rnd (B2R w - B2R wmin) / rnd (B2R wmax - B2R wmin)) - 1) /\
  0 <= rnd (B2R w - B2R wmin) <= rnd (B2R wmax - B2R wmin) /\ 0 < rnd (B2R wmax - B2R wmin) /\
  0 <= rnd (2 * rnd (B2R w - B2R wmin) / rnd (B2R wmax - B2R wmin)) <= 2.
Proof.
  intros [Fn Bn] [Fx Bx] [Fw Bw] [L1 L2] L. unfold reduced.
  assert (S : forall y, finite y -> Rabs (B2R y) <= bpow radix2 1000 -> is_finite (fsub y wmin) = true /\ Rabs (B2R (fsub y wmin)) <= bpow radix2 1001
     /\ B2R (fsub y wmin) = rnd (B2R y - B2R wmin)).
  { intros y Fy By. destruct (pow2 1001 _ _ ltac:(lia) (sub_rounds y wmin Fy Fn)) as (F & B).
    - change 1001%Z with (1000 + 1)%Z. rewrite bpow_plus. change (bpow radix2 1) with 2.
      apply (Rle_trans _ _ _ (Rabs_triang _ _)). rewrite Rabs_Ropp. lra.
    - split; [easy|]. split; [easy|]. now apply rounds_fin with (1 := sub_rounds y wmin Fy Fn). }
  destruct (S w Fw Bw) as (Fa & Ba & Ea). destruct (S wmax Fx Bx) as (Fb & Bb & Eb). clear S.
  set (a := fsub w wmin) in *. set (b := fsub wmax wmin) in *.
  assert (A0 : 0 <= rnd (B2R w - B2R wmin)) by (apply rnd_nonneg; lra).
  assert (AB : rnd (B2R w - B2R wmin) <= rnd (B2R wmax - B2R wmin)) by (apply rnd_mono; lra).
  assert (B0 : 0 < rnd (B2R wmax - B2R wmin)).
  { destruct (Rle_lt_or_eq_dec 0 (rnd (B2R wmax - B2R wmin))) as [P|P]; [apply rnd_nonneg; lra|easy|].
    symmetry in P. apply diff_zero in P. lra. }
  destruct two as [F2 E2]. destruct one as [F1 E1].
  destruct (pow2 1002 _ _ ltac:(lia) (mul_rounds (fint 2) a F2 Fa)) as (F2a & _).
  { rewrite E2, Rabs_mult, (Rabs_right 2) by lra. change 1002%Z with (1 + 1001)%Z. rewrite bpow_plus. change (bpow radix2 1) with 2. lra. }
  assert (E2a : B2R (fmul (fint 2) a) = 2 * B2R a).
  { rewrite (rounds_fin _ _ (mul_rounds (fint 2) a F2 Fa) F2a), E2. apply rnd_id, dbl_format, fmt. }
  rewrite <- Ea in A0, AB. rewrite <- Eb in AB, B0. rewrite <- Ea, <- Eb.
  assert (Q : 0 <= 2 * B2R a / B2R b <= 2).
  { split.
    - apply Rmult_le_pos; [lra|]. left. now apply Rinv_0_lt_compat.
    - apply (Rmult_le_reg_r (B2R b)); [easy|]. unfold Rdiv. rewrite Rmult_assoc, Rinv_l by lra. lra. }
  assert (RD : rounds (fdiv (fmul (fint 2) a) b) (2 * B2R a / B2R b)).
  { rewrite <- E2a. apply div_rounds; auto. lra. }
  destruct (rounds_between _ _ fzero (fint 2) RD eq_refl F2) as (Fq & Eq & Bq).
  { cbn [B2R fzero]. rewrite E2. exact Q. }
  cbn [B2R fzero] in Bq. rewrite E2 in Bq.
  destruct (fint_val (-1) ltac:(cbn; lia)) as [Fm Em].
  destruct (rounds_between _ _ (fint (-1)) (fint 1) (sub_rounds _ _ Fq F1) Fm F1) as (Fr & Er & Br).
  { rewrite E1, Em. lra. }
  split; [exact Fr|]. split; [rewrite Er, E1, Eq; reflexivity|]. split; [lra|]. split; [lra|]. rewrite <- Eq. lra.
Qed.
