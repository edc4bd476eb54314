(* Sums of products in any order: sign, NaN, masked pixels, accuracy. *)
From Coq Require Import ZArith Reals Lra Lia List Bool Permutation.
From Flocq Require Import Core.Core IEEE754.BinarySingleNaN.
From Verif Require Import Model_Float Spec_Float Proof_Float.
Import ListNotations.
Open Scope R_scope.

Lemma add_nneg x y : nneg x -> nneg y -> nneg (fadd x y).
Proof.
  intros Hx Hy. destruct (is_finite x) eqn:Fx.
  - destruct (is_finite y) eqn:Fy.
    + apply (rounds_nneg _ _ (add_rounds x y Fx Fy)). apply fin_nneg in Hx, Hy; auto. lra.
    + destruct y as [s|s| |s m e h]; try easy; destruct x as [s'|s'| |s' m' e' h']; easy.
  - destruct x as [s|s| |s m e h]; try easy; destruct y as [s'|s'| |s' m' e' h']; try easy.
    cbn in *. subst. easy.
Qed.
Lemma mul_nneg x y : nneg x -> nneg y -> nneg (fmul x y).
Proof.
  intros Hx Hy. destruct (is_finite x && is_finite y)%bool eqn:F.
  - apply andb_prop in F. destruct F as [Fx Fy]. apply (rounds_nneg _ _ (mul_rounds x y Fx Fy)).
    apply fin_nneg in Hx, Hy; auto. nra.
  - destruct x as [s|s| |s m e h], y as [s'|s'| |s' m' e' h']; try easy; cbn in *; subst; easy.
Qed.
Lemma fma_nneg x y z : nneg x -> nneg y -> nneg z -> nneg (ffma x y z).
Proof.
  intros Hx Hy Hz. destruct (is_finite x && is_finite y && is_finite z)%bool eqn:F.
  - apply andb_prop in F. destruct F as [F Fz]. apply andb_prop in F. destruct F as [Fx Fy].
    apply (rounds_nneg _ _ (fma_rounds x y z Fx Fy Fz)). apply fin_nneg in Hx, Hy, Hz; auto. nra.
  - destruct x as [s|s| |s m e h], y as [s'|s'| |s' m' e' h'], z as [t|t| |t k g i]; try easy; cbn in *; subst; easy.
Qed.
Lemma sq_nneg x : nneg (fmul x x).
Proof.
  destruct (is_finite x) eqn:F.
  - apply (rounds_nneg _ _ (mul_rounds x x F F)). nra.
  - destruct x as [[]|[]| |s m e h]; easy.
Qed.
Lemma nth_P {A} (P : A -> Prop) l d i : P d -> Forall P l -> P (nth i l d).
Proof. intros Hd H. revert i. induction H; intros [|i]; cbn; auto. Qed.
Lemma dot_nneg o a w : Forall nneg a -> Forall nneg w -> nneg (dot o a w).
Proof.
  intros Ha Hw. assert (Z : nneg fzero) by easy.
  induction o; cbn [dot]; [easy|apply mul_nneg|apply add_nneg|apply fma_nneg]; auto; now apply nth_P.
Qed.
Lemma map2_P {A B C} (f : A -> B -> C) (P : C -> Prop) l k : (forall x y, P (f x y)) -> Forall P (map2 f l k).
Proof. intros H. revert k. induction l as [|x l IH]; intros [|y k]; cbn; constructor; auto. Qed.
Lemma resid_nneg f m : nneg (resid2 f m). Proof. apply sq_nneg. Qed.
Lemma weight_nneg w : weight w -> nneg w. Proof. intros [F H]. now apply fin_nneg. Qed.
Lemma weights_nneg w : Forall weight w -> Forall nneg w.
Proof. intros H. eapply Forall_impl; [|exact H]. apply weight_nneg. Qed.

(* numbers: not NaN *)
Definition num (x : b64) : Prop := is_nan x = false /\ nneg x.
Lemma add_num x y : num x -> num y -> num (fadd x y).
Proof.
  intros [Nx Hx] [Ny Hy]. split; [|now apply add_nneg].
  destruct (is_finite x && is_finite y)%bool eqn:F.
  - apply andb_prop in F. destruct F as [Fx Fy]. apply (add_rounds x y Fx Fy).
  - destruct x as [s|s| |s m e h], y as [s'|s'| |s' m' e' h']; try easy; cbn in *; subst; easy.
Qed.
Lemma mul_num x y : weight x -> weight y -> num (fmul x y).
Proof. intros Hx Hy. split; [apply mul_rounds; apply Hx || apply Hy|]. apply mul_nneg; now apply weight_nneg. Qed.
Lemma fma_num x y z : weight x -> weight y -> num z -> num (ffma x y z).
Proof.
  intros Hx Hy [Nz Hz]. split; [|apply fma_nneg; auto using weight_nneg].
  destruct (is_finite z) eqn:Fz; [apply fma_rounds; auto; apply Hx || apply Hy|].
  destruct Hx as [Fx Hx], Hy as [Fy Hy]. unfold finite in *.
  destruct x as [s|s| |s m e h], y as [s'|s'| |s' m' e' h'], z as [t|t| |t k g i]; easy.
Qed.
Lemma zero_weight : weight fzero. Proof. split; [reflexivity|]. cbn. lra. Qed.
Lemma dot_num o a w : Forall weight a -> Forall weight w -> num (dot o a w).
Proof.
  intros Ha Hw. pose proof zero_weight. induction o; cbn [dot].
  - easy.
  - apply mul_num; now apply nth_P.
  - now apply add_num.
  - apply fma_num; auto; now apply nth_P.
Qed.

Lemma pow2 k (x : b64) r : (-1074 <= k < 1024)%Z -> rounds x r -> Rabs r <= bpow radix2 k -> is_finite x = true /\ Rabs (B2R x) <= bpow radix2 k.
Proof.
  intros Hk H B.
  assert (G : generic_format radix2 fexp (bpow radix2 k)).
  { apply generic_format_bpow. unfold fexp, SpecFloat.fexp, SpecFloat.emin. lia. }
  assert (L : Rabs (rnd r) <= bpow radix2 k).
  { apply abs_round_le_generic; auto with typeclass_instances. }
  assert (L' : Rabs (rnd r) < big).
  { apply (Rle_lt_trans _ _ _ L). now apply bpow_lt. }
  destruct (rounds_small _ _ H L') as (F & E). rewrite E. auto.
Qed.
Lemma resid_fin f m : within 510 f -> within 510 m -> weight (resid2 f m).
Proof.
  intros [Ff Bf] [Fm Bm].
  destruct (pow2 511 _ _ ltac:(lia) (sub_rounds f m Ff Fm)) as (Fd & Bd).
  { change 511%Z with (510 + 1)%Z. rewrite bpow_plus. change (bpow radix2 1) with 2.
    apply (Rle_trans _ _ _ (Rabs_triang _ _)). rewrite Rabs_Ropp. lra. }
  destruct (pow2 1022 _ _ ltac:(lia) (mul_rounds _ _ Fd Fd)) as (F2 & _).
  { change 1022%Z with (511 + 511)%Z. rewrite bpow_plus, Rabs_mult. pose proof (Rabs_pos (B2R (fsub f m))). nra. }
  split; [exact F2|]. apply fin_nneg; [exact F2|]. apply sq_nneg.
Qed.
Lemma resids_weight flux model : Forall (within 510) flux -> Forall (within 510) model ->
  Forall weight (map2 resid2 flux model).
Proof.
  intros H. revert model. induction H as [|f flux Hf H IH]; intros [|m model] Hm; cbn; constructor.
  - inversion Hm; subst. now apply resid_fin.
  - inversion Hm; subst. now apply IH.
Qed.

(* masked pixels *)
Definition plain (x : b64) : Prop := is_finite x = true /\ Bsign x = false.
Lemma sq_plain x : is_finite (fmul x x) = true -> plain (fmul x x).
Proof.
  intros F. split; [easy|]. destruct x as [[]|[]| |s m e h]; try reflexivity; try easy.
  pose proof (Bmult_correct 53 1024 _ _ mode_NE (B754_finite s m e h) (B754_finite s m e h)) as H. unfold fmul in *.
  destruct (Rlt_bool _ _) in H.
  - destruct H as (_ & _ & H). rewrite H by now apply finite_notnan. cbn. now destruct s.
  - apply B2SF_inf in H. rewrite H in F. discriminate.
Qed.
Lemma masked_zero w : finite w -> masked w -> exists s, w = B754_zero s.
Proof.
  unfold finite, masked. destruct w as [s|s| |s m e h]; try easy; eauto. intros _ H. exfalso.
  cbn in H. apply eq_0_F2R in H. destruct s; discriminate.
Qed.
Lemma mul_masked a a' w : plain a -> plain a' -> finite w -> masked w -> fmul a w = fmul a' w.
Proof.
  intros [F1 S1] [F2 S2] Fw M. destruct (masked_zero w Fw M) as (s & ->).
  destruct a as [t|t| |t m e h]; try easy; destruct a' as [t'|t'| |t' m' e' h']; try easy; cbn in *; now subst.
Qed.
Lemma fma_masked a a' w z : plain a -> plain a' -> finite w -> masked w -> ffma a w z = ffma a' w z.
Proof.
  intros [F1 S1] [F2 S2] Fw M. destruct (masked_zero w Fw M) as (s & ->).
  destruct a as [t|t| |t m e h]; try easy; destruct a' as [t'|t'| |t' m' e' h']; try easy; cbn in S1, S2; subst;
    destruct z as [q|q| |q k g i]; reflexivity.
Qed.
Lemma dot_masked o a a' w : length a = length a' ->
  (forall i, (i < length a)%nat -> nth i a fzero = nth i a' fzero \/
     (plain (nth i a fzero) /\ plain (nth i a' fzero) /\ finite (nth i w fzero) /\ masked (nth i w fzero))) ->
  dot o a w = dot o a' w.
Proof.
  intros L H.
  assert (H' : forall i, nth i a fzero = nth i a' fzero \/
     (plain (nth i a fzero) /\ plain (nth i a' fzero) /\ finite (nth i w fzero) /\ masked (nth i w fzero))).
  { intros i. destruct (Nat.lt_ge_cases i (length a)) as [C|C]; [auto|]. left. rewrite !nth_overflow by lia. reflexivity. }
  clear H. induction o as [|i|x IHx y IHy|i x IHx]; cbn [dot].
  - reflexivity.
  - destruct (H' i) as [E|(P & P' & Fw & M)]; [now rewrite E|now apply mul_masked].
  - now rewrite IHx, IHy.
  - rewrite IHx. destruct (H' i) as [E|(P & P' & Fw & M)]; [now rewrite E|now apply fma_masked].
Qed.
Lemma map2_len {A B C} (f : A -> B -> C) l k : length l = length k -> length (map2 f l k) = length l.
Proof. revert k. induction l as [|x l IH]; intros [|y k] H; cbn in *; try easy. now rewrite IH by lia. Qed.
Lemma map2_nth {A B C} (f : A -> B -> C) l k d d' dc i : length l = length k -> (i < length l)%nat ->
  nth i (map2 f l k) dc = f (nth i l d) (nth i k d').
Proof.
  revert k i. induction l as [|x l IH]; intros [|y k] i H Hi; cbn in *; try lia. destruct i as [|i]; [reflexivity|].
  apply IH; lia.
Qed.

(* accuracy *)
Fixpoint term_sum (t : nat -> R) (l : list nat) : R := match l with [] => 0 | i :: l => t i + term_sum t l end.
Lemma term_sum_app t l k : term_sum t (l ++ k) = term_sum t l + term_sum t k.
Proof. induction l as [|i l IH]; cbn; [lra|]. rewrite IH. lra. Qed.
Lemma term_sum_perm t l k : Permutation l k -> term_sum t l = term_sum t k.
Proof. induction 1; cbn; lra. Qed.
Lemma term_sum_ext t t' l : (forall i, In i l -> t i = t' i) -> term_sum t l = term_sum t' l.
Proof. induction l as [|i l IH]; cbn; intros H; [reflexivity|]. rewrite (H i), IH; auto. Qed.
Lemma term_sum_le t t' l : (forall i, In i l -> t i <= t' i) -> term_sum t l <= term_sum t' l.
Proof.
  induction l as [|i l IH]; cbn; intros H; [lra|]. apply Rplus_le_compat; [apply H|apply IH]; auto.
Qed.
Lemma term_sum_lin t s a b l : term_sum (fun i => a * t i + b * s i) l = a * term_sum t l + b * term_sum s l.
Proof. induction l as [|i l IH]; cbn; [lra|]. rewrite IH. lra. Qed.
Lemma term_sum_const c l : term_sum (fun _ => c) l = c * INR (length l).
Proof. induction l as [|i l IH]; [cbn; lra|]. cbn [term_sum length]. rewrite IH, S_INR. lra. Qed.
Lemma term_sum_nneg t l : (forall i, In i l -> 0 <= t i) -> 0 <= term_sum t l.
Proof. induction l as [|i l IH]; cbn; intros H; [lra|]. apply Rplus_le_le_0_compat; [apply H|apply IH]; auto. Qed.

Lemma finite_add x y : num x -> num y -> is_finite (fadd x y) = true -> is_finite x = true /\ is_finite y = true.
Proof.
  intros [Nx Hx] [Ny Hy] F. destruct x as [s|s| |s m e h], y as [s'|s'| |s' m' e' h']; try easy; cbn in *; subst; easy.
Qed.
Lemma finite_fma x y z : weight x -> weight y -> num z -> is_finite (ffma x y z) = true -> is_finite z = true.
Proof.
  intros [Fx Hx] [Fy Hy] [Nz Hz]. unfold finite in *.
  destruct x as [s|s| |s m e h], y as [s'|s'| |s' m' e' h'], z as [t|t| |t k g i]; easy.
Qed.

Lemma up k x y : (0 <= x)%R -> (k <= y)%nat -> (1 + u) ^ k * x <= (1 + u) ^ y * x.
Proof. intros Hx L. apply Rmult_le_compat_r; [easy|]. apply Rle_pow; [pose proof u_pos; lra|easy]. Qed.
Lemma down k x y : (0 <= x)%R -> (k <= y)%nat -> (1 - u) ^ y * x <= (1 - u) ^ k * x.
Proof.
  intros Hx L. apply Rmult_le_compat_r; [easy|]. pose proof u_pos.
  replace y with (k + (y - k))%nat by lia. rewrite pow_add.
  assert (0 <= (1 - u) ^ k) by (apply pow_le; lra).
  assert ((1 - u) ^ (y - k) <= 1).
  { apply (Rle_trans _ (1 ^ (y - k))); [apply pow_incr; lra|rewrite pow1; lra]. }
  nra.
Qed.

Lemma dot_acc o a w : Forall weight a -> Forall weight w -> is_finite (dot o a w) = true ->
  let t i := B2R (nth i a fzero) * B2R (nth i w fzero) in
  let T := term_sum t (leaves o) in
  let n := INR (length (leaves o)) in
  0 <= T /\
  (1 - u) ^ depth o * T - eta * n <= B2R (dot o a w) <= (1 + u) ^ depth o * (T + eta * n).
Proof.
  intros Ha Hw F t. pose proof u_pos as U. pose proof eta_pos as E. pose proof zero_weight as Z.
  assert (Tn : forall i, 0 <= t i).
  { intros i. unfold t. destruct (nth_P weight a fzero i Z Ha) as [_ A], (nth_P weight w fzero i Z Hw) as [_ B]. nra. }
  induction o as [|i|x IHx y IHy|i x IHx]; cbn [dot leaves depth] in *; cbv zeta in *.
  - cbn. lra.
  - cbn [term_sum length]. split; [specialize (Tn i); lra|].
    destruct (nth_P weight a fzero i Z Ha) as [Fa _], (nth_P weight w fzero i Z Hw) as [Fw _].
    rewrite (rounds_fin _ _ (mul_rounds _ _ Fa Fw) F). fold (t i). specialize (Tn i).
    destruct (rnd_err (t i)) as (e & h & -> & He & Hh). apply Rabs_le_inv in He, Hh. cbn [INR pow]. nra.
  - destruct (finite_add _ _ (dot_num x a w Ha Hw) (dot_num y a w Ha Hw) F) as [Fx Fy].
    specialize (IHx Fx). specialize (IHy Fy). destruct IHx as [Tx [Lx Ux]], IHy as [Ty [Ly Uy]].
    rewrite term_sum_app, app_length, plus_INR. split; [lra|].
    rewrite (rounds_fin _ _ (add_rounds _ _ Fx Fy) F).
    destruct (rnd_add_err (dot x a w) (dot y a w)) as (e & -> & He). apply Rabs_le_inv in He.
    assert (Px : 0 <= B2R (dot x a w)) by (apply fin_nneg; [easy|]; apply dot_num; auto).
    assert (Py : 0 <= B2R (dot y a w)) by (apply fin_nneg; [easy|]; apply dot_num; auto).
    set (d := Nat.max (depth x) (depth y)).
    set (nx := INR (length (leaves x))) in *. set (ny := INR (length (leaves y))) in *.
    assert (Nx : 0 <= nx) by apply pos_INR. assert (Ny : 0 <= ny) by apply pos_INR.
    set (TX := term_sum t (leaves x)) in *. set (TY := term_sum t (leaves y)) in *.
    pose proof (down (depth x) TX d Tx ltac:(unfold d; lia)) as Dx. pose proof (down (depth y) TY d Ty ltac:(unfold d; lia)) as Dy.
    assert (Ax : 0 <= TX + eta * nx) by nra. assert (Ay : 0 <= TY + eta * ny) by nra.
    pose proof (up (depth x) (TX + eta * nx) d Ax ltac:(unfold d; lia)) as Ex. pose proof (up (depth y) (TY + eta * ny) d Ay ltac:(unfold d; lia)) as Ey.
    cbn [pow]. set (P := (1 + u) ^ d) in *. set (Q := (1 - u) ^ d) in *.
    set (X := B2R (dot x a w)) in *. set (Y := B2R (dot y a w)) in *.
    assert (S1 : Q * (TX + TY) - eta * (nx + ny) <= X + Y) by lra.
    assert (S2 : X + Y <= P * (TX + TY + eta * (nx + ny))) by lra.
    split.
    + apply (Rle_trans _ ((X + Y) * (1 - u))); [|apply Rmult_le_compat_l; lra].
      apply (Rle_trans _ ((Q * (TX + TY) - eta * (nx + ny)) * (1 - u))); [|apply Rmult_le_compat_r; lra].
      assert (0 <= eta * (nx + ny) * u) by (apply Rmult_le_pos; [apply Rmult_le_pos; lra|lra]). lra.
    + apply (Rle_trans _ ((X + Y) * (1 + u))); [apply Rmult_le_compat_l; lra|].
      rewrite Rmult_assoc, (Rmult_comm (1 + u)). apply Rmult_le_compat_r; lra.
  - destruct (nth_P weight a fzero i Z Ha) as [Fa Wa], (nth_P weight w fzero i Z Hw) as [Fw Ww].
    pose proof (finite_fma _ _ _ (conj Fa Wa) (conj Fw Ww) (dot_num x a w Ha Hw) F) as Fx.
    specialize (IHx Fx). destruct IHx as [Tx [Lx Ux]]. specialize (Tn i).
    cbn [term_sum length]. rewrite S_INR. split; [lra|].
    rewrite (rounds_fin _ _ (fma_rounds _ _ _ Fa Fw Fx) F). fold (t i).
    assert (Px : 0 <= B2R (dot x a w)) by (apply fin_nneg; [easy|]; apply dot_num; auto).
    destruct (rnd_err (t i + B2R (dot x a w))) as (e & h & -> & He & Hh). apply Rabs_le_inv in He, Hh.
    set (nx := INR (length (leaves x))) in *. assert (Nx : 0 <= nx) by apply pos_INR.
    set (TX := term_sum t (leaves x)) in *. set (X := B2R (dot x a w)) in *. set (d := depth x) in *.
    pose proof (down 0 (t i) d Tn ltac:(lia)) as D. pose proof (up 0 (t i + eta) d ltac:(lra) ltac:(lia)) as D'. cbn [pow] in D, D'.
    rewrite !Rmult_1_l in *.
    cbn [pow]. set (P := (1 + u) ^ d) in *. set (Q := (1 - u) ^ d) in *.
    assert (S1 : Q * (t i + TX) - eta * nx <= t i + X) by lra.
    assert (S2 : t i + eta + X <= P * (t i + TX + eta * (nx + 1))) by lra.
    split.
    + apply (Rle_trans _ ((t i + X) * (1 - u) + h)); [|apply Rplus_le_compat_r, Rmult_le_compat_l; lra].
      assert ((Q * (t i + TX) - eta * nx) * (1 - u) <= (t i + X) * (1 - u)) by (apply Rmult_le_compat_r; lra).
      assert (0 <= eta * nx * u) by (apply Rmult_le_pos; [apply Rmult_le_pos; lra|lra]). lra.
    + apply (Rle_trans _ ((t i + X) * (1 + u) + h)); [apply Rplus_le_compat_r, Rmult_le_compat_l; lra|].
      apply (Rle_trans _ ((t i + eta + X) * (1 + u))); [assert (0 <= eta * u) by (apply Rmult_le_pos; lra); lra|].
      rewrite Rmult_assoc, (Rmult_comm (1 + u)). apply Rmult_le_compat_r; lra.
Qed.

Lemma resid_acc f m : within 510 f -> within 510 m ->
  (1 - u) ^ 3 * (B2R f - B2R m) ^ 2 - eta <= B2R (resid2 f m) <= (1 + u) ^ 3 * (B2R f - B2R m) ^ 2 + eta.
Proof.
  intros Hf Hm. destruct (resid_fin f m Hf Hm) as [F2 _]. destruct Hf as [Ff Bf], Hm as [Fm Bm].
  destruct (pow2 511 _ _ ltac:(lia) (sub_rounds f m Ff Fm)) as (Fd & Bd).
  { change 511%Z with (510 + 1)%Z. rewrite bpow_plus. change (bpow radix2 1) with 2.
    apply (Rle_trans _ _ _ (Rabs_triang _ _)). rewrite Rabs_Ropp. lra. }
  unfold resid2 in *. cbv zeta in *. rewrite (rounds_fin _ _ (mul_rounds _ _ Fd Fd) F2).
  rewrite (rounds_fin _ _ (sub_rounds f m Ff Fm) Fd).
  assert (O : exists e, rnd (B2R f - B2R m) = (B2R f - B2R m) * (1 + e) /\ Rabs e <= u).
  { destruct (rnd_add_err f (Bopp m)) as (e & H1 & H2). rewrite B2R_Bopp in H1. exists e. auto. }
  destruct O as (e & -> & He). set (r := B2R f - B2R m).
  destruct (rnd_err (r * (1 + e) * (r * (1 + e)))) as (e' & h & -> & He' & Hh).
  apply Rabs_le_inv in He, He', Hh. pose proof u_pos as U. pose proof eta_pos as E.
  assert (R2 : 0 <= r ^ 2) by (apply pow2_ge_0).
  replace (r * (1 + e) * (r * (1 + e)) * (1 + e')) with (r ^ 2 * ((1 + e) ^ 2 * (1 + e'))) by ring.
  assert (L : (1 - u) ^ 3 <= (1 + e) ^ 2 * (1 + e')).
  { replace ((1 - u) ^ 3) with ((1 - u) ^ 2 * (1 - u)) by ring.
    apply Rmult_le_compat; nra. }
  assert (U3 : (1 + e) ^ 2 * (1 + e') <= (1 + u) ^ 3).
  { replace ((1 + u) ^ 3) with ((1 + u) ^ 2 * (1 + u)) by ring.
    apply Rmult_le_compat; nra. }
  split.
  - apply (Rmult_le_compat_l (r ^ 2)) in L; [|easy]. lra.
  - apply (Rmult_le_compat_l (r ^ 2)) in U3; [|easy]. lra.
Qed.

Lemma exact_sum flux model w : length model = length flux -> length w = length flux ->
  exact_chi2 flux model w =
  term_sum (fun i => (B2R (nth i flux fzero) - B2R (nth i model fzero)) ^ 2 * B2R (nth i w fzero)) (seq 0 (length flux)).
Proof.
  assert (G : forall k flux model w, length model = length flux -> length w = length flux -> forall F M V,
    (forall i, (i < length flux)%nat -> nth (k + i) F fzero = nth i flux fzero /\ nth (k + i) M fzero = nth i model fzero /\ nth (k + i) V fzero = nth i w fzero) ->
    exact_chi2 flux model w = term_sum (fun i => (B2R (nth i F fzero) - B2R (nth i M fzero)) ^ 2 * B2R (nth i V fzero)) (seq k (length flux))).
  { clear. intros k flux. revert k. induction flux as [|f flux IH]; intros k [|m model] [|v w] L1 L2 F M V H; cbn in L1, L2; try lia; [reflexivity|].
    cbn [exact_chi2 length seq term_sum]. 
    pose proof (H 0%nat ltac:(cbn; lia)) as (H1 & H2 & H3). rewrite Nat.add_0_r in *. rewrite H1, H2, H3. cbn [nth]. f_equal.
    apply IH; [lia|lia|]. intros i Hi. specialize (H (S i) ltac:(cbn; lia)). rewrite <- plus_n_Sm in H. exact H. }
  intros L1 L2. apply G; auto.
Qed.
Lemma total_sum w : total w = term_sum (fun i => B2R (nth i w fzero)) (seq 0 (length w)).
Proof.
  assert (G : forall w k V, (forall i, (i < length w)%nat -> nth (k + i) V fzero = nth i w fzero) ->
    total w = term_sum (fun i => B2R (nth i V fzero)) (seq k (length w))).
  { clear. induction w as [|v w IH]; intros k V H; [reflexivity|]. cbn [total length seq term_sum].
    pose proof (H 0%nat ltac:(cbn; lia)) as H1. rewrite Nat.add_0_r in H1. rewrite H1. cbn [nth]. f_equal.
    apply IH. intros i Hi. specialize (H (S i) ltac:(cbn; lia)). rewrite <- plus_n_Sm in H. exact H. }
  now apply G.
Qed.
