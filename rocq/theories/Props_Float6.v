(* C178: the reported redshift, its error and its chi2 in double precision. *)
From Coq Require Import ZArith Reals Lra Lia List Bool.
From Flocq Require Import Core.Core IEEE754.BinarySingleNaN.
From Verif Require Import Model_Float Model_Float3 Spec_Float Proof_Float Proof_Float2 Proof_Float3 Proof_Float10.
Import ListNotations.
Open Scope R_scope.

(* what is asked of the C library and of LAPACK: squares of numbers are numbers and not negative;
   the coefficients of a parabola are numbers, the leading one not astronomically large *)
Definition squares (square : b64 -> b64) : Prop := forall b, finite b -> is_nan (square b) = false /\ not_negative (square b).
Definition fits (polyfit : list b64 -> list b64 -> option (b64 * b64 * b64)) : Prop :=
  forall x y a b c, polyfit x y = Some (a, b, c) -> within 1021 a /\ finite b /\ finite c.

(* np.argmin: the first of the smallest values *)
Lemma argmin_spec : forall l k best v, Forall (fun x => is_finite x = true) (v :: l) ->
  exists t, argmin64 k best v l = t /\
   ((t = best /\ forall x, In x l -> B2R v <= B2R x) \/
    (exists n, t = (k + n)%nat /\ (n < length l)%nat /\ (forall x, In x (v :: l) -> B2R (nth n l fzero) <= B2R x) /\ B2R (nth n l fzero) < B2R v /\ forall m, (m < n)%nat -> B2R (nth n l fzero) < B2R (nth m l fzero))).
Proof.
  induction l as [|x l IH]; intros k best v F; [exists best; split; [reflexivity|]; left; split; [reflexivity|intros x []]|].
  inversion F as [|? ? Fv F']; subst. inversion F' as [|? ? Fx Fl]; subst. cbn [argmin64].
  assert (Nv : is_nan v = false) by now destruct v. assert (Nx : is_nan x = false) by now destruct x. rewrite Nv, Nx. cbn [negb orb andb]. rewrite ltb_fin by assumption. case Rlt_bool_spec; intro C.
  - destruct (IH (S k) k x F') as (t & E & [[E1 H]|(n & E1 & Ln & H1 & H2 & H3)]); exists t; (split; [exact E|]); right.
    + exists 0%nat. split; [lia|]. split; [cbn; lia|]. cbn [nth]. split; [|split; [exact C|intros m Hm; lia]]. intros y [<-|[<-|Hy]]; [lra|lra|now apply H].
    + exists (S n). split; [lia|]. split; [cbn; lia|]. cbn [nth]. split; [|split; [lra|]].
      * intros y [<-|Hy]; [lra|now apply H1].
      * intros [|m] Hm; [exact H2|]. apply H3. lia.
  - destruct (IH (S k) best v (Forall_cons _ Fv Fl)) as (t & E & [[E1 H]|(n & E1 & Ln & H1 & H2 & H3)]); exists t; (split; [exact E|]).
    + left. split; [exact E1|]. intros y [<-|Hy]; [exact C|now apply H].
    + right. exists (S n). split; [lia|]. split; [cbn; lia|]. cbn [nth]. split; [|split; [exact H2|]].
      * intros y [<-|[<-|Hy]]; [lra|lra|]. apply H1. now right.
      * intros [|m] Hm; [lra|]. apply H3. lia.
Qed.

Section Any.
Variables (square : b64 -> b64) (polyfit : list b64 -> list b64 -> option (b64 * b64 * b64)).
Notation minfit64 := (minfit64 square polyfit).
Notation settle := (settle square polyfit).

(* a fit without the flag: a parabola that opens upwards was fitted; nothing else is assumed *)
Theorem C178_unflagged : forall x y, p_bad (minfit64 x y) = false ->
  (3 <= length x)%nat /\ exists a b c, polyfit x y = Some (a, b, c) /\ Bltb fzero a = true.
Proof.
  intros x y. unfold Model_Float3.minfit64. destruct (Nat.ltb_spec (length x) 3); [discriminate|]. destruct (polyfit x y) as [[[a b] c]|]; [|discriminate].
  destruct (Beqb a fzero); [discriminate|]. destruct (Bltb fzero a) eqn:E; [|discriminate]. intros _. split; [easy|]. now exists a, b, c.
Qed.

Lemma p_num x y : fits polyfit -> is_nan (p_x0 (minfit64 x y)) = false.
Proof.
  intros Hf. unfold Model_Float3.minfit64. destruct (Nat.ltb_spec (length x) 3); [reflexivity|]. destruct (polyfit x y) as [[[a b] c]|] eqn:E; [|reflexivity].
  destruct (Hf _ _ _ _ _ E) as ((Fa & _) & Fb & Fc). destruct (Beqb a fzero) eqn:Ea; [reflexivity|].
  assert (N : is_nan (fdiv (Bopp b) (fmul (fint 2) a)) = false) by (apply center_num; auto using zero_iff).
  now destruct (Bltb fzero a).
Qed.

(* its values are then meaningful *)
Theorem C178_minfit : forall x y, squares square -> fits polyfit -> Forall finite x ->
  let m := minfit64 x y in p_bad m = false ->
  finite (p_x0 m) /\ finite (p_xerr m) /\ 0 < B2R (p_xerr m) /\ finite (p_y0 m) /\ 0 < B2R (p_y0 m) /\
  (exists lo, In lo x /\ B2R lo < B2R (p_x0 m)) /\ (exists hi, In hi x /\ B2R (p_x0 m) < B2R hi).
Proof.
  intros x y Hs Hf Fx m Hm. pose proof (p_num x y Hf) as N. fold m in N.
  unfold m, Model_Float3.minfit64 in *. destruct (Nat.ltb_spec (length x) 3); [discriminate|]. destruct (polyfit x y) as [[[a b] c]|] eqn:E; [|discriminate].
  destruct (Hf _ _ _ _ _ E) as ((Fa & Ba) & Fb & Fc). destruct (Beqb a fzero) eqn:Ea; [discriminate|].
  destruct (Bltb fzero a) eqn:Pa; [|discriminate]. cbn [p_bad p_x0 p_xerr p_y0] in *.
  apply pos_iff in Pa; [|easy]. rewrite Rabs_pos_eq in Ba by lra.
  apply orb_false_iff in Hm. destruct Hm as [Hx Hy]. apply orb_false_iff in Hx. destruct Hx as [Hl Hh].
  destruct (Hs b Fb) as [Sn Sp]. destruct (low_num (square b) a c Sn Sp Fa (conj Pa Ba) Fc) as [_ L].
  destruct (L Hy) as [Fy Py]. destruct (err_pos a Fa Pa) as [Fe Pe].
  destruct x as [|x1 xs]; [cbn in H; lia|]. cbn [hd tl] in *. inversion Fx as [|? ? F1 Fr]; subst.
  destruct (minimum_spec x1 xs F1 Fr) as [Imin _]. destruct (maximum_spec x1 xs F1 Fr) as [Imax _].
  assert (Fmin : is_finite (minimum x1 xs) = true). { rewrite Forall_forall in Fx. apply (Fx _ Imin). }
  assert (Fmax : is_finite (maximum x1 xs) = true). { rewrite Forall_forall in Fx. apply (Fx _ Imax). }
  pose proof (proj1 (proj2 (proj2 (num_cases _ _ N Fmin))) Hl) as L1.
  pose proof (proj2 (proj2 (proj2 (num_cases _ _ N Fmax))) Hh) as L2.
  destruct (between_fin _ _ _ N Fmin Fmax (conj (Rlt_le _ _ L1) (Rlt_le _ _ L2))) as [F0 V0]. rewrite V0 in L1, L2.
  split; [exact F0|]. split; [exact Fe|]. split; [exact Pe|]. split; [exact Fy|]. split; [exact Py|].
  split; [now exists (minimum x1 xs)|now exists (maximum x1 xs)].
Qed.

(* the fine scan: at least three finite redshifts between the first and the last, one finite chi2 each *)
Definition fine (zz zzchi2 : list b64) : Prop :=
  (3 <= length zz)%nat /\ length zzchi2 = length zz /\ Forall finite zzchi2 /\
  forall z, In z zz -> finite z /\ B2R (hd fzero zz) <= B2R z <= B2R (last zz fzero).

Lemma in_skip {A} (x : A) n l : In x (firstn 3 (skipn n l)) -> In x l.
Proof. intros H. rewrite <- (firstn_skipn n l). apply in_or_app. right. rewrite <- (firstn_skipn 3 (skipn n l)). apply in_or_app. now left. Qed.

(* a result: only the exception of the evaluation at zmin can prevent it; the redshift lies in the fine scan, flagged or
   not; without BAD_MINFIT it is the fitted one, inside the scan, with a positive error and a positive chi2; otherwise it is the
   fitted one or the point of the scan with the smallest chi2; without Z_FITLIMIT it is not beyond the last but one point of the grid *)
Theorem C178_row : forall redshifts zz zzchi2 raised,
  squares square -> fits polyfit -> Forall finite redshifts -> (2 <= length redshifts)%nat -> fine zz zzchi2 ->
  (raised = false -> settle redshifts zz zzchi2 raised <> None) /\
  forall k, settle redshifts zz zzchi2 raised = Some k ->
    finite (k_z k) /\ B2R (hd fzero zz) <= B2R (k_z k) <= B2R (last zz fzero) /\
    (k_bad k = false -> finite (k_zerr k) /\ 0 < B2R (k_zerr k) /\ finite (k_chi2 k) /\ 0 < B2R (k_chi2 k) /\
       B2R (hd fzero zz) < B2R (k_z k) < B2R (last zz fzero)) /\
    (k_limit k = false -> raised = false /\ B2R (nth 1 redshifts fzero) <= B2R (k_z k) <= B2R (nth (length redshifts - 2) redshifts fzero)) /\
    ((exists i, k_z k = p_x0 (minfit64 (firstn 3 (skipn i zz)) (firstn 3 (skipn i zzchi2)))) \/
     (k_bad k = true /\ exists j, (j < length zz)%nat /\ k_z k = nth j zz fzero /\ k_chi2 k = nth j zzchi2 fzero /\
        forall c, In c zzchi2 -> B2R (k_chi2 k) <= B2R c)).
Proof.
  intros rs zz zc raised Hs Hf Fr Lr (Lz & Lc & Fc & Hz). pose proof I as HI.
  unfold Model_Float3.settle. cbn zeta. match goal with |- context [skipn ?a zz] => set (i0 := a) end.
  set (m := Model_Float3.minfit64 square polyfit (firstn 3 (skipn i0 zz)) (firstn 3 (skipn i0 zc))).
  assert (N : is_nan (p_x0 m) = false) by now apply p_num.
  assert (Fz : Forall finite (firstn 3 (skipn i0 zz))) by (apply Forall_forall; intros z Iz; apply Hz; revert Iz; apply in_skip).
  pose proof (C178_minfit _ (firstn 3 (skipn i0 zc)) Hs Hf Fz) as M. fold m in M. cbn zeta in M.
  assert (Iw : forall z, In z (firstn 3 (skipn i0 zz)) -> In z zz) by (intros z; apply in_skip).
  assert (Fh : is_finite (hd fzero zz) = true) by (apply Hz; destruct zz; [cbn in Lz; lia|now left]).
  assert (Fl : is_finite (last zz fzero) = true).
  { apply Hz. destruct zz as [|z0 zl]; [cbn in Lz; lia|]. destruct (@exists_last _ (z0 :: zl)) as (l' & a & E); [discriminate|]. rewrite E, last_last. apply in_or_app. right. now left. }
  assert (F1 : is_finite (nth 1 rs fzero) = true) by (rewrite Forall_forall in Fr; apply Fr, nth_In; lia).
  assert (F2 : is_finite (nth (length rs - 2) rs fzero) = true) by (rewrite Forall_forall in Fr; apply Fr, nth_In; lia).
  (* the smallest chi2 *)
  assert (Sm : exists j, first_eq 0 (minimum (hd fzero zc) (tl zc)) zc = Some j /\ (j < length zz)%nat /\ finite (nth j zc fzero) /\
             forall c, In c zc -> B2R (nth j zc fzero) <= B2R c).
  { destruct zc as [|c0 cl]; [cbn in Lc; lia|]. inversion Fc as [|? ? Fc0 Fcl]; subst. cbn [hd tl].
    destruct (minimum_spec c0 cl Fc0 Fcl) as [Im Mm].
    assert (Fm : is_finite (minimum c0 cl) = true) by (rewrite Forall_forall in Fc; now apply Fc).
    destruct (first_eq_some (minimum c0 cl) (c0 :: cl) 0) as (j & J1 & J2 & J3).
    { exists (minimum c0 cl). split; [easy|]. rewrite eqb_fin by easy. now apply Req_bool_true. }
    exists j. cbn [Nat.add] in J1. split; [exact J1|]. split; [rewrite <- Lc; exact J2|].
    assert (Fj : is_finite (nth j (c0 :: cl) fzero) = true) by (rewrite Forall_forall in Fc; apply Fc, nth_In; exact J2).
    split; [exact Fj|]. rewrite eqb_fin in J3 by easy.
    assert (E : B2R (nth j (c0 :: cl) fzero) = B2R (minimum c0 cl)) by (revert J3; case Req_bool_spec; easy). intros c Hc. rewrite E. now apply Mm. }
  destruct Sm as (j & Ej & Lj & Fj & Mj). rewrite Ej.
  split.
  { intros ->. cbn [andb]. destruct (Bltb (p_x0 m) (hd fzero zz) || Bltb (last zz fzero) (p_x0 m)); discriminate. }
  intros k Hk.
  assert (Lim : forall z, is_finite z = true -> Bltb z (nth 1 rs fzero) || Bltb (nth (length rs - 2) rs fzero) z = false ->
                B2R (nth 1 rs fzero) <= B2R z <= B2R (nth (length rs - 2) rs fzero)).
  { intros z Fz0 H. apply orb_false_iff in H. destruct H as [H1 H2]. rewrite ltb_fin in H1, H2 by assumption.
    revert H1 H2. case Rlt_bool_spec; [discriminate|]. case Rlt_bool_spec; [discriminate|]. lra. }
  destruct (raised && _); [discriminate|].
  destruct (Bltb (p_x0 m) (hd fzero zz) || Bltb (last zz fzero) (p_x0 m)) eqn:Out.
  - injection Hk as <-. cbn [k_z k_zerr k_chi2 k_bad k_limit].
    destruct (Hz (nth j zz fzero) (nth_In _ _ Lj)) as [Fn Bn].
    split; [exact Fn|]. split; [exact Bn|]. split; [discriminate|]. split.
    + intros H. apply orb_false_iff in H. destruct H as [H _]. apply orb_false_iff in H. destruct H as [H1 H2]. split; [exact H1|]. now apply Lim.
    + right. split; [reflexivity|]. exists j. split; [exact Lj|]. split; [reflexivity|]. split; [reflexivity|]. exact Mj.
  - injection Hk as <-. cbn [k_z k_zerr k_chi2 k_bad k_limit].
    apply orb_false_iff in Out. destruct Out as [O1 O2].
    pose proof (proj1 (num_cases _ _ N Fh) O1) as B1. pose proof (proj1 (proj2 (num_cases _ _ N Fl)) O2) as B2.
    destruct (between_fin _ _ _ N Fh Fl (conj B1 B2)) as [F0 V0]. rewrite V0 in B1, B2.
    split; [exact F0|]. split; [now split|]. split; [|split].
    + intros H. apply orb_false_iff in H. destruct H as [H _].
      destruct (M H) as (_ & Fe & Pe & Fy & Py & (lo & Ilo & Llo) & (hi & Ihi & Lhi)).
      split; [exact Fe|]. split; [exact Pe|]. split; [exact Fy|]. split; [exact Py|].
      apply Iw in Ilo. apply Iw in Ihi. pose proof (proj2 (Hz lo Ilo)). pose proof (proj2 (Hz hi Ihi)). lra.
    + intros H. apply orb_false_iff in H. destruct H as [H _]. apply orb_false_iff in H. destruct H as [H1 H2]. split; [exact H1|]. now apply Lim.
    + left. now exists i0.
Qed.
(* which parabola: the one through the points around the first smallest chi2, moved inside at both ends of the scan; and when
   Z_FITLIMIT is raised *)
Theorem C178_parabola : forall redshifts zz zzchi2 raised k, fine zz zzchi2 -> settle redshifts zz zzchi2 raised = Some k ->
  exists j i,
    (j < length zz)%nat /\ (forall c, In c zzchi2 -> B2R (nth j zzchi2 fzero) <= B2R c) /\
    (forall t, (t < j)%nat -> B2R (nth j zzchi2 fzero) < B2R (nth t zzchi2 fzero)) /\
    (i + 3 <= length zz)%nat /\ ((i + 1 = j)%nat \/ (j = 0 /\ i = 0)%nat \/ (j = length zz - 1 /\ i = length zz - 3)%nat) /\
    let m := minfit64 (firstn 3 (skipn i zz)) (firstn 3 (skipn i zzchi2)) in
    k_zerr k = p_xerr m /\
    (k_limit k = true <-> raised = true \/ exists z, (z = k_z k \/ z = p_x0 m) /\
       (Bltb z (nth 1 redshifts fzero) = true \/ Bltb (nth (length redshifts - 2) redshifts fzero) z = true)) /\
    ((k_z k = p_x0 m /\ k_chi2 k = p_y0 m /\ k_bad k = p_bad m || raised /\ Bltb (p_x0 m) (hd fzero zz) = false /\ Bltb (last zz fzero) (p_x0 m) = false) \/
     (k_bad k = true /\ (Bltb (p_x0 m) (hd fzero zz) = true \/ Bltb (last zz fzero) (p_x0 m) = true))).
Proof.
  intros rs zz zc raised k (Lz & Lc & Fc & Hz). unfold Model_Float3.settle. cbn zeta.
  destruct zc as [|c0 cl]; [cbn in Lc; lia|]. cbn [hd tl].
  assert (A : exists j, argmin64 1 0 c0 cl = j /\ (j < length zz)%nat /\ (forall c, In c (c0 :: cl) -> B2R (nth j (c0 :: cl) fzero) <= B2R c) /\
              forall t, (t < j)%nat -> B2R (nth j (c0 :: cl) fzero) < B2R (nth t (c0 :: cl) fzero)).
  { destruct (argmin_spec cl 1 0 c0 Fc) as (t & E & [[-> H]|(n & -> & Ln & H1 & H2 & H3)]).
    - exists 0%nat. split; [exact E|]. split; [lia|]. cbn [nth]. split; [|intros; lia]. intros c [<-|Hc]; [lra|now apply H].
    - exists (S n). split; [exact E|]. split; [rewrite <- Lc; exact (proj1 (Nat.succ_lt_mono _ _) Ln)|]. cbn [nth]. split; [exact H1|]. intros [|t] Ht; [exact H2|]. apply H3. lia. }
  destruct A as (j & -> & Lj & Mj & Sj). set (zc := c0 :: cl) in *. set (i := (Nat.min (Nat.max j 1) (length zz - 2) - 1)%nat).
  set (m := Model_Float3.minfit64 square polyfit (firstn 3 (skipn i zz)) (firstn 3 (skipn i zc))).
  intros H. exists j, i. split; [exact Lj|]. split; [exact Mj|]. split; [exact Sj|].
  split; [unfold i; lia|]. split; [unfold i; lia|]. fold m. cbn zeta.
  set (second := nth 1 rs fzero) in *. set (butlast := nth (length rs - 2) rs fzero) in *.
  assert (L : forall z, raised || (Bltb z second || Bltb butlast z) || (Bltb (p_x0 m) second || Bltb butlast (p_x0 m)) = true <->
    raised = true \/ exists z', (z' = z \/ z' = p_x0 m) /\ (Bltb z' second = true \/ Bltb butlast z' = true)).
  { intros z. rewrite !orb_true_iff. split.
    - intros [[R|R]|R]; [now left| |]; right; [exists z|exists (p_x0 m)]; (split; [now (left + right)|exact R]).
    - intros [R|(z' & [->| ->] & R)]; [left; now left|left; now right|now right]. }
  destruct (raised && _); [discriminate|].
  destruct (Bltb (p_x0 m) (hd fzero zz)) eqn:O1; [|destruct (Bltb (last zz fzero) (p_x0 m)) eqn:O2]; cbn [orb] in H.
  - destruct (first_eq _ _ _); [|discriminate]. injection H as <-. cbn [k_z k_zerr k_chi2 k_bad k_limit].
    split; [reflexivity|]. split; [apply L|]. right. split; [reflexivity|now left].
  - destruct (first_eq _ _ _); [|discriminate]. injection H as <-. cbn [k_z k_zerr k_chi2 k_bad k_limit].
    split; [reflexivity|]. split; [apply L|]. right. split; [reflexivity|now right].
  - injection H as <-. cbn [k_z k_zerr k_chi2 k_bad k_limit].
    split; [reflexivity|]. split; [apply L|]. left. repeat (split; [reflexivity|]). reflexivity.
Qed.
End Any.

(* without a condition on LAPACK: a not-a-number among the coefficients gives a redshift that is not a number, and no flag *)
Theorem C178_not_a_number_refuted : exists square polyfit x y, squares square /\
  let m := minfit64 square polyfit x y in Forall finite x /\ p_bad m = false /\ is_nan (p_x0 m) = true.
Proof.
  exists (fun _ => fzero), (fun _ _ => Some (fint 1, B754_nan, fint 1)), [fint 1; fint 2; fint 3], [fint 1; fint 1; fint 1].
  split; [intros b _; split; reflexivity|]. cbn zeta. split; [repeat constructor; vm_compute; reflexivity|]. split; vm_compute; reflexivity.
Qed.
(* the parabola (z - 2)^2 + 5, fitted exactly: the row is z = 2, chi2 = 5, error 1, no flag; with its vertex beyond the grid, the last point, flagged *)
Definition par (b c : Z) (x y : list b64) := Some (fint 1, fint b, fint c).
Definition sq64 (b : b64) : b64 := fmul b b.
Definition grid64 : list b64 := map fint [0; 1; 2; 3; 4]%Z.
Definition shows (k : option picked) (z zerr chi2 : Z) (bad limit : bool) : bool :=
  match k with Some k => Beqb (k_z k) (fint z) && Beqb (k_zerr k) (fint zerr) && Beqb (k_chi2 k) (fint chi2) && Bool.eqb (k_bad k) bad && Bool.eqb (k_limit k) limit | None => false end.
Example C178_case :
  shows (settle sq64 (par (-4) 9) grid64 (map fint [1; 2; 3]%Z) (map fint [6; 5; 6]%Z) false) 2 1 5 false false = true /\
  shows (settle sq64 (par (-20) 101) grid64 (map fint [1; 2; 3]%Z) (map fint [82; 65; 50]%Z) false) 3 1 50 true true = true /\
  fits (par (-4) 9) /\ fine (map fint [1; 2; 3]%Z) (map fint [6; 5; 6]%Z).
Proof.
  split; [vm_compute; reflexivity|]. split; [vm_compute; reflexivity|]. split.
  - intros x y a b c H. injection H as <- <- <-. split; [|split; vm_compute; reflexivity]. split; [reflexivity|]. destruct one as [_ V]. change (Rabs (B2R (fint 1)) <= bpow radix2 1021). rewrite V.
    rewrite Rabs_R1. change 1 with (bpow radix2 0). apply bpow_le. lia.
  - split; [cbn; lia|]. split; [reflexivity|]. split; [repeat constructor; vm_compute; reflexivity|].
    assert (V : forall n, (Z.abs n <= 10)%Z -> finite (fint n) /\ B2R (fint n) = IZR n) by (intros n Hn; apply fint_val; cbn; lia).
    intros z Iz. change (hd fzero (map fint [1; 2; 3]%Z)) with (fint 1). change (last (map fint [1; 2; 3]%Z) fzero) with (fint 3).
    rewrite (proj2 (V 1%Z ltac:(lia))), (proj2 (V 3%Z ltac:(lia))). cbn [map In] in Iz.
    destruct Iz as [<-|[<-|[<-|[]]]]; [destruct (V 1%Z ltac:(lia)) as [F E]|destruct (V 2%Z ltac:(lia)) as [F E]|destruct (V 3%Z ltac:(lia)) as [F E]]; (split; [exact F|]; rewrite E; lra).
Qed.

Print Assumptions C178_unflagged. Print Assumptions C178_minfit. Print Assumptions C178_row. Print Assumptions C178_parabola. Print Assumptions C178_not_a_number_refuted.
