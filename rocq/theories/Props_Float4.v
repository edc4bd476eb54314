(* C171-C172: rebinned values that stay non-negative, and coadded spectra, in double precision. *)
From Verif Require Import Prelude.
From Coq Require Import Reals Lra.
From Flocq Require Import Core.Core IEEE754.BinarySingleNaN.
From Verif Require Import Model_Float Model_Float2 Spec_Float Proof_Float Proof_Float2 Proof_Float3 Proof_Float4 Proof_Float5 Proof_Float6 Proof_Float7 Props_Float3.
Import ListNotations.
Open Scope R_scope.

(* C171 *)
Theorem C171_not_negative_partial : forall x y edges z zs r,
  length y = length x -> x <> [] -> Forall (within 500) x -> 0 <= B2R (hd fzero x) -> 0 <= B2R (last x fzero) ->
  Forall (within 499) (z :: zs) -> rising edges -> edges <> [] ->
  Forall (fun z => tame (shifted x z) y) (z :: zs) ->
  trapz x y edges z zs = Ok r -> Forall (Forall not_negative) r.
Proof.
  intros x y edges z zs r Ly Nx Wx P0 P1 Wz R Ne Tm E.
  destruct (C170_every_redshift x y edges z zs Ly Nx Wx P0 P1 Wz R Ne) as [_ Bad].
  assert (Wh : within 500 (hd fzero x)) by (destruct x; [easy|]; now inversion Wx).
  assert (Wl : within 500 (last x fzero)).
  { rewrite Forall_forall in Wx. destruct (last_in x fzero) as [El|El]; [|now apply Wx]. rewrite <- El. split; [reflexivity|].
    change (B2R fzero) with 0. rewrite Rabs_R0. apply bpow_ge_0. }
  rewrite Forall_forall in Wz, Tm.
  assert (In1 : forall v, In v (z :: zs) -> B2R (hd fzero (shifted x v)) <= B2R (hd fzero edges) /\ B2R (last edges fzero) <= B2R (last (shifted x v) fzero)).
  { intros v Hv. destruct (one_plus _ (Wz _ Hv)) as [Wv Ev].
    assert (H1 : hd fzero (shifted x v) = fmul (hd fzero x) (fadd (fint 1) v)) by (destruct x; easy).
    assert (H2 : last (shifted x v) fzero = fmul (last x fzero) (fadd (fint 1) v)).
    { clear -Nx. unfold shifted. induction x as [|a [|b l] IH]; [easy|reflexivity|]. apply IH. easy. }
    rewrite H1, H2. destruct (rounds_prod_fin _ _ Wh Wv) as [_ ->]. destruct (rounds_prod_fin _ _ Wl Wv) as [_ ->]. rewrite Ev.
    destruct (Rle_dec (rnd (B2R (hd fzero x) * rnd (1 + B2R v))) (B2R (hd fzero edges))) as [C|C].
    - destruct (Rle_dec (B2R (last edges fzero)) (rnd (B2R (last x fzero) * rnd (1 + B2R v)))) as [D|D]; [auto|].
      rewrite Bad in E; [easy|]. apply Exists_exists. exists v. split; [exact Hv|]. intros [_ K]. now apply D.
    - rewrite Bad in E; [easy|]. apply Exists_exists. exists v. split; [exact Hv|]. intros [K _]. now apply C. }
  unfold trapz in E. cbv zeta in E. destruct (_ || _)%bool in E; [easy|].
  clear Bad Wz. revert r E. assert (G : forall l, incl l (z :: zs) -> forall r, mapM (fun z => trapz_1d (shifted x z) y edges) l = Ok r -> Forall (Forall not_negative) r);
    [|apply (G (z :: zs)), incl_refl].
  induction l as [|v l IH]; intros I r E; cbn [mapM] in E; [injection E as <-; constructor|].
  destruct (trapz_1d (shifted x v) y edges) as [w|] eqn:Ew; [|easy]. cbn [rbind] in E.
  destruct (mapM _ l) as [ws|] eqn:Ews; [|easy]. cbn [rbind] in E. injection E as <-.
  assert (Hv : In v (z :: zs)) by (apply I; now left).
  constructor; [|apply (IH (fun a Ha => I a (or_intror Ha))); exact eq_refl].
  destruct (In1 v Hv) as [B1 B2]. pose proof (trapz_1d_nneg _ _ _ _ (Tm v Hv) R B1 B2 Ew) as K.
  eapply Forall_impl; [|exact K]. intros a Ha. now apply nneg_ltb.
Qed.

(* a spectrum that is zero at one sample: the rebinned value there is -2^-52 *)
Definition x0 : b64 := flit 4964492147562694 (-52).
Definition x1 : b64 := flit 5026079442990486 (-48).
Definition e1 : b64 := flit 4964492147562695 (-52).
Definition y1 : b64 := flit 8655268797808740 (-52).
Lemma pick (m : res (list (list b64))) :
  match m with Ok [[r]] => Bltb r fzero && is_finite r | _ => false end%bool = true -> exists r, m = Ok [[r]] /\ B2R r < 0.
Proof.
  destruct m as [[|[|r [|? ?]] [|? ?]]|]; try discriminate. intros C. exists r. split; [reflexivity|].
  apply andb_true_iff in C. destruct C as [C Fr]. rewrite ltb_fin in C by (exact Fr || reflexivity).
  revert C. now case Rlt_bool_spec.
Qed.
Theorem C171_not_negative_refuted : exists x y edges z r,
  rising x /\ Forall weight y /\ rising edges /\
  trapz x y edges z [] = Ok [[r]] /\ B2R r < 0.
Proof.
  assert (C : exists r, trapz [x0; x1] [fzero; y1] [x0; e1] fzero [] = Ok [[r]] /\ B2R r < 0)
    by (apply pick; vm_compute; reflexivity).
  destruct C as (r & Et & Neg).
  exists [x0; x1], [fzero; y1], [x0; e1], fzero, r.
  assert (X0 : finite x0 /\ B2R x0 = 4964492147562694 / 2 ^ 52) by (split; [reflexivity|vm_compute; lra]).
  assert (X1 : finite x1 /\ B2R x1 = 5026079442990486 / 2 ^ 48) by (split; [reflexivity|vm_compute; lra]).
  assert (E1 : finite e1 /\ B2R e1 = 4964492147562695 / 2 ^ 52) by (split; [reflexivity|vm_compute; lra]).
  assert (Y1 : finite y1 /\ B2R y1 = 8655268797808740 / 2 ^ 52) by (split; [reflexivity|vm_compute; lra]).
  destruct X0, X1, E1, Y1.
  split; [constructor; [easy|lra|]; now constructor|].
  split; [apply Forall_cons; [apply zero_weight|]; apply Forall_cons; [split; [easy|lra]|apply Forall_nil]|].
  split; [constructor; [easy|lra|]; now constructor|].
  split; [exact Et|exact Neg].
Qed.

Lemma int_eq (a : b64) n : (Z.leb (Z.abs n) (2 ^ 53) && is_finite a && Beqb a (fint n))%bool = true -> finite a /\ B2R a = IZR n.
Proof.
  intros H. apply andb_true_iff in H. destruct H as [H E]. apply andb_true_iff in H. destruct H as [L F].
  apply Z.leb_le in L. destruct (fint_val n L) as [Fn En]. split; [exact F|]. rewrite <- En.
  rewrite eqb_fin in E by assumption. revert E. now case Req_bool_spec.
Qed.

(* three samples a factor of two apart, rebinned at redshift one *)
Example C171_case :
  let x := [fint 100; fint 200; fint 400] in let y := [fint 4; fint 2; fint 1] in
  Forall (within 500) x /\ Forall (fun z => tame (shifted x z) y) [fint 1] /\
  rising [fint 300; fint 500] /\
  match trapz x y [fint 300; fint 500] (fint 1) [] with Ok [[_]] => true | _ => false end = true.
Proof.
  intros x y.
  assert (V : forall n, (0 <= n <= 1000)%Z -> finite (fint n) /\ B2R (fint n) = IZR n) by (intros n Hn; apply fint_val; lia).
  assert (W : forall k n, (10 <= k)%Z -> (0 <= n <= 1000)%Z -> within k (fint n)).
  { intros k n Hk Hn. destruct (V n Hn) as [F E]. split; [exact F|]. rewrite E.
    assert (B : bpow radix2 10 <= bpow radix2 k) by (apply bpow_le; lia). change (bpow radix2 10) with 1024 in B.
    assert (0 <= IZR n <= 1000) by (split; apply IZR_le; lia). rewrite Rabs_pos_eq; lra. }
  assert (S : forall n, (n = 100 \/ n = 200 \/ n = 400)%Z -> finite (fmul (fint n) (fadd (fint 1) (fint 1))) /\ B2R (fmul (fint n) (fadd (fint 1) (fint 1))) = IZR (2 * n)).
  { intros n [->|[->| ->]]; (apply int_eq; vm_compute; reflexivity). }
  destruct (S 100%Z ltac:(auto)) as [S1 T1], (S 200%Z ltac:(auto)) as [S2 T2], (S 400%Z ltac:(auto)) as [S3 T3].
  destruct (V 4%Z ltac:(lia)) as [F4 E4], (V 2%Z ltac:(lia)) as [F2 E2], (V 1%Z ltac:(lia)) as [F1 E1'].
  destruct (V 300%Z ltac:(lia)) as [F300 E300], (V 500%Z ltac:(lia)) as [F500 E500].
  assert (B : bpow radix2 10 <= bpow radix2 400) by (apply bpow_le; lia). change (bpow radix2 10) with 1024 in B.
  assert (B' : bpow radix2 (-400) <= bpow radix2 0) by (apply bpow_le; lia). change (bpow radix2 0) with 1 in B'.
  assert (H : half_ulp <= bpow radix2 (-6)) by (apply bpow_le; lia). change (bpow radix2 (-6)) with (/ 64) in H.
  assert (Ws : forall n, (n = 100 \/ n = 200 \/ n = 400)%Z -> within 400 (fmul (fint n) (fadd (fint 1) (fint 1)))).
  { intros n Hn. destruct (S n Hn) as [Sn Tn]. split; [exact Sn|]. rewrite Tn.
    assert (0 <= IZR (2 * n) <= 1000) by (split; apply IZR_le; lia). rewrite Rabs_pos_eq; lra. }
  split; [repeat (apply Forall_cons; [apply W; lia|]); apply Forall_nil|].
  split.
  { apply Forall_cons; [|apply Forall_nil]. unfold x, y. cbn [shifted map tame].
    change (2 * 100)%Z with 200%Z in T1. change (2 * 200)%Z with 400%Z in T2. change (2 * 400)%Z with 800%Z in T3.
    rewrite T1, T2, T3, E4, E2, E1'. split; [apply Ws; auto|]. split; [lra|]. split; [apply W; lia|]. split; [lra|]. split; [lra|]. split; [lra|]. split; [apply Ws; auto|]. split; [lra|]. split; [apply W; lia|]. split; [lra|]. split; [lra|]. split; [lra|]. split; [apply Ws; auto|]. split; [apply W; lia|lra]. }
  split; [constructor; [easy|lra|]; now constructor|]. vm_compute. reflexivity.
Qed.

(* C172.  ivar and flux: the exposures at one pixel; o: any order of summation *)
Theorem C172_weight : forall o ivar, Forall weight ivar -> each_once o (length ivar) -> finite (coadd_weight o ivar) ->
  let W := B2R (coadd_weight o ivar) in
  (forall v, In v ivar -> B2R v <= W) /\
  (W = 0 <-> Forall masked ivar) /\
  (1 - half_ulp) ^ sdepth o * total ivar <= W <= (1 + half_ulp) ^ sdepth o * total ivar.
Proof.
  intros o ivar Wv O F W. unfold W, coadd_weight in *. unfold each_once in O.
  destruct (fsum_ge o ivar Wv F) as [P G]. destruct (fsum_acc o ivar Wv F) as (_ & L & U).
  rewrite (term_sum_perm _ _ _ O), <- total_sum in L, U.
  assert (A : forall v, In v ivar -> B2R v <= B2R (fsum o ivar)).
  { intros v Hv. apply (In_nth _ _ fzero) in Hv. destruct Hv as (i & Hi & <-). apply G.
    apply (Permutation_in _ (Permutation_sym O)), in_seq. lia. }
  split; [exact A|]. split; [|exact (conj L U)]. split.
  - intros Z. apply Forall_forall. intros v Hv. specialize (A v Hv). rewrite Forall_forall in Wv.
    destruct (Wv v Hv) as [_ Pv]. unfold masked. lra.
  - intros M. assert (T : total ivar = 0).
    { clear - M. induction M as [|v l Hv M IH]; [reflexivity|]. cbn [total]. rewrite Hv, IH. lra. }
    rewrite T in L, U. rewrite !Rmult_0_r in *. lra.
Qed.

Theorem C172_flux_accuracy_partial : forall o ivar flux, length ivar = length flux -> each_once o (length flux) ->
  Forall weight ivar -> Forall2 no_underflow ivar flux -> 0 < total ivar ->
  finite (coadd_weight o ivar) -> finite (coadd_flux o ivar flux) ->
  4 * INR (sdepth o + 1) * half_ulp <= 1 ->
  Rabs (B2R (coadd_flux o ivar flux) - weighted ivar flux / total ivar) <=
    8 * INR (sdepth o + 2) * half_ulp * (weighted_abs ivar flux / total ivar) + tiny.
Proof. exact coadd_acc. Qed.

(* the coadd of one exposure is not that exposure, and of two equal fluxes not that flux *)
Definition fA : b64 := flit 8733151446905110 (-52).
Definition vA : b64 := flit 6220390890175184 (-52).
Definition fB : b64 := flit 5869849940163926 (-52).
Definition vB : b64 := flit 7149827426248760 (-52).
Lemma below (a b : b64) : (Bltb a b && is_finite a && is_finite b)%bool = true -> B2R a < B2R b.
Proof.
  intros H. apply andb_true_iff in H. destruct H as [H Fb]. apply andb_true_iff in H. destruct H as [H Fa].
  rewrite ltb_fin in H by assumption. revert H. now case Rlt_bool_spec.
Qed.
Theorem C172_one_exposure_refuted :
  (exists iv f, weight iv /\ 0 < B2R iv /\ finite f /\ B2R (coadd_flux (SOne 0) [iv] [f]) < B2R f) /\
  (exists iv f, weight iv /\ 0 < B2R iv /\ finite f /\ B2R f < B2R (coadd_flux (SOne 0) [iv] [f])).
Proof.
  assert (VA : B2R vA = 6220390890175184 / 2 ^ 52) by (vm_compute; lra).
  assert (VB : B2R vB = 7149827426248760 / 2 ^ 52) by (vm_compute; lra).
  split.
  - exists vA, fA. split; [split; [reflexivity|rewrite VA; lra]|]. split; [rewrite VA; lra|]. split; [reflexivity|].
    apply below. vm_compute. reflexivity.
  - exists vB, fB. split; [split; [reflexivity|rewrite VB; lra]|]. split; [rewrite VB; lra|]. split; [reflexivity|].
    apply below. vm_compute. reflexivity.
Qed.

Example C172_case : let o := STwo (SOne 0) (STwo (SOne 1) (SOne 2)) in
  let ivar := [fint 1; fint 0; fint 3] in let flux := [fint 8; fint 5; fint 4] in
  each_once o 3 /\ Forall weight ivar /\ Forall2 no_underflow ivar flux /\ 0 < total ivar /\
  finite (coadd_weight o ivar) /\ finite (coadd_flux o ivar flux) /\ 4 * INR (sdepth o + 1) * half_ulp <= 1 /\
  Beqb (coadd_flux o ivar flux) (fint 5) = true.
Proof.
  intros o ivar flux.
  assert (V : forall n, (0 <= n <= 1000)%Z -> finite (fint n) /\ B2R (fint n) = IZR n) by (intros n Hn; apply fint_val; lia).
  destruct (V 0%Z ltac:(lia)) as [F0 E0], (V 1%Z ltac:(lia)) as [F1 E1], (V 3%Z ltac:(lia)) as [F3 E3].
  destruct (V 8%Z ltac:(lia)) as [F8 E8], (V 5%Z ltac:(lia)) as [F5 E5], (V 4%Z ltac:(lia)) as [F4 E4].
  assert (H : half_ulp <= bpow radix2 (-6)) by (apply bpow_le; lia). change (bpow radix2 (-6)) with (/ 64) in H.
  assert (B' : bpow radix2 (-1022) <= bpow radix2 0) by (apply bpow_le; lia). change (bpow radix2 0) with 1 in B'.
  split; [apply Permutation_refl|].
  split; [repeat (apply Forall_cons; [split; [assumption|lra]|]); apply Forall_nil|].
  split.
  { unfold ivar, flux, no_underflow. apply Forall2_cons; [right; rewrite E1, E8, Rabs_pos_eq; lra|].
    apply Forall2_cons; [left; rewrite E0; lra|]. apply Forall2_cons; [right; rewrite E3, E4, Rabs_pos_eq; lra|]. constructor. }
  split; [unfold ivar; cbn [total]; lra|]. split; [reflexivity|]. split; [reflexivity|].
  split; [unfold o; cbn [sdepth Nat.max Nat.add INR]; lra|]. vm_compute. reflexivity.
Qed.

Print Assumptions C171_not_negative_partial.
Print Assumptions C171_not_negative_refuted.
Print Assumptions C172_weight.
Print Assumptions C172_flux_accuracy_partial.
Print Assumptions C172_one_exposure_refuted.
