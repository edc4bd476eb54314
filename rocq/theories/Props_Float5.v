(* C173 (a flat spectrum stays flat), C174 (velocities), and more of C169, C172, in double precision. *)
From Verif Require Import Prelude.
From Coq Require Import Reals Lra.
From Flocq Require Import Core.Core IEEE754.BinarySingleNaN.
From Verif Require Import Model_Float Model_Float2 Spec_Float Proof_Float Proof_Float2 Proof_Float3 Proof_Float4 Proof_Float5 Proof_Float6 Proof_Float7 Proof_Float8 Proof_Float9 Props_Float3.
Import ListNotations.
Open Scope R_scope.

(* C174: the velocity between two redshifts, in km/s *)
Theorem C174_velocity : forall z zref,
  within 100 z -> within 100 zref -> - / 2 <= B2R zref ->
  B2R z = B2R zref \/ bpow radix2 (-900) <= Rabs (B2R z - B2R zref) ->
  let exact := 299792.458 * (B2R z - B2R zref) / (1 + B2R zref) in
  finite (get_dv z zref) /\ Rabs (B2R (get_dv z zref) - exact) <= 8 * half_ulp * Rabs exact.
Proof. exact dv_acc. Qed.
Example C174_case : within 100 (fint 1) /\ within 100 (fint 2) /\ - / 2 <= B2R (fint 1) /\
  bpow radix2 (-900) <= Rabs (B2R (fint 2) - B2R (fint 1)).
Proof.
  destruct one as [F1 E1], two as [F2 E2].
  assert (B : bpow radix2 1 <= bpow radix2 100) by (apply bpow_le; lia). change (bpow radix2 1) with 2 in B.
  assert (B' : bpow radix2 (-900) <= bpow radix2 0) by (apply bpow_le; lia). change (bpow radix2 0) with 1 in B'.
  split; [split; [easy|]; rewrite E1, Rabs_pos_eq; lra|]. split; [split; [easy|]; rewrite E2, Rabs_pos_eq; lra|].
  split; [lra|]. rewrite E1, E2, Rabs_pos_eq; lra.
Qed.

(* C169: equal spacing *)
Theorem C169_spacing_partial : forall lo hi n i, (2 <= n)%nat -> (Z.of_nat n <= 2 ^ 20)%Z ->
  within 900 lo -> within 900 hi -> bpow radix2 (-900) <= B2R hi - B2R lo -> (i < n)%nat ->
  Rabs (B2R (nth i (linspace lo hi n) fzero) - (B2R lo + INR i * (B2R hi - B2R lo) / INR (n - 1)))
    <= 8 * half_ulp * (Rabs (B2R lo) + Rabs (B2R hi)).
Proof.
  intros lo hi n i N2 N20 Wl Wh G Hi.
  assert (E : nth i (linspace lo hi n) fzero = lin_at lo hi n i).
  { unfold linspace. rewrite (nth_indep _ fzero (lin_at lo hi n 0)) by now rewrite map_length, seq_length.
    rewrite map_nth, seq_nth by easy. reflexivity. }
  rewrite E. now apply lin_spacing.
Qed.

(* C172: a pixel masked in every exposure gets the mean *)
Theorem C172_masked_partial : forall o ivar flux, each_once o (length flux) -> flux <> [] ->
  (Z.of_nat (length flux) <= 2 ^ 53)%Z -> Forall weight ivar -> Forall masked ivar ->
  finite (coadd_weight o ivar) -> finite (coadd_flux o ivar flux) -> 2 * INR (sdepth o) * half_ulp <= 1 ->
  let n := INR (length flux) in
  Rabs (B2R (coadd_flux o ivar flux) - total flux / n) <= 4 * INR (sdepth o + 1) * half_ulp * (total_abs flux / n) + tiny.
Proof. exact coadd_masked. Qed.
Example C172_masked_case : let o := STwo (SOne 0) (SOne 1) in let flux := [fint 8; fint 5] in let ivar := [fint 0; fint 0] in
  each_once o 2 /\ Forall weight ivar /\ Forall masked ivar /\ finite (coadd_weight o ivar) /\ finite (coadd_flux o ivar flux) /\
  2 * INR (sdepth o) * half_ulp <= 1 /\ Beqb (coadd_flux o ivar flux) (flit 13 (-1)) = true.
Proof.
  intros o flux ivar. destruct (fint_val 0 ltac:(lia)) as [F0 E0].
  assert (H : half_ulp <= bpow radix2 (-6)) by (apply bpow_le; lia). change (bpow radix2 (-6)) with (/ 64) in H.
  split; [apply Permutation_refl|].
  split; [repeat (apply Forall_cons; [split; [exact F0|lra]|]); apply Forall_nil|].
  split; [repeat (apply Forall_cons; [exact E0|]); apply Forall_nil|].
  split; [reflexivity|]. split; [reflexivity|].
  split; [unfold o; cbn [sdepth Nat.max INR]; lra|]. vm_compute. reflexivity.
Qed.

(* C173 *)

Lemma trapz_rows x y edges z zs r :
  length y = length x -> x <> [] -> Forall (within 500) x -> 0 <= B2R (hd fzero x) -> 0 <= B2R (last x fzero) ->
  Forall (within 499) (z :: zs) -> rising edges -> edges <> [] -> trapz x y edges z zs = Ok r ->
  Forall (fun w => exists v, In v (z :: zs) /\ trapz_1d (shifted x v) y edges = Ok w /\
    B2R (hd fzero (shifted x v)) <= B2R (hd fzero edges) /\ B2R (last edges fzero) <= B2R (last (shifted x v) fzero)) r.
Proof.
  intros Ly Nx Wx P0 P1 Wz R Ne E.
  destruct (C170_every_redshift x y edges z zs Ly Nx Wx P0 P1 Wz R Ne) as [_ Bad].
  assert (Wh : within 500 (hd fzero x)) by (destruct x; [easy|]; now inversion Wx).
  assert (Wl : within 500 (last x fzero)).
  { rewrite Forall_forall in Wx. destruct (last_in x fzero) as [El|El]; [|now apply Wx]. rewrite <- El. split; [reflexivity|].
    change (B2R fzero) with 0. rewrite Rabs_R0. apply bpow_ge_0. }
  rewrite Forall_forall in Wz.
  assert (In1 : forall v, In v (z :: zs) -> B2R (hd fzero (shifted x v)) <= B2R (hd fzero edges) /\ B2R (last edges fzero) <= B2R (last (shifted x v) fzero)).
  { intros v Hv. destruct (one_plus _ (Wz _ Hv)) as [Wv Ev].
    assert (H1 : hd fzero (shifted x v) = fmul (hd fzero x) (fadd (fint 1) v)) by (destruct x; easy).
    assert (H2 : last (shifted x v) fzero = fmul (last x fzero) (fadd (fint 1) v)).
    { clear -Nx. unfold shifted. induction x as [|a [|b l] IH]; [easy|reflexivity|]. apply IH. easy. }
    rewrite H1, H2. destruct (rounds_prod_fin _ _ Wh Wv) as [_ ->]. destruct (rounds_prod_fin _ _ Wl Wv) as [_ ->]. rewrite Ev.
    destruct (Rle_dec (rnd (B2R (hd fzero x) * rnd (1 + B2R v))) (B2R (hd fzero edges))) as [C|C].
    - destruct (Rle_dec (B2R (last edges fzero)) (rnd (B2R (last x fzero) * rnd (1 + B2R v)))) as [D|D]; [auto|].
      rewrite Bad in E; [easy|]. apply Exists_exists. exists v. split; [exact Hv|]. intros [_ K]. now apply D.
    - rewrite Bad in E; [easy|]. apply Exists_exists. exists v. split; [exact Hv|]. intros [K _]. now apply C. }
  unfold trapz in E. cbv zeta in E. destruct (_ || _)%bool in E; [easy|].
  clear Bad Wz. revert r E. assert (G : forall l, incl l (z :: zs) -> forall r, mapM (fun z => trapz_1d (shifted x z) y edges) l = Ok r ->
     Forall (fun w => exists v, In v (z :: zs) /\ trapz_1d (shifted x v) y edges = Ok w /\
    B2R (hd fzero (shifted x v)) <= B2R (hd fzero edges) /\ B2R (last edges fzero) <= B2R (last (shifted x v) fzero)) r);
    [|apply (G (z :: zs)), incl_refl].
  induction l as [|v l IH]; intros I r E; cbn [mapM] in E; [injection E as <-; constructor|].
  destruct (trapz_1d (shifted x v) y edges) as [w|] eqn:Ew; [|easy]. cbn [rbind] in E.
  destruct (mapM _ l) as [ws|] eqn:Ews; [|easy]. cbn [rbind] in E. injection E as <-.
  assert (Hv : In v (z :: zs)) by (apply I; now left).
  constructor; [|apply (IH (fun a Ha => I a (or_intror Ha))); exact eq_refl].
  exists v. split; [exact Hv|]. split; [exact Ew|]. now apply In1.
Qed.

Lemma ascending_step : forall l, ascending l -> forall i, (S i < length l)%nat -> B2R (nth i l fzero) <= B2R (nth (S i) l fzero).
Proof.
  induction l as [|a [|b l] IH]; intros H i Hi; cbn [length] in Hi; [lia|lia|]. destruct H as [H1 H2].
  destruct i as [|i]; [exact H1|]. apply (IH H2). cbn [length]. lia.
Qed.

Theorem C173_flat : forall x y c edges z zs r,
  length y = length x -> x <> [] -> (Z.of_nat (length x) + 10 <= 2 ^ 50)%Z ->
  Forall (between 1 (bpow radix2 50)) x -> ascending x ->
  Forall (between 1 (bpow radix2 50)) edges -> rising edges -> edges <> [] ->
  Forall (between (- / 2) (bpow radix2 49)) (z :: zs) ->
  between (bpow radix2 (-100)) (bpow radix2 100) c -> Forall (fun v => v = c) y ->
  trapz x y edges z zs = Ok r ->
  Forall (Forall (fun v => finite v /\ Rabs (B2R v - B2R c) <= 2 * INR (length x + 9) * half_ulp * B2R c)) r.
Proof.
  intros x y c edges z zs r Ly Nx Lx Hx Ax He R Ne Hz [Fc Bc] Hy E. change half_ulp with u.
  pose proof u_pos as UP. pose proof u_small as US.
  assert (B50 : bpow radix2 50 <= bpow radix2 500) by (apply bpow_le; lia).
  assert (B49 : bpow radix2 49 <= bpow radix2 499) by (apply bpow_le; lia).
  assert (P50 : 1 <= bpow radix2 50) by (change 1 with (bpow radix2 0); apply bpow_le; lia).
  assert (P49 : 1 <= bpow radix2 49) by (change 1 with (bpow radix2 0); apply bpow_le; lia).
  assert (E50 : bpow radix2 50 = 2 * bpow radix2 49) by (change 50%Z with (49 + 1)%Z; apply bp1).
  assert (Wx : Forall (within 500) x).
  { eapply Forall_impl; [|exact Hx]. intros v [F B]. split; [exact F|]. rewrite Rabs_pos_eq; lra. }
  assert (Wz : Forall (within 499) (z :: zs)).
  { eapply Forall_impl; [|exact Hz]. intros v [F B]. split; [exact F|]. apply Rabs_le. lra. }
  assert (P0 : 0 <= B2R (hd fzero x)).
  { destruct x as [|v x]; [easy|]. inversion Hx as [|v' l' [_ B] _]; subst. cbn [hd]. lra. }
  assert (P1 : 0 <= B2R (last x fzero)).
  { destruct (last_in x fzero) as [El|El]; [rewrite <- El; cbn; lra|]. rewrite Forall_forall in Hx. destruct (Hx _ El) as [_ B]. lra. }
  pose proof (trapz_rows x y edges z zs r Ly Nx Wx P0 P1 Wz R Ne E) as Rows.
  eapply Forall_impl; [|exact Rows]. intros w (v & Hv & Ew & B1 & B2). clear Rows.
  rewrite Forall_forall in Hz. destruct (Hz v Hv) as [Fv Bv]. rewrite Forall_forall in Wz. destruct (one_plus v (Wz v Hv)) as [W1 E1].
  set (s := fadd (fint 1) v) in *.
  assert (Hf : exists h : b64, B2R h = / 2) by (exists fhalf; vm_compute; lra). destruct Hf as [h Eh].
  assert (S1 : / 2 <= B2R s).
  { rewrite E1, <- Eh. apply rnd_ge_B. rewrite Eh. lra. }
  assert (S2 : B2R s <= bpow radix2 50).
  { rewrite E1. destruct (fint_val (2 ^ 50) ltac:(lia)) as [F5 E5]. change (IZR (2 ^ 50)) with (bpow radix2 50) in E5.
    rewrite <- E5. apply rnd_le_B. rewrite E5. lra. }
  assert (Gs : forall a, In a x -> finite (fmul a s) /\ B2R (fmul a s) = rnd (B2R a * B2R s) /\ good (fmul a s)).
  { intros a Ha. rewrite Forall_forall in Wx, Hx. destruct (rounds_prod_fin a s (Wx a Ha) W1) as [Fm Em].
    split; [exact Fm|]. split; [exact Em|]. split; [exact Fm|]. rewrite Em. destruct (Hx a Ha) as [_ Ba]. split.
    - rewrite <- Eh. apply rnd_ge_B. rewrite Eh. nra.
    - pose proof (mul_rounds a s (proj1 (Hx a Ha)) (proj1 W1)) as RR.
      destruct (pow2 101 _ _ ltac:(lia) RR) as [_ BB].
      { rewrite Rabs_pos_eq by nra. apply (Rle_trans _ (bpow radix2 50 * bpow radix2 50)); [apply Rmult_le_compat; lra|].
        rewrite <- bpow_plus. apply bpow_le. lia. }
      rewrite Em in BB. apply Rabs_le_inv in BB. lra. }
  set (X := shifted x v) in *.
  assert (LX : length X = length x) by (unfold X, shifted; apply map_length).
  assert (GX : Forall good X).
  { apply Forall_forall. intros a Ha. apply in_map_iff in Ha. destruct Ha as (b & <- & Hb). now apply Gs. }
  assert (NX : forall i, (i < length x)%nat -> nth i X fzero = fmul (nth i x fzero) s).
  { intros i Hi. unfold X, shifted. rewrite (nth_indep _ fzero (fmul fzero s)) by now rewrite map_length.
    exact (map_nth (fun a => fmul a s) x fzero i). }
  assert (AX : forall i, (S i < length X)%nat -> B2R (nth i X fzero) <= B2R (nth (S i) X fzero)).
  { intros i Hi. rewrite LX in Hi. rewrite !NX by lia.
    destruct (Gs (nth i x fzero) (@nth_In _ i x fzero ltac:(lia))) as (_ & -> & _). destruct (Gs (nth (S i) x fzero) (@nth_In _ (S i) x fzero ltac:(lia))) as (_ & -> & _).
    apply rnd_mono, Rmult_le_compat_r; [lra|]. now apply ascending_step. }
  assert (Ge : Forall good edges).
  { eapply Forall_impl; [|exact He]. intros a [Fa Ba]. split; [exact Fa|].
    assert (bpow radix2 50 <= bpow radix2 101) by (apply bpow_le; lia). lra. }
  assert (X0 : X <> []) by (destruct x; easy).
  assert (LX0 : (0 < length X)%nat) by (destruct X; [easy|cbn [length]; lia]).
  assert (H0 : hd fzero X = nth 0 X fzero) by now destruct X.
  assert (H1 : last X fzero = nth (length X - 1) X fzero).
  { clear. induction X as [|a [|b l] IH]; [reflexivity|reflexivity|].
    change (last (a :: b :: l) fzero) with (last (b :: l) fzero). rewrite IH. cbn [length]. now rewrite !Nat.sub_succ, !Nat.sub_0_r. }
  rewrite H0 in B1. rewrite H1 in B2.
  unfold trapz_1d in Ew. destruct (fbins X y edges 0) as [bs|] eqn:Eb; [|easy]. cbn [rbind] in Ew.
  assert (LyX : length y = length X) by congruence.
  assert (LX' : (Z.of_nat (length X) + 10 <= 2 ^ 50)%Z) by now rewrite LX.
  pose proof (fbins_flat c Fc Bc X y LyX GX Hy AX LX' edges R Ge 0 (length X - 1) bs ltac:(lia) B2 B1 ltac:(lia) (or_introl eq_refl) Eb) as Nb.
  pose proof (fnormalise_flat c Bc X y LyX LX' edges R Ge bs w Nb Ew) as Nw. rewrite LX in Nw.
  eapply Forall_impl; [|exact Nw]. intros a (Fa & La & Ua). split; [exact Fa|].
  set (k := (length x + 9)%nat) in *.
  assert (KU : 2 * INR k * u <= 1).
  { assert (INR k <= bpow radix2 50).
    { rewrite INR_IZR_INZ. change (bpow radix2 50) with (IZR (2 ^ 50)). apply IZR_le. unfold k. lia. }
    apply (Rle_trans _ (2 * bpow radix2 50 * u)); [apply Rmult_le_compat_r; lra|].
    unfold u. rewrite Rmult_assoc, <- bpow_plus. change (bpow radix2 (50 + -53)) with (/ 8). lra. }
  pose proof (pow_up' k KU) as PU. pose proof (bpow_gt_0 radix2 (-100)) as C0.
  assert (PD : 1 - INR k * u <= (1 - u) ^ k).
  { clear - UP. induction k as [|k IH]; [cbn; lra|]. rewrite S_INR. cbn [pow].
    assert (0 <= INR k) by apply pos_INR.
    assert ((1 - u) * (1 - INR k * u) <= (1 - u) * (1 - u) ^ k) by (apply Rmult_le_compat_l; lra).
    assert (0 <= INR k * u * u) by (apply Rmult_le_pos; [apply Rmult_le_pos; lra|lra]). lra. }
  assert (K0 : 0 <= INR k) by apply pos_INR. set (C := B2R c) in *.
  assert (T1 : (1 + u) ^ k * C <= (1 + 2 * INR k * u) * C) by (apply Rmult_le_compat_r; lra).
  assert (T2 : (1 - INR k * u) * C <= (1 - u) ^ k * C) by (apply Rmult_le_compat_r; lra).
  assert (0 <= INR k * u * C) by (apply Rmult_le_pos; [apply Rmult_le_pos; lra|lra]).
  apply Rabs_le. lra.
Qed.

Example C173_case :
  let x := [fint 100; fint 200; fint 400; fint 700] in
  Forall (between 1 (bpow radix2 50)) x /\ ascending x /\
  Forall (between 1 (bpow radix2 50)) [fint 250; fint 333; fint 390] /\ rising [fint 250; fint 333; fint 390] /\
  Forall (between (- / 2) (bpow radix2 49)) [fint 0; fint 1] /\ between (bpow radix2 (-100)) (bpow radix2 100) (fint 7) /\
  match trapz x [fint 7; fint 7; fint 7; fint 7] [fint 250; fint 333; fint 390] (fint 0) [fint 1] with Ok [[_; _]; [_; _]] => true | _ => false end = true.
Proof.
  intros x. assert (V : forall n, (0 <= n <= 1000)%Z -> finite (fint n) /\ B2R (fint n) = IZR n) by (intros n Hn; apply fint_val; lia).
  assert (W : forall n, (1 <= n <= 1000)%Z -> between 1 (bpow radix2 50) (fint n)).
  { intros n Hn. destruct (V n ltac:(lia)) as [F E]. split; [exact F|]. rewrite E.
    assert (B : bpow radix2 10 <= bpow radix2 50) by (apply bpow_le; lia). change (bpow radix2 10) with 1024 in B.
    assert (1 <= IZR n <= 1000) by (split; apply IZR_le; lia). lra. }
  destruct (V 100%Z ltac:(lia)) as [F1 E1], (V 200%Z ltac:(lia)) as [F2 E2], (V 400%Z ltac:(lia)) as [F4 E4], (V 700%Z ltac:(lia)) as [F7 E7].
  destruct (V 250%Z ltac:(lia)) as [G1 H1], (V 333%Z ltac:(lia)) as [G2 H2], (V 390%Z ltac:(lia)) as [G3 H3].
  destruct (V 0%Z ltac:(lia)) as [Z0 Z0'], (V 1%Z ltac:(lia)) as [O1 O1'], (V 7%Z ltac:(lia)) as [S7 S7'].
  assert (B49 : bpow radix2 0 <= bpow radix2 49) by (apply bpow_le; lia). change (bpow radix2 0) with 1 in B49.
  assert (Bm : bpow radix2 (-100) <= bpow radix2 0) by (apply bpow_le; lia). change (bpow radix2 0) with 1 in Bm.
  assert (Bp : bpow radix2 3 <= bpow radix2 100) by (apply bpow_le; lia). change (bpow radix2 3) with 8 in Bp.
  split; [repeat (apply Forall_cons; [apply W; lia|]); apply Forall_nil|].
  split; [unfold x; cbn [ascending]; lra|].
  split; [repeat (apply Forall_cons; [apply W; lia|]); apply Forall_nil|].
  split; [constructor; [easy|lra|]; constructor; [easy|lra|]; now constructor|].
  split; [repeat (apply Forall_cons; [split; [assumption|lra]|]); apply Forall_nil|].
  split; [split; [exact S7|lra]|]. vm_compute. reflexivity.
Qed.

Print Assumptions C174_velocity.
Print Assumptions C169_spacing_partial.
Print Assumptions C172_masked_partial.
Print Assumptions C173_flat.
