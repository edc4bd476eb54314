(* C165-C167: differences of chi2, the SMALL_DELTA_CHI2 flag, and the reduced
   wavelength in double precision. *)
From Coq Require Import ZArith Reals Lra Lia List Bool.
From Flocq Require Import Core.Core IEEE754.BinarySingleNaN.
From Verif Require Import Model_Float Spec_Float Proof_Float Proof_Float2 Proof_Float3.
Import ListNotations.
Open Scope R_scope.

(* C165.  The reported delta chi2 of a candidate c, in a list sorted by chi2 *)
Theorem C165_deltachi2 : forall pre c later,
  Forall (fun d => weight (c_chi2 d)) (pre ++ c :: later) ->
  Forall (fun d => B2R (c_chi2 c) <= B2R (c_chi2 d)) later ->
  let delta := nth (length pre) (deltas (pre ++ c :: later)) fzero in
  let counts d := In d later /\ c_ok d = true /\
    Bltb (fmin (c_lim c) (c_lim d)) (fabs (get_dv (c_z d) (c_z c))) = true in
  weight delta /\
  (forall d, counts d -> B2R delta <= rounded (B2R (c_chi2 d) - B2R (c_chi2 c))) /\
  ((exists d, counts d) -> exists d, counts d /\
     (forall e, counts e -> B2R (c_chi2 d) <= B2R (c_chi2 e)) /\
     B2R delta = rounded (B2R (c_chi2 d) - B2R (c_chi2 c))) /\
  (B2R delta = 0 <-> (forall d, ~ counts d) \/ exists d, counts d /\ B2R (c_chi2 d) = B2R (c_chi2 c)).
Proof.
  intros pre c later W S delta counts. unfold delta. rewrite deltas_nth.
  apply Forall_app in W. destruct W as [_ W]. inversion W as [|c' l' Wc Wl]; subst.
  assert (CE : forall d, counts d <-> In d later /\ eligible c d = true).
  { intros d. unfold counts, eligible. rewrite andb_true_iff. intuition. }
  destruct (delta_spec c later Wc Wl S) as [[E N]|(d & Id & Ed & Md & Wd & Vd)].
  - rewrite E. assert (N' : forall d, ~ counts d).
    { intros d Hd. apply CE in Hd. destruct Hd as [I H]. rewrite N in H by easy. discriminate. }
    split; [apply zero_weight|]. split; [intros d Hd; now apply N' in Hd|].
    split; [intros (d & Hd); now apply N' in Hd|]. split; [now left|reflexivity].
  - assert (Cd : counts d) by now apply CE. assert (Md' : forall e, counts e -> B2R (c_chi2 d) <= B2R (c_chi2 e)).
    { intros e He. apply CE in He. now apply Md. }
    split; [easy|]. split.
    { intros e He. rewrite Vd. apply rnd_mono. specialize (Md' e He). lra. }
    split; [intros _; exists d; auto|]. rewrite Vd. split.
    + intros Z. right. exists d. split; [easy|]. now apply diff_zero.
    + intros [N|(e & Ce & Ee)]; [now apply N in Cd|].
      assert (B2R (c_chi2 d) = B2R (c_chi2 c)).
      { apply Rle_antisym; [rewrite <- Ee; now apply Md'|]. rewrite Forall_forall in S. now apply S. }
      rewrite H, Rminus_diag_eq by reflexivity. apply rnd_0.
Qed.

Definition cnd (chi2 z : b64) : cand := {| c_chi2 := chi2; c_z := z; c_ok := true; c_lim := fint 1000 |}.
(* two candidates a whole unit of redshift apart, chi2 2^53 and 2^53 + 2 (the next float), and 5 *)
Example C165_case :
  map (fun d => Beqb d (fint (2 ^ 53 - 5)) || Beqb d (fint 2) || Beqb d fzero)%bool
    (deltas [cnd (fint 5) (fint 0); cnd (fint (2 ^ 53)) (fint 1); cnd (fint (2 ^ 53 + 2)) (fint 2)]) = [true; true; true].
Proof. vm_compute. reflexivity. Qed.

(* C166 *)
Theorem C166_flag_means_close : forall c others,
  weight (c_chi2 c) -> Forall (fun d => weight (c_chi2 d)) others ->
  small_delta c others = true ->
  exists d, In d others /\ c_ok d = true /\ Rabs (B2R (c_chi2 d) - B2R (c_chi2 c)) < 9 /\
    Bleb (fmin (c_lim c) (c_lim d)) (fabs (get_dv (c_z d) (c_z c))) = true.
Proof.
  intros c others Wc Wl H. unfold small_delta in H. apply existsb_exists in H. destruct H as (d & I & H).
  apply andb_true_iff in H. destruct H as [H Hv]. apply andb_true_iff in H. destruct H as [Ho Hl].
  rewrite Forall_forall in Wl. destruct (abs_sub_weights _ _ Wc (Wl d I)) as [F E]. destruct nine as [F9 E9].
  rewrite ltb_fin, E, E9 in Hl by assumption. exists d. split; [easy|]. split; [easy|]. split; [|easy].
  revert Hl. case Rlt_bool_spec; [intros Hl _|discriminate].
  apply Rnot_le_lt. intros C. apply Rlt_not_le in Hl. apply Hl.
  rewrite <- E9. apply abs_round_ge_generic; auto with typeclass_instances.
  - apply fmt.
  - now rewrite E9.
Qed.

Theorem C166_close_means_flag_partial : forall c others d,
  weight (c_chi2 c) -> Forall (fun d => weight (c_chi2 d)) others ->
  In d others -> c_ok d = true ->
  Rabs (B2R (c_chi2 d) - B2R (c_chi2 c)) <= 9 - bpow radix2 (-49) ->
  Bleb (fmin (c_lim c) (c_lim d)) (fabs (get_dv (c_z d) (c_z c))) = true ->
  small_delta c others = true.
Proof.
  intros c others d Wc Wl I Ho Hd Hv. apply existsb_exists. exists d. split; [easy|].
  rewrite Ho, Hv, andb_true_r. cbn [andb].
  rewrite Forall_forall in Wl. destruct (abs_sub_weights _ _ Wc (Wl d I)) as [F E]. destruct nine as [F9 E9].
  rewrite ltb_fin, E, E9 by assumption. apply Rlt_bool_true.
  apply (Rle_lt_trans _ (9 - bpow radix2 (-49))); [|pose proof (bpow_gt_0 radix2 (-49)); lra].
  apply abs_round_le_generic; auto with typeclass_instances.
  change (generic_format radix2 fexp (9 - bpow radix2 (-49))).
  rewrite fexp_FLT. apply generic_format_FLT.
  exists (Float radix2 (9 * 2 ^ 49 - 1) (-49)); [|reflexivity|cbn; lia].
  unfold F2R. cbn [Fnum Fexp]. rewrite minus_IZR, mult_IZR. change (IZR (2 ^ 49)) with (bpow radix2 49).
  rewrite Rmult_minus_distr_r, Rmult_assoc, <- bpow_plus. change (bpow radix2 (49 + -49)) with 1. rewrite Rmult_1_l. lra.
Qed.

Theorem C166_close_means_flag_refuted : exists c others d,
  weight (c_chi2 c) /\ Forall (fun d => weight (c_chi2 d)) others /\
  In d others /\ c_ok d = true /\ Rabs (B2R (c_chi2 d) - B2R (c_chi2 c)) < 9 /\
  Bleb (fmin (c_lim c) (c_lim d)) (fabs (get_dv (c_z d) (c_z c))) = true /\
  small_delta c others = false.
Proof.
  assert (V : B2R (flit 1 (-60)) = bpow radix2 (-60)).
  { vm_compute. lra. }
  exists (cnd (flit 1 (-60)) (fint 0)), [cnd (fint 9) (fint 1)], (cnd (fint 9) (fint 1)).
  destruct nine as [F9 E9]. pose proof (bpow_gt_0 radix2 (-60)).
  assert (bpow radix2 (-60) < bpow radix2 0) by (apply bpow_lt; lia). change (bpow radix2 0) with 1 in *.
  cbn [c_chi2 c_ok c_lim c_z cnd].
  split; [split; [reflexivity|rewrite V; lra]|]. split.
  { constructor; [|constructor]. split; [exact F9|]. cbn [c_chi2 cnd]. rewrite E9. lra. }
  split; [now left|]. split; [reflexivity|]. split; [rewrite V, E9, Rabs_right; lra|].
  split; vm_compute; reflexivity.
Qed.

(* C167 *)
Theorem C167_in_range_partial : forall x l,
  Forall (within 1000) (x :: l) ->
  B2R (minimum x l) < B2R (maximum x l) ->
  Forall2 (fun w r => finite r /\ -1 <= B2R r <= 1 /\
      ((forall v, In v (x :: l) -> B2R w <= B2R v) -> B2R r = -1) /\
      ((forall v, In v (x :: l) -> B2R v <= B2R w) -> B2R r = 1))
    (x :: l) (reduced_wavelength x l).
Proof.
  intros x l H L.
  assert (Hf : Forall finite (x :: l)) by (eapply Forall_impl; [|exact H]; intros a [Fa _]; exact Fa).
  inversion Hf as [|x' l' Fx Fl]; subst.
  destruct (minimum_spec x l Fx Fl) as [In1 M1]. destruct (maximum_spec x l Fx Fl) as [In2 M2].
  rewrite Forall_forall in H. unfold reduced_wavelength.
  set (wmin := minimum x l) in *. set (wmax := maximum x l) in *.
  assert (G : forall k, incl k (x :: l) -> Forall2 (fun w r => finite r /\ -1 <= B2R r <= 1 /\
      ((forall v, In v (x :: l) -> B2R w <= B2R v) -> B2R r = -1) /\
      ((forall v, In v (x :: l) -> B2R v <= B2R w) -> B2R r = 1)) k (map (reduced wmin wmax) k)); [|apply G, incl_refl].
  induction k as [|w k IH]; intros I; cbn [map]; constructor; [|apply IH; intros v Hv; apply I; now right].
  assert (Iw : In w (x :: l)) by (apply I; now left).
  destruct (reduced_spec wmin wmax w (H _ In1) (H _ In2) (H _ Iw) (conj (M1 _ Iw) (M2 _ Iw)) L) as (F & E & A & B & Q).
  split; [exact F|]. rewrite E. destruct (fint_val (-1) ltac:(cbn; lia)) as [Fm Em]. destruct one as [F1 E1]. destruct two as [F2 E2].
  assert (Rm : rnd (-1) = -1) by (rewrite <- Em; apply rnd_B). assert (R1 : rnd 1 = 1) by (rewrite <- E1; apply rnd_B).
  assert (R2 : rnd 2 = 2) by (rewrite <- E2; apply rnd_B).
  split; [|split].
  - split; [rewrite <- Rm at 1|rewrite <- R1 at 2]; apply rnd_mono; lra.
  - intros K. assert (Z : B2R w - B2R wmin = 0).
    { pose proof (K _ In1). pose proof (M1 _ Iw). lra. }
    rewrite Z, rnd_0. unfold Rdiv. rewrite Rmult_0_r, Rmult_0_l, rnd_0. rewrite Rminus_0_l. exact Rm.
  - intros K. assert (Z : B2R w = B2R wmax).
    { pose proof (K _ In2). pose proof (M2 _ Iw). lra. }
    rewrite Z. replace (2 * _ / _) with 2 by (field; lra). rewrite R2. replace (2 - 1) with 1 by lra. exact R1.
Qed.

Theorem C167_increasing_partial : forall x l w w',
  Forall (within 1000) (x :: l) -> B2R (minimum x l) < B2R (maximum x l) ->
  In w (x :: l) -> In w' (x :: l) -> B2R w <= B2R w' ->
  B2R (reduced (minimum x l) (maximum x l) w) <= B2R (reduced (minimum x l) (maximum x l) w').
Proof.
  intros x l w w' H L I I' W.
  assert (Hf : Forall finite (x :: l)) by (eapply Forall_impl; [|exact H]; intros a [Fa _]; exact Fa).
  inversion Hf as [|x' l' Fx Fl]; subst.
  destruct (minimum_spec x l Fx Fl) as [In1 M1]. destruct (maximum_spec x l Fx Fl) as [In2 M2].
  rewrite Forall_forall in H.
  set (wmin := minimum x l) in *. set (wmax := maximum x l) in *.
  destruct (reduced_spec wmin wmax w (H _ In1) (H _ In2) (H _ I) (conj (M1 _ I) (M2 _ I)) L) as (_ & -> & A & B & _).
  destruct (reduced_spec wmin wmax w' (H _ In1) (H _ In2) (H _ I') (conj (M1 _ I') (M2 _ I')) L) as (_ & -> & A' & _).
  apply rnd_mono. apply Rplus_le_compat_r. apply rnd_mono. unfold Rdiv. apply Rmult_le_compat_r; [left; now apply Rinv_0_lt_compat|].
  apply Rmult_le_compat_l; [lra|]. apply rnd_mono. lra.
Qed.

(* a grid of one wavelength (or of equal ones) divides zero by zero *)
Theorem C167_in_range_refuted : exists x l,
  Forall (within 1000) (x :: l) /\ Forall (fun r => is_nan r = true) (reduced_wavelength x l).
Proof.
  exists (fint 1), []. split.
  - constructor; [|constructor]. destruct one as [F E]. split; [exact F|]. rewrite E, Rabs_R1.
    change 1 with (bpow radix2 0). now apply bpow_le.
  - repeat constructor.
Qed.

Example C167_case : map (fun r => Beqb r (fint (-1)) || Beqb r (fint 1) || Beqb r fzero)%bool
  (reduced_wavelength (fint 3600) [fint 5200; fint 6800]) = [true; true; true].
Proof. vm_compute. reflexivity. Qed.

Print Assumptions C165_deltachi2.
Print Assumptions C166_flag_means_close.
Print Assumptions C166_close_means_flag_partial.
Print Assumptions C166_close_means_flag_refuted.
Print Assumptions C167_in_range_partial.
Print Assumptions C167_increasing_partial.
Print Assumptions C167_in_range_refuted.
