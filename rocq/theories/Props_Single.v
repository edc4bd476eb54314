(* C177: what is left of the results in the smaller types of the output files. *)
From Coq Require Import ZArith Reals Lra Lia List Bool String.
From Flocq Require Import Core.Core IEEE754.BinarySingleNaN.
From Verif Require Import Model_Float Spec_Float Proof_Float Proof_Float3 Props_Float2 Model_Single Spec_Single Proof_Single.
Import ListNotations.
Open Scope R_scope.

(* file y x: y is what a file keeps of the finite number x *)
Definition kept_as (x : b64) (y : b32) : Prop :=
  is_nan y = is_nan x /\
  (finite x -> Rabs (B2R x) < limit32 -> is_finite y = true /\ B2R y = rounded32 (B2R x) /\ Bsign y = Bsign x) /\
  (finite x -> normal32 <= Rabs (B2R x) < limit32 -> Rabs (B2R y - B2R x) <= bpow radix2 (-24) * Rabs (B2R x)) /\
  (finite x -> limit32 <= Rabs (B2R x) -> y = B754_infinity (Bsign x)) /\
  (forall s, x = B754_infinity s -> y = B754_infinity s).
Lemma kept x : kept_as x (to32 x).
Proof.
  split; [apply to32_nan|]. split; [intros F H; now apply to32_small|]. split.
  { intros F [L H]. destruct (to32_small x F H) as (_ & V & _). rewrite V. now apply rnd32_rel. }
  split; [intros F H; now apply to32_large|]. now intros s ->.
Qed.

(* one row: floating point columns to the nearest number of single precision, integers as they are when they fit *)
Definition row_kept (intbits : Z) (r : wide) (n : narrow) : Prop :=
  kept_as (w_zerr r) (n_zerr n) /\ kept_as (w_chi2 r) (n_chi2 n) /\ kept_as (w_delta r) (n_delta n) /\
  Forall2 kept_as (w_coeff r) (n_coeff n) /\
  (n_zwarn n = w_zwarn r <-> (- 2 ^ 31 <= w_zwarn r < 2 ^ 31)%Z) /\ (n_npix n = w_npix r <-> (- 2 ^ 31 <= w_npix r < 2 ^ 31)%Z) /\
  (n_ncoeff n = w_ncoeff r <-> (- 2 ^ (intbits - 1) <= w_ncoeff r < 2 ^ (intbits - 1))%Z) /\
  n_subtype n = w_subtype r.

Lemma coeffs l : Forall2 kept_as l (map to32 l).
Proof. induction l; cbn; constructor; auto using kept. Qed.

(* the table REDSHIFTS: the rows with znum = 0, in order; it cannot be written exactly when there is none *)
Theorem C177_redshifts : forall l,
  (redshifts l = None <-> forall r, In r l -> w_znum r <> 0%Z) /\
  forall out, redshifts l = Some out -> Forall2 (row_kept 16) (filter (fun r => (w_znum r =? 0)%Z) l) out.
Proof.
  intros l. unfold redshifts. split.
  - destruct (best l) as [|b t] eqn:E.
    + split; [intros _|reflexivity]. intros r H Z. assert (In r (best l)) by (apply filter_In; split; [easy|now apply Z.eqb_eq]). now rewrite E in H0.
    + split; [discriminate|]. intros H. assert (In b (best l)) by (rewrite E; now left). apply filter_In in H0. destruct H0 as [H0 Z].
      apply Z.eqb_eq in Z. now apply H in H0.
  - intros out H. assert (E : out = map (redshift_row (Nat.max 3 (maxlen (best l)))) (best l)) by (destruct (best l); [discriminate|now inversion H]).
    subst out. clear H. change (filter (fun r => (w_znum r =? 0)%Z) l) with (best l).
    assert (G : forall t, incl t (best l) -> Forall2 (row_kept 16) t (map (redshift_row (Nat.max 3 (maxlen (best l)))) t)).
    { induction t as [|r t IH]; intros I; cbn [map]; constructor; [|apply IH; intros x Hx; apply I; now right].
      unfold row_kept, redshift_row; cbn [n_zerr n_chi2 n_delta n_coeff n_zwarn n_npix n_ncoeff n_subtype].
      split; [apply kept|]. split; [apply kept|]. split; [apply kept|]. split; [apply coeffs|].
      split; [apply (wrap_id 32); lia|]. split; [apply (wrap_id 32); lia|]. split; [apply (wrap_id 16); lia|].
      apply cut_long. pose proof (maxlen_ge (best l) r (I r (or_introl eq_refl))). lia. }
    apply G. apply incl_refl.
Qed.
(* the zfit tables of the details file: every fit *)
Theorem C177_details : forall l, Forall2 (fun r n => row_kept 8 r n /\ (n_znum n = w_znum r <-> (-128 <= w_znum r < 128)%Z)) l (details l).
Proof.
  induction l as [|r l IH]; cbn; constructor; [|exact IH].
  unfold row_kept, details_row; cbn [n_zerr n_chi2 n_delta n_coeff n_zwarn n_npix n_ncoeff n_subtype n_znum].
  split; [|apply (wrap_id 8); lia].
  split; [apply kept|]. split; [apply kept|]. split; [apply kept|]. split; [apply coeffs|].
  split; [apply (wrap_id 32); lia|]. split; [apply (wrap_id 32); lia|]. split; [apply (wrap_id 8); lia|reflexivity].
Qed.

(* rows in order of chi2 stay in order; two of them may become equal *)
Theorem C177_order : forall l i j a b,
  nth_error l i = Some a -> nth_error l j = Some b -> Bleb (w_chi2 a) (w_chi2 b) = true ->
  exists a' b', nth_error (details l) i = Some a' /\ nth_error (details l) j = Some b' /\ Bleb (n_chi2 a') (n_chi2 b') = true.
Proof.
  intros l i j a b Ha Hb H. exists (details_row a), (details_row b). unfold details. rewrite !nth_error_map, Ha, Hb.
  split; [reflexivity|]. split; [reflexivity|]. now apply to32_leb.
Qed.
Theorem C177_strict_order_refuted : exists a b : b64, finite a /\ finite b /\ Bltb a b = true /\ Beqb (to32 a) (to32 b) = true.
Proof. exists (fint 16777216), (fint 16777217). split; [reflexivity|]. split; [reflexivity|]. split; vm_compute; reflexivity. Qed.

(* the DELTACHI2 column of the best fit and its flag.  counts: the competitors deltachi2 is taken from *)
Definition nine32 : b32 := to32 (fint 9).
Theorem C177_deltachi2_partial : forall c later,
  Forall (fun d => weight (c_chi2 d)) (c :: later) -> Forall (fun d => B2R (c_chi2 c) <= B2R (c_chi2 d)) later ->
  let counts d := In d later /\ c_ok d = true /\ Bltb (fmin (c_lim c) (c_lim d)) (fabs (get_dv (c_z d) (c_z c))) = true in
  let delta := to32 (hd fzero (deltas (c :: later))) in
  ((exists d, counts d) -> Bltb delta nine32 = true -> small_delta c later = true) /\
  (Bltb nine32 delta = true -> (forall d, In d later -> Bleb (fmin (c_lim c) (c_lim d)) (fabs (get_dv (c_z d) (c_z c))) = true ->
       Bltb (fmin (c_lim c) (c_lim d)) (fabs (get_dv (c_z d) (c_z c))) = true) -> small_delta c later = false).
Proof.
  intros c later W S counts delta. pose proof (C165_deltachi2 nil c later W S) as P. cbn [nth Datatypes.length app] in P.
  replace (nth 0 (deltas (c :: later)) fzero) with (hd fzero (deltas (c :: later))) in P by reflexivity.
  fold counts in P. cbn zeta in P. destruct P as ((Fd & Pd) & Pmin & Pex & _).
  inversion W as [|c' l' Wc Wl]; subst. destruct nine as [F9 E9].
  set (dd := hd fzero (deltas (c :: later))) in *.
  assert (CT : forall d, counts d -> weight (c_chi2 d)). { intros d (I & _). rewrite Forall_forall in Wl. now apply Wl. }
  assert (GE : forall d, counts d -> B2R (c_chi2 c) <= B2R (c_chi2 d)). { intros d (I & _). rewrite Forall_forall in S. now apply S. }
  split.
  - intros Ex Hlt. apply to32_ltb in Hlt; [|now apply finite_notnan|now apply finite_notnan].
    destruct (Pex Ex) as (d & Cd & _ & Vd). pose proof Cd as (Id & Od & Ld).
    apply existsb_exists. exists d. split; [easy|]. rewrite Od. cbn [andb].
    assert (Lv : Bleb (fmin (c_lim c) (c_lim d)) (fabs (get_dv (c_z d) (c_z c))) = true).
    { revert Ld. unfold Bltb, Bleb, SpecFloat.SFltb, SpecFloat.SFleb. destruct (SpecFloat.SFcompare _ _) as [[]|]; easy. }
    rewrite Lv, andb_true_r. destruct (abs_sub_weights _ _ Wc (CT d Cd)) as [Fa Ea].
    rewrite ltb_fin by assumption. rewrite Ea. rewrite ltb_fin in Hlt by assumption. rewrite Vd in Hlt.
    rewrite <- Hlt. f_equal. change (rounded (B2R (c_chi2 d) - B2R (c_chi2 c))) with (rnd (B2R (c_chi2 d) - B2R (c_chi2 c))).
    rewrite Rabs_right; [reflexivity|]. apply Rle_ge, rnd_nonneg. specialize (GE d Cd). lra.
  - intros Hlt All. apply to32_ltb in Hlt; [|now apply finite_notnan|now apply finite_notnan].
    rewrite ltb_fin in Hlt by assumption. destruct (small_delta c later) eqn:E; [exfalso|reflexivity].
    apply existsb_exists in E. destruct E as (d & Id & H). apply andb_true_iff in H. destruct H as [H Hv]. apply andb_true_iff in H. destruct H as [Ho Hl].
    assert (Cd : counts d) by (split; [easy|]; split; [easy|]; now apply All).
    specialize (Pmin d Cd). destruct (abs_sub_weights _ _ Wc (CT d Cd)) as [Fa Ea]. rewrite ltb_fin, Ea in Hl by assumption.
    change (rounded (B2R (c_chi2 d) - B2R (c_chi2 c))) with (rnd (B2R (c_chi2 d) - B2R (c_chi2 c))) in Pmin.
    rewrite Rabs_right in Hl by (apply Rle_ge, rnd_nonneg; specialize (GE d Cd); lra).
    revert Hlt Hl. case Rlt_bool_spec; [intros H1 _|discriminate]. case Rlt_bool_spec; [intros H2 _|discriminate]. lra.
Qed.
(* at 9 exactly the column does not decide: flagged and not flagged *)
Theorem C177_deltachi2_refuted : exists c d c' d',
  Beqb (to32 (hd fzero (deltas [c; d]))) nine32 = true /\ small_delta c [d] = true /\
  Beqb (to32 (hd fzero (deltas [c'; d']))) nine32 = true /\ small_delta c' [d'] = false.
Proof.
  exists (cnd fzero (fint 0)), (cnd (flit (9 * 2 ^ 30 - 1) (-30)) (fint 1)), (cnd fzero (fint 0)), (cnd (fint 9) (fint 1)).
  split; [|split; [|split]]; vm_compute; reflexivity.
Qed.
(* a finite chi2 can be infinite in the file *)
Theorem C177_finite_refuted : exists x : b64, finite x /\ to32 x = B754_infinity false.
Proof. exists (flit 1 128). split; vm_compute; reflexivity. Qed.

Definition ex_row (znum : Z) (chi2 : b64) (sub : string) : wide :=
  {| w_zerr := flit 1 (-20); w_chi2 := chi2; w_delta := fint 10; w_coeff := [fint 3; fzero]; w_zwarn := 4; w_npix := 100; w_ncoeff := 2; w_znum := znum; w_subtype := sub |}.
Example C177_case :
  option_map (map (fun n => (n_subtype n, n_npix n, n_ncoeff n))) (redshifts [ex_row 0 (fint 50) "M"; ex_row 1 (fint 60) "WHITE-DWARF"; ex_row 0 (fint 50) "LOZ-0"])
  = Some [("M"%string, 100%Z, 2%Z); ("LOZ-0"%string, 100%Z, 2%Z)] /\
  map n_znum (details [ex_row 0 (fint 50) "M"; ex_row 130 (fint 60) "K"]) = [0%Z; (-126)%Z].
Proof. split; vm_compute; reflexivity. Qed.
Example C177_case_delta : Bltb (to32 (hd fzero (deltas [cnd (fint 1) (fint 0); cnd (fint 5) (fint 1)]))) nine32 = true /\
  Bltb nine32 (to32 (hd fzero (deltas [cnd (fint 1) (fint 0); cnd (fint 50) (fint 1)]))) = true.
Proof. split; vm_compute; reflexivity. Qed.

Print Assumptions C177_redshifts. Print Assumptions C177_details. Print Assumptions C177_order. Print Assumptions C177_strict_order_refuted.
Print Assumptions C177_deltachi2_partial. Print Assumptions C177_deltachi2_refuted. Print Assumptions C177_finite_refuted.
