(* Vocabulary for the GPU properties. *)
From Verif Require Import Prelude Model_Dist Model_Zscan Spec_Zscan Model_GPU.

(* the three arrays of a csr_matrix are consistent *)
Definition csr_valid (R : csr) : Prop :=
  length (r_ptr R) = S (r_nrow R) /\
  forall row jj, row < r_nrow R -> nth row (r_ptr R) O <= jj < nth (S row) (r_ptr R) O ->
    jj < length (r_val R) /\ jj < length (r_ind R) /\ nth jj (r_ind R) O < r_ncol R.
(* n matrices of rows x cols *)
Definition array3 (rows cols : nat) (T : list mat) : Prop :=
  forall A, In A T -> length A = rows /\ forall r, In r A -> length r = cols.
(* every spectrum has a square resolution matrix and, for its wavelength grid, one template
   (pixels x nb) per redshift *)
Definition good_input (nz nb : nat) (spectra : list spectrum) (tdata : tdict) : Prop :=
  spectra <> [] /\
  forall s, In s spectra -> csr_valid (s_R s) /\ r_ncol (s_R s) = r_nrow (s_R s) /\
    exists L, dget tdata (s_hash s) = Some L /\ length L = nz /\ array3 (r_nrow (s_R s)) nb L.
(* the device solver gives the answer of the host solver where that one has an answer; scipy does not
   raise NotImplementedError *)
Definition solvers_agree (S : solvers) : Prop :=
  (forall M y, length (cusolve S M y) = length y) /\
  (forall M y x, linsolve S M y = Ok x -> cusolve S M y = x) /\
  (forall M y b, bvls S M y b <> Err NotImplementedError).
(* number of threads of the launch that computes the nz normal matrices of size nb x nb *)
Definition threads (fullprecision : bool) (nz nb : nat) : nat :=
  let per := if fullprecision then 4 else if nz <=? 512 then 64 else 4 in
  (nz * nb * nb * per + 511) / 512 * 512.
(* an order in which all threads of the launch run *)
Definition any_order (sched : list nat) (fullprecision : bool) (nz nb : nat) : Prop :=
  Permutation sched (seq 0 (threads fullprecision nz nb)).
(* what the scan reports when the fit at a redshift failed *)
Definition failed_fit (nb : nat) (z : Q) (c : vec) : Prop := z = HUGE_CHI2 /\ c = repeat 0%Q nb.
