(* Specification vocabulary for the redshift scan: sums over indices, the
   weighted chi2 of a linear model, the design matrix, solver contracts. *)
From Verif Require Import Prelude Model_Zscan Model_Dist.
Local Open Scope Q_scope.

(* f 0 + ... + f (n-1) *)
Fixpoint bigsum (n : nat) (f : nat -> Q) : Q :=
  match n with O => 0 | S m => bigsum m f + f m end.
Definition at1 (v : vec) (j : nat) : Q := nth j v 0.
Definition at2 (A : mat) (p j : nat) : Q := nth j (nth p A []) 0.

(* linear model with nb coefficients at pixel p *)
Definition model_at (nb : nat) (T : mat) (c : vec) (p : nat) : Q :=
  bigsum nb (fun j => at2 T p j * at1 c j).
(* sum over the npix pixels of weight * (flux - model)^2 *)
Definition chi2 (npix nb : nat) (w f : vec) (T : mat) (c : vec) : Q :=
  bigsum npix (fun p => at1 w p * ((at1 f p - model_at nb T c p) * (at1 f p - model_at nb T c p))).
(* c^T P c *)
Definition quad (nb : nat) (P : mat) (c : vec) : Q :=
  bigsum nb (fun j => bigsum nb (fun k => at1 c j * at2 P j k * at1 c k)).
Definition psd (nb : nat) (P : mat) : Prop :=
  length P = nb /\ Forall (fun r => length r = nb) P /\
  (forall j k, (j < nb)%nat -> (k < nb)%nat -> at2 P j k == at2 P k j) /\
  (forall c, 0 <= quad nb P c).

(* the sparse matrix as a dense one: duplicates are added *)
Definition Rent (R : csr) (row l : nat) : Q :=
  sumQ (map (fun jj => if (nth jj (r_ind R) O =? l)%nat then nth jj (r_val R) 0 else 0)
    (seq (nth row (r_ptr R) O) (nth (S row) (r_ptr R) O - nth row (r_ptr R) O))).
(* stored column indices are inside the matrix *)
Definition wf_csr (R : csr) : Prop :=
  forall row jj, (row < r_nrow R)%nat ->
    (nth row (r_ptr R) O <= jj < nth (S row) (r_ptr R) O)%nat -> (nth jj (r_ind R) O < r_ncol R)%nat.

(* T is the design matrix at redshift index i: for each spectrum in turn, its
   resolution matrix times the template of its wavelength grid *)
Definition is_design (nb : nat) (spectra : list spectrum) (tdata : tdict) (i : nat) (T : mat) : Prop :=
  exists blocks, T = concat blocks /\
    Forall2 (fun s B => exists A, (exists L, dget tdata (s_hash s) = Some L /\ nth_error L i = Some A) /\
      length B = r_nrow (s_R s) /\
      forall p j, (p < r_nrow (s_R s))%nat -> (j < nb)%nat ->
        at2 B p j == bigsum (r_ncol (s_R s)) (fun l => Rent (s_R s) p l * at2 A l j)) spectra blocks.

(* contracts of the external solvers *)
Definition solves (M : mat) (y x : vec) : Prop :=
  length x = length y /\
  forall r, (r < length y)%nat -> bigsum (length y) (fun j => at2 M r j * at1 x j) == at1 y r.
Definition resid2 (M : mat) (y x : vec) : Q :=
  bigsum (length y) (fun r => let d := bigsum (length y) (fun j => at2 M r j * at1 x j) - at1 y r in d * d).
Definition in_bounds (b : bounds) (x : vec) : Prop :=
  forall j, (j < length x)%nat ->
    match nth j (fst b) None with Some lo => lo <= at1 x j | None => True end /\
    match nth j (snd b) None with Some hi => at1 x j <= hi | None => True end.
Definition nonneg (x : vec) : Prop := Forall (fun v => 0 <= v) x.
Definition square (n : nat) (M : mat) : Prop := length M = n /\ Forall (fun r => length r = n) M.
(* np.linalg.solve: an answer solves the system *)
Definition linsolve_ok (S : solvers) : Prop := forall M y x, linsolve S M y = Ok x -> solves M y x.
(* scipy.optimize.nnls(A, b): minimises |A x - b| over x >= 0 *)
Definition nnls_ok (S : solvers) : Prop := forall M y x, nnls S M y = Ok x ->
  length x = length y /\ nonneg x /\ forall c, length c = length y -> nonneg c -> resid2 M y x <= resid2 M y c.
(* scipy.optimize.lsq_linear(A, b, bounds): minimises |A x - b| within the bounds *)
Definition bvls_ok (S : solvers) : Prop := forall M y b x, bvls S M y b = Ok x ->
  length x = length y /\ in_bounds b x /\
  forall c, length c = length y -> in_bounds b c -> resid2 M y x <= resid2 M y c.

(* flux of the template model c summed over the pixels with 3724 <= wave <= 3733 *)
Definition OII_flux (t : template) (c : vec) : Q :=
  bigsum (length (t_wave t)) (fun l =>
    if Qle_bool 3724 (at1 (t_wave t) l) && Qle_bool (at1 (t_wave t) l) 3733
    then bigsum (length (t_flux t)) (fun b => at1 c b * at2 (t_flux t) b l) else 0).

(* two spectra that agree except at pixels of zero weight *)
Definition same_unmasked (s s' : spectrum) : Prop :=
  s_hash s = s_hash s' /\ s_ivar s = s_ivar s' /\ length (s_flux s) = length (s_flux s') /\
  r_nrow (s_R s) = r_nrow (s_R s') /\ r_ncol (s_R s) = r_ncol (s_R s') /\
  length (s_ivar s) = r_nrow (s_R s) /\ length (s_flux s) = r_nrow (s_R s) /\
  forall p, (p < length (s_ivar s))%nat -> ~ at1 (s_ivar s) p == 0 ->
    at1 (s_flux s) p = at1 (s_flux s') p /\
    forall v, csr_row_dot (s_R s) p v = csr_row_dot (s_R s') p v.

(* the same template data restricted to redshift i *)
Definition slice (i : nat) (tdata : tdict) : dict mat := map (fun kv => (fst kv, nth i (snd kv) [])) tdata.
Definition slice1 (i : nat) (tdata : tdict) : tdict := map (fun kv => (fst kv, [nth i (snd kv) []])) tdata.
