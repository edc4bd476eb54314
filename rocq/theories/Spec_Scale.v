(* The same spectra in other units of flux. *)
From Verif Require Import Prelude NumX Model_Fitz Model_Zscan Spec_Zscan Model_IO Model_Zfind Model_Run.
Open Scope nat_scope.

(* numbers c times as large *)
Definition times (c : Q) (l l' : list Q) : Prop := Forall2 (fun x y => y == c * x)%Q l l'.
(* a spectrum with the flux in units 1/c: flux times c, inverse variance divided by c^2 *)
Definition rescaled (c : Q) (s s' : spectrum) : Prop :=
  s_hash s = s_hash s' /\ s_R s = s_R s' /\ times c (s_flux s) (s_flux s') /\ times (1 / (c * c)) (s_ivar s) (s_ivar s').
Definition rescaled_target (c : Q) (g g' : targ) : Prop :=
  g_id g = g_id g' /\ Forall2 (fun s s' => q_wave s = q_wave s' /\ rescaled c (q_spec s) (q_spec s')) (g_spectra g) (g_spectra g').
(* a fit in those units: coefficients times c, everything else the same *)
Definition in_units (c : Q) (r : frow) : frow := set_coeff r (map (fun a => Qred (c * a)) (f_coeff r)).

(* a solver of M x = y (or of the least squares problem with x >= 0): k M x = l y has the solution l/k times the one of M x = y *)
Definition scale_vec (k : Q) (v : vec) : vec := map (fun a => Qred (k * a)) v.
Definition homogeneous (slv : solvers) (alg : string) : Prop := forall k l M y, (0 < k)%Q -> (0 < l)%Q ->
  solve_matrices slv alg None (map (scale_vec k) M) (scale_vec l y) = match solve_matrices slv alg None M y with Ok x => Ok (scale_vec (l / k) x) | Err e => Err e end.

(* a template without the penalty for negative [OII] (templates.py 172-174) *)
Definition no_penalty (p : tmpl) : Prop := t_rrtype (p_core p) <> "GALAXY"%string \/ t_method (p_core p) <> "PCA"%string.

(* np.linalg.solve without rounding: the solution in lowest terms if the system has exactly one, an error otherwise *)
Definition regular (n : nat) (M : mat) : Prop := forall x : vec, length x = n -> (forall r, r < n -> (bigsum n (fun j => at2 M r j * at1 x j) == 0)%Q) -> forall j, j < n -> (at1 x j == 0)%Q.
Definition exact_solver (slv : solvers) : Prop := forall M y,
  (forall x, linsolve slv M y = Ok x <-> regular (length y) M /\ solves M y x /\ Forall (fun a => Qred a = a) x) /\
  (forall e, linsolve slv M y = Err e -> e = LinAlgError).

(* ---------------- files ---------------- *)
From Verif Require Import Model_Targets Model_Desi Spec_Desi Model_RunDesi.
(* a pixel value c times as large; NaN and infinities stay *)
Definition xtimes (c : Q) (x y : xq) : Prop := match x, y with Fin a, Fin b => (b == c * a)%Q | _, _ => x = y end.
Definition row_rescaled (c : Q) {R} (r r' : fullrow R) : Prop :=
  r_wave r = r_wave r' /\ r_band r = r_band r' /\ r_res r = r_res r' /\ r_mask r = r_mask r' /\
  Forall2 (xtimes c) (r_flux r) (r_flux r') /\ Forall2 (xtimes (1 / (c * c))) (r_ivar r) (r_ivar r').
Definition file_rescaled (c : Q) {R} (f f' : sfile R) : Prop :=
  sf_ids f = sf_ids f' /\ sf_keep f = sf_keep f' /\ sf_bands f = sf_bands f' /\ forall b, In b (sf_bands f) -> Forall2 (row_rescaled c) (full_rows f b) (full_rows f' b).
(* no inverse variance below zero *)
Definition ivar_nonneg {R} (r : fullrow R) : Prop := forall v, In (Fin v) (r_ivar r) -> (0 <= v)%Q.
