(* What a run with several processes should be compared with: C151. *)
From Verif Require Import Prelude NumX Model_Fitz Model_Rebin Model_Dist Model_MP Model_Zscan Model_Piece Model_IO Model_Zfind Model_Run.

(* a target as redrock keeps it: the id, the number of spectra and the data belong together *)
Definition sound (t : tgt targ) : Prop := t_id t = g_id (t_data t) /\ t_nspec t = length (g_spectra (t_data t)).
(* the spectra of u under the id of t *)
Definition renamed (t u : targ) : targ := {| g_id := g_id t; g_spectra := g_spectra u |}.
(* a serial run in which the coarse scan looks at other spectra than the rest: for every target the chi2 scan is the one of the
   target at the same place of [scanned] *)
Definition run_as (slv : solvers) (argsort : list xq -> list nat) (polyfit : list Q -> list Q -> option (Q * Q * Q)) (isqrt : Q -> Q)
    (trans : option string -> Q -> Q -> Q) (nminima nz : nat) (ps : list tmpl) (tgs scanned : list targ) : res (list frow) :=
  do tds <- mapM (fun p => tdata trans p (grids tgs) (p_zs p)) ps;
  do r <- scan_all slv scanned (empty_scans tgs) (combine ps tds);
  do r <- fit_all slv argsort polyfit isqrt trans nminima nz tgs r ps;
  do d <- results_of r;
  if distinct_ids (map g_id tgs) then zfind_table nminima None (list_max_nat (map nbasis ps)) (map g_id tgs) d else Err KeyError.
(* which target is scanned for t: in the list of ids of a process, t is at the place at which that process has the spectra of u *)
Definition scanned_for (ts : list (tgt targ)) (nproc : nat) (t u : tgt targ) : Prop :=
  exists mpdist ids j, distribute_targets ts nproc = Ok mpdist /\ In ids mpdist /\ nth_error ids j = Some (t_id t) /\
    nth_error (filter (fun v => existsb (Z.eqb (t_id v)) ids) ts) j = Some u.
(* the serial run as run_as: nothing is swapped *)
Lemma run_as_self slv argsort polyfit isqrt trans nminima nz ps tgs :
  run_as slv argsort polyfit isqrt trans nminima nz ps tgs tgs = run slv argsort polyfit isqrt trans nminima nz ps tgs.
Proof. reflexivity. Qed.
