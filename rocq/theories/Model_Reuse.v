(* Model of zfind() with its options chi2_scan (zfind.py 243, 289-292; results.py 212-241) and priors (zfind.py 243, 265-266,
   318-322; priors.py), around the models of scan, refinement and table in Model_Run.v, without and with MPI.
   Simplifications: those of Model_Run.v; the prior of a target is a function of the redshifts with finite values (gaussian and
   lorentzien priors, priors.py 63-87; C35 looks at the infinite values of tophat); the redshift, chi2, penalty and coefficient
   arrays of results[tid][fulltype] are the record Model_IO.scan. *)
From Verif Require Import Prelude NumX Model_Fitz Model_Rebin Model_Dist Model_Zscan Model_Piece Model_IO Model_Zfind Model_Run.

(* results[tid][fulltype] as the refinement sees it: zfind.py 359-360 looks at zchi2 and penalty only *)
Definition ent (s : scan) : Model_Run.entry := {| e_zchi2 := sc_chi2 s; e_penalty := sc_pen s; e_fits := None |}.
Definition ents (d : list (string * scan)) : list (string * Model_Run.entry) := map (fun x => (fst x, ent (snd x))) d.
Definition as_scans (zs : zscan_t) : scans := map (fun kd => (fst kd, ents (snd kd))) zs.

(* zscan.py 1098-1103: results[tid][ft] = {redshifts, zchi2, penalty, zcoeff} *)
Definition putz (r : zscan_t) (tid : Z) (ft : string) (s : scan) : res zscan_t :=
  match dget r tid with None => Err KeyError | Some d => Ok (dset r tid (sset d ft s)) end.

(* zfind.py 318-322 *)
Definition add_prior (pr : option (Z -> list Q -> list Q)) (zs : zscan_t) : zscan_t :=
  match pr with
  | None => zs
  | Some f => map (fun kd => (fst kd, map (fun x => (fst x, {| sc_z := sc_z (snd x); sc_chi2 := map2 Qplus (sc_chi2 (snd x)) (f (fst kd) (sc_z (snd x)));
                                                              sc_pen := sc_pen (snd x); sc_coeff := sc_coeff (snd x) |})) (snd kd))) zs
  end.
(* zfind.py 467-473: the entries of the targets of the run; others in allresults are not looked at *)
Definition results_at (ids : list Z) (r : scans) : res results :=
  mapM (fun tid => match dget r tid with None => Err KeyError | Some d => do bs <- blocks_of d; Ok (tid, bs) end) ids.

Section Zfind.
Variables (slv : solvers) (argsort : list xq -> list nat) (polyfit : list Q -> list Q -> option (Q * Q * Q)) (isqrt : Q -> Q).
Variable trans : option string -> Q -> Q -> Q.
Variables (nminima nz : nat).

(* zscan.py 958-1103 for one template, as Model_Run.scan_template, with the redshifts and coefficients *)
Definition scan_template_z (tgs : list targ) (r : zscan_t) (p : tmpl) (td : tdict) : res zscan_t :=
  do rows <- calc_zchi2 slv (p_core p) td (length (p_zs p)) (map data_of tgs);
  fold_left (fun acc (x : targ * (vec * list vec * vec)) => do r <- acc; let '(g, (zc, co, pen)) := x in
      putz r (g_id g) (full_type p) {| sc_z := p_zs p; sc_chi2 := zc; sc_pen := pen; sc_coeff := co |}) (combine tgs rows) (Ok r).
(* zscan.py 950-1105 *)
Definition calc_scan (ps : list tmpl) (tds : list tdict) (tgs : list targ) : res zscan_t :=
  fold_left (fun acc pt => do r <- acc; scan_template_z tgs r (fst pt) (snd pt)) (combine ps tds)
    (Ok (fold_left (fun (d : zscan_t) g => dset d (g_id g) []) tgs [])).

(* zfind.py 467-714 on the results of rank 0 *)
Definition table_at (ps : list tmpl) (ids : list Z) (r : scans) : res (list frow) :=
  do d <- results_at ids r;
  if distinct_ids ids then zfind_table nminima None (list_max_nat (map nbasis ps)) ids d else Err KeyError.

(* zfind.py 261-714 without MPI.  The templates have been put on the wavelengths of the targets before (templates.py 584-598),
   also when the scan is read from a file.  The first component is what rrdesi writes to the details file: allresults *)
Definition zfind (file : option zscan_t) (pr : option (Z -> list Q -> list Q)) (ps : list tmpl) (tgs : list targ) : res (zscan_t * list frow) :=
  do tds <- mapM (fun p => tdata trans p (grids tgs) (p_zs p)) ps;
  do zs <- match file with None => calc_scan ps tds tgs | Some zs => Ok zs end;
  let zs := add_prior pr zs in
  do r <- fit_all slv argsort polyfit isqrt trans nminima nz tgs (as_scans zs) ps;
  do tab <- table_at ps (map g_id tgs) r;
  Ok (zs, tab).

(* zfind.py 289-363 with MPI and a file: every rank reads the whole file, and fits its own targets *)
Definition rank_reuse (zs : zscan_t) (pr : option (Z -> list Q -> list Q)) (ps : list tmpl) (local : list targ) : res scans :=
  fit_all slv argsort polyfit isqrt trans nminima nz local (as_scans (add_prior pr zs)) ps.
Definition ranks_reuse (zs : zscan_t) (pr : option (Z -> list Q -> list Q)) (ps : list tmpl) (locals : list (list targ)) : res (list scans) :=
  mapM (rank_reuse zs pr ps) locals.
End Zfind.
