(* Model of a whole run with MPI on the CPU: wavelength grids (targets.py 468-489), template slices
   (templates.py 570-598), scan with the template ring (zscan.py 950-1105), refinement (zfind.py 336-363),
   gather on rank 0 (zfind.py 416-462) and the table (zfind.py 467-714), put together from the models of the
   single functions (Model_Run.v, Model_MPI.v).
   Simplifications: those of Model_Run.v; a rank that raises ends the run (C26 looks at that); the dictionaries
   zchi2, zcoeff and penalty of zscan.py 985-1019 are one dictionary here (they get the same keys), without zcoeff. *)
From Verif Require Import Prelude NumX Model_Fitz Model_Rebin Model_Dist Model_MPI Model_Zscan Model_Piece Model_IO Model_Zfind Model_Run.

(* targets.py 480-485: the dictionaries of all ranks, the first of a hash wins; 472-476 is grids *)
Definition wavegrids_mpi (locals : list (list targ)) : dict (list Q) :=
  fold_left (fun d kw => match dget d (fst kw) with Some _ => d | None => dset d (fst kw) (snd kw) end)
    (flat_map grids locals) [].

Section MPI.
Variables (slv : solvers) (argsort : list xq -> list nat) (polyfit : list Q -> list Q -> option (Q * Q * Q)) (isqrt : Q -> Q).
Variable trans : option string -> Q -> Q -> Q.
Variables (nminima nz : nat).

(* templates.py 571-598 on one rank: number of redshifts and template data of its slice *)
Definition rank_piece (p : tmpl) (dw : dict (list Q)) (size rank : nat) : res (nat * tdict) :=
  do z <- rank_redshifts (p_zs p) size rank;
  do td <- tdata trans p dw z;
  Ok (length z, td).
(* the pieces of all ranks of one template *)
Definition pieces (p : tmpl) (dw : dict (list Q)) (size : nat) : res (list (nat * tdict)) :=
  mapM (rank_piece p dw size) (seq 0 size).

(* zscan.py 985-1019: target id -> piece index -> (zchi2, penalty) *)
Definition parts := list (nat * (vec * vec)).
Definition save (i : nat) (d : dict parts) (x : targ * (vec * list vec * vec)) : dict parts :=
  let '(g, (zc, _, pen)) := x in
  dset d (g_id g) (kset (match dget d (g_id g) with Some e => e | None => [] end) i (zc, pen)).
(* zscan.py 1005-1019, the body of the loop with the piece of index i *)
Definition visit (tgs : list targ) (p : tmpl) (pcs : list (nat * tdict)) (acc : dict parts) (i : nat) : res (dict parts) :=
  match nth_error pcs i with
  | None => Err IndexError
  | Some (n, td) => do rows <- calc_zchi2 slv (p_core p) td n (map data_of tgs); Ok (fold_left (save i) (combine tgs rows) acc)
  end.
(* zscan.py 1034 and 1036 *)
Definition join (e : parts) : vec * vec :=
  (assemble (map (fun x => (fst x, fst (snd x))) e), assemble (map (fun x => (fst x, snd (snd x))) e)).
(* zscan.py 975-1036 and 1098-1103; idxs: the pieces in the order in which they come along *)
Definition mscan_template (tgs : list targ) (r : scans) (p : tmpl) (pcs : list (nat * tdict)) (idxs : list nat) : res scans :=
  do acc <- fold_left (fun a i => do d <- a; visit tgs p pcs d i) idxs (Ok []);
  put_all r (map (fun x => (fst x, (full_type p, {| e_zchi2 := fst (join (snd x)); e_penalty := snd (join (snd x)); e_fits := None |}))) acc).
(* zscan.py 958: t is the number of the template in the list *)
Definition mscan_all (tgs : list targ) (l : list (tmpl * list (nat * tdict))) (log : list piece) : res scans :=
  fold_left (fun a tx => do r <- a; mscan_template tgs r (fst (snd tx)) (snd (snd tx)) (idxs_of (fst tx) log)) (enum l) (Ok (empty_scans tgs)).
(* what one rank has before the gather: zfind.py 287-402 *)
Definition rank_run (ps : list tmpl) (pcss : list (list (nat * tdict))) (log : list piece) (tgs : list targ) : res scans :=
  do r <- mscan_all tgs (combine ps pcss) log; fit_all slv argsort polyfit isqrt trans nminima nz tgs r ps.
(* all ranks up to the gather *)
Definition ranks_run (ps : list tmpl) (locals : list (list targ)) (sr : ring) : res (list scans) :=
  let size := length locals in
  do pcss <- mapM (fun p => pieces p (wavegrids_mpi locals) size) ps;
  mapM (fun r => rank_run ps pcss (k_log (g_rk sr r)) (nth r locals [])) (seq 0 size).
(* rank 0 after the gather: zfind.py 458-714; ids = targets.all_target_ids *)
Definition table (ps : list tmpl) (ids : list Z) (all : scans) : res (list frow) :=
  do d <- results_of all;
  if distinct_ids ids then zfind_table nminima None (list_max_nat (map nbasis ps)) ids d else Err KeyError.
End MPI.
