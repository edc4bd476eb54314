(* Model of rrdesi with several worker processes (--mp N, N > 1), no MPI, no archetypes: external/desi.py 275-662, 1000-1014, 1087 and 1093-1135 as in
   Model_RunDesi.v, with the scan and the refinement of Model_RunMP.v.  The main process reads and coadds (mp_procs is not used before zscan);
   targets.local() is in the order of my_targets, all_target_ids in the order of the files (desi.py 459, 467-486; zscan.py 1046, zfind.py 366).
   Simplifications: those of the two models. *)
From Verif Require Import Prelude NumX Model_Fitz Model_Rebin Model_Dist Model_MP Model_Zscan Model_Piece Model_IO Model_Zfind Model_Targets Model_Desi Model_Run Model_RunMPI Model_RunMP Model_RunDesi.

(* targets.local(): id, number of spectra (Target.nspec) and data *)
Definition as_tgt (g : targ) : tgt targ := {| t_id := g_id g; t_nspec := length (g_spectra g); t_data := g |}.

Section MP.
Variables (slv : solvers) (argsort : list xq -> list nat) (polyfit : list Q -> list Q -> option (Q * Q * Q)) (isqrt : Q -> Q).
Variable trans : option string -> Q -> Q -> Q.
Variables (nminima nz nproc : nat).
Variables (hashf : hash_arg -> Z) (tocsr : dia -> csr) (fb : fbits).

(* zfind with targets in the order of the process and ids in the order of all_target_ids: zscan.py 941-1105, zfind.py 287-714 *)
Definition local_mp (ps : list tmpl) (ts : list (tgt targ)) (ids : list Z) (tab : list frow) : Prop :=
  exists tds r1 r2, mapM (fun p => tdata trans p (grids (map t_data ts)) (p_zs p)) ps = Ok tds /\
    each (mp_scan slv nproc ts) (empty_scans (map t_data ts)) (combine ps tds) r1 /\
    each (mp_fit slv argsort polyfit isqrt trans nminima nz nproc ts) r1 (by_type ps) r2 /\
    table nminima ps ids r2 = Ok tab.
(* 992-1135 *)
Definition rrdesi_mp (o : dopts) (ps : list tmpl) (ds : list dfile) (tab : list frow) : Prop :=
  exists fs tgs tab0, open_files o ds = Ok fs /\ read_targets hashf tocsr o fs = Ok tgs /\
    local_mp ps (map as_tgt tgs) (all_ids fs) tab0 /\ tab = map (reflag fb (fibermap ds fs)) tab0.
End MP.
