(* rrdesi with --outfile and --model: the table REDSHIFTS and the HDUs of the model file. external/desi.py 992-1014, 1093-1142, 1157-1191, 1198-1235, 155-201.
   Simplifications: those of Model_RunDesi.v and Model_Models.v (exact rationals, one process, no archetypes); the columns of the table are the rows of
   Model_Zfind.v; model values are not rounded to float32; HDU names and headers left out (a hash stands for its camera band). *)
From Verif Require Import Prelude NumX Model_Fitz Model_Rebin Model_Dist Model_Zscan Model_Piece Model_IO Model_Zfind Model_Targets Model_Desi Model_Run Model_RunDesi Model_Models.
Open Scope nat_scope.
Local Notation dget := Model_Dist.dget.

(* 1232: np.vstack([m[band] for m in all_models])[sort_indices] *)
Definition column (ms : list (dict (list Q))) (idx : list nat) (h : Z) : res (list (list Q)) :=
  do vs <- mapM (fun m => match dget m h with Some v => Ok v | None => Err KeyError end) ms;
  match vs with
  | [] => Err ValueError
  | v :: r => if forallb (fun u => length u =? length v) r
              then mapM (fun i => match nth_error vs i with Some u => Ok u | None => Err IndexError end) idx
              else Err ValueError
  end.
(* 1203-1232 and 181-190: for every wavelength grid its hash, the wavelengths and one row per target *)
Definition model_hdus (ps : list tmpl) (tab : list frow) (tgs : list targ) : res (list (Z * (list Q * list (list Q)))) :=
  do ms <- render_all ps tab tgs;
  do idx <- sort_indices (map g_id tgs) (map f_tid (zbest tab));
  mapM (fun hw => do rows <- column ms idx (fst hw); Ok (fst hw, (snd hw, rows))) (grids tgs).

Section File.
Variables (slv : solvers) (argsort : list xq -> list nat) (polyfit : list Q -> list Q -> option (Q * Q * Q)) (isqrt : Q -> Q).
Variable trans : option string -> Q -> Q -> Q.
Variables (nminima nz : nat).
Variables (hashf : hash_arg -> Z) (tocsr : dia -> csr) (fb : fbits).
(* 992-1235: when no exception stops the run before, the redshift file (with all rows of the table zfit: REDSHIFTS are the best) and then the attempt at the
   model file *)
Definition rrdesi_files (o : dopts) (ps : list tmpl) (ds : list dfile) : res (list frow * res (list (Z * (list Q * list (list Q))))) :=
  do fs <- open_files o ds;
  do tgs <- read_targets hashf tocsr o fs;
  do tab0 <- run_local slv argsort polyfit isqrt trans nminima nz ps tgs (all_ids fs);
  let tab := map (reflag fb (fibermap ds fs)) tab0 in
  Ok (tab, model_hdus ps tab tgs).
End File.
