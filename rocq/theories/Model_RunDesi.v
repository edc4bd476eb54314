(* Model of rrdesi from the input files to the table, one process, no MPI, no archetypes: external/desi.py 275-662 (reading), 908-920, 1000-1014 (call
   and sky lines), 1087 (zfind, Model_Run.v) and 1093-1160 (warning bits, best rows), put together from the models of the single functions.
   Simplifications: those of Model_Desi.v, Model_Targets.v and Model_Run.v; desispec's coadd_fibermap is not modelled, its result is part of the file
   (df_fm); the resolution matrix made by desispec is part of the file (df_res); scipy's tocsr is any function; the column fitmethod and the tables
   exp_fibermap and tsnr2 are left out; all arrays are double precision. *)
From Verif Require Import Prelude NumX Model_Fitz Model_Rebin Model_Dist Model_Zscan Model_Piece Model_IO Model_Zfind Model_Targets Model_Desi Model_Run Model_RunMPI.

(* an input file: desi.py 298-335, 430-444, 528-600 *)
Record dfile := { df_coadded : bool; df_fm : list fmrow; df_exp : list Z; df_bands : list string; df_wave : string -> list Q;
  df_flux : string -> list (list xq); df_ivar : string -> list (list xq); df_mask : string -> option (list (list Z)); df_res : string -> list dia }.
(* the options used here *)
Record dopts := { o_ids : option (list Z); o_first : option Z; o_n : option Z; o_allspec : bool; o_cosmics : Q; o_negflux : Q; o_skymask : bool }.
(* desi.py 381-384 *)
Definition input_ids (d : dfile) : list Z := if df_coadded d then map fm_id (df_fm d) else df_exp d.
(* 348-374 *)
Definition kept (o : dopts) (d : dfile) : res (list Z) :=
  window (match o_ids o with None => map fm_id (df_fm d) | Some l => l end) (o_first o) (o_n o).
(* 275-451 for one file *)
Definition open_file (o : dopts) (d : dfile) : res (sfile dia) :=
  do k <- kept o d;
  Ok {| sf_ids := input_ids d; sf_keep := k; sf_bands := df_bands d; sf_wave := df_wave d; sf_flux := df_flux d; sf_ivar := df_ivar d; sf_mask := df_mask d; sf_res := df_res d |}.
Definition open_files (o : dopts) (ds : list dfile) : res (list (sfile dia)) := mapM (open_file o) ds.
(* 376, 453-460 *)
Definition all_ids (fs : list (sfile dia)) : list Z := unique_targets (concat (map sf_keep fs)).
(* 400-401, 653-654 *)
Definition fibermap (ds : list dfile) (fs : list (sfile dia)) : list fmrow :=
  concat (map (fun p => filter (fun r => zmem (fm_id r) (sf_keep (snd p))) (df_fm (fst p))) (combine ds fs)).
(* 467-486 for one process *)
Definition my_targets (o : dopts) (fs : list (sfile dia)) : res (list Z) :=
  let w := if o_allspec o then Some (fun t => Some (inject_Z (Z.of_nat (target_weight fs t)))) else None in
  do dist <- distribute_work 1 (all_ids fs) w None; Ok (nth 0 dist []).

(* the arrays are finite here: 533-557 *)
Definition fin (x : xq) : Q := match x with Fin q => q | _ => 0%Q end.
(* 504-505, 545, 565, 635-638: a spectrum whose arrays were filled in.  Its R is set after the constructor, which therefore masks nothing *)
Definition spec_of (o : dopts) (s : slot dia) : res Model_Targets.spec :=
  match Model_Desi.s_flux s, Model_Desi.s_ivar s, s_res s with
  | Some f, Some v, Some r => Ok {| sp_wave := Model_Desi.s_wave s; sp_flux := map fin f; sp_ivar := map fin v; sp_R := Some r;
       sp_Rcsr := if o_allspec o then Some r else None; sp_band := Some (s_band s); sp_hash := KBand (s_band s) |}
  | _, _, _ => Err TypeError
  end.
(* 1009-1014 *)
Definition mask_sky (o : dopts) (wave iv : list Q) : list Q := if o_skymask o then map fin (skymask wave (map Fin iv)) else iv.
(* keys of dictionaries: one integer for each band name (and each hash) *)
Fixpoint scode (s : string) : Z := match s with EmptyString => 0 | String c r => 1 + Z.of_N (N_of_ascii c) + 256 * scode r end%Z.
Definition key_code (k : key) : Z := match k with KBand b => 2 * scode b | KHash h => 2 * h + 1 end%Z.

Section Desi.
Variables (slv : solvers) (argsort : list xq -> list nat) (polyfit : list Q -> list Q -> option (Q * Q * Q)) (isqrt : Q -> Q).
Variable trans : option string -> Q -> Q -> Q.
Variables (nminima nz : nat).
Variables (hashf : hash_arg -> Z) (tocsr : dia -> csr) (fb : fbits).

(* a spectrum as zfind sees it: targets.py 70-85 (Rcsr) *)
Definition seen (o : dopts) (s : Model_Targets.spec) : res rspec :=
  match sp_R s with
  | None => Err AttributeError
  | Some r => Ok {| q_wave := sp_wave s; q_spec := {| s_hash := key_code (sp_hash s); Model_Zscan.s_ivar := mask_sky o (sp_wave s) (sp_ivar s); Model_Zscan.s_flux := sp_flux s; s_R := tocsr r |} |}
  end.
(* 647-651 and 1008-1014: one target *)
Definition prepare (o : dopts) (t : Z) (slots : list (slot dia)) : res targ :=
  do l <- mapM (spec_of o) slots;
  do l <- (if o_allspec o then Ok l else compute_coadd hashf true (o_cosmics o) l);
  do l <- mapM (seen o) l;
  Ok {| g_id := t; g_spectra := l |}.
(* 275-662, 1008-1014: all targets, in the order of the process *)
Definition read_targets (o : dopts) (fs : list (sfile dia)) : res (list targ) :=
  do my <- my_targets o fs;
  do sts <- load_proc (o_negflux o) fs my;
  mapM (fun p => prepare o (fst p) (t_slots (snd p))) sts.

(* zfind with targets in the order of the process and ids in the order of all_target_ids: zscan.py 941-1105, zfind.py 287-714 *)
Definition run_local (ps : list tmpl) (tgs : list targ) (ids : list Z) : res (list frow) :=
  do tds <- mapM (fun p => tdata trans p (grids tgs) (p_zs p)) ps;
  do r <- scan_all slv tgs (empty_scans tgs) (combine ps tds);
  do r <- fit_all slv argsort polyfit isqrt trans nminima nz tgs r ps;
  table nminima ps ids r.

(* 1093-1135 on the rows of zfit *)
Definition to_w (r : frow) : wrow :=
  {| w_id := f_tid r; w_zwarn := Z.of_N (Model_Zfind.f_zwarn r); w_spectype := f_type r; w_subtype := f_sub r; w_coeff := Model_Zfind.f_coeff r; w_z := Model_Zfind.f_z r; w_method := ""; w_rest := 0 |}.
Definition reflag (fm : list fmrow) (r : frow) : frow :=
  let w := flag_row fb fm (to_w r) in
  {| f_tid := f_tid r; f_type := w_spectype w; f_sub := w_subtype w; Model_Zfind.f_z := w_z w; Model_Zfind.f_zerr := Model_Zfind.f_zerr r; Model_Zfind.f_chi2 := Model_Zfind.f_chi2 r;
     Model_Zfind.f_zwarn := Z.to_N (w_zwarn w); f_npix := f_npix r; f_ncoeff := f_ncoeff r; Model_Zfind.f_coeff := w_coeff w; f_lim := f_lim r; f_znum := f_znum r; f_dchi2 := f_dchi2 r |}.

(* 992-1135: the table zfit *)
Definition rrdesi (o : dopts) (ps : list tmpl) (ds : list dfile) : res (list frow) :=
  do fs <- open_files o ds;
  do tgs <- read_targets o fs;
  do tab <- run_local ps tgs (all_ids fs);
  Ok (map (reflag (fibermap ds fs)) tab).
End Desi.
(* 1160: the table REDSHIFTS *)
Definition zbest (tab : list frow) : list frow := filter (fun r => f_znum r =? 0) tab.
