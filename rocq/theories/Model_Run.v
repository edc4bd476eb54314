(* Model of a whole serial run on the CPU: template data (templates.py 571-598), coarse scan
   (zscan.py 941-1105), refinement (fitz.py 133-395) and the table of results (zfind.py 265-714), put
   together from the models of the single functions.
   Simplifications: exact rationals; the transmission of the intergalactic medium is a given function of
   (model, redshift, wavelength), equal to one where the code skips the correction (C74); no MPI, one
   process, no archetypes, no priors, no chi2_scan file; progress messages, timing and the metadata columns
   are left out; spectra of a target carry their wavelengths; local_target_ids() and local() are in the same
   order (C79); a template called "meta" is left out of the
   table (471) but not overwritten by the metadata. *)
From Verif Require Import Prelude NumX Model_Fitz Model_Rebin Model_Dist Model_Zscan Model_Piece Model_IO Model_Zfind.

(* templates.py 142-196, the fields used here *)
Record tmpl := { p_core : template; p_sub : string; p_igm : option string; p_zs : list Q }.
(* templates.py 205-209 *)
Definition full_type (p : tmpl) : string := make_fulltype (t_rrtype (p_core p)) (Some (p_sub p)).
Definition nbasis (p : tmpl) : nat := length (t_flux (p_core p)).
(* targets.py 11-60, 130-170 *)
Record rspec := { q_wave : list Q; q_spec : spectrum }.
Record targ := { g_id : Z; g_spectra : list rspec }.
Definition data_of (g : targ) : list spectrum := map q_spec (g_spectra g).
Definition q_hash (s : rspec) : Z := s_hash (q_spec s).

(* targets.py 468-489 without MPI: the first spectrum of a hash gives the wavelengths *)
Definition grids (tgs : list targ) : dict (list Q) :=
  fold_left (fun d s => match dget d (q_hash s) with Some _ => d | None => dset d (q_hash s) (q_wave s) end)
    (flat_map g_spectra tgs) [].
(* fitz.py 169: the last spectrum of a hash gives the wavelengths *)
Definition own_grids (g : targ) : dict (list Q) :=
  fold_left (fun d s => dset d (q_hash s) (q_wave s)) (g_spectra g) [].

Section Run.
Variables (slv : solvers) (argsort : list xq -> list nat) (polyfit : list Q -> list Q -> option (Q * Q * Q)) (isqrt : Q -> Q).
Variable trans : option string -> Q -> Q -> Q.
Variables (nminima nz : nat).

(* data[k] *= T[:,:,None], templates.py 587-597, fitz.py 233-243 and 274-288 *)
Definition attenuate (igm : option string) (zs lo : list Q) (m : list mat) : list mat :=
  map2 (fun z rows => map2 (fun l row => map (fun v => Qred (v * trans igm z l)) row) lo rows) zs m.
(* templates.py 584-597; also fitz.py 220-243 and 267-288, where xmin and xmax are given but equal to the
   values computed by rebin_template itself (rebin.py 488-491) *)
Definition tdata (p : tmpl) (dw : dict (list Q)) (zs : list Q) : res tdict :=
  do d <- rebin_template (t_wave (p_core p)) (t_flux (p_core p)) zs (DWave dw) false None None;
  mapM (fun kd => match snd (snd kd) with
                  | V3 m => Ok (fst (fst kd), attenuate (p_igm p) zs (snd (fst kd)) m)
                  | _ => Err ValueError end) (combine dw d).

(* results[tid][fulltype]: zchi2, penalty and, after the refinement, the fits with the number of pixels *)
Record entry := { e_zchi2 : list Q; e_penalty : list Q; e_fits : option (N * list (fit Q (list Q))) }.
Definition scans := dict (list (string * entry)).
(* results[tid][fulltype] = e *)
Definition put (r : scans) (tid : Z) (ft : string) (e : entry) : res scans :=
  match dget r tid with None => Err KeyError | Some d => Ok (dset r tid (sset d ft e)) end.
Definition put_all (r : scans) (l : list (Z * (string * entry))) : res scans :=
  fold_left (fun acc x => do r <- acc; put r (fst x) (fst (snd x)) (snd (snd x))) l (Ok r).

(* zscan.py 958-1103 for one template.  The dictionaries zchi2, zcoeff and penalty of 985-1019 have one entry
   per target id, the last one for a repeated id; sorted(keys) at 1098 does not matter, the keys of results are
   already there. *)
Definition scan_template (tgs : list targ) (r : scans) (p : tmpl) (td : tdict) : res scans :=
  do rows <- calc_zchi2 slv (p_core p) td (length (p_zs p)) (map data_of tgs);
  put_all r (map (fun x : targ * (vec * list vec * vec) => let '(g, (zc, _, pen)) := x in
       (g_id g, (full_type p, {| e_zchi2 := zc; e_penalty := pen; e_fits := None |}))) (combine tgs rows)).
(* zscan.py 950-952, 958 *)
Fixpoint scan_all (tgs : list targ) (r : scans) (l : list (tmpl * tdict)) : res scans :=
  match l with
  | [] => Ok r
  | (p, td) :: rest => do r' <- scan_template tgs r p td; scan_all tgs r' rest
  end.
Definition empty_scans (tgs : list targ) : scans := fold_left (fun d g => dset d (g_id g) []) tgs [].

(* fitz.py 217-257 at one redshift: chi2 with the penalty.  That the batch over zz is this function at every
   redshift is proved (Proof_Run4.v, scan_batch_ok). *)
Definition chi2_at (p : tmpl) (g : targ) (w f wf : vec) (z : Q) : res (Q * vec) :=
  do td <- tdata p (own_grids g) [z];
  do r <- calc_zchi2_batch slv (t_method (p_core p)) None None (data_of g) td w f wf 1 (nbasis p);
  Ok (hd 0%Q (fst r), hd [] (snd r)).
Definition penalty (p : tmpl) (c : vec) : Q :=
  match OIItemplate (p_core p) with Some A => negOII_row A c | None => 0%Q end.
Definition fine_scan (p : tmpl) (g : targ) (w f wf : vec) (z : Q) : res Q :=
  do r <- chi2_at p g w f wf z; Ok (fst r + penalty p (snd r))%Q.
(* fitz.py 217-257 as written: all the redshifts at once *)
Definition scan_batch (p : tmpl) (g : targ) (w f wf : vec) (zz : list Q) : res (list Q) :=
  do td <- tdata p (own_grids g) zz;
  do r <- calc_zchi2_batch slv (t_method (p_core p)) None None (data_of g) td w f wf (length zz) (nbasis p);
  Ok (match OIItemplate (p_core p) with
      | Some A => map2 Qplus (fst r) (calc_negOII_penalty A (snd r))
      | None => fst r end).
(* fitz.py 265-293 *)
Definition coeff_at (p : tmpl) (g : targ) (w f wf : vec) (z : Q) : res vec :=
  do r <- chi2_at p g w f wf z; Ok (snd r).
(* fitz.py 133-360 *)
Definition fit_target (p : tmpl) (g : targ) (zchi2 : list Q) : res (list (fit Q (list Q))) :=
  do d <- spectral_data (data_of g);
  let '(w, f, wf) := d in
  fitz argsort polyfit isqrt (-1)%Q (fine_scan p g w f wf) (coeff_at p g w f wf) (repeat 0%Q (nbasis p))
    (velo_limit (String.eqb (t_rrtype (p_core p)) "STAR")) nminima nz (p_zs p) None (map Fin zchi2).

(* fitz.py 377-381 *)
Definition npixels (g : targ) : N :=
  N.of_nat (length (filter (fun v => qlt 0 v) (concat (map s_ivar (data_of g))))).
(* zfind.py 356-363, 336: one template, all targets.  results[tg.id][ft]['zchi2'] + results[tg.id][ft]['penalty'] *)
Definition fit_one (p : tmpl) (r : scans) (g : targ) : res scans :=
  match dget r (g_id g) with
  | None => Err KeyError
  | Some d =>
    match sget d (full_type p) with
    | None => Err KeyError
    | Some e =>
      do fs <- fit_target p g (map2 Qplus (e_zchi2 e) (e_penalty e));
      put r (g_id g) (full_type p) {| e_zchi2 := e_zchi2 e; e_penalty := e_penalty e; e_fits := Some (npixels g, fs) |}
    end
  end.
Definition fit_template (tgs : list targ) (r : scans) (p : tmpl) : res scans :=
  fold_left (fun acc g => do r <- acc; fit_one p r g) tgs (Ok r).
(* zfind.py 328, 336: in the order of the full types.  numpy's default argsort keeps the order of equal ones only
   for few of them (up to 16); the model keeps it always *)
Definition by_type (ps : list tmpl) : list tmpl := isort (fun a b => String.leb (full_type a) (full_type b)) ps.
Definition fit_all (tgs : list targ) (r : scans) (ps : list tmpl) : res scans :=
  fold_left (fun acc p => do r <- acc; fit_template tgs r p) (by_type ps) (Ok r).

(* fitz.py 362-393 and zfind.py 473-500: the block of one template.  No minima: a coeff array of width 1 *)
Definition block_of (ft : string) (e : entry) : res Model_Zfind.block :=
  match e_fits e with
  | None => Err KeyError                                                            (* 473 *)
  | Some (np, fs) =>
    do ts <- parse_fulltype ft;
    Ok {| b_width := match fs with [] => 1 | x :: _ => length (Model_Fitz.f_coeff x) end;
          b_rows := map (fun x => {| f_tid := 0; f_type := fst ts; f_sub := snd ts; Model_Zfind.f_z := Model_Fitz.f_z x; Model_Zfind.f_zerr := Model_Fitz.f_zerr x;
                                     Model_Zfind.f_chi2 := Fin (Model_Fitz.f_chi2 x); Model_Zfind.f_zwarn := Z.to_N (Model_Fitz.f_zwarn x); f_npix := np; f_ncoeff := 0;
                                     Model_Zfind.f_coeff := Model_Fitz.f_coeff x; f_lim := 0%Q; f_znum := 0; f_dchi2 := Fin 0 |}) fs |}
  end.
Definition blocks_of (d : list (string * entry)) : res (list Model_Zfind.block) :=
  mapM (fun x => block_of (fst x) (snd x)) (filter (fun x => negb (String.eqb (fst x) "meta")) d).
(* zfind.py 458-473: allresults *)
Definition results_of (r : scans) : res results := mapM (fun kd => do bs <- blocks_of (snd kd); Ok (fst kd, bs)) r.
(* zfind.py 468-517: the fits of a target are deleted when its table is made, so that a repeated id finds none (473) *)
Definition distinct_ids (ids : list Z) : bool := if list_eq_dec Z.eq_dec (nodup Z.eq_dec ids) ids then true else false.

(* rrdesi with one process: templates.py 584-598 for every template, zscan.py 941-1105, zfind.py 287-714.
   np.max of no templates (687) raises ValueError *)
Definition run (ps : list tmpl) (tgs : list targ) : res (list frow) :=
  do tds <- mapM (fun p => tdata p (grids tgs) (p_zs p)) ps;
  do r <- scan_all tgs (empty_scans tgs) (combine ps tds);
  do r <- fit_all tgs r ps;
  do d <- results_of r;
  if distinct_ids (map g_id tgs) then zfind_table nminima None (list_max_nat (map nbasis ps)) (map g_id tgs) d else Err KeyError.
End Run.
