(* Model of py/redrock/targets.py, second part: shared memory packing, caches of
   a Target, wavegrids, evaluation of best models; of DistTemplate's choice of
   redshifts; and of Template.eval, templates.eval_model.
   Exact rationals, no rounding. *)
From Verif Require Import Prelude Model_Fitz Model_Dist Model_Rebin Model_Zscan Model_Targets.

(* ---------- mp_array, utils.py 153-183 ---------- *)
(* 1-d: a RawArray with the same elements.  Shared buffers are never written to
   by the code, so a buffer is its contents. *)
Definition mp_array {A} (l : list A) : list A := l.
(* 2-d: ravel (C order), then nd.shape = shape.  width is shape[1]. *)
Definition ravel {A} (rows : list (list A)) : list A := concat rows.
Definition reshape2 {A} (nrow width : nat) (l : list A) : list (list A) :=
  map (fun i => firstn width (skipn (i * width) l)) (seq 0 nrow).
Definition mp_array2 {A} (width : nat) (rows : list (list A)) : list (list A) :=
  match ravel rows with
  | [] => rows                                      (* size 0: returned as is *)
  | l => reshape2 (length rows) width l
  end.

(* ---------- Spectrum.sharedmem_pack / unpack / Rcsr, targets.py 84-142 ---------- *)
(* dia_matrix in general: the width of data may differ from the number of columns *)
Record gdia := { gd_off : list Z; gd_data : list (list Q); gd_width : nat; gd_rows : nat; gd_cols : nat }.
(* The attributes involved.  None: the attribute does not exist (deleted or not
   yet set); for R and _Rcsr the inner option is Python's None. *)
Record shm := {
  sh_wave : list Q; sh_flux : list Q; sh_ivar : list Q;
  sh_R : option (option gdia); sh_Rcsr : option (option csr);
  sh_splen : option nat; sh_ndiag : option nat;
  sh_Roff : option (list Z); sh_Rdata : option (list (list Q));
  sh_csrshape : option (nat * nat);
  sh_Cdata : option (option (list Q)); sh_Cind : option (list nat); sh_Cptr : option (list nat);
  sh_shared : bool }.
(* __init__ *)
Definition shm_init (wave flux ivar : list Q) (R : option gdia) (Rcsr : option csr) : shm :=
  {| sh_wave := wave; sh_flux := flux; sh_ivar := ivar; sh_R := Some R; sh_Rcsr := Some Rcsr;
     sh_splen := None; sh_ndiag := None; sh_Roff := None; sh_Rdata := None; sh_csrshape := None;
     sh_Cdata := None; sh_Cind := None; sh_Cptr := None; sh_shared := false |}.
(* state afterwards, also when an exception is raised, and the result *)
Definition shm_pack (s : shm) : shm * res unit :=
  if sh_shared s then (s, Ok tt) else
  let s1 := {| sh_wave := mp_array (sh_wave s); sh_flux := mp_array (sh_flux s); sh_ivar := mp_array (sh_ivar s);
               sh_R := sh_R s; sh_Rcsr := sh_Rcsr s; sh_splen := sh_splen s; sh_ndiag := sh_ndiag s;
               sh_Roff := sh_Roff s; sh_Rdata := sh_Rdata s; sh_csrshape := sh_csrshape s;
               sh_Cdata := sh_Cdata s; sh_Cind := sh_Cind s; sh_Cptr := sh_Cptr s; sh_shared := false |} in
  match sh_R s with
  | Some (Some R) =>
      let upd rcsr shape cd ci cp sh := {| sh_wave := sh_wave s1; sh_flux := sh_flux s1; sh_ivar := sh_ivar s1;
               sh_R := None; sh_Rcsr := rcsr; sh_splen := Some (gd_width R); sh_ndiag := Some (length (gd_data R));
               sh_Roff := Some (mp_array (gd_off R)); sh_Rdata := Some (mp_array2 (gd_width R) (gd_data R));
               sh_csrshape := shape; sh_Cdata := cd; sh_Cind := ci; sh_Cptr := cp; sh_shared := sh |} in
      match sh_Rcsr s with
      | Some (Some C) => (upd None (Some (r_nrow C, r_ncol C)) (Some (Some (mp_array (r_val C))))
                              (Some (mp_array (r_ind C))) (Some (mp_array (r_ptr C))) true, Ok tt)
      | Some None => (upd (Some None) (sh_csrshape s) (Some None) (sh_Cind s) (sh_Cptr s) true, Ok tt)
      | None => (upd None (sh_csrshape s) (sh_Cdata s) (sh_Cind s) (sh_Cptr s) false, Err AttributeError)
      end
  | _ => (s1, Err AttributeError)             (* R is None, or deleted *)
  end.
Definition shm_unpack (s : shm) : shm * res unit :=
  if negb (sh_shared s) then (s, Ok tt) else
  match sh_Rdata s, sh_Roff s, sh_splen s with
  | Some D, Some O', Some n =>
      let R := {| gd_off := O'; gd_data := D; gd_width := n; gd_rows := n; gd_cols := n |} in
      let upd rcsr cd ci cp sh := {| sh_wave := sh_wave s; sh_flux := sh_flux s; sh_ivar := sh_ivar s;
               sh_R := Some (Some R); sh_Rcsr := rcsr; sh_splen := sh_splen s; sh_ndiag := sh_ndiag s;
               sh_Roff := None; sh_Rdata := None; sh_csrshape := sh_csrshape s;
               sh_Cdata := cd; sh_Cind := ci; sh_Cptr := cp; sh_shared := sh |} in
      match sh_Cdata s with
      | Some (Some v) =>
          match sh_Cind s, sh_Cptr s, sh_csrshape s with
          | Some i, Some p, Some (nr, nc) =>
              (upd (Some (Some {| r_nrow := nr; r_ncol := nc; r_val := v; r_ind := i; r_ptr := p |})) None None None false, Ok tt)
          | _, _, _ => (upd (sh_Rcsr s) (sh_Cdata s) (sh_Cind s) (sh_Cptr s) true, Err AttributeError)
          end
      | Some None => (upd (Some None) (sh_Cdata s) (sh_Cind s) (sh_Cptr s) false, Ok tt)
      | None => (upd (sh_Rcsr s) None (sh_Cind s) (sh_Cptr s) true, Err AttributeError)
      end
  | _, _, _ => (s, Err AttributeError)
  end.
Definition set_rcsr (s : shm) (c : csr) : shm :=
  {| sh_wave := sh_wave s; sh_flux := sh_flux s; sh_ivar := sh_ivar s; sh_R := sh_R s; sh_Rcsr := Some (Some c);
     sh_splen := sh_splen s; sh_ndiag := sh_ndiag s; sh_Roff := sh_Roff s; sh_Rdata := sh_Rdata s; sh_csrshape := sh_csrshape s;
     sh_Cdata := sh_Cdata s; sh_Cind := sh_Cind s; sh_Cptr := sh_Cptr s; sh_shared := sh_shared s |}.
(* the property Rcsr; tocsr is scipy's conversion, any function *)
Definition shm_Rcsr (tocsr : gdia -> csr) (s : shm) : shm * res csr :=
  match shm_unpack s with
  | (s1, Err e) => (s1, Err e)
  | (s1, Ok _) =>
      match sh_Rcsr s1 with
      | Some (Some c) => (s1, Ok c)
      | Some None => match sh_R s1 with
                     | Some (Some R) => (set_rcsr s1 (tocsr R), Ok (tocsr R))
                     | _ => (s1, Err AttributeError)
                     end
      | None => (s1, Err AttributeError)
      end
  end.
(* reading the attribute R *)
Definition shm_getR (s : shm) : res (option gdia) := match sh_R s with Some r => Ok r | None => Err AttributeError end.

Inductive shm_op := OpPack | OpUnpack | OpRcsr | OpGetR.
(* an exception raised by one call is caught by the caller and the history goes on *)
Definition shm_step (tocsr : gdia -> csr) (s : shm) (o : shm_op) : shm :=
  match o with
  | OpPack => fst (shm_pack s)
  | OpUnpack => fst (shm_unpack s)
  | OpRcsr => fst (shm_Rcsr tocsr s)
  | OpGetR => s
  end.
Definition shm_run (tocsr : gdia -> csr) (s : shm) (h : list shm_op) : shm := fold_left (shm_step tocsr) h s.

(* ---------- reduced_wavelength, utils.py 260-271 ---------- *)
(* wave.max() of an empty array raises; a constant grid divides by zero (numpy:
   NaN and a warning), here None *)
Fixpoint qmax_from (m : Q) (l : list Q) : Q := match l with [] => m | x :: r => qmax_from (if qlt m x then x else m) r end.
Definition reduced_wavelength (wave : list Q) : res (option (list Q)) :=
  match wave with
  | [] => Err ValueError
  | w0 :: r => let mx := qmax_from w0 r in let mn := qmin_from w0 r in
               if Qeq_bool mx mn then Ok None
               else Ok (Some (map (fun w => Qred (2 * (w - mn) / (mx - mn) - 1)) wave))
  end.
(* scipy.special.legendre(i)(x), by Bonnet's recurrence
   (i+1) P_{i+1} = (2i+1) x P_i - i P_{i-1}; pair (P_i, P_{i+1}) *)
Fixpoint leg_pair (i : nat) (x : Q) : Q * Q :=
  match i with
  | O => (1%Q, x)
  | S k => let '(a, b) := leg_pair k x in
           (b, Qred (((Z.of_nat (2 * k + 3) # 1) * x * b - (Z.of_nat (k + 1) # 1) * a) / (Z.of_nat (k + 2) # 1)))
  end.
Definition leg (i : nat) (x : Q) : Q := fst (leg_pair i x).

(* ---------- Target.legendre, targets.py 237-254 ---------- *)
(* dicts keyed by wavehash are association lists (last assignment wins, position
   of the first); the value of a key is an nleg x nwave array *)
Fixpoint kget {V} (d : list (key * V)) (k : key) : option V :=
  match d with [] => None | (k', v) :: r => if key_eqb k' k then Some v else kget r k end.
Fixpoint kset {V} (d : list (key * V)) (k : key) (v : V) : list (key * V) :=
  match d with
  | [] => [(k, v)]
  | (k', v') :: r => if key_eqb k' k then (k', v) :: r else (k', v') :: kset r k v
  end.
(* { s.wavehash:s.wave for s in spectra } *)
Definition dwave_of (spectra : list spec) : list (key * list Q) :=
  fold_left (fun d s => kset d (sp_hash s) (sp_wave s)) spectra [].
(* np.array([legendre(i)(reduced_wavelength(w)) for i in range(nleg)]); a constant
   grid gives NaN everywhere (None); with nleg = 0 the grid is not looked at *)
Definition leg_array (nleg : nat) (wave : list Q) : res (option (list (list Q))) :=
  match nleg with
  | O => Ok (Some [])
  | _ => do r <- reduced_wavelength wave;
         Ok (match r with Some rw => Some (map (fun i => map (leg i) rw) (seq 0 nleg)) | None => None end)
  end.
Definition legdict := list (key * option (list (list Q))).
Definition leg_dict (nleg : nat) (spectra : list spec) : res legdict :=
  mapM (fun kw => do a <- leg_array nleg (snd kw); Ok (fst kw, a)) (dwave_of spectra).
(* the caches of a Target: _legendre, _gpulegendre, nleg; gpuweights, gpuflux, gpuwflux *)
Record tcache := { tc_leg : option legdict; tc_gpuleg : option legdict; tc_nleg : nat;
                   tc_gpu : option (list Q * list Q * list Q) }.
Definition tcache0 : tcache := {| tc_leg := None; tc_gpuleg := None; tc_nleg := 0; tc_gpu := None |}.
(* cp.asarray is a copy to the device: the same values *)
Definition legendre (spectra : list spec) (nleg : nat) (gpu : bool) (c : tcache) : res (tcache * legdict) :=
  let compute :=
    do d <- leg_dict nleg spectra;
    if gpu then Ok ({| tc_leg := Some d; tc_gpuleg := Some d; tc_nleg := nleg; tc_gpu := tc_gpu c |}, d)
    else Ok ({| tc_leg := Some d; tc_gpuleg := tc_gpuleg c; tc_nleg := nleg; tc_gpu := tc_gpu c |}, d) in
  if gpu && (tc_nleg c =? nleg) then
    match tc_gpuleg c with
    | Some g => Ok (c, g)
    | None => match tc_leg c with
              | Some d => Ok ({| tc_leg := Some d; tc_gpuleg := Some d; tc_nleg := tc_nleg c; tc_gpu := tc_gpu c |}, d)
              | None => compute
              end
    end
  else match tc_leg c with
       | Some d => if tc_nleg c =? nleg then Ok (c, d) else compute
       | None => compute
       end.
(* ---------- Target.gpu_spectral_data, targets.py 256-265 ---------- *)
Definition spec_arrays (spectra : list spec) : res (list Q * list Q * list Q) :=
  match spectra with
  | [] => Err ValueError
  | _ => let w := concat (map sp_ivar spectra) in let f := concat (map sp_flux spectra) in
         if length w =? length f then Ok (w, f, map2 (fun a b => Qred (a * b)) w f) else Err ValueError
  end.
Definition gpu_spectral_data (spectra : list spec) (c : tcache) : res (tcache * (list Q * list Q * list Q)) :=
  match tc_gpu c with
  | Some v => Ok (c, v)
  | None => do v <- spec_arrays spectra;
            Ok ({| tc_leg := tc_leg c; tc_gpuleg := tc_gpuleg c; tc_nleg := tc_nleg c; tc_gpu := Some v |}, v)
  end.
(* a Target with its caches; the methods a caller may use in any order.
   compute_coadd replaces the spectra and touches no cache. *)
Inductive tg_op := OpLeg (nleg : nat) (gpu : bool) | OpGpu | OpCoadd (cache : bool) (nsig : Q).
Definition tg_state := (list spec * tcache)%type.
Definition tg_step (hashf : hash_arg -> Z) (s : tg_state) (o : tg_op) : tg_state :=
  match o with
  | OpLeg n g => match legendre (fst s) n g (snd s) with Ok (c, _) => (fst s, c) | Err _ => s end
  | OpGpu => match gpu_spectral_data (fst s) (snd s) with Ok (c, _) => (fst s, c) | Err _ => s end
  | OpCoadd cache nsig => match compute_coadd hashf cache nsig (fst s) with Ok sp => (sp, snd s) | Err _ => s end
  end.
Definition tg_run (hashf : hash_arg -> Z) (s : tg_state) (h : list tg_op) : tg_state := fold_left (tg_step hashf) h s.

(* ---------- DistTargets.wavegrids, targets.py 468-489 ---------- *)
(* if k not in d: d[k] = v *)
Definition add_new {V} (d : list (key * V)) (kv : key * V) : list (key * V) :=
  match kget d (fst kv) with Some _ => d | None => d ++ [kv] end.
Definition my_dwave (local : list (list spec)) : list (key * list Q) :=
  fold_left (fun d s => add_new d (sp_hash s, sp_wave s)) (concat local) [].
(* local.(r) = the spectra of the targets of rank r.  comm.allgather gives every
   rank the list of all my_dwave in rank order.  None = no MPI, one rank. *)
Definition wavegrids (mpi : bool) (locals : list (list (list spec))) (rank : nat) : list (key * list Q) :=
  if mpi then fold_left (fun d p => fold_left add_new p d) (map my_dwave locals) []
  else my_dwave (nth rank locals []).

(* ---------- Template.eval, templates.py 247-272 ---------- *)
(* coeff[0:nbasis]; flux.T.dot(coeff): ValueError if fewer coefficients than basis
   vectors.  wave*(1+z) *)
Definition comb (flux : list (list Q)) (coeff : list Q) (nwave : nat) : list Q :=
  map (fun i => dot (map (fun row => nth i row 0%Q) flux) coeff) (seq 0 nwave).
(* R.dot(model) for a 1-d model *)
Definition csr_vec (R : csr) (v : list Q) : res (list Q) :=
  if length v =? r_ncol R then Ok (map (fun row => csr_row_dot R row (fun l => nth l v 0%Q)) (seq 0 (r_nrow R))) else Err ValueError.
Definition template_eval (twave : list Q) (flux : list (list Q)) (coeff wave : list Q) (z : Q) (R : option csr) : res (list Q) :=
  let c := firstn (length flux) coeff in
  if negb (length c =? length flux) then Err ValueError else
  do m <- trapz_rebin_xnew (redshifted twave z) (Y1 (comb flux c (length twave))) wave ZNone false;
  match m with
  | V1 v => match R with Some r => csr_vec r v | None => Ok v end
  | _ => Err ValueError
  end.

(* ---------- what the scan fits: DistTemplate 584-598, calc_zchi2_batch ---------- *)
(* Row per wavelength, column per basis vector: the rebinned template times the
   transmission (None: no absorption in this range), then the resolution, then
   the coefficients. *)
Definition fit_matrix (twave : list Q) (flux : list (list Q)) (wave : list Q) (z : Q) (T : option (list Q)) : res (list (list Q)) :=
  do m <- trapz_rebin_xnew twave (Y2 flux) wave (ZArray [z]) false;
  match m with
  | V3 [A] => Ok (match T with None => A | Some t => map2 (fun row x => map (fun v => v * x)%Q row) A t end)
  | _ => Err ValueError
  end.
Definition fitted_model (twave : list Q) (flux : list (list Q)) (coeff wave : list Q) (z : Q) (T : option (list Q)) (R : csr) : res (list Q) :=
  do A <- fit_matrix twave flux wave z T;
  do B <- csr_dot R (length flux) A;
  Ok (mvec B coeff).

(* ---------- Target.eval_model, targets.py 208-234 (fits with a template) ---------- *)
(* np.all(coeff == 0.0) *)
Definition target_eval_model (twave : list Q) (flux : list (list Q)) (coeff : list Q) (z : Q)
   (spectra : list (spec * csr)) : res (list (key * list Q)) :=
  if forallb (fun c => Qeq_bool c 0) coeff then
    Ok (fold_left (fun d s => kset d (sp_hash (fst s)) (repeat 0%Q (length (sp_wave (fst s))))) spectra [])
  else
    fold_left (fun acc s => do d <- acc; do m <- template_eval twave flux coeff (sp_wave (fst s)) z (Some (snd s));
                            Ok (kset d (sp_hash (fst s)) m)) spectra (Ok []).
(* ---------- DistTargets.eval_models, targets.py 460-466: the row used for a target ---------- *)
Definition bestfit_row (ids : list Z) (tid : Z) : res nat :=
  match filter (fun p => (snd p =? tid)%Z) (enum ids) with [] => Err IndexError | p :: _ => Ok (fst p) end.

(* ---------- templates.eval_model, 781-832 (wave not a dict) ---------- *)
(* one row of data: template of its type, coefficients, z; R: None or one matrix per row *)
Record fitrow := { fr_wave : list Q; fr_flux : list (list Q); fr_coeff : list Q; fr_z : Q }.
Definition mod_eval_model (data : list fitrow) (wave : list Q) (R : option (list csr)) : res (list (list Q)) :=
  mapM (fun p => match R with
                 | None => Err TypeError                             (* R[i] of None *)
                 | Some Rs => match nth_error Rs (fst p) with
                              | None => Err IndexError
                              | Some r => template_eval (fr_wave (snd p)) (fr_flux (snd p)) (fr_coeff (snd p)) wave (fr_z (snd p)) (Some r)
                              end
                 end) (enum data).

(* templates.py 811-823: wave a dictionary.  R: None or a dictionary; set(R.keys()) != set(wave.keys())
   raises ValueError *)
Definition mod_eval_dict (data : list fitrow) (waves : list (string * list Q)) (R : option (list (string * list csr)))
  : res (list (string * list (list Q))) :=
  match R with
  | None => mapM (fun kw => do m <- mod_eval_model data (snd kw) None; Ok (fst kw, m)) waves
  | Some Rd =>
      if forallb (fun k => existsb (String.eqb k) (map fst waves)) (map fst Rd) && forallb (fun k => existsb (String.eqb k) (map fst Rd)) (map fst waves)
      then mapM (fun kw => match find (fun p => String.eqb (fst p) (fst kw)) Rd with
                           | Some p => do m <- mod_eval_model data (snd kw) (Some (snd p)); Ok (fst kw, m)
                           | None => Err KeyError
                           end) waves
      else Err ValueError
  end.

(* ---------- DistTemplate.__init__, templates.py 558-573: the local redshifts ---------- *)
Definition local_redshifts {A} (zs : list A) (gpu_mode use_gpu : bool) (size rank : nat) : res (list A) :=
  if gpu_mode then Ok (if use_gpu then zs else [])
  else do d <- array_split zs size; match nth_error d rank with Some x => Ok x | None => Err IndexError end.
(* external/desi.py 958, 976-983, 1080: rank r of size uses a GPU iff r < max_gpuprocs; the
   targets are distributed with gpu_capacities; every rank is in GPU mode.  Result:
   for each rank its target ids and its redshifts. *)
Definition gpu_run {A} (zs : list A) (ids : list Z) (w : option (Z -> option Q)) (maxgpu size : nat) : res (list (list Z * list A)) :=
  let flags := map (fun r => r <? maxgpu) (seq 0 size) in
  do d <- distribute_work size ids w (gpu_capacities flags);
  mapM (fun p => do z <- local_redshifts zs true (snd p <? maxgpu) size (snd p); Ok (fst p, z)) (combine d (seq 0 size)).
