(* Model of py/redrock/archetypes.py on the CPU (use_gpu=False, trapz=True), and of
   the archetype branch of targets.Target.eval_model.
   Simplifications: numbers are exact rationals; the Lyman transmission is a
   parameter (a function of the redshift and the wavelengths), as are the solvers
   and the order numpy.argsort gives to equal values; n_nearest is a natural number. *)
From Verif Require Import Prelude NumX Model_Dist Model_Fitz Model_Zscan Model_IO Model_Rebin Model_Targets2.
From Coq Require DecimalString.

(* what the code calls outside itself: scipy/numpy solvers, numpy.argsort (any
   sorting order of the indices), transmission_Lyman(z, wave, model='Inoue14') with
   a scalar z (a 1-d array of the length of wave; always_return_array=True) *)
Record arch_env := { e_solv : solvers; e_argsort : vec -> list nat; e_lyman : Q -> vec -> vec }.

(* ---------- Archetype.__init__, archetypes.py 36-75 ---------- *)
(* a_type: hdr['RRTYPE'].strip(); a_raw: the SUBTYPE column; a_wave, a_flux: the
   wavelength grid and one row of flux per archetype *)
Record archetype := { a_type : string; a_raw : list string; a_wave : vec; a_flux : mat }.
Definition narch (A : archetype) : nat := length (a_flux A).              (* 44 *)
(* str(i) of a natural number: its decimal digits *)
Definition dec (i : nat) : string := DecimalString.NilEmpty.string_of_uint (Nat.to_uint i).
(* 47-48: strip, then add '_' and the index *)
Definition label (raw : string) (i : nat) : string := (strip raw ++ "_" ++ dec i)%string.
Definition sub_types (A : archetype) : list string := map (fun p => label (snd p) (fst p)) (enum (a_raw A)).
(* 49 *)
Definition full_types (A : archetype) : list string :=
  map (fun s => make_fulltype (a_type A) (Some s)) (sub_types A).

(* ---------- Archetype.eval, archetypes.py 179-223 ---------- *)
(* np.where(self._subtype == s)[0][0] *)
Fixpoint first_index (s : string) (l : list string) : option nat :=
  match l with
  | [] => None
  | x :: r => if String.eqb x s then Some O else option_map S (first_index s r)
  end.
Definition vadd (a b : vec) : vec := map2 Qplus a b.
(* one term c*binned_archetype, 206-210 *)
Definition eval_term (E : arch_env) (A : archetype) (wave : vec) (z : Q) (name : string) (c : Q) : res vec :=
  match first_index name (sub_types A) with
  | None => Err IndexError
  | Some i =>
    match nth_error (a_flux A) i with
    | None => Err IndexError
    | Some fl =>
      do m <- trapz_rebin_xnew (redshifted (a_wave A) z) (Y1 fl) wave ZNone false;
      match m with
      | V1 b => Ok (map2 (fun x t => c * (x * t))%Q b (e_lyman E z wave))
      | _ => Err ValueError
      end
    end
  end.
(* legendre.T.dot(legcoeff).T for a 1-d legcoeff, 212-218; a constant grid makes the
   polynomials NaN: here an error (simplification) *)
Definition leg_term (wave : vec) (lc : vec) : res vec :=
  do L <- leg_array (length lc) wave;
  match L with
  | Some rows => Ok (map (fun l => sumQ (map2 Qmult (map (fun row => nth l row 0%Q) rows) lc)) (seq 0 (length wave)))
  | None => Err ValueError
  end.
(* legcoeff: None or a 1-d array (only plotspec.py passes a 2-d array: Model_Plot.eval_row) *)
Definition arch_eval (E : arch_env) (A : archetype) (subtype : string) (coeff : vec) (wave : vec) (z : Q)
    (R : option csr) (legcoeff : option vec) : res vec :=
  let names := split ";" subtype in
  do m <- fold_left (fun acc nc => do m <- acc; do t <- eval_term E A wave z (fst nc) (snd nc); Ok (vadd m t))
            (combine names (firstn (length names) coeff)) (Ok (repeat 0%Q (length wave)));
  do m <- match legcoeff with None => Ok m | Some lc => do t <- leg_term wave lc; Ok (vadd m t) end;
  match R with None => Ok m | Some r => csr_vec r m end.

(* ---------- get_best_archetype, archetypes.py 295-400 ---------- *)
(* numpy arrays of dimension 1 or 2 *)
Inductive arr := A1 (l : vec) | A2 (rows : mat).
Definition tdic := dict (option arr).
(* 350-352: `for hs in trans: if trans[hs] is not None: trans[hs] = trans[hs][0,:]`.
   The dictionary of the caller is changed; when an entry raises, the entries
   before it have been changed. *)
Definition slice0 (a : option arr) : res (option arr) :=
  match a with
  | None => Ok None
  | Some (A2 (r :: _)) => Ok (Some (A1 r))
  | Some (A2 []) | Some (A1 _) => Err IndexError
  end.
Fixpoint slice_trans (t : tdic) : tdic * res unit :=
  match t with
  | [] => ([], Ok tt)
  | (k, a) :: r =>
      match slice0 a with
      | Err e => (t, Err e)
      | Ok a' => let '(r', o) := slice_trans r in ((k, a') :: r', o)
      end
  end.
(* 355 *)
Definition rebin_all (A : archetype) (z : Q) (dwave : dict vec) : res (dict mat) :=
  mapM (fun kw => do r <- arch_rebin_cpu (a_wave A) (a_flux A) (snd kw) z;
                  match r with V2 m => Ok (fst kw, m) | _ => Err ValueError end) dwave.
(* binned[hs] *= trans[hs][:,None], 369-371 *)
Definition times_trans (B : mat) (t : option arr) : res mat :=
  match t with
  | None => Ok B
  | Some (A2 _) => Err ValueError
  | Some (A1 l) =>
      if length l =? length B then Ok (map2 (fun row x => map (fun v => v * x)%Q row) B l)
      else if length l =? 1 then Ok (map (map (fun v => v * nth 0 l 0)%Q) B)
      else Err ValueError
  end.
Definition absorbed (t : tdic) (binned : dict mat) : res (dict mat) :=
  mapM (fun kb => match dget t (fst kb) with
                  | None => Err KeyError
                  | Some a => do B <- times_trans (snd kb) a; Ok (fst kb, B)
                  end) binned.
(* the row of the design matrix at wavelength l: the given template values, then the Legendre
   polynomials, 372-377 and 276-280 *)
Definition basis_row (heads : vec) (L : mat) (l : nat) : vec := heads ++ map (fun row => nth l row 0%Q) L.
(* legendre[hs] must exist and have the shape (nleg, nwave) (np.append raises
   otherwise; target.legendre gives every array nleg rows, so another number of
   rows is an error here) *)
Definition leg_of (nleg : nat) (leg : dict mat) (hs : Z) (nw : nat) : res mat :=
  if nleg =? 0 then Ok []
  else match dget leg hs with
       | None => Err KeyError
       | Some L => if (length L =? nleg) && forallb (fun r => length r =? nw) L then Ok L else Err ValueError
       end.
(* narch arrays of shape (nwave, 1+nleg) *)
Definition arch_tdata (nar nleg : nat) (leg : dict mat) (binned : dict mat) : res tdict :=
  mapM (fun kb =>
     do L <- leg_of nleg leg (fst kb) (length (snd kb));
     Ok (fst kb, map (fun j => map (fun lr => basis_row [nth j (snd lr) 0%Q] L (fst lr)) (enum (snd kb))) (seq 0 nar)))
   binned.
(* prior[n-1:,][:,n-1:], 366; n = 0 keeps the last row and column *)
Definition prior_slice (n : nat) (P : mat) : mat :=
  let cut {T} (l : list T) := match n with O => skipn (length l - 1) l | S k => skipn k l end in
  map (fun r => cut r) (cut P).

(* ---------- nearest_neighbour_model, archetypes.py 225-293 (binned given) ---------- *)
Fixpoint join (sep : string) (l : list string) : string :=
  match l with [] => EmptyString | [x] => x | x :: r => (x ++ sep ++ join sep r)%string end.
(* one array of shape (nwave, len(iBest)+nleg) per key, 266, 276-280 *)
Definition near_tdata (best : list nat) (nleg : nat) (leg : dict mat) (binned : dict mat) : res tdict :=
  mapM (fun kb =>
     do L <- leg_of nleg leg (fst kb) (length (snd kb));
     Ok (fst kb, [map (fun lr => basis_row (map (fun j => nth j (snd lr) 0%Q) best) L (fst lr)) (enum (snd kb))]))
   binned.
Definition nearest_model (E : arch_env) (A : archetype) (spectra : list spectrum) (bands : list string)
   (weights flux wflux : vec) (nleg : nat) (leg binned : dict mat) (n : nat) (zz : vec) (per_camera : bool)
   (prior : mat) : res (Q * vec * string) :=
  let best := firstn n (e_argsort E zz) in
  do td <- near_tdata best nleg leg binned;
  do r <- (if per_camera then
             (* columns n_nbh.. are read past the end when fewer archetypes exist, zscan.py 317-321 *)
             if (length best <? n) && negb (length td =? 0) then Err IndexError
             else per_camera_fit (e_solv E) "bvls" (Some prior) spectra td weights flux wflux nleg 1 n bands
           else
             (* solve_matrices_algorithm is None: None.upper() raises *)
             let nb := length best + nleg in
             if Qeq_bool (sumQ weights) 0 then Ok ([HUGE_CHI2], [repeat 0%Q nb])
             else do Tb <- dot_product_sparse_one nb spectra td 0;
                  if negb ((length Tb =? length weights) && (length Tb =? length wflux) && (length Tb =? length flux))
                  then Err ValueError else Err AttributeError);
  match fst r, snd r with
  | z :: _, c :: _ => Ok (z, c, make_fulltype (a_type A) (Some (join ";" (map (fun k => nth k (sub_types A) EmptyString) best))))
  | _, _ => Err IndexError
  end.

(* legendre: target.legendre(nleg=target.nleg); 343: nleg is the number of rows of the first array.
   np.argmin and the final indexing, 399-400: argmin of an empty array raises. *)
Definition pick_best (A : archetype) (zz : vec) (cc : list vec) : res (Q * vec * string) :=
  match zz with
  | [] => Err ValueError
  | _ => let i := argmin zz in
         match nth_error zz i, nth_error cc i, nth_error (full_types A) i with
         | Some x, Some c, Some f => Ok (x, c, f)
         | _, _, _ => Err IndexError
         end
  end.
(* 354-400 with the transmission already in hand *)
Definition best_body (E : arch_env) (A : archetype) (spectra : list spectrum) (bands : list string)
   (weights flux wflux : vec) (dwave : dict vec) (z : Q) (per_camera : bool) (n_nearest : option nat)
   (trans : tdic) (method : string) (prior : option mat) (leg : dict mat) (nleg : nat) : res (Q * vec * string) :=
  do raw <- rebin_all A z dwave;
  do prior1 <- match n_nearest with
               | None => Ok prior
               | Some n => match prior with None => Err AttributeError | Some P => Ok (Some (prior_slice n P)) end
               end;
  do binned <- absorbed trans raw;
  do td <- arch_tdata (narch A) nleg leg binned;
  let nbasis := match td with [] => 1 | _ => 1 + nleg end in
  do r <- (if per_camera then
             per_camera_fit (e_solv E) method prior1 spectra td weights flux wflux nleg (narch A) 1 bands
           else
             calc_zchi2_batch (e_solv E) (upper method) (Some (cam_bounds 1 nbasis)) None spectra td weights flux wflux
               (narch A) nbasis);
  match n_nearest, prior with
  | Some n, Some P => nearest_model E A spectra bands weights flux wflux nleg leg binned n (fst r) per_camera P
  | _, _ => pick_best A (fst r) (snd r)
  end.
(* result: the dictionary passed as `trans` after the call (None: not passed) and the value returned *)
Definition get_best_archetype (E : arch_env) (A : archetype) (spectra : list spectrum) (bands : list string)
   (weights flux wflux : vec) (dwave : dict vec) (z : Q) (per_camera : bool) (n_nearest : option nat)
   (trans : option tdic) (method : string) (prior : option mat) (leg : dict mat)
   : option tdic * res (Q * vec * string) :=
  match leg with
  | [] => (trans, Err IndexError)                                          (* list(legendre.keys())[0] *)
  | (_, L0) :: _ =>
    let nleg := length L0 in
    match trans with
    | None =>
        (None, best_body E A spectra bands weights flux wflux dwave z per_camera n_nearest
                 (map (fun kw => (fst kw, Some (A1 (e_lyman E z (snd kw))))) dwave) method prior leg nleg)   (* 347 *)
    | Some t =>
        let '(t', o) := slice_trans t in
        (Some t', do _ <- o; best_body E A spectra bands weights flux wflux dwave z per_camera n_nearest
                               t' method prior leg nleg)
    end
  end.

(* ---------- All_archetypes, archetypes.py 411-426 ---------- *)
(* keyed by RRTYPE; a later file of the same type replaces the earlier *)
Definition all_archetypes (files : list archetype) : list (string * archetype) :=
  fold_left (fun d A => sset d (a_type A) A) files [].

(* ---------- targets.py 208-234, FITMETHOD 'ARCH' ---------- *)
(* each spectrum with its wavelengths, resolution; legcoeff: 1-d, or 2-d with one row per spectrum *)
Inductive legc := L1 (l : vec) | L2 (rows : mat).
Definition arch_eval_model (E : arch_env) (A : archetype) (subtype : string) (coeff : vec) (legcoeff : legc) (z : Q)
   (spectra : list (Z * vec * csr)) : res (dict vec) :=
  if forallb (fun c => Qeq_bool c 0) coeff then
    Ok (fold_left (fun d s => dset d (fst (fst s)) (repeat 0%Q (length (snd (fst s))))) spectra [])
  else
    let archcoeff := firstn (length (split ";" subtype)) coeff in
    let rows := match legcoeff with L1 l => repeat l (length spectra) | L2 rows => rows end in
    fold_left (fun acc is => do d <- acc;
        match nth_error rows (fst is) with
        | None => Err IndexError
        | Some lc => do m <- arch_eval E A subtype archcoeff (snd (fst (snd is))) z (Some (snd (snd is))) (Some lc);
                     Ok (dset d (fst (fst (snd is))) m)
        end) (enum spectra) (Ok []).
