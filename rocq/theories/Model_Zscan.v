(* Model of py/redrock/zscan.py: the linear algebra behind one chi2, the
   dispatch over solvers, the CPU scan, the per-camera archetype fit, the
   negative-[OII] penalty.
   Numbers are exact rationals.  Every inner product is brought to its
   canonical representative (Qred), so that equal numbers are equal terms;
   rounding is not modelled. *)
From Verif Require Import Prelude NumX Model_Fitz Model_Dist.

Definition vec := list Q.
Definition mat := list (list Q).         (* list of rows *)

(* np.dot of two 1-d arrays *)
Definition dot (a b : vec) : Q := Qred (sumQ (map2 Qmult a b)).
Definition col (j : nat) (A : mat) : vec := map (fun r => nth j r 0%Q) A.
(* A.dot(x) *)
Definition mvec (A : mat) (x : vec) : vec := map (fun r => dot r x) A.
(* A.T.dot(v), A having nb columns *)
Definition tdot (nb : nat) (A : mat) (v : vec) : vec := map (fun j => dot (col j A) v) (seq 0 nb).

(* scipy.sparse.csr_matrix: shape, data, indices, indptr *)
Record csr := { r_nrow : nat; r_ncol : nat; r_val : list Q; r_ind : list nat; r_ptr : list nat }.
(* one entry of Rcsr.dot(v): the stored entries of the row *)
Definition csr_row_dot (R : csr) (row : nat) (v : nat -> Q) : Q :=
  Qred (sumQ (map (fun jj => nth jj (r_val R) 0 * v (nth jj (r_ind R) O))%Q
     (seq (nth row (r_ptr R) O) (nth (S row) (r_ptr R) O - nth row (r_ptr R) O)))).
(* Rcsr.dot(A), A an (r_ncol x nb) array *)
Definition csr_dot (R : csr) (nb : nat) (A : mat) : res mat :=
  if length A =? r_ncol R then
    Ok (map (fun row => map (fun b => csr_row_dot R row (fun l => nth b (nth l A []) 0%Q)) (seq 0 nb))
            (seq 0 (r_nrow R)))
  else Err ValueError.

(* targets.py 11-60, the fields used here *)
Record spectrum := { s_hash : Z; s_ivar : vec; s_flux : vec; s_R : csr }.

(* zscan.py 192-209 (np.concatenate of an empty list raises ValueError) *)
Definition spectral_data (spectra : list spectrum) : res (vec * vec * vec) :=
  match spectra with
  | [] => Err ValueError
  | _ => let weights := concat (map s_ivar spectra) in
         let flux := concat (map s_flux spectra) in
         if length weights =? length flux then Ok (weights, flux, map2 (fun w f => Qred (w * f)) weights flux)
         else Err ValueError
  end.

(* dict of 3-d arrays keyed by wavehash: nz matrices (nlambda x nbasis) each *)
Definition tdict := dict (list mat).

(* zscan.py 446-467.  np.vstack of an empty list raises ValueError. *)
Definition dot_product_sparse_one (nb : nat) (spectra : list spectrum) (tdata : tdict) (i : nat) : res mat :=
  do blocks <- mapM (fun s =>
      match dget tdata (s_hash s) with
      | None => Err KeyError
      | Some T => match nth_error T i with
                  | None => Err IndexError
                  | Some A => csr_dot (s_R s) nb A
                  end
      end) spectra;
  match blocks with [] => Err ValueError | _ => Ok (concat blocks) end.

(* M = Tb.T.dot(np.multiply(weights[:,None], Tb))      zscan.py 176, 759 *)
Definition normal_M (nb : nat) (w : vec) (Tb : mat) : mat :=
  map (fun j => map (fun k => dot (col j Tb) (map2 Qmult w (col k Tb))) (seq 0 nb)) (seq 0 nb).
(* M += prior   zscan.py 761-762 *)
Definition add_prior (nb : nat) (M : mat) (prior : option mat) : res mat :=
  match prior with
  | None => Ok M
  | Some P => if (length P =? nb) && forallb (fun r => length r =? nb) P
              then Ok (map2 (map2 (fun a b => Qred (a + b))) M P) else Err ValueError
  end.
(* np.dot((flux-model)**2, weights)    zscan.py 188, 780 *)
Definition chi2_of (flux model weights : vec) : Q :=
  dot (map2 (fun f m => (f - m) * (f - m))%Q flux model) weights.

Definition HUGE_CHI2 : Q := 9999999.    (* zscan.py 18 *)

(* ---------- solve_matrices, zscan.py 1107-1203 ---------- *)
Definition bounds := (list (option Q) * list (option Q))%type.  (* None = -inf / +inf *)
(* the external solvers: np.linalg.solve, scipy nnls, scipy lsq_linear(method='bvls'),
   cupy.linalg.solve (which never raises) *)
Record solvers := {
  linsolve : mat -> vec -> res vec;
  nnls : mat -> vec -> res vec;
  bvls : mat -> vec -> bounds -> res vec;
  cusolve : mat -> vec -> vec
}.

(* str.upper on ASCII *)
Definition upper_ascii (c : ascii) : ascii :=
  let n := nat_of_ascii c in
  if (97 <=? n) && (n <=? 122) then ascii_of_nat (n - 32) else c.
Fixpoint upper (s : string) : string :=
  match s with EmptyString => EmptyString | String c r => String (upper_ascii c) (upper r) end.

Definition unbounded (n : nat) : bounds := (repeat None n, repeat None n).
Definition the_bounds (solver_args : option bounds) (y : vec) : bounds :=
  match solver_args with Some b => b | None => unbounded (length y) end.  (* 1175-1181 *)

(* use_gpu=False branches *)
Definition solve_matrices (S : solvers) (alg : string) (args : option bounds) (M : mat) (y : vec) : res vec :=
  let a := upper alg in
  if String.eqb a "PCA" then linsolve S M y                                    (* 1147-1152 *)
  else if String.eqb a "NMF" || String.eqb a "NNLS" then                        (* 1167-1173 *)
    match nnls S M y with Ok x => Ok x | Err _ => Err LinAlgError end
  else if String.eqb a "BVLS" then bvls S M y (the_bounds args y)               (* 1195-1201 *)
  else Err NotImplementedError.                                                  (* 1203 *)

(* ---------- calc_zchi2_batch on the CPU: zscan.py 656-660, 747-781 ---------- *)
Definition zchi2_at (S : solvers) (alg : string) (args : option bounds) (prior : option mat) (nb : nat)
   (spectra : list spectrum) (tdata : tdict) (weights flux wflux : vec) (i : nat) : res (Q * vec) :=
  do Tb <- dot_product_sparse_one nb spectra tdata i;
  if negb ((length Tb =? length weights) && (length Tb =? length wflux) && (length Tb =? length flux))
  then Err ValueError else
  do M <- add_prior nb (normal_M nb weights Tb) prior;
  let y := tdot nb Tb wflux in
  match solve_matrices S alg args M y with
  | Ok c => if length c =? nb then Ok (chi2_of flux (mvec Tb c) weights, c) else Err ValueError
  | Err LinAlgError | Err NotImplementedError => Ok (HUGE_CHI2, repeat 0%Q nb)   (* row i of np.zeros *)
  | Err e => Err e
  end.
Definition calc_zchi2_batch (S : solvers) (alg : string) (args : option bounds) (prior : option mat)
   (spectra : list spectrum) (tdata : tdict) (weights flux wflux : vec) (nz nb : nat) : res (vec * list vec) :=
  if Qeq_bool (sumQ weights) 0 then Ok (repeat HUGE_CHI2 nz, repeat (repeat 0%Q nb) nz)
  else
    do r <- mapM (zchi2_at S alg args prior nb spectra tdata weights flux wflux) (seq 0 nz);
    Ok (map fst r, map snd r).

(* ---------- _zchi2_one / calc_zchi2_one, zscan.py 169-190, 213-243 ---------- *)
(* tdata here holds one 2-d array per wavehash; same design matrix *)
Definition calc_zchi2_one (S : solvers) (alg : string) (nb : nat) (spectra : list spectrum)
   (weights flux wflux : vec) (tdata : dict mat) : res (Q * vec) :=
  do blocks <- mapM (fun s => match dget tdata (s_hash s) with
                              | None => Err KeyError
                              | Some A => csr_dot (s_R s) nb A end) spectra;
  match blocks with
  | [] => Err ValueError
  | _ =>
    let Tb := concat blocks in
    if negb ((length Tb =? length weights) && (length Tb =? length wflux) && (length Tb =? length flux))
    then Err ValueError else
    match solve_matrices S alg None (normal_M nb weights Tb) (tdot nb Tb wflux) with
    | Ok c => if length c =? nb then Ok (chi2_of flux (mvec Tb c) weights, c) else Err ValueError
    | Err LinAlgError | Err NotImplementedError => Ok (HUGE_CHI2, repeat 0%Q nb)
    | Err e => Err e
    end
  end.

(* ---------- negative [OII] penalty ---------- *)
(* Template: the fields used here; t_flux has one row per basis vector *)
Record template := { t_rrtype : string; t_method : string; t_wave : vec; t_flux : mat }.
(* templates.py 172-174: attribute present only for GALAXY + PCA *)
Definition OIItemplate (t : template) : option mat :=
  if String.eqb (t_rrtype t) "GALAXY" && String.eqb (t_method t) "PCA" then
    Some (map (fun row => map snd (filter (fun wf => Qle_bool 3724 (fst wf) && Qle_bool (fst wf) 3733)
                                          (combine (t_wave t) row))) (t_flux t))
  else None.
(* one row of coeff @ OIItemplate (nOII columns) *)
Definition vecmat (c : vec) (A : mat) (n : nat) : vec := map (fun k => dot c (col k A)) (seq 0 n).
(* zscan.py 783-800 *)
Definition negOII_row (A : mat) (c : vec) : Q :=
  let f := sumQ (vecmat c A (length (hd [] A))) in
  if qlt f 0 then Qred (- f) else 0%Q.
Definition calc_negOII_penalty (A : mat) (coeff : list vec) : vec := map (negOII_row A) coeff.

(* ---------- calc_zchi2 (CPU), zscan.py 841-889 ---------- *)
(* one target: (zchi2 row, zcoeff rows, penalty row) *)
Definition zchi2_target (S : solvers) (t : template) (tdata : tdict) (nz : nat) (spectra : list spectrum)
  : res (vec * list vec * vec) :=
  do d <- spectral_data spectra;
  let '(weights, flux, wflux) := d in
  let nb := length (t_flux t) in
  if Qeq_bool (sumQ weights) 0 then
    Ok (repeat HUGE_CHI2 nz, repeat (repeat 0%Q nb) nz, repeat 0%Q nz)
  else
    do r <- calc_zchi2_batch S (t_method t) None None spectra tdata weights flux wflux nz nb;
    Ok (fst r, snd r, match OIItemplate t with
                      | Some A => calc_negOII_penalty A (snd r)
                      | None => repeat 0%Q nz end).
Definition calc_zchi2 (S : solvers) (t : template) (tdata : tdict) (nz : nat) (targets : list (list spectrum))
  : res (list (vec * list vec * vec)) := mapM (zchi2_target S t tdata nz) targets.

(* ---------- per_camera_coeff_with_least_square_batch (CPU), zscan.py 274-348 ---------- *)
(* 316-322: row of tdata2[hs] made from a row p of tdata[hs][j]; i is the position
   of hs in the dict *)
Definition cam_row (n_nbh nleg nbasis i : nat) (p : vec) : vec :=
  map (fun k => if k <? n_nbh then nth k p 0%Q
                else if (n_nbh + nleg * i <=? k) && (k <? n_nbh + nleg * i + nleg)
                     then nth (k - nleg * i) p 0%Q else 0%Q) (seq 0 nbasis).
Definition cam_tdata (n_nbh nleg nbasis j : nat) (tdata : tdict) : res tdict :=
  mapM (fun ikv : nat * (Z * list mat) =>
     let '(i, (hs, T)) := ikv in
     match nth_error T j with
     | None => Err IndexError
     | Some A => if nbasis <? n_nbh + nleg * (i + 1) then Err IndexError
                 else Ok (hs, [map (cam_row n_nbh nleg nbasis i) A])
     end) (enum tdata).
(* 286-294 *)
Definition cam_bounds (n_nbh nbasis : nat) : bounds :=
  (map (fun k => if k <? n_nbh then Some 0%Q else None) (seq 0 nbasis), repeat None nbasis).

(* str keys *)
Fixpoint sget {V} (d : list (string * V)) (k : string) : option V :=
  match d with [] => None | (k', v) :: r => if String.eqb k' k then Some v else sget r k end.
Fixpoint sset {V} (d : list (string * V)) (k : string) (v : V) : list (string * V) :=
  match d with
  | [] => [(k, v)]
  | (k', v') :: r => if String.eqb k' k then (k, v) :: r else (k', v') :: sset r k v
  end.
(* lexicographic order on strings, as Python sorted() *)
Fixpoint str_leb (a b : string) : bool :=
  match a, b with
  | EmptyString, _ => true
  | _, EmptyString => false
  | String x a, String y b =>
      if nat_of_ascii x <? nat_of_ascii y then true
      else if nat_of_ascii y <? nat_of_ascii x then false else str_leb a b
  end.

(* 331-346: reassemble the coefficients of the narch fits.
   np.split needs len divisible by ncam, which holds because nbasis = n_nbh+nleg*ncam. *)
Definition cam_assemble (n_nbh nleg : nat) (bands : list string) (zz : list vec) : res (list vec) :=
  match n_nbh with
  | O => Err IndexError                                     (* ret_zcoeff['alpha'][0] of [] *)
  | _ =>
    let alpha := if 1 <? n_nbh
                 then [map (fun k => nth k (hd [] zz) 0%Q) (seq 0 n_nbh)]     (* 335: row 0 only *)
                 else map (fun c => [nth 0 c 0%Q]) zz in                       (* 337 *)
    let start := if 0 <? nleg then fold_left (fun d b => sset d b []) bands [("alpha"%string, [])]
                 else [("alpha"%string, [])] in                                (* 278-282 *)
    let d0 := sset start "alpha" alpha in
    let split (i : nat) := map (fun c => firstn nleg (skipn (n_nbh + i * nleg) c)) zz in
    do d1 <- (if 0 <? nleg then
       let old := fold_left (fun d ib => sset d (snd ib) (split (fst ib))) (enum bands) [] in   (* 342 *)
       fold_left (fun acc b => do d <- acc; match sget old b with
                                          | Some v => Ok (sset d b v) | None => Err KeyError end)
                 (isort str_leb bands) (Ok d0)                                  (* 344-345 *)
     else Ok d0);
    let parts := map snd d1 in
    (* np.concatenate(..., axis=1): all parts must have the same number of rows *)
    if forallb (fun p => length p =? length alpha) parts then
      Ok (map (fun j => concat (map (fun p => nth j p []) parts)) (seq 0 (length alpha)))
    else Err ValueError
  end.

Definition per_camera_fit (S : solvers) (method : string) (prior : option mat) (spectra : list spectrum)
   (tdata : tdict) (weights flux wflux : vec) (nleg narch n_nbh : nat) (bands : list string)
   : res (vec * list vec) :=
  let nbasis := n_nbh + nleg * length bands in
  let args := if String.eqb (upper method) "BVLS" then Some (cam_bounds n_nbh nbasis) else None in
  do r <- mapM (fun j =>
      do td <- cam_tdata n_nbh nleg nbasis j tdata;
      do b <- calc_zchi2_batch S method args prior spectra td weights flux wflux 1 nbasis;
      Ok (hd 0%Q (fst b), hd [] (snd b))) (seq 0 narch);
  do coeff <- cam_assemble n_nbh nleg bands (map snd r);
  Ok (map fst r, coeff).
