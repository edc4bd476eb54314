(* Model of the GPU path of zscan.calc_zchi2_batch (zscan.py 18-166, 392-444, 502-624, 662-745,
   1141-1194): the three CUDA kernels with their launch geometry, the batched solvers and the
   assembly of chi2.
   Arrays on the device are flat lists in C order.  A read outside an array is Err IndexError (undefined
   behaviour in CUDA).  cp.empty gives arbitrary contents ([junk]).  Threads of one launch run in any
   order; the only shared writes are the atomicAdd of batch_dot_product_3d3d.  Exact rationals, every
   number that reaches an output is brought to its canonical representative (Qred). *)
From Verif Require Import Prelude Model_Fitz Model_Dist Model_Rebin Model_Zscan.

Definition block_size : nat := 512.                                   (* zscan.py 40 *)
(* (n+block_size-1)//block_size blocks of block_size threads *)
Definition launched (n : nat) : nat := (n + block_size - 1) / block_size * block_size.

(* for (j...) x += f(j) *)
Fixpoint accum (f : nat -> res Q) (js : list nat) (x : Q) : res Q :=
  match js with [] => Ok x | j :: r => do v <- f j; accum f r (x + v)%Q end.

(* C order of a 3-d array *)
Definition flat3 (T : list mat) : list Q := concat (map (@concat Q) T).
(* the flat output seen with shape (nt, n, m) *)
Definition view3 (nt n m : nat) (l : list Q) : list mat := map (chunk n m) (chunk nt (n * m) l).

(* ---------- batch_dot_product_sparse, zscan.py 46-73 ---------- *)
Definition sparse_thread (R : csr) (tdata : list Q) (ncols nbasis i : nat) : res Q :=
  let ibatch := i mod nbasis in
  let icol := (i mod (nbasis * ncols)) / nbasis in
  let it := i / (nbasis * ncols) in
  let t_start := it * nbasis * ncols in
  do s <- geti (r_ptr R) icol; do e <- geti (r_ptr R) (icol + 1);
  do x <- accum (fun j => do c <- geti (r_ind R) j; do v <- get (r_val R) j;
                          do t <- get tdata (t_start + nbasis * c + ibatch); Ok (v * t)%Q) (seq s (e - s)) 0%Q;
  Ok (Qred x).
(* zscan.py 415-434: ncols = Rcsr.shape[0]; the number of threads comes from the size of tdata *)
Definition sparse_gpu (junk : nat -> Q) (R : csr) (nbasis : nat) (T : list mat) : res (list mat) :=
  let ncols := r_nrow R in let nt := length T in
  let tflat := flat3 T in
  do tb <- mapM (fun i => if i <? launched (length tflat) then sparse_thread R tflat ncols nbasis i else Ok (junk i))
             (seq 0 (ncols * nbasis * nt));
  Ok (view3 nt ncols nbasis tb).
(* cp.hstack: concatenation on axis 1; ValueError for no arrays or different numbers of templates *)
Fixpoint hstack_rows (arrays : list (list mat)) (nt : nat) : list mat :=
  match arrays with
  | [] => repeat [] nt
  | A :: r => map2 (@app _) A (hstack_rows r nt)
  end.
Definition hstack (arrays : list (list mat)) : res (list mat) :=
  match arrays with
  | [] => Err ValueError
  | A :: r => if forallb (fun B => length B =? length A) r then Ok (hstack_rows arrays (length A)) else Err ValueError
  end.
(* zscan.py 407-444 *)
Definition batch_dot_product_sparse_gpu (junk : nat -> Q) (nb : nat) (spectra : list spectrum) (tdata : tdict) : res (list mat) :=
  do bs <- mapM (fun s => match dget tdata (s_hash s) with
                          | None => Err KeyError
                          | Some T => sparse_gpu junk (s_R s) nb T end) spectra;
  hstack bs.

(* ---------- batch_dot_product_3d3d, zscan.py 75-134 ---------- *)
(* one thread: the index of M and the number added, None if the guard returns *)
Definition thread_3d3d (a b : list Q) (nrows nbasis nt npar : nat) (transpose_a : bool) (i : nat) : res (option (nat * Q)) :=
  if nbasis * nbasis * nt * npar <=? i then Ok None else
  let tx := i mod block_size in                                   (* threadIdx.x *)
  let m_idx := i / npar in
  let t := m_idx / (nbasis * nbasis) in
  let a_row := (m_idx mod (nbasis * nbasis)) mod nbasis in
  let b_row := (m_idx mod (nbasis * nbasis)) / nbasis in
  let stride := nrows / npar in
  let start := (tx mod npar) * stride in
  let stop := if tx mod npar =? npar - 1 then nrows else (tx mod npar + 1) * stride in
  let a_idx := if transpose_a then t * nrows * nbasis + a_row else t * nrows * nbasis + a_row * nrows in
  let b_idx := t * nrows * nbasis + b_row in
  do x <- accum (fun j => do av <- get a (if transpose_a then a_idx + j * nbasis else a_idx + j);
                          do bv <- get b (b_idx + j * nbasis); Ok (av * bv)%Q) (seq start (stop - start)) 0%Q;
  Ok (Some (m_idx, x)).
(* the threads of the launch in the order in which their atomicAdd happens *)
Fixpoint run_3d3d (thread : nat -> res (option (nat * Q))) (sched : list nat) (M : nat -> Q) : res (nat -> Q) :=
  match sched with
  | [] => Ok M
  | i :: r => do o <- thread i;
              run_3d3d thread r (match o with
                                 | None => M
                                 | Some (k, x) => fun m => if m =? k then Qred (M m + x) else M m end)
  end.
(* zscan.py 589-624.  [fullprecision] and nz choose the number of threads per output *)
Definition nparallel (fullprecision : bool) (nz : nat) : nat :=
  if fullprecision then 4 else if nz <=? 512 then 64 else 4.
Definition n_3d3d (nz ncols npar : nat) : nat := nz * ncols * ncols * npar.
Definition dot_3d3d (sched : list nat) (fullprecision transpose_a : bool) (nz nrows ncols : nat) (a b : list Q) : res (list mat) :=
  let npar := nparallel fullprecision nz in
  do M <- run_3d3d (thread_3d3d a b nrows ncols nz npar transpose_a) sched (fun _ => 0%Q);
  Ok (map (fun t => map (fun r => map (fun c => M (t * (ncols * ncols) + (r * ncols + c))) (seq 0 ncols)) (seq 0 ncols)) (seq 0 nz)).
(* every thread of the launch once *)
Definition schedule (sched : list nat) (fullprecision : bool) (nz ncols : nat) : Prop :=
  Permutation sched (seq 0 (launched (n_3d3d nz ncols (nparallel fullprecision nz)))).

(* ---------- batch_dot_product_3d2d, zscan.py 136-165, 502-540 ---------- *)
Definition thread_3d2d (tb zc : list Q) (nrows nbasis i : nat) : res Q :=
  let it := i / nrows in let row := i mod nrows in
  do x <- accum (fun j => do t <- get tb (it * nrows * nbasis + row * nbasis + j); do z <- get zc (it * nbasis + j); Ok (t * z)%Q)
                (seq 0 nbasis) 0%Q;
  Ok (Qred x).
Definition dot_3d2d (junk : nat -> Q) (nz nrows nbasis : nat) (tb zc : list Q) : res (list vec) :=
  do m <- mapM (fun i => if i <? launched (nrows * nz) then thread_3d2d tb zc nrows nbasis i else Ok (junk i)) (seq 0 (nrows * nz));
  Ok (chunk nz nrows m).

(* ---------- solve_matrices(use_gpu=True), zscan.py 1131-1146, 1154-1166, 1174-1194, 1203 ---------- *)
(* zcoeff[j,:] = x : ValueError if the length is wrong (caught by `except Exception` for NNLS) *)
Definition solve_gpu (S : solvers) (alg : string) (args : option bounds) (Ms : list mat) (ys : list vec) : res (list vec) :=
  let a := upper alg in
  if String.eqb a "PCA" then
    mapM (fun p => let x := cusolve S (fst p) (snd p) in
                   if length x =? length (snd p) then Ok x else Err ValueError) (combine Ms ys)
  else if String.eqb a "NMF" || String.eqb a "NNLS" then
    Ok (map (fun p => let bad := repeat HUGE_CHI2 (length (snd p)) in
                      match nnls S (fst p) (snd p) with
                      | Ok x => if length x =? length (snd p) then x else bad
                      | Err _ => bad end) (combine Ms ys))
  else if String.eqb a "BVLS" then
    mapM (fun p => match bvls S (fst p) (snd p) (the_bounds args (snd p)) with
                   | Ok x => if length x =? length (snd p) then Ok x else Err ValueError
                   | Err LinAlgError => Ok (repeat HUGE_CHI2 (length (snd p)))
                   | Err e => Err e end) (combine Ms ys)
  else Err NotImplementedError.

(* ---------- calc_zchi2_batch(use_gpu=True), zscan.py 656-745 ---------- *)
(* weights[None,:,None] * Tbs *)
Definition weighted (w : vec) (Tb : mat) : mat := map2 (fun x row => map (fun v => x * v)%Q row) w Tb.
Definition calc_zchi2_batch_gpu (junk : nat -> Q) (sched : list nat) (fullprecision : bool) (S : solvers) (alg : string)
   (args : option bounds) (prior : option mat) (spectra : list spectrum) (tdata : tdict) (weights flux wflux : vec) (nz nb : nat)
   : res (vec * list vec) :=
  if Qeq_bool (sumQ weights) 0 then Ok (repeat HUGE_CHI2 nz, repeat (repeat 0%Q nb) nz)
  else
    do Tbs <- batch_dot_product_sparse_gpu junk nb spectra tdata;
    let nrows := length (hd [] Tbs) in
    if negb ((length weights =? nrows) && (length wflux =? nrows) && (length flux =? nrows) && (length Tbs =? nz)) then Err ValueError
    else
      do Ms <- dot_3d3d sched fullprecision true nz nrows nb (flat3 Tbs) (flat3 (map (weighted weights) Tbs));
      let ys := map (fun Tb => tdot nb Tb wflux) Tbs in
      do Ms <- mapM (fun M => add_prior nb M prior) Ms;
      match solve_gpu S alg args Ms ys with
      | Err NotImplementedError => Ok (repeat HUGE_CHI2 nz, repeat (repeat 0%Q nb) nz)
      | Err e => Err e
      | Ok zc =>
          do models <- dot_3d2d junk nz nrows nb (flat3 Tbs) (concat zc);
          Ok (map (fun m => chi2_of flux m weights) models, zc)
      end.

(* ---------- calc_zchi2(use_gpu=True), zscan.py 841-889 ---------- *)
(* targets.py 256-263: gpu_spectral_data on its first call computes what spectral_data computes.
   One thread schedule and one memory content per target.  fullprecision=False (880). *)
Definition zchi2_target_gpu (junk : nat -> Q) (sched : list nat) (S : solvers) (t : template) (tdata : tdict) (nz : nat)
   (spectra : list spectrum) : res (vec * list vec * vec) :=
  do d <- spectral_data spectra;
  let '(weights, flux, wflux) := d in
  let nb := length (t_flux t) in
  if Qeq_bool (sumQ weights) 0 then
    Ok (repeat HUGE_CHI2 nz, repeat (repeat 0%Q nb) nz, repeat 0%Q nz)
  else
    do r <- calc_zchi2_batch_gpu junk sched false S (t_method t) None None spectra tdata weights flux wflux nz nb;
    Ok (fst r, snd r, match OIItemplate t with
                      | Some A => calc_negOII_penalty A (snd r)
                      | None => repeat 0%Q nz end).
Definition calc_zchi2_gpu (junk : nat -> nat -> Q) (sched : nat -> list nat) (S : solvers) (t : template) (tdata : tdict) (nz : nat)
   (targets : list (list spectrum)) : res (list (vec * list vec * vec)) :=
  mapM (fun p => zchi2_target_gpu (junk (fst p)) (sched (fst p)) S t tdata nz (snd p)) (enum targets).
