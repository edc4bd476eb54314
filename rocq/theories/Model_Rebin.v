(* Model of redrock/rebin.py over exact rationals.
   Simplifications: no rounding; arrays are lists; numba's unchecked array
   accesses are modelled as Err IndexError when out of range (in the real code
   they read arbitrary memory), except index -1 which numba wraps to the last
   element; numba raises ZeroDivisionError on division by zero. *)
From Verif Require Import Prelude Model_Fitz.

Definition get (l : list Q) (j : nat) : res Q :=
  match nth_error l j with Some v => Ok v | None => Err IndexError end.
(* l[j-1]: for j = 0 the index is -1, i.e. the last element *)
Definition getm1 (l : list Q) (j : nat) : res Q :=
  match j with O => get l (length l - 1) | S k => get l k end.
Definition qdiv (a b : Q) : res Q := if Qeq_bool b 0 then Err ZeroDivisionError else Ok (a / b)%Q.

(* ---------- centers2edges, rebin.py 100-118 ---------- *)
(* Fewer than two centers: centers[1] (or edges[1]) raises IndexError *)
Fixpoint midpoints (c : list Q) : list Q :=
  match c with
  | a :: ((b :: _) as r) => ((a + b) / 2)%Q :: midpoints r
  | _ => []
  end.
Definition centers2edges (centers : list Q) : res (list Q) :=
  let mid := midpoints centers in
  match centers with
  | c0 :: c1 :: _ =>
      let cl := last centers 0%Q in
      let e1 := hd 0%Q mid in let em2 := last mid 0%Q in
      Ok ((c0 - (c1 - e1))%Q :: mid ++ [(cl + (cl - em2))%Q])
  | _ => Err IndexError
  end.

(* ---------- _trapz_rebin_1d, rebin.py 127-176 ---------- *)
(* lines 142-143; fuel exhaustion is RuntimeError (never happens, see Proof_Rebin) *)
Fixpoint seek (fuel : nat) (x : list Q) (e : Q) (j : nat) : res nat :=
  match fuel with
  | O => Err RuntimeError
  | S n => do xj <- get x j; if Qle_bool xj e then seek n x e (S j) else Ok j
  end.
(* lines 154-157 *)
Fixpoint interior (fuel : nat) (x y : list Q) (hi : Q) (j : nat) (acc : Q) : res (nat * Q) :=
  match fuel with
  | O => Err RuntimeError
  | S n =>
      do xn <- get x (j + 1);
      if qlt xn hi then
        do yn <- get y (j + 1); do yj <- get y j; do xj <- get x j;
        interior n x y hi (j + 1) (acc + (1#2) * (yn + yj) * (xn - xj))%Q
      else Ok (j, acc)
  end.
(* lines 142-169: one output bin [lo,hi]; r0 is results[i] before *)
Definition bin (x y : list Q) (lo hi : Q) (j0 : nat) (r0 : Q) : res (nat * Q) :=
  do j <- seek (length x + 1) x lo j0;
  do yp <- getm1 y j; do xp <- getm1 x j; do yj <- get y j; do xj <- get x j;
  do t <- qdiv ((lo - xp) * (yj - yp)) (xj - xp);
  let yedge := (yp + t)%Q in
  if qlt xj hi then
    let r1 := (r0 + (1#2) * (yj + yedge) * (xj - lo))%Q in
    do p <- interior (length x + 1) x y hi j r1;
    let '(j, r2) := p in
    do yj <- get y j; do xj <- get x j; do yn <- get y (j + 1); do xn <- get x (j + 1);
    do t <- qdiv ((hi - xj) * (yn - yj)) (xn - xj);
    let yedge := (yj + t)%Q in
    Ok (j, (r2 + (1#2) * (yedge + yj) * (hi - xj))%Q)
  else
    do t1 <- qdiv ((lo - xj) * (yj - yp)) (xj - xp);
    do t2 <- qdiv ((hi - xj) * (yj - yp)) (xj - xp);
    let ylo := (yj + t1)%Q in let yhi := (yj + t2)%Q in
    Ok (j, (r0 + (1#2) * (ylo + yhi) * (hi - lo))%Q).
(* lines 140-171; results is the pre-allocated output *)
Fixpoint bins (x y edges results : list Q) (j : nat) : res (list Q) :=
  match edges with
  | lo :: ((hi :: _) as rest) =>
      match results with
      | [] => Err IndexError
      | r0 :: rs =>
          do p <- bin x y lo hi j r0;
          do more <- bins x y rest rs (fst p);
          Ok (snd p :: more)
      end
  | _ => Ok results
  end.
(* lines 173-174 *)
Fixpoint normalise (edges results : list Q) : res (list Q) :=
  match edges with
  | lo :: ((hi :: _) as rest) =>
      match results with
      | [] => Err IndexError
      | r :: rs => do v <- qdiv r (hi - lo); do more <- normalise rest rs; Ok (v :: more)
      end
  | _ => Ok results
  end.
Definition rebin_1d (x y edges results : list Q) : res (list Q) :=
  do r <- bins x y edges results 0; normalise edges r.

(* ---------- _trapz_rebin_batch, rebin.py 179-209 ---------- *)
(* The buffer redshifted_x is overwritten completely for each redshift, so it is
   a fresh list here.  Result axes: redshift, bin, basis. *)
Definition zeros (n : nat) : list Q := repeat 0%Q n.
Definition transpose_cols (nbin : nat) (cols : list (list Q)) : list (list Q) :=
  map (fun i => map (fun c => nth i c 0%Q) cols) (seq 0 nbin).
Definition redshifted (x : list Q) (z : Q) : list Q := map (fun xi => xi * (1 + z))%Q x.
Definition rebin_batch (x : list Q) (y : list (list Q)) (edges zs : list Q) : res (list (list (list Q))) :=
  let nbin := length edges - 1 in
  mapM (fun z => do cols <- mapM (fun yb => rebin_1d (redshifted x z) yb edges (zeros nbin)) y;
                 Ok (transpose_cols nbin cols)) zs.

(* ---------- the CUDA kernel, rebin.py 20-96, and _trapz_rebin_batch_gpu, 380-451 ---------- *)
(* Out-of-range reads are Err IndexError (undefined behaviour in CUDA, no
   wrap-around for index -1).  CUDA float division does not raise; the divisor is
   never 0 on strictly increasing x.  Int arrays are lists of nat. *)
Definition geti (l : list nat) (j : nat) : res nat :=
  match nth_error l j with Some v => Ok v | None => Err IndexError end.
Definition cget1 (l : list Q) (j : nat) : res Q := match j with O => Err IndexError | S k => get l k end.
(* lines 76-83, xj and xj1 recomputed from j *)
Fixpoint gpu_interior (fuel : nat) (x y : list Q) (z : Q) (end_idx j yidx : nat) (r : Q) : res (nat * nat * Q) :=
  match fuel with
  | O => Err RuntimeError
  | S n =>
      if (j + 1 <? end_idx) then
        do xj <- get x (j + 1); do xj1 <- get x j; do ya <- get y (yidx + 1); do yb <- get y yidx;
        gpu_interior n x y z end_idx (j + 1) (yidx + 1) (r + (1#2) * (ya + yb) * (xj * z - xj1 * z))%Q
      else Ok (j, yidx, r)
  end.
Definition kernel (x yflat edges myz : list Q) (idx : list nat) (nbin nbasis nt i : nat) : res Q :=
  let ibasis := i mod nbasis in
  let ibin := (i mod (nbasis * nbin)) / nbasis in
  let iz := i / (nbasis * nbin) in
  let iidx := i / nbasis + iz in
  do mz <- get myz iz;
  let z := (1 + mz)%Q in
  do j <- geti idx iidx; do end_idx <- geti idx (iidx + 1);
  do xj <- get x j; do xj1 <- cget1 x j;
  let xj := (xj * z)%Q in let xj1 := (xj1 * z)%Q in
  let yidx := j + ibasis * nt in
  do ym <- cget1 yflat yidx; do yj <- get yflat yidx;
  do lo <- get edges ibin; do hi <- get edges (ibin + 1);
  let yedge := (ym + (lo - xj1) * (yj - ym) / (xj - xj1))%Q in
  if qlt xj hi then
    let r := ((1#2) * (yj + yedge) * (xj - lo))%Q in
    do p <- gpu_interior (length x + 1) x yflat z end_idx j yidx r;
    let '(j, yidx, r) := p in
    do xj <- get x j; do xn <- get x (j + 1); do yj <- get yflat yidx; do yn <- get yflat (yidx + 1);
    let xj := (xj * z)%Q in
    let yedge := (yj + (hi - xj) * (yn - yj) / (xn * z - xj))%Q in
    Ok ((r + (1#2) * (yedge + yj) * (hi - xj)) / (hi - lo))%Q
  else
    let ylo := (yj + (lo - xj) * (yj - ym) / (xj - xj1))%Q in
    let yhi := (yj + (hi - xj) * (yj - ym) / (xj - xj1))%Q in
    Ok ((0 + (1#2) * (ylo + yhi) * (hi - lo)) / (hi - lo))%Q.
(* searchsorted(x, v, side='right') on a sorted x *)
Definition searchsorted_right (x : list Q) (v : Q) : nat := length (filter (fun xi => Qle_bool xi v) x).
Definition gpu_flat (x : list Q) (y : list (list Q)) (edges zs : list Q) : res (list Q) :=
  let idx := concat (map (fun z => map (fun e => searchsorted_right x (e / (1 + z))%Q) edges) zs) in
  let nbin := length edges - 1 in let nbasis := length y in
  mapM (kernel x (concat y) edges zs idx nbin nbasis (length x)) (seq 0 (nbin * nbasis * length zs)).
(* the flat output seen with shape (nz, nbin, nbasis) *)
Fixpoint chunk {A} (k n : nat) (l : list A) : list (list A) :=
  match k with O => [] | S k => firstn n l :: chunk k n (skipn n l) end.
Definition rebin_batch_gpu (x : list Q) (y : list (list Q)) (edges zs : list Q) : res (list (list (list Q))) :=
  let nbin := length edges - 1 in let nbasis := length y in
  do flat <- gpu_flat x y edges zs;
  Ok (map (chunk nbin nbasis) (chunk (length zs) (nbin * nbasis) flat)).

(* ---------- trapz_rebin, rebin.py 212-378 ---------- *)
Inductive ydata := Y1 (l : list Q) | Y2 (l : list (list Q)).
Inductive zdata := ZNone | ZScalar (z : Q) | ZArray (zs : list Q).
Inductive rebinned := V1 (l : list Q) | V2 (l : list (list Q)) | V3 (l : list (list (list Q))).
Definition odef (o : option Q) (d : res Q) : res Q := match o with Some v => Ok v | None => d end.
Definition amax (l : list Q) : Q := match l with [] => 0%Q | a :: r => fold_left (fun m v => if Qle_bool m v then v else m) r a end.
Definition amin (l : list Q) : Q := match l with [] => 0%Q | a :: r => fold_left (fun m v => if Qle_bool v m then v else m) r a end.
(* final reshape, lines 354-360 and 378 *)
Definition reshape (scalar_z scalar_basis : bool) (r : list (list (list Q))) : rebinned :=
  match scalar_z, scalar_basis with
  | true, true => V1 (map (hd 0%Q) (hd [] r))
  | true, false => V2 (hd [] r)
  | false, true => V2 (map (map (hd 0%Q)) r)
  | false, false => V3 r
  end.
Definition trapz_rebin (x : list Q) (y : ydata) (edges : list Q) (myz : zdata) (use_gpu : bool)
    (xmin xmax edge_min edge_max : option Q) : res rebinned :=
  do emin <- odef edge_min (get edges 0);
  do emax <- odef edge_max (getm1 edges 0);
  let zs := match myz with ZNone => [0%Q] | ZScalar z => [z] | ZArray zs => zs end in
  let scalar_z := match myz with ZArray _ => false | _ => true end in
  match zs with
  | [] => Ok (V3 [])
  | _ =>
    do x0 <- odef xmin (do v <- get x 0; Ok (v * (1 + amax zs))%Q);
    do x1 <- odef xmax (do v <- getm1 x 0; Ok (v * (1 + amin zs))%Q);
    if qlt emin x0 || qlt x1 emax then Err ValueError
    else
      match y with
      | Y1 l =>
          if negb use_gpu && scalar_z then
            do r <- rebin_1d (redshifted x (hd 0%Q zs)) l edges (zeros (length edges - 1)); Ok (V1 r)
          else
            do r <- (if use_gpu then rebin_batch_gpu x [l] edges zs else rebin_batch x [l] edges zs);
            Ok (reshape scalar_z true r)
      | Y2 ls =>
          do r <- (if use_gpu then rebin_batch_gpu x ls edges zs else rebin_batch x ls edges zs);
          Ok (reshape scalar_z false r)
      end
  end.
(* line 296-297: xnew given instead of edges *)
Definition trapz_rebin_xnew (x : list Q) (y : ydata) (xnew : list Q) (myz : zdata) (use_gpu : bool) : res rebinned :=
  do e <- centers2edges xnew; trapz_rebin x y e myz use_gpu None None None None.

(* ---------- Archetype.rebin_template_batch, archetypes.py 122-168 (trapz=True, indx=None) ---------- *)
(* GPU with precomputed edges: xmin, xmax are the rest-frame limits *)
Definition arch_rebin_gpu (wave : list Q) (flux : list (list Q)) (edges : list Q) (z : Q) : res rebinned :=
  do w0 <- get wave 0; do w1 <- getm1 wave 0;
  do r <- trapz_rebin wave (Y2 flux) edges (ZArray [z]) true (Some w0) (Some w1) None None;
  match r with V3 (m :: _) => Ok (V2 m) | _ => Err IndexError end.
(* CPU, line 168 *)
Definition arch_rebin_cpu (wave : list Q) (flux : list (list Q)) (centers : list Q) (z : Q) : res rebinned :=
  trapz_rebin_xnew (redshifted wave z) (Y2 flux) centers ZNone false.
