(* Model of rebin.rebin_template (rebin.py 453-517), of the data a process computes for its slice of
   redshifts (templates.py 569-598, DistTemplate.__init__ without gpu_mode) and of the transmission fitz
   hands to the archetypes (fitz.py 260-345).
   Simplifications: exact rationals for the rebinning, real numbers for the transmission; the arrays of a
   template live on the CPU (gpuwave is None); wavelength grids are dictionaries in insertion order. *)
From Verif Require Import Prelude NumX Model_Fitz Model_Rebin Model_Dist Model_IGM.
Require Import Reals Qreals.

(* value of a dedges dictionary: the edges, or (edges, minedge, maxedge) *)
Inductive dedge := EArr (e : list Q) | ETup (e : list Q) (mn mx : Q).
Inductive bins_arg := DWave (d : list (Z * list Q)) | DEdges (d : list (Z * dedge)).
(* 508-516: minedge and maxedge keep their last values when an entry is a plain array *)
Fixpoint edges_loop (x : list Q) (y : list (list Q)) (zs : list Q) (gpu : bool) (x0 x1 : Q) (mn mx : option Q) (d : list (Z * dedge))
   : res (list (Z * rebinned)) :=
  match d with
  | [] => Ok []
  | (hs, v) :: r =>
      let '(e, mn, mx) := match v with EArr e => (e, mn, mx) | ETup e a b => (e, Some a, Some b) end in
      do b <- trapz_rebin x (Y2 y) e (ZArray zs) gpu (Some x0) (Some x1) mn mx;
      do t <- edges_loop x y zs gpu x0 x1 mn mx r;
      Ok ((hs, b) :: t)
  end.
(* 487-517; minwave = wave[0] and maxwave = wave[-1], templates.py 160-161 *)
Definition rebin_template (wave : list Q) (flux : list (list Q)) (zs : list Q) (bins : bins_arg) (gpu : bool) (xmin xmax : option Q)
   : res (list (Z * rebinned)) :=
  do w0 <- get wave 0; do w1 <- getm1 wave 0;
  do x0 <- odef xmin (match zs with [] => Err ValueError | _ => Ok (w0 * (1 + amax zs))%Q end);
  do x1 <- odef xmax (match zs with [] => Err ValueError | _ => Ok (w1 * (1 + amin zs))%Q end);
  match bins with
  | DWave d => mapM (fun kw => do e <- centers2edges (snd kw);
                               do b <- trapz_rebin wave (Y2 flux) e (ZArray zs) gpu (Some x0) (Some x1) None None; Ok (fst kw, b)) d
  | DEdges d => edges_loop wave flux zs gpu x0 x1 None None d
  end.

(* ---------- templates.py 584-597 ---------- *)
(* data[k] of shape (nz, nlambda, nbasis) *)
Notation cube := (list (list (list R))).
Definition to_cube (r : rebinned) : res cube := match r with V3 m => Ok (map (map (map Q2R)) m) | _ => Err ValueError end.
(* data[k] *= T[:,:,None]: the first two axes must agree *)
Fixpoint times_row (p : list (list R)) (t : list R) : res (list (list R)) :=
  match p, t with
  | [], [] => Ok []
  | c :: p', x :: t' => do r <- times_row p' t'; Ok (map (fun v => (v * x)%R) c :: r)
  | _, _ => Err ValueError
  end.
Fixpoint times_T (d : cube) (T : list (list R)) : res cube :=
  match d, T with
  | [], [] => Ok []
  | p :: d', t :: T' => do a <- times_row p t; do r <- times_T d' T'; Ok (a :: r)
  | _, _ => Err ValueError
  end.
Definition absorb (model : option string) (zs lo : list Q) (d : cube) : res cube :=
  do t <- transmission_Lyman (Array (map Q2R zs)) (Array (map Q2R lo)) model false;
  match t with NoTrans => Ok d | T2 m => times_T d m | _ => Err ValueError end.
Definition local_data (wave : list Q) (flux : list (list Q)) (model : option string) (dwave : list (Z * list Q)) (zs : list Q) : res (list (Z * cube)) :=
  do data <- rebin_template wave flux zs (DWave dwave) false None None;
  mapM (fun kd => do c <- to_cube (snd (snd kd)); do a <- absorb model zs (snd (fst kd)) c; Ok (fst (fst kd), a)) (combine dwave data).
(* 569-573 and 584: the data of rank [rank] of [size] *)
Definition rank_data wave flux model dwave (zs : list Q) (size rank : nat) : res (list (Z * cube)) :=
  do d <- array_split zs size;
  match nth_error d rank with Some myz => local_data wave flux model dwave myz | None => Err IndexError end.

(* ---------- fitz.py 260-345 ---------- *)
Section Trans.
Context {E C : Type}.
Variables (polyfit : list Q -> list Q -> option (Q * Q * Q)) (isqrt : Q -> E) (neg1 : E).
Variables (scan : Q -> res Q) (refit : Q -> res C) (nz : nat) (redshifts : list Q).
(* redshift at which the transmission handed to get_best_archetype was computed for the minimum imin;
   None: all the entries of the dictionary are None (no absorption), 264 *)
Definition trans_redshift (imin : nat) : res (option Q) :=
  do zlo <- rs redshifts (imin - 1);
  do zhi <- rs redshifts (Nat.min (imin + 1) (length redshifts - 1));
  let zz := linspace zlo zhi nz in
  match zz with
  | [] => Err ValueError
  | _ =>
    do zzchi2 <- mapM scan zz;
    let i := Nat.min (Nat.max (argmin zzchi2) 1) (length zz - 2) in
    let win (l : list Q) := if length zz <? 3 then firstn 1 l else firstn 3 (skipn (i - 1) l) in
    let '(zmin, _, _, _) := minfit polyfit isqrt neg1 (win zz) (win zzchi2) in
    match refit zmin with
    | Ok _ => Ok (Some zmin)                                                       (* 267-288 *)
    | Err ValueError => if qlt zmin (hd 0%Q redshifts) || qlt (last redshifts 0%Q) zmin then Ok None else Err ValueError
    | Err e => Err e
    end
  end.
End Trans.
