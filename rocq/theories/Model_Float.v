(* Double precision.  Elsewhere in this model numbers are exact rationals; here a
   number is an IEEE 754 binary64 value (Flocq's binary_float 53 1024: signed zeros,
   subnormals, infinities, one NaN), every operation rounds to nearest, ties to
   even, and overflows to an infinity, as numpy, numba and CUDA do by default.
   Not modelled: the payload of a NaN, the status flags, numpy's warnings. *)
From Coq Require Import ZArith List Bool.
From Flocq Require Import Core.Core IEEE754.BinarySingleNaN.
Import ListNotations.

Definition b64 : Type := binary_float 53 1024.
Global Instance p53 : Prec_gt_0 53 := eq_refl.
Global Instance p53e : Prec_lt_emax 53 1024 := eq_refl.

Definition fzero : b64 := B754_zero false.
Definition fadd (x y : b64) : b64 := Bplus mode_NE x y.
Definition fsub (x y : b64) : b64 := Bminus mode_NE x y.
Definition fmul (x y : b64) : b64 := Bmult mode_NE x y.
Definition fdiv (x y : b64) : b64 := Bdiv mode_NE x y.
Definition ffma (x y z : b64) : b64 := Bfma mode_NE x y z.
Definition fabs (x : b64) : b64 := Babs x.
(* the float nearest to m 2^e: literals and integers *)
Definition flit (m e : Z) : b64 := binary_normalize 53 1024 _ _ mode_NE m e false.
Definition fint (n : Z) : b64 := flit n 0.

Fixpoint map2 {A B C} (f : A -> B -> C) (l : list A) (k : list B) : list C :=
  match l, k with x :: l, y :: k => f x y :: map2 f l k | _, _ => [] end.

(* np.minimum, np.maximum and the reductions np.min, np.max: a NaN wins *)
Definition fmin (x y : b64) : b64 := if is_nan x then x else if is_nan y then y else if Bleb x y then x else y.
Definition fmax (x y : b64) : b64 := if is_nan x then x else if is_nan y then y else if Bleb y x then x else y.
Definition minimum (x : b64) (l : list b64) : b64 := fold_left fmin l x.
Definition maximum (x : b64) (l : list b64) : b64 := fold_left fmax l x.

(* ---- sums of products: zscan.py 176-188 (np.dot), 780 (batch), 45-166 (kernels).
   Neither numpy, BLAS nor a GPU promises an order of summation: an order is a tree
   over the positions, in which a product may also be added by one fused operation.
   DZero is the starting value of an accumulator. *)
Inductive dtree := DZero | DProd (i : nat) | DPlus (a b : dtree) | DFma (i : nat) (a : dtree).
Fixpoint dot (o : dtree) (a w : list b64) : b64 :=
  match o with
  | DZero => fzero
  | DProd i => fmul (nth i a fzero) (nth i w fzero)
  | DPlus x y => fadd (dot x a w) (dot y a w)
  | DFma i x => ffma (nth i a fzero) (nth i w fzero) (dot x a w)
  end.

(* (flux - model)**2: zscan.py 188, 780; numpy squares by one multiplication *)
Definition resid2 (f m : b64) : b64 := let d := fsub f m in fmul d d.

(* zchi2 = np.dot( (flux - model)**2, weights ): zscan.py 188 (one redshift), 780 (batch) *)
Definition chi2 (o : dtree) (flux model w : list b64) : b64 := dot o (map2 resid2 flux model) w.

(* ---- plain sums: np.sum(..., axis=0) in targets.py 353-355 *)
Inductive stree := SOne (i : nat) | STwo (a b : stree).
Fixpoint fsum (o : stree) (x : list b64) : b64 :=
  match o with SOne i => nth i x fzero | STwo a b => fadd (fsum a x) (fsum b x) end.

(* targets.py 353-358: the coadded weight and flux of one pixel, from the inverse
   variances and fluxes of the exposures there; weights + isbad adds 0.0 or 1.0 *)
Definition feq (x y : b64) : bool := Beqb x y.
Definition coadd_weight (o : stree) (ivar : list b64) : b64 := fsum o ivar.
Definition coadd_flux (o : stree) (ivar flux : list b64) : b64 :=
  let weights := fsum o ivar in
  let isbad := feq weights fzero in
  if isbad then fdiv (fsum o flux) (fint (Z.of_nat (length flux)))            (* 358 *)
  else fdiv (fsum o (map2 fmul ivar flux)) (fadd weights fzero).              (* 355, 357 *)

(* ---- fitz.py 40-43: get_dv; speed_of_light is 299792458.0, divided by 1000. *)
Definition cspeed : b64 := fdiv (fint 299792458) (fint 1000).
Definition get_dv (z zref : b64) : b64 := fdiv (fmul cspeed (fsub z zref)) (fadd (fint 1) zref).

(* one candidate of a target: chi2, z, whether (zwarn & badfit_mask) == 0, its dvlimit *)
Record cand := { c_chi2 : b64; c_z : b64; c_ok : bool; c_lim : b64 }.

(* zfind.py 133-137 for candidate c and the later ones *)
Definition eligible (c d : cand) : bool :=
  Bltb (fmin (c_lim c) (c_lim d)) (fabs (get_dv (c_z d) (c_z c))) && c_ok d.  (* 134 *)
Definition delta_of (c : cand) (later : list cand) : b64 :=
  match filter (eligible c) later with
  | [] => fzero                                                               (* 125, 135 *)
  | d :: l => minimum (fsub (c_chi2 d) (c_chi2 c)) (map (fun e => fsub (c_chi2 e) (c_chi2 c)) l)  (* 136-137 *)
  end.
Fixpoint deltas (l : list cand) : list b64 :=
  match l with [] => [] | c :: l => delta_of c l :: deltas l end.             (* 132 *)

(* zfind.py 141-153: whether SMALL_DELTA_CHI2 is raised for c, compared with the others;
   constants.py: min_deltachi2 = 9. *)
Definition small_delta (c : cand) (others : list cand) : bool :=
  existsb (fun d => c_ok d && Bltb (fabs (fsub (c_chi2 d) (c_chi2 c))) (fint 9)
                    && Bleb (fmin (c_lim c) (c_lim d)) (fabs (get_dv (c_z d) (c_z c)))) others.

(* ---- utils.py 269-271: reduced_wavelength *)
Definition reduced (wmin wmax w : b64) : b64 :=
  fsub (fdiv (fmul (fint 2) (fsub w wmin)) (fsub wmax wmin)) (fint 1).
Definition reduced_wavelength (x : b64) (l : list b64) : list b64 :=
  map (reduced (minimum x l) (maximum x l)) (x :: l).

(* ---- rebin.py 110-118: centers2edges, for at least two centers a, b, ... (with
   fewer, centers[1] raises IndexError) *)
Fixpoint mids (a : b64) (l : list b64) : list b64 :=
  match l with [] => [] | b :: l => fdiv (fadd a b) (fint 2) :: mids b l end.   (* 113 *)
Definition edges (a b : b64) (l : list b64) : list b64 :=
  let m := mids a (b :: l) in
  let z := last (b :: l) a in
  fsub a (fsub b (hd fzero m)) :: m ++ [fadd z (fsub z (last m fzero))].     (* 115-116 *)

(* ---- fitz.py 212: np.linspace(lo, hi, n), n >= 2 (numpy's own rounding steps:
   arange * step + start, the last value replaced by stop; if the step underflows to
   zero, arange / div * delta instead) *)
Definition lin_at (lo hi : b64) (n i : nat) : b64 :=
  if Nat.eqb (S i) n then hi else
  let div := fint (Z.of_nat (n - 1)) in
  let delta := fsub hi lo in
  let step := fdiv delta div in
  let k := fint (Z.of_nat i) in
  fadd (if feq step fzero then fmul (fdiv k div) delta else fmul k step) lo.
Definition linspace (lo hi : b64) (n : nat) : list b64 := map (lin_at lo hi n) (seq 0 n).

(* ---- rebin.py 146, 160, 166-167: the straight line through two samples at e *)
Definition at_edge (x0 y0 x1 y1 e : b64) : b64 :=
  fadd y0 (fdiv (fmul (fsub e x0) (fsub y1 y0)) (fsub x1 x0)).
