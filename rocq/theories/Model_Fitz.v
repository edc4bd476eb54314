(* fitz.py: minima of the scan, parabola fit, refinement of each minimum. *)
From Verif Require Import Prelude NumX.
Open Scope nat_scope.

(* zwarning.py 20, 25 *)
Definition Z_FITLIMIT : Z := 32%Z.
Definition BAD_MINFIT : Z := 1024%Z.
(* constants.py 7-8 *)
Definition max_velo_diff : Q := 1000.
Definition max_velo_diff_star : Q := 100.

(* numpy.argsort with its default (not stable) algorithm: any permutation that
   puts the values in non-decreasing order, NaN last.  [argsort] is a parameter
   of the model; theorems hold for every function with this property. *)
Definition argsort_ok (argsort : list xq -> list nat) : Prop :=
  forall l, Permutation (argsort l) (seq 0 (length l)) /\
            StronglySorted (fun i j => nple (nth i l NaN) (nth j l NaN) = true) (argsort l).

(* ---------- find_minima, fitz.py 46-67 ---------- *)
Fixpoint map2 {A B C} (f : A -> B -> C) (l : list A) (m : list B) : list C :=
  match l, m with a :: l, b :: m => f a b :: map2 f l m | _, _ => [] end.
(* np.where(mask)[0] *)
Fixpoint where_from (k : nat) (l : list bool) : list nat :=
  match l with [] => [] | b :: r => if b then k :: where_from (S k) r else where_from (S k) r end.
(* fitz.py 63: np.r_[True, x[1:]<=x[:-1]] and np.r_[x[:-1]<=x[1:], True]; for an
   empty x both are [True] *)
Definition le_prev (x : list xq) : list bool := true :: map2 (fun b a => xle b a) (tl x) x.
Definition le_next (x : list xq) : list bool := map2 (fun a b => xle a b) x (tl x) ++ [true].
Definition find_minima (argsort : list xq -> list nat) (x : list xq) : res (list nat) :=
  let ii := where_from 0 (map2 andb (le_prev x) (le_next x)) in
  do xi <- mapM (fun i => match nth_error x i with Some v => Ok v | None => Err IndexError end) ii;
  Ok (map (fun j => nth j ii 0) (argsort xi)).

(* ---------- get_dv, fitz.py 28-43, c in km/s ---------- *)
(* The division is numpy's; the model is used with zref <> -1 only. *)
Definition c_km : Q := 299792458 # 1000.
Definition get_dv (z zref : Q) : Q := (c_km * (z - zref) / (1 + zref))%Q.

(* fitz.py 204-207 and 324-327 *)
Definition too_close (mvd : Q) (z : Q) (zprev : list Q) : bool :=
  existsb (fun zp => qlt (Qabs (get_dv z zp)) mvd) zprev.

(* ---------- minfit, fitz.py 70-111 ---------- *)
(* polyfit returns None when numpy raises LinAlgError.  isqrt a is 1/sqrt(a),
   neg1 is -1, in the type E of the reported error. *)
Fixpoint lmin (d : Q) (l : list Q) : Q := match l with [] => d | x :: r => lmin (if Qle_bool d x then d else x) r end.
Fixpoint lmax (d : Q) (l : list Q) : Q := match l with [] => d | x :: r => lmax (if Qle_bool x d then d else x) r end.
Definition minfit {E} (polyfit : list Q -> list Q -> option (Q * Q * Q)) (isqrt : Q -> E) (neg1 : E)
    (x y : list Q) : Q * E * Q * Z :=
  let bad := ((-1)%Q, neg1, (-1)%Q, BAD_MINFIT) in
  if length x <? 3 then bad
  else match polyfit x y with
  | None => bad
  | Some (a, b, c) =>
      if Qeq_bool a 0 then bad
      else
        let x0 := (- b / (2 * a))%Q in
        let y0 := (- (b * b) / (4 * a) + c)%Q in
        let w1 := if Qle_bool x0 (lmin (hd 0%Q x) x) || Qle_bool (lmax (hd 0%Q x) x) x0 then BAD_MINFIT else 0%Z in
        let w2 := if Qle_bool y0 0 then Z.lor w1 BAD_MINFIT else w1 in
        if qlt 0 a then (x0, isqrt a, y0, w2) else (x0, isqrt (- a)%Q, y0, Z.lor w2 BAD_MINFIT)
  end.

(* ---------- fitz, fitz.py 133-395 ---------- *)
(* numpy.linspace(lo, hi, n) *)
Definition linspace (lo hi : Q) (n : nat) : list Q :=
  map (fun i => if (n =? 1) then lo else (lo + inject_Z (Z.of_nat i) * (hi - lo) / inject_Z (Z.of_nat (n - 1)))%Q) (seq 0 n).
(* numpy.argmin: first index of the smallest value *)
Fixpoint argmin_from (k best : nat) (v : Q) (l : list Q) : nat :=
  match l with
  | [] => best
  | x :: r => if qlt x v then argmin_from (S k) k x r else argmin_from (S k) best v r
  end.
Definition argmin (l : list Q) : nat := match l with [] => 0 | x :: r => argmin_from 1 0 x r end.

Record fit (E C : Type) := { f_z : Q; f_zerr : E; f_zwarn : Z; f_chi2 : Q; f_zz : list Q; f_zzchi2 : list Q;
  f_coeff : C; f_fulltype : option string }.
Arguments f_z {E C}. Arguments f_zerr {E C}. Arguments f_zwarn {E C}. Arguments f_chi2 {E C}.
Arguments f_zz {E C}. Arguments f_zzchi2 {E C}. Arguments f_coeff {E C}. Arguments f_fulltype {E C}. Arguments Build_fit {E C}.

Section Fitz.
Context {E C : Type}.
Variables (argsort : list xq -> list nat) (polyfit : list Q -> list Q -> option (Q * Q * Q)) (isqrt : Q -> E) (neg1 : E).
(* chi2 of the refined scan at one redshift, penalty included (fitz.py 217-257) *)
Variable scan : Q -> res Q.
(* coefficients of the fit at one redshift (fitz.py 265-293) *)
Variable refit : Q -> res C.
Variable zero_coeff : C.                         (* fitz.py 298 *)
Variables (mvd : Q) (nminima nz : nat) (redshifts : list Q).
(* archetype mode: prior_sigma given or not; best archetype at a redshift
   (fitz.py 334-349), as chi2, coefficients and full type *)
Variable arch : option (bool * (Q -> res (Q * C * string))).

Definition rs (i : nat) : res Q := match nth_error redshifts i with Some z => Ok z | None => Err IndexError end.

(* fitz.py 209-320: refine one minimum; the result before the archetype step,
   with the coefficients *)
Definition refine (imin : nat) : res (fit E C) :=
  do zlo <- rs (imin - 1);                                     (* 210: max(0, imin-1) *)
  do zhi <- rs (Nat.min (imin + 1) (length redshifts - 1));    (* 211 *)
  let zz := linspace zlo zhi nz in                             (* 212 *)
  match zz with
  | [] => Err ValueError                                       (* 222: zz.max() of an empty array *)
  | z0 :: _ =>
    do zzchi2 <- mapM scan zz;                                 (* 217-257 *)
    (* 260-261; python slice [i-1:i+2] with i clamped to 1..len-2; for fewer
       than three points the slice has fewer than three elements *)
    let i := Nat.min (Nat.max (argmin zzchi2) 1) (length zz - 2) in
    let win (l : list Q) := if length zz <? 3 then firstn 1 l else firstn 3 (skipn (i - 1) l) in
    let '(zmin, sigma, ymin, w0) := minfit polyfit isqrt neg1 (win zz) (win zzchi2) in
    do cw <- match refit zmin with                             (* 265-304 *)
             | Ok co => Ok (co, w0)
             | Err ValueError =>
                 if qlt zmin (hd 0%Q redshifts) || qlt (last redshifts 0%Q) zmin
                 then Ok (zero_coeff, Z.lor (Z.lor w0 Z_FITLIMIT) BAD_MINFIT)
                 else Err ValueError
             | Err e => Err e
             end;
    let '(co, w1) := cw in
    (* 309-314 *)
    let outside := qlt zmin z0 || qlt (last zz 0%Q) zmin in
    let k := argmin zzchi2 in
    let zbest := if outside then nth k zz 0%Q else zmin in
    let chi2min := if outside then nth k zzchi2 0%Q else ymin in
    let w2 := if outside then Z.lor w1 BAD_MINFIT else w1 in
    (* 316-320 *)
    do zsec <- rs 1;
    do zpen <- (if length redshifts <? 2 then Err IndexError else rs (length redshifts - 2));
    let w3 := if qlt zbest zsec || qlt zpen zbest then Z.lor w2 Z_FITLIMIT else w2 in
    let w4 := if qlt zmin zsec || qlt zpen zmin then Z.lor w3 Z_FITLIMIT else w3 in
    Ok {| f_z := zbest; f_zerr := sigma; f_zwarn := w4; f_chi2 := chi2min; f_zz := zz; f_zzchi2 := zzchi2;
          f_coeff := co; f_fulltype := None |}
  end.

(* fitz.py 329-356 *)
Definition finish (r : fit E C) : res (fit E C) :=
  match arch with
  | None => Ok r
  | Some (prior_given, best) =>
      do cf <- best (f_z r);
      let '(ch, co, ft) := cf in
      if prior_given then
        Ok {| f_z := f_z r; f_zerr := f_zerr r; f_zwarn := f_zwarn r; f_chi2 := ch; f_zz := f_zz r;
              f_zzchi2 := f_zzchi2 r; f_coeff := co; f_fulltype := Some ft |}
      else Err UnboundLocalError                               (* 349: ncamera only bound at 335-338 *)
  end.

(* fitz.py 198-356 *)
Fixpoint fit_loop (minima : list nat) (results : list (fit E C)) : res (list (fit E C)) :=
  match minima with
  | [] => Ok results
  | imin :: rest =>
      if length results =? nminima then Ok results             (* 199-200 *)
      else
        do z <- rs imin;
        if too_close mvd z (map f_z results) then fit_loop rest results
        else
          do r <- refine imin;
          if too_close mvd (f_z r) (map f_z results) then fit_loop rest results
          else do r' <- finish r; fit_loop rest (results ++ [r'])
  end.

(* fitz.py 133, 160, 358-360 *)
Definition fitz (zchi2 : list xq) : res (list (fit E C)) :=
  if negb (length zchi2 =? length redshifts) then Err AssertionError
  else
    do minima <- find_minima argsort zchi2;
    do results <- fit_loop minima [];
    let ii := argsort (map (fun r => Fin (f_chi2 r)) results) in
    mapM (fun i => match nth_error results i with Some r => Ok r | None => Err IndexError end) ii.
End Fitz.

(* fitz.py 193-196 *)
Definition velo_limit (is_star : bool) : Q := if is_star then max_velo_diff_star else max_velo_diff.

(* ---------- prior_on_coeffs, fitz.py 113-130 ---------- *)
(* entry (i,j) of the matrix; None: sigma = 0, 1/(sigma**2) raises *)
Definition prior_on_coeffs (n_nbh deg : nat) (sigma : Q) (ncamera : nat) : res (list (list Q)) :=
  let nbasis := n_nbh + deg * ncamera in
  if Qeq_bool (sigma * sigma) 0 then Err ZeroDivisionError
  else Ok (map (fun i => map (fun j =>
             if (i =? j) then (if i <? n_nbh then 0%Q else (1 / (sigma * sigma))%Q) else 0%Q) (seq 0 nbasis)) (seq 0 nbasis)).
