(* Independent vocabulary for rebinning (real analysis from Coquelicot). *)
From Coq Require Import Reals Qreals QArith List.
Import ListNotations.
Open Scope nat_scope.
(* f is the linear interpolant of the points (x_k, y_k) *)
Definition interpolates (f : R -> R) (x y : list Q) : Prop :=
  forall k t, S k < length x ->
    let xk := Q2R (nth k x 0%Q) in let xn := Q2R (nth (S k) x 0%Q) in
    let yk := Q2R (nth k y 0%Q) in let yn := Q2R (nth (S k) y 0%Q) in
    (xk <= t <= xn)%R -> f t = (yk + (t - xk) * (yn - yk) / (xn - xk))%R.
Definition strictly_increasing (l : list Q) : Prop :=
  forall i j, i < j -> j < length l -> (nth i l 0 < nth j l 0)%Q.
(* the range of the edges is inside that of x *)
Definition covers (x edges : list Q) : Prop :=
  (nth 0 x 0 <= nth 0 edges 0 /\ nth (length edges - 1) edges 0 <= nth (length x - 1) x 0)%Q.
(* componentwise equality of arrays of rationals by value *)
From Verif Require Import Model_Rebin.
Definition arr_eq (a b : rebinned) : Prop :=
  match a, b with
  | V1 u, V1 v => Forall2 Qeq u v
  | V2 u, V2 v => Forall2 (Forall2 Qeq) u v
  | V3 u, V3 v => Forall2 (Forall2 (Forall2 Qeq)) u v
  | _, _ => False
  end.
Definition rows_of (y : ydata) : list (list Q) := match y with Y1 l => [l] | Y2 ls => ls end.
Definition zs_of (z : zdata) : list Q := match z with ZNone => [0%Q] | ZScalar z => [z] | ZArray zs => zs end.
