(* Independent vocabulary for the refinement stage. *)
From Verif Require Import Prelude NumX.

(* i is a local minimum of x: no neighbour is smaller (comparisons with NaN fail) *)
Definition local_min (x : list xq) (i : nat) : Prop :=
  i < length x /\
  (0 < i -> xle (nth i x NaN) (nth (i - 1) x NaN) = true) /\
  (i + 1 < length x -> xle (nth i x NaN) (nth (i + 1) x NaN) = true).

(* points on y = y0 + ((x - x0)/e)^2 *)
Definition on_parabola (x0 e y0 : Q) (x y : list Q) : Prop :=
  Forall2 (fun a b => b == y0 + ((a - x0) / e) * ((a - x0) / e))%Q x y.
(* sum of squared residuals of a x^2 + b x + c *)
Definition ssr (a b c : Q) (x y : list Q) : Q :=
  sumQ (map (fun p => let r := (a * (fst p * fst p) + b * fst p + c - snd p)%Q in (r * r)%Q) (combine x y)).
Definition least_squares (a b c : Q) (x y : list Q) : Prop :=
  forall a' b' c', (ssr a b c x y <= ssr a' b' c' x y)%Q.
Definition three_distinct (x : list Q) : Prop :=
  exists u v w, In u x /\ In v x /\ In w x /\ ~ (u == v)%Q /\ ~ (u == w)%Q /\ ~ (v == w)%Q.
(* numpy.polyfit of degree 2 on three points with distinct abscissae *)
Definition polyfit3_ok (polyfit : list Q -> list Q -> option (Q * Q * Q)) : Prop :=
  forall x y, length x = 3 -> length y = 3 -> three_distinct x ->
    exists a b c, polyfit x y = Some (a, b, c) /\ least_squares a b c x y.

(* c |a - b| / (1 + the smaller of the two) is at least mvd *)
Definition separated (c mvd a b : Q) : Prop :=
  (mvd * (1 + Qmin a b) <= c * Qabs (a - b))%Q.

Definition nondecreasing (l : list Q) : Prop := StronglySorted Qle l.
