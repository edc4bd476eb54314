(* Specification vocabulary for ranking and delta chi2, written without any
   reference to the model. *)
From Verif Require Import Prelude NumX.

(* A fit is bad when one of the five documented bits is set:
   NEGATIVE_MODEL(3) MANY_OUTLIERS(4) Z_FITLIMIT(5) NEGATIVE_EMISSION(6) BAD_MINFIT(10) *)
Definition is_bad (zwarn : N) : Prop :=
  N.testbit zwarn 3 = true \/ N.testbit zwarn 4 = true \/ N.testbit zwarn 5 = true \/
  N.testbit zwarn 6 = true \/ N.testbit zwarn 10 = true.

(* x comes strictly before y in a chi2 ranking: smaller, NaN after all numbers *)
Definition chi2_before (x y : xq) : Prop :=
  match x, y with
  | NaN, _ => False
  | _, NaN => True
  | Fin a, Fin b => (a < b)%Q
  | NInf, NInf => False
  | NInf, _ => True
  | _, NInf => False
  | PInf, _ => False
  | Fin _, PInf => True
  end.
Definition chi2_tied (x y : xq) : Prop := ~ chi2_before x y /\ ~ chi2_before y x.

(* row i of the input ranks before row j: good before bad, then chi2, then
   input order *)
Definition ranks_before (zwarn : nat -> N) (chi2 : nat -> xq) (i j : nat) : Prop :=
  (~ is_bad (zwarn i) /\ is_bad (zwarn j)) \/
  ((is_bad (zwarn i) <-> is_bad (zwarn j)) /\
     (chi2_before (chi2 i) (chi2 j) \/ (chi2_tied (chi2 i) (chi2 j) /\ i < j))).

(* velocity offset in km/s of redshift z seen from zref *)
Definition velocity (z zref : Q) : Q := ((299792458 # 1000) * (z - zref) / (1 + zref))%Q.

(* m is the least element of the set S of rationals *)
Definition is_least (S : Q -> Prop) (m : Q) : Prop :=
  (exists x, S x /\ x == m)%Q /\ (forall x, S x -> m <= x)%Q.
