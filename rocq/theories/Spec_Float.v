(* What the statements about double precision talk about. *)
From Coq Require Import ZArith Reals List Bool Permutation.
From Flocq Require Import Core.Core IEEE754.BinarySingleNaN.
From Verif Require Import Model_Float.
Import ListNotations.
Open Scope R_scope.

(* a finite float; the real number it stands for is B2R x *)
Definition finite (x : b64) : Prop := is_finite x = true.
(* an inverse variance: finite and not negative *)
Definition weight (x : b64) : Prop := finite x /\ 0 <= B2R x.
(* |x| <= 2^k *)
Definition within (k : Z) (x : b64) : Prop := finite x /\ Rabs (B2R x) <= bpow radix2 k.
Definition between (lo hi : R) (v : b64) : Prop := finite v /\ lo <= B2R v <= hi.
(* the value is not a negative number; NaN is not one *)
Definition not_negative (x : b64) : Prop := Bltb x fzero = false.

(* a pixel is masked when its weight is zero (of either sign) *)
Definition masked (w : b64) : Prop := B2R w = 0.

(* the positions a summation order visits, and how many roundings deep it is *)
Fixpoint leaves (o : dtree) : list nat :=
  match o with DZero => [] | DProd i => [i] | DPlus a b => leaves a ++ leaves b | DFma i a => i :: leaves a end.
Fixpoint depth (o : dtree) : nat :=
  match o with DZero => 0 | DProd _ => 1 | DPlus a b => S (Nat.max (depth a) (depth b)) | DFma _ a => S (depth a) end.
(* every one of n pixels is summed exactly once *)
Definition once (o : dtree) (n : nat) : Prop := Permutation (leaves o) (seq 0 n).

(* the exact chi2 of the same floats, the exact sum of a list of floats and of their absolute values *)
Fixpoint exact_chi2 (flux model w : list b64) : R :=
  match flux, model, w with
  | f :: flux, m :: model, v :: w => (B2R f - B2R m) ^ 2 * B2R v + exact_chi2 flux model w
  | _, _, _ => 0
  end.
Fixpoint total (w : list b64) : R := match w with [] => 0 | v :: w => B2R v + total w end.

Fixpoint total_abs (w : list b64) : R := match w with [] => 0 | v :: w => Rabs (B2R v) + total_abs w end.

(* half a unit in the last place of 1, and the smallest positive float *)
Definition half_ulp : R := bpow radix2 (-53).
Definition tiny : R := bpow radix2 (-1074).
(* r rounded to the nearest float (ties to even), no overflow *)
Definition rounded (r : R) : R := round radix2 (FLT_exp (-1074) 53) ZnearestE r.

(* finite and strictly increasing *)
Inductive rising : list b64 -> Prop :=
| rise_nil : rising []
| rise_one a : finite a -> rising [a]
| rise_cons a b l : finite a -> B2R a < B2R b -> rising (b :: l) -> rising (a :: b :: l).

(* n centers and n+1 edges, each center between its two edges *)
Fixpoint interleaved (centers edges : list b64) : Prop :=
  match centers, edges with
  | [], [e] => finite e
  | c :: centers, e :: ((e' :: _) as edges) => finite e /\ B2R e <= B2R c <= B2R e' /\ interleaved centers edges
  | _, _ => False
  end.

(* some other float lies strictly between any two neighbours *)
Fixpoint roomy (centers : list b64) : Prop :=
  match centers with
  | a :: ((b :: _) as l) => (exists f : b64, B2R a < B2R f < B2R b) /\ roomy l
  | _ => True
  end.

(* non-decreasing *)
Fixpoint ascending (l : list b64) : Prop :=
  match l with a :: ((b :: _) as r) => B2R a <= B2R b /\ ascending r | _ => True end.

(* the positions of a plain sum, and its depth *)
Fixpoint parts_of (o : stree) : list nat := match o with SOne i => [i] | STwo a b => parts_of a ++ parts_of b end.
Fixpoint sdepth (o : stree) : nat := match o with SOne _ => 0 | STwo a b => S (Nat.max (sdepth a) (sdepth b)) end.
Definition each_once (o : stree) (n : nat) : Prop := Permutation (parts_of o) (seq 0 n).
(* exact sums over the exposures of one pixel *)
Fixpoint weighted (ivar flux : list b64) : R :=
  match ivar, flux with v :: ivar, f :: flux => B2R v * B2R f + weighted ivar flux | _, _ => 0 end.
Fixpoint weighted_abs (ivar flux : list b64) : R :=
  match ivar, flux with v :: ivar, f :: flux => Rabs (B2R v * B2R f) + weighted_abs ivar flux | _, _ => 0 end.
(* the product of two floats does not underflow *)
Definition no_underflow (v f : b64) : Prop := B2R v * B2R f = 0 \/ bpow radix2 (-1022) <= Rabs (B2R v * B2R f).

(* a spectrum on a wavelength grid: strictly increasing wavelengths, positive
   samples, none of them 2^49 times smaller than a neighbour *)
Fixpoint tame (x y : list b64) : Prop :=
  match x, y with
  | a :: ((b :: _) as x'), f :: ((g :: _) as y') =>
      within 400 a /\ bpow radix2 (-400) <= B2R b - B2R a /\
      within 400 f /\ bpow radix2 (-400) <= B2R f /\
      16 * half_ulp * B2R f <= B2R g /\ 16 * half_ulp * B2R g <= B2R f /\ tame x' y'
  | [a], [f] => within 400 a /\ within 400 f /\ bpow radix2 (-400) <= B2R f
  | _, _ => False
  end.
