(* What the statements about the columns of the output files talk about. *)
From Coq Require Import ZArith Reals List Bool.
From Flocq Require Import Core.Core IEEE754.BinarySingleNaN.
From Verif Require Import Model_Float.
Import ListNotations.
Open Scope R_scope.

(* r rounded to the nearest number of single precision, ties to even, no overflow *)
Definition rounded32 (r : R) : R := round radix2 (FLT_exp (-149) 24) ZnearestE r.
(* numbers from here on become infinite: half a unit above the largest number 2^128 - 2^104 *)
Definition limit32 : R := bpow radix2 128 - bpow radix2 103.
(* the smallest number with full precision *)
Definition normal32 : R := bpow radix2 (-126).
