(* Specification vocabulary for the assembled redshift table. *)
From Verif Require Import Prelude NumX Spec_Rank.

(* fit 1 is at least as good as fit 2: not bad-versus-good, and with equal
   badness not a larger chi2 *)
Definition no_worse (zw1 : N) (chi1 : xq) (zw2 : N) (chi2 : xq) : Prop :=
  (is_bad zw1 -> is_bad zw2) /\ ((is_bad zw1 <-> is_bad zw2) -> ~ chi2_before chi2 chi1).

(* c' is c followed by zeros only *)
Definition zero_padded (c c' : list Q) : Prop := exists k, c' = c ++ repeat 0%Q k.
