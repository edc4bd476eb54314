(* Independent vocabulary for priors. *)
From Verif Require Import Prelude NumX.
(* equality of extended numbers, rationals by value *)
Definition xeqv (x y : xq) : Prop :=
  match x, y with Fin a, Fin b => (a == b)%Q | PInf, PInf | NInf, NInf | NaN, NaN => True | _, _ => False end.
(* open window of full width s0 centred on z0 *)
Definition in_window (z0 s0 z : Q) : Prop := (z0 - s0 / 2 < z /\ z < z0 + s0 / 2)%Q.
Definition increasing (l : list Q) : Prop := StronglySorted Qlt l.
