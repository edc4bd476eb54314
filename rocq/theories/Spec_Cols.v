(* What a user expects of the columns of one target, and of its metadata. *)
From Verif Require Import Prelude.
Open Scope nat_scope.
(* the fits of one target, template after template: a fit is number i of block j; this is its place among all of them *)
Definition place (sizes : list nat) (j i : nat) : nat := list_sum (firstn j sizes) + i.
(* a name that declares the type of base: base, "_datatype", anything *)
Definition declares (k base : string) : Prop := exists rest, k = (base ++ "_datatype" ++ rest)%string /\ forall a b, base <> (a ++ String (ascii_of_nat 10) b)%string.
(* k declares the type of base and of no longer name *)
Definition declares_most (k base : string) : Prop := declares k base /\ forall b, declares k b -> String.length b <= String.length base.
