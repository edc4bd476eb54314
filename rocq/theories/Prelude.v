(* Shared vocabulary: error values, list helpers, stable sorting.
   Nothing here models redrock code; it is the language the model is written in. *)
From Coq Require Export List Arith NArith ZArith QArith Lia Lqa Bool Permutation Sorted.
From Coq Require Export String Ascii.
From Coq Require Export Qabs Qminmax.
Export ListNotations.
Global Arguments Qplus : simpl never.
Global Arguments Qminus : simpl never.
Global Arguments Qmult : simpl never.
Global Arguments Qopp : simpl never.
Global Arguments Qinv : simpl never.
Global Arguments Qdiv : simpl never.
Global Arguments Qle_bool : simpl never.
Global Arguments Qabs : simpl never.
Global Arguments String.eqb : simpl never.
Global Arguments N.add : simpl never.
Global Arguments N.mul : simpl never.
Global Arguments N.lor : simpl never.
Global Arguments N.land : simpl never.
(* keep list names, not string names *)
Notation length := List.length.
Notation concat := List.concat.
Open Scope nat_scope.

(* Python exceptions as values. *)
Inductive exn := KeyError | ValueError | IndexError | TypeError | RuntimeError
  | UnboundLocalError | AttributeError | ZeroDivisionError | OSError | NameError | TableMergeError | AssertionError | LinAlgError | NotImplementedError.

Inductive res (A : Type) : Type := Ok (a : A) | Err (e : exn).
Arguments Ok {A} a.
Arguments Err {A} e.

Definition rbind {A B} (m : res A) (f : A -> res B) : res B :=
  match m with Ok a => f a | Err e => Err e end.
Notation "'do' x <- m ; k" := (rbind m (fun x => k))
  (at level 200, x binder, m at level 100, k at level 200).

Fixpoint mapM {A B} (f : A -> res B) (l : list A) : res (list B) :=
  match l with
  | [] => Ok []
  | x :: xs => do y <- f x; do ys <- mapM f xs; Ok (y :: ys)
  end.

(* Stable insertion sort: the mathematical content of any stable sort. *)
Section ISort.
  Context {A : Type} (leb : A -> A -> bool).
  Fixpoint insert (x : A) (l : list A) : list A :=
    match l with
    | [] => [x]
    | y :: ys => if leb x y then x :: l else y :: insert x ys
    end.
  Fixpoint isort (l : list A) : list A :=
    match l with [] => [] | x :: xs => insert x (isort xs) end.
End ISort.

(* Total preorder given by a boolean relation. *)
Definition total_b {A} (leb : A -> A -> bool) := forall x y, leb x y = true \/ leb y x = true.
Definition trans_b {A} (leb : A -> A -> bool) :=
  forall x y z, leb x y = true -> leb y z = true -> leb x z = true.

Definition qlt (x y : Q) : bool := negb (Qle_bool y x).

Fixpoint enum_from {A} (n : nat) (l : list A) : list (nat * A) :=
  match l with [] => [] | x :: xs => (n, x) :: enum_from (S n) xs end.
Definition enum {A} (l : list A) := enum_from 0 l.

Definition sumQ (l : list Q) : Q := fold_right Qplus 0%Q l.
