(* Independent vocabulary for the distribution properties. *)
From Verif Require Import Prelude.

(* total weight carried by one worker *)
Definition load (wt : Z -> Q) (l : list Z) : Q := sumQ (map wt l).

(* lists differ in length by at most one *)
Definition near_equal {A} (ls : list (list A)) : Prop :=
  forall a b, In a ls -> In b ls -> length a <= S (length b).

(* Rank of worker i for an item of weight w: normalised load after taking the
   item; ties go to larger capacity, then to the smaller index. *)
Definition prefers (wt : Z -> Q) (caps : list Q) (d : list (list Z)) (w : Q) (i j : nat) : Prop :=
  let ni := ((load wt (nth i d []) + w) / nth i caps 0)%Q in
  let nj := ((load wt (nth j d []) + w) / nth j caps 0)%Q in
  (ni < nj)%Q \/
  (ni == nj /\ nth j caps 0 < nth i caps 0)%Q \/
  ((ni == nj)%Q /\ (nth i caps 0 == nth j caps 0)%Q /\ i < j).

(* [greedy items d]: d is reached by handing out the items one after the other,
   each to the worker preferred over all others at that moment. *)
Inductive greedy (wt : Z -> Q) (caps : list Q) : list Z -> list (list Z) -> Prop :=
| greedy_nil : greedy wt caps [] (repeat [] (length caps))
| greedy_snoc items d x i d' :
    greedy wt caps items d ->
    i < length caps ->
    (forall j, j < length caps -> j <> i -> prefers wt caps d (wt x) i j) ->
    length d' = length d ->
    nth i d' [] = nth i d [] ++ [x] ->
    (forall j, j <> i -> nth j d' [] = nth j d []) ->
    greedy wt caps (items ++ [x]) d'.
