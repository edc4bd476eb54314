(* Specifications for wrap-redrock, independent of the model's loops. *)
From Verif Require Import Prelude Model_Dist Model_IO Model_Arch Model_Wrap.

(* total weight of a group of indices *)
Definition group_weight (ws : list Q) (g : list nat) : Q := sumQ (map (fun i => nth i ws 0%Q) g).
(* a file below the root: directories passed on the way, the directory, its files *)
Inductive reach : string -> tree -> list string -> string -> list string -> Prop :=
| reach_here : forall d files subs, reach d (Dir files subs) [] d files
| reach_down : forall d files subs n s up d' files', In (n, s) subs -> reach (path_join d n) s up d' files' ->
    reach d (Dir files subs) (d :: up) d' files'.
(* f is a spectra file below root, not below a subdirectory of the avoided one *)
Definition spectra_file (norm : string -> string) (prefix : string) (avoid : option string) (root : string) (t : tree) (f : string) : Prop :=
  exists up d files name, reach root t up d files /\ In name files /\ f = path_join d name /\
    (exists r, name = prefix ++ r)%string /\ (exists r, name = r ++ ".fits")%string /\
    forall a q, avoid = Some a -> In q up -> norm q <> norm a.
(* a occurs in s only at the start / only at the end *)
Definition only_at_start (a s : string) : Prop := forall u v, (s = u ++ a ++ v)%string -> u = EmptyString.
Definition only_at_end (a s : string) : Prop := forall u v, (s = u ++ a ++ v)%string -> v = EmptyString.
(* log files name.0 ... name.(n-1) and no other name.* *)
Definition numbered {C} (fs : list (string * C)) (logfile : string) (n : nat) : Prop :=
  NoDup (map fst fs) /\ forall name, In name (map fst fs) /\ log_matches logfile name = true <-> exists k, k < n /\ name = (logfile ++ "." ++ dec k)%string.
