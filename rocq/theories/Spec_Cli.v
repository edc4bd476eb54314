(* What the command lines should do, independently of argparse's loop. *)
From Verif Require Import Prelude Model_Zscan Model_IO Model_Arch Model_Wrap Model_Cli.
Open Scope nat_scope.

(* a piece of a command line: an option followed by its values, or --option=value *)
Inductive piece := Words (name : string) (vs : list string) | Joined (name v : string).
Definition text (pc : piece) : list string := match pc with Words n vs => n :: vs | Joined n v => [(n ++ "=" ++ v)%string] end.
Definition pc_name (pc : piece) : string := match pc with Words n _ | Joined n _ => n end.
Definition pc_values (pc : piece) : list string := match pc with Words _ vs => vs | Joined _ v => [v] end.
(* a word that cannot be taken for an option *)
Definition plain (v : string) : Prop := match v with String "-" _ => False | _ => True end.
Definition count_ok (a : arity) (n : nat) : Prop := match a with Flag => n = 0 | Help => False | One => n = 1 | Plus => 1 <= n | Star => True end.
(* a correct use of an option of the parser *)
Definition piece_ok (float_ok : string -> bool) (p : parser) (pc : piece) : Prop :=
  exists o, In o p /\ In (pc_name pc) (o_names o) /\ count_ok (o_arity o) (length (pc_values pc)) /\
    (forall v, In v (pc_values pc) -> value_ok float_ok (o_type o) v = true) /\
    match pc with Words _ vs => forall v, In v vs -> plain v | Joined _ _ => o_arity o <> Flag end.
(* pc is a use of the option stored under dest *)
Definition sets (p : parser) (pc : piece) (dest : string) : Prop := exists o, In o p /\ In (pc_name pc) (o_names o) /\ o_dest o = dest.
(* the last piece for dest has the values vs *)
Definition given (p : parser) (pcs : list piece) (dest : string) (vs : list string) : Prop :=
  exists before pc after, pcs = before ++ pc :: after /\ sets p pc dest /\ pc_values pc = vs /\ forall pc', In pc' after -> ~ sets p pc' dest.
(* a sensible parser: option strings are distinct, start with "-", are not "--" and have no "="; names of values are distinct *)
Definition starts_dash (n : string) : Prop := match n with String "-" (String _ _) => n <> "--"%string | _ => False end.
Definition parser_ok (p : parser) : Prop :=
  NoDup (concat (map o_names p)) /\ NoDup (map o_dest p) /\
  (forall o n, In o p -> In n (o_names o) -> starts_dash n /\ cut "=" n = None).
(* a word of a shell command: not empty and without white space *)
Fixpoint no_space (s : string) : Prop := match s with EmptyString => True | String a r => is_space a = false /\ no_space r end.
Definition word (s : string) : Prop := s <> EmptyString /\ no_space s.
Fixpoint joined_by_space (l : list string) : string := match l with [] => EmptyString | [x] => x | x :: r => (x ++ " " ++ joined_by_space r)%string end.
