(* What a user of rrplot expects, without the code's helpers. *)
From Verif Require Import Prelude.
Open Scope nat_scope.

(* Where the viewer is: the target and the fit shown.  `nfit i` = number of fits of target i,
   `ntarget` = number of targets. *)
Definition place := (nat * nat)%type.
Definition move (ntarget : nat) (nfit : nat -> nat) (p : place) (key : string) : place :=
  let '(i, k) := p in
  if String.eqb key "right" then (i, if S k =? nfit i then 0 else S k)
  else if String.eqb key "left" then (i, if k =? 0 then nfit i - 1 else k - 1)
  else if String.eqb key "down" then (if S i =? ntarget then (i, k) else (S i, 0))
  else if String.eqb key "up" then (if i =? 0 then (i, k) else (i - 1, 0))
  else (i, k).
Definition moves (ntarget : nat) (nfit : nat -> nat) (p : place) (keys : list string) : place := fold_left (move ntarget nfit) keys p.
(* an arrow key that should change the picture *)
Definition redraws (ntarget : nat) (p : place) (key : string) : bool :=
  String.eqb key "right" || String.eqb key "left" || (String.eqb key "down" && negb (S (fst p) =? ntarget)) || (String.eqb key "up" && negb (fst p =? 0)).

(* the names of the documented ZWARN bits, by bit number (zwarning.py 15-37, doc) *)
Definition documented (bit : nat) : option string :=
  match bit with
  | 0 => Some "SKY" | 1 => Some "LITTLE_COVERAGE" | 2 => Some "SMALL_DELTA_CHI2" | 3 => Some "NEGATIVE_MODEL" | 4 => Some "MANY_OUTLIERS"
  | 5 => Some "Z_FITLIMIT" | 6 => Some "NEGATIVE_EMISSION" | 7 => Some "UNPLUGGED" | 8 => Some "BAD_TARGET" | 9 => Some "NODATA" | 10 => Some "BAD_MINFIT"
  | 11 => Some "POORDATA" | 16 => Some "RESERVED16" | 17 => Some "RESERVED17" | 18 => Some "RESERVED18" | 19 => Some "RESERVED19"
  | 20 => Some "RESERVED20" | 21 => Some "RESERVED21" | 22 => Some "RESERVED22" | 23 => Some "RESERVED23" | _ => None
  end%string.
