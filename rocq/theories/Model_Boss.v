(* Model of external/boss.py: read_spectra (which fibre of which file goes to which target, cropping) and the
   selection options of rrboss.
   Simplifications: the names of the spCFrame files of an spPlate are given (120-148 only collects them); FIBERID
   values are 1 or more; all the rows of an spPlate have the same wavelengths (190-191); a spectrum is named by
   its file and its row. *)
From Verif Require Import Prelude Model_Dist Model_Fitz Model_Zscan Model_IO Model_Arch.
Open Scope nat_scope.

(* one entry of infiles, 142-144 or 138-140 *)
Record infile := { in_plate : Z;                (* PLATEID of its header *)
                   in_fibers : list nat;        (* FIBERID column *)
                   in_things : list Z;          (* THING_ID of fibre 1, 2, ... from photoPosPlate *)
                   in_rows : nat }.             (* number of rows of the flux array *)
Record spplate := { sp_plate : Z; sp_mjd : Z; sp_infiles : list infile }.
(* 150-157 *)
Definition all_or_zero (l : list Z) : Z := match l with x :: r => if forallb (Z.eqb x) r then x else 0%Z | [] => 0%Z end.
Definition use_thingid (sps : list spplate) : bool := 1 <? length sps.        (* 106-110 *)
Section Read.
Variables (frames : bool) (use_thing : bool) (plate mjd : Z) (wanted : option (list Z)) (fiberid : option (list nat)).
(* 214-217 *)
Definition target_of (inf : infile) (f : nat) : res Z :=
  if use_thing then match nth_error (in_things inf) (f - 1) with Some t => Ok t | None => Err IndexError end
  else Ok (platemjdfiber2targetid plate mjd (Z.of_nat f)).
Definition row_of (f : nat) : nat := if frames then (f - 1) mod 500 else f - 1.            (* 210-212 *)
Definition wants (t : Z) : bool := match wanted with None => true | Some l => existsb (Z.eqb t) l end.   (* 218 *)
Notation dic := (dict (list (nat * nat))).
(* 221-224, 250 *)
Definition add_spectrum (d : dic) (t : Z) (s : nat * nat) : dic := dset d t (match dget d t with Some l => l | None => [] end ++ [s]).
(* 209-250 *)
Fixpoint read_fibers (k : nat) (inf : infile) (fs : list nat) (d : dic) : res dic :=
  match fs with
  | [] => Ok d
  | f :: r =>
      do t <- target_of inf f;
      if negb (wants t) then read_fibers k inf r d
      else if row_of f <? in_rows inf then read_fibers k inf r (add_spectrum d t (k, row_of f)) else Err IndexError
  end.
(* 163-252 *)
Fixpoint read_files (k : nat) (l : list infile) (d : dic) : res dic :=
  match l with
  | [] => Ok d
  | inf :: r =>
      if negb use_thing && negb (Z.eqb plate (in_plate inf)) then Err AssertionError       (* 165-166 *)
      else
        let fs := match fiberid with None => in_fibers inf | Some w => filter (fun f => existsb (Nat.eqb f) w) (in_fibers inf) end in   (* 167-170 *)
        do d1 <- read_fibers k inf fs d; read_files (S k) r d1
  end.
End Read.
(* str(i) *)
Definition zdec (z : Z) : string := if Z.ltb z 0 then String "-" (dec (Z.to_nat (- z))) else dec (Z.to_nat z).
(* 223, 282: the column has 8 characters *)
Definition brickname (plate mjd : Z) : string := (zdec plate ++ "-" ++ zdec mjd)%string.
Definition brick_column (plate mjd : Z) : string := substring 0 8 (brickname plate mjd).
(* 255-289: the targets and the rows of the metadata table *)
Definition read_spectra (frames : bool) (sps : list spplate) (targetids : option (list Z)) (fiberid : option (list nat))
   : res (list (Z * list (nat * nat)) * list (Z * string)) :=
  let plate := all_or_zero (map sp_plate sps) in let mjd := all_or_zero (map sp_mjd sps) in
  do d <- read_files frames (use_thingid sps) plate mjd targetids fiberid 0 (concat (map sp_infiles sps)) [];
  let ids := isort Z.leb (match targetids with None => map fst d | Some l => l end) in
  do targets <- mapM (fun t => match dget d t with Some s => Ok (t, s) | None => Err KeyError end) ids;
  let bricks := filter (fun t => existsb (Z.eqb t) ids) (map fst d) in                       (* 275-277 *)
  if negb (length bricks =? length targets) then Err AssertionError                          (* 278 *)
  else Ok (targets, map (fun t => (t, brick_column plate mjd)) ids).

(* ---------- cropping, 178-199 ---------- *)
(* abs(la - l).min(axis=0).argmin(), one row *)
Definition nearest (la : list Q) (l : Q) : nat := argmin (map (fun x => Qabs (x - l)) la).
Definition crop_low : Q := 3500.
Definition crop_high : Q := 10000.
Definition cropped (la : list Q) : list Q :=
  let imin := nearest la crop_low in let imax := nearest la crop_high in firstn (imax - imin) (skipn imin la).

(* ---------- rrboss, 399-411 and 452-454 ---------- *)
(* l[a:b] with 0 <= a, b *)
Definition pyslice {A} (a b : nat) (l : list A) : list A := firstn (b - a) (skipn a l).
Definition rrboss_select {A} (mintarget ntargets : option nat) (targets : list A) : list A :=
  match ntargets with
  | None => targets                                            (* 452: only with --ntargets *)
  | Some n => let first := match mintarget with Some k => k | None => 0 end in pyslice first (first + n) targets
  end.
(* 378-397: what happens to options that exclude each other or lack an output *)
Inductive checked := Continues | Aborts.
Definition rrboss_checks (mpi debug output zbest targetids mintarget ntargets : bool) (size : nat) : checked :=
  let bad := (debug && negb (size =? 1)) || (negb output && negb zbest) || (targetids && (mintarget || ntargets)) in
  if bad && mpi then Aborts else Continues.                    (* comm.Abort() only when there is a communicator *)
(* 829-861 of desi.py: the same checks end the program in both cases; the --debug check only aborts under MPI *)
Definition rrdesi_checks (mpi debug details outfile targetids mintarget ntargets : bool) (size : nat) : checked :=
  if ((debug && negb (size =? 1)) && mpi) || (negb details && negb outfile) || (targetids && (mintarget || ntargets)) then Aborts else Continues.
