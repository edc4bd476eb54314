(* Model of rrdesi with MPI (no GPU): external/desi.py 467-486 and 494-662 on every rank, 1008-1135, with the model of zfind under MPI (Model_RunMPI.v, Model_MPI.v).
   Simplifications: those of Model_RunDesi.v and Model_RunMPI.v; the broadcast of the rows from rank 0 gives every rank the same rows (C66). *)
From Verif Require Import Prelude NumX Model_Fitz Model_Rebin Model_Dist Model_MPI Model_Zscan Model_Piece Model_IO Model_Zfind Model_Targets Model_Desi Model_Run Model_RunMPI Model_RunDesi.

Section MPI.
Variables (slv : solvers) (argsort : list xq -> list nat) (polyfit : list Q -> list Q -> option (Q * Q * Q)) (isqrt : Q -> Q).
Variable trans : option string -> Q -> Q -> Q.
Variables (nminima nz : nat).
Variables (hashf : hash_arg -> Z) (tocsr : dia -> csr) (fb : fbits).

(* 467-486 *)
Definition rank_targets (o : dopts) (fs : list (sfile dia)) (size rank : nat) : res (list Z) :=
  let w := if o_allspec o then Some (fun t => Some (inject_Z (Z.of_nat (target_weight fs t)))) else None in
  do dist <- distribute_work size (all_ids fs) w None;
  match nth_error dist rank with Some my => Ok my | None => Err IndexError end.
(* 494-662, 1008-1014 *)
Definition read_rank (o : dopts) (fs : list (sfile dia)) (size rank : nat) : res (list targ) :=
  do my <- rank_targets o fs size rank;
  do sts <- load_proc (o_negflux o) fs my;
  mapM (fun p => prepare hashf tocsr o (fst p) (t_slots (snd p))) sts.
(* all ranks *)
Definition read_ranks (o : dopts) (fs : list (sfile dia)) (size : nat) : res (list (list targ)) := mapM (read_rank o fs size) (seq 0 size).
(* 1087-1135 on rank 0, after the gather: the table zfit *)
Definition root_table (ps : list tmpl) (ds : list dfile) (fs : list (sfile dia)) (all : scans) : res (list frow) :=
  do tab <- table nminima ps (all_ids fs) all; Ok (map (reflag fb (fibermap ds fs)) tab).
End MPI.
