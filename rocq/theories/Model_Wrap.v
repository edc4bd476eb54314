(* Model of bin/wrap-redrock: grouping of the spectra files, names of the output files, files still to do,
   log backup and retries, job plan.
   Simplifications: exact rationals; the order numpy.argsort gives to equal weights is a parameter; the
   directory tree is finite (no cycles of symbolic links); os.path.normpath is a parameter; a file name has
   no wildcard characters; messages are not modelled. *)
From Verif Require Import Prelude Model_Dist Model_Fitz Model_Zscan Model_IO Model_Arch.

(* os.path.split *)
Fixpoint rstrip_slash (s : string) : string :=
  match s with
  | EmptyString => EmptyString
  | String c r => match rstrip_slash r with
                  | EmptyString => if Ascii.eqb c "/" then EmptyString else String c EmptyString
                  | t => String c t
                  end
  end.
Definition dirname (s : string) : string :=
  let h := substring 0 (String.length s - String.length (basename s)) s in
  match rstrip_slash h with EmptyString => h | t => t end.
(* ---------- weighted_partition, wrap-redrock 15-42 ---------- *)
Fixpoint upd_nth {A} (j : nat) (f : A -> A) (l : list A) : list A :=
  match l with [] => [] | x :: r => match j with O => f x :: r | S k => x :: upd_nth k f r end end.
Fixpoint wp_loop (ws : list Q) (order : list nat) (groups : list (list nat)) (sums : list Q) : res (list (list nat) * list Q) :=
  match order with
  | [] => Ok (groups, sums)
  | i :: r =>
      match sums with
      | [] => Err ValueError                                   (* np.argmin of an empty array *)
      | _ => let j := argmin sums in
             match nth_error ws i with
             | Some w => wp_loop ws r (upd_nth j (fun g => g ++ [i]) groups) (upd_nth j (fun s => s + w)%Q sums)
             | None => Err IndexError
             end
      end
  end.
(* order = np.argsort(-weights) *)
Definition weighted_partition (argsort : list Q -> list nat) (ws : list Q) (n : nat) : res (list (list nat) * list Q) :=
  wp_loop ws (argsort (map Qopp ws)) (repeat [] n) (repeat 0%Q n).
Definition qargsort_ok (argsort : list Q -> list nat) : Prop :=
  forall l, Permutation (argsort l) (seq 0 (length l)) /\ StronglySorted (fun i j => (nth i l 0 <= nth j l 0)%Q) (argsort l).

(* ---------- group_specfiles, 132-176 ---------- *)
Section Group.
Variable argsort : list Q -> list nat.
Variable count : string -> nat.                                (* number of different TARGETIDs in a file *)
Definition runtime (n : nat) : Q := (30 + (2 # 5) * inject_Z (Z.of_nat n))%Q.        (* 166 *)
(* int(np.ceil(x)) *)
Definition qceil (x : Q) : Z := (- ((- Qnum x) / Z.pos (Qden x)))%Z.
(* 153-164: counts gathered from the ranks, in rank order *)
Definition all_counts (specs : list string) (size : nat) : res (list nat) :=
  do parts <- array_split (seq 0 (length specs)) size;
  Ok (concat (map (map (fun j => match nth_error specs j with Some f => count f | None => 0 end)) parts)).
Definition group_specfiles (specs : list string) (maxnodes : nat) (comm : option nat) : res (list (list nat) * list Q) :=
  do ns <- all_counts specs (match comm with Some k => k | None => 1 end);
  let ts := map runtime ns in
  let n := match comm with
           | Some k => k                                       (* 169-170 *)
           | None => Nat.min maxnodes (Z.to_nat (qceil (sumQ ts / 1500)%Q))
           end in
  weighted_partition argsort ts n.
(* 313: int of the name of the directory of each file *)
Variable toint : string -> option Z.
Definition pixels (specs : list string) : res (list Z) :=
  mapM (fun f => match toint (basename (dirname f)) with Some z => Ok z | None => Err ValueError end) specs.
(* ---------- plan 190-224 and run_redrock 288-313: the groups of the ranks ---------- *)
Inductive datatype := DESI | BOSS.
Definition run_groups (d : datatype) (specs : list string) (maxnodes0 : nat) (comm : option nat) : res (list (list nat)) :=
  let size := match comm with Some k => k | None => 1 end in
  let maxnodes := Nat.min maxnodes0 size in                    (* 294 *)
  do groups <- match specs with
               | [] => Ok []                                   (* 211-214 *)
               | _ => match d with
                      | DESI => do g <- group_specfiles specs maxnodes comm; Ok (fst g)
                      | BOSS => array_split (seq 0 (length specs)) maxnodes      (* 220 *)
                      end
               end;
  if negb (length groups =? size) then Err AssertionError      (* 310-311 *)
  else if negb (length (concat groups) =? length specs) then Err AssertionError
  else do _ <- pixels specs; Ok groups.
End Group.

(* ---------- spectra2outfiles, 44-78 ---------- *)
(* str.replace(a, b) with a not empty: leftmost occurrences, as split *)
Definition replace (a b s : string) : string := join b (Model_IO.split a s).
Definition out_name (inp outp : string) (ext : option string) (base : string) : string :=
  let o := replace inp outp base in
  match ext with None => o | Some e => replace ".fits" ("." ++ e) o end.
Definition outfile (inp outp : string) (ext outdir : option string) (specfile : string) : string :=
  path_join (match outdir with None => dirname specfile | Some d => d end) (out_name inp outp ext (basename specfile)).
(* 121-122, 314-315 *)
Definition rrfile (prefix : string) (outdir : option string) (f : string) : string := outfile prefix "redrock" None outdir f.
Definition detailsfile (prefix : string) (outdir : option string) (f : string) : string := outfile prefix "rrdetails" (Some "h5"%string) outdir f.

(* 328: the replacement is made in the whole path *)
Definition log_name (rr : string) : string := replace ".fits" ".log" rr.

(* ---------- find_specfiles, 80-130 ---------- *)
Inductive tree := Dir (files : list string) (subs : list (string * tree)).
Fixpoint ends_with (suf s : string) : bool :=
  String.eqb suf s || match s with EmptyString => false | String _ r => ends_with suf r end.
Section Find.
Variable norm : string -> string.                              (* os.path.normpath *)
(* os.walk topdown: (dirpath, filenames) in order; 105-110: all the dirnames are popped in avoiddir *)
Fixpoint walk (avoid : option string) (d : string) (t : tree) : list (string * list string) :=
  match t with
  | Dir files subs =>
      (d, files) ::
      (if match avoid with Some a => String.eqb (norm d) a | None => false end then []
       else (fix go (l : list (string * tree)) := match l with [] => [] | (n, s) :: r => walk avoid (path_join d n) s ++ go r end) subs)
  end.
Definition all_specfiles (prefix : string) (avoid : option string) (root : string) (t : tree) : list string :=
  concat (map (fun df => map (path_join (fst df)) (filter (fun f => String.prefix prefix f && ends_with ".fits" f) (snd df)))
     (walk (option_map norm avoid) root t)).
Definition find_specfiles (prefix : string) (avoid outdir : option string) (ex : string -> bool) (root : string) (t : tree) : res (list string) :=
  match all_specfiles prefix avoid root t with
  | [] => Err OSError                                          (* 116-117 *)
  | l => Ok (filter (fun f => negb (ex (rrfile prefix outdir f) && ex (detailsfile prefix outdir f))) l)   (* 124-130 *)
  end.
End Find.

(* ---------- backup_logs, 178-188 ---------- *)
Section Logs.
Context {C : Type}.
Notation files := (list (string * C)).
(* glob(logfile + '.*'): '*' does not match '/' *)
Definition log_matches (logfile name : string) : bool :=
  String.prefix (logfile ++ ".") name && negb (contains "/" (substring (String.length logfile) (String.length name) name)).
Definition sdel (d : files) (k : string) : files := filter (fun p => negb (String.eqb (fst p) k)) d.
Definition backup_logs (fs : files) (logfile : string) : res files :=
  let n := length (filter (fun p => log_matches logfile (fst p)) fs) in
  let newlog := (logfile ++ "." ++ dec n)%string in
  match sget fs newlog with
  | Some _ => Err AssertionError
  | None => match sget fs logfile with
            | Some c => Ok (sset (sdel fs logfile) newlog c)   (* os.rename *)
            | None => Err OSError
            end
  end.
(* ---------- the retry loop, 344-371 ---------- *)
Inductive outcome := Exit (code : nat) | Raises.
Inductive status := Finished | Failed | Excepted.
(* run k: outcome of the k-th call of the command; log k: what it leaves in the log file *)
Fixpoint attempt (left k : nat) (run : nat -> outcome) (log : nat -> C) (logfile : string) (fs : files) : files * list nat * status :=
  match left with
  | O => (fs, [], Failed)
  | S m =>
      match (match sget fs logfile with Some _ => backup_logs fs logfile | None => Ok fs end) with
      | Err _ => (fs, [], Excepted)                            (* 368-371: caught, next file *)
      | Ok fs1 =>
          let fs2 := sset fs1 logfile (log k) in               (* open(logfile, 'w') *)
          match run k with
          | Raises => (fs2, [k], Excepted)
          | Exit O => (fs2, [k], Finished)
          | Exit (S _) => let '(f, ts, s) := attempt m (S k) run log logfile fs2 in (f, k :: ts, s)
          end
      end
  end.
Definition maxtries : nat := 2.                                (* 345 *)
(* 317-371: the files of one rank; the result lists (file, attempts, status) *)
Fixpoint run_rank (dryrun : bool) (group : list nat) (run : nat -> nat -> outcome) (log : nat -> nat -> C) (logfile : nat -> string) (fs : files)
   : files * list (nat * list nat * status) :=
  match group with
  | [] => (fs, [])
  | i :: r =>
      if dryrun then run_rank dryrun r run log logfile fs
      else
        let '(fs1, ts, s) := attempt maxtries 0 (run i) (log i) (logfile i) fs in
        let '(fs2, l) := run_rank dryrun r run log logfile fs1 in
        (fs2, (i, ts, s) :: l)
  end.
End Logs.

(* ---------- the job plan, 226-253 ---------- *)
(* grouptimes is an array for DESI, a list for BOSS *)
Definition scaled_times (d : datatype) (times : list Q) (maxproc : nat) (mp : option nat) : res (list Q) :=
  let m := match mp with None => maxproc / 2 | Some k => k end in        (* 242-243 *)
  if m <? maxproc / 2 then
    if m =? 0 then Err ZeroDivisionError
    else match d with
         | DESI => Ok (map (fun t => t * (inject_Z (Z.of_nat (maxproc / 2)) / inject_Z (Z.of_nat m)))%Q times)
         | BOSS => Err TypeError                                (* list *= float *)
         end
  else Ok times.
(* 251-253 *)
Definition hms (jobtime : nat) : nat * nat * nat :=
  let h := jobtime / 3600 in let m := (jobtime - h * 3600) / 60 in (h, m, jobtime - h * 3600 - m * 60).
