(* Work distribution (utils.py, targets.py, zfind.py helpers).
   Numbers are exact rationals: the float division of the greedy key is not rounded. *)
From Verif Require Import Prelude.

(* ---------- utils.distribute_work ---------- *)

(* utils.py 216: dict(id=i, capacity=c, load=0); the list position is the id. *)
Record proc := { p_id : nat; p_cap : Q; p_load : Q }.

(* utils.py 203-205: sorted(ids, key=weight, reverse=True).  Python's reverse
   sort keeps equal elements in their input order. *)
Definition by_weight (wt : Z -> Q) (ids : list Z) : list Z :=
  isort (fun a b => Qle_bool (wt b) (wt a)) ids.

(* utils.py 221: the key tuple ((load+w)/capacity, 1/capacity, id), compared
   lexicographically; true iff the key of p is strictly smaller than that of q *)
Definition key_lt (w : Q) (p q : proc) : bool :=
  let a1 := ((p_load p + w) / p_cap p)%Q in let b1 := ((p_load q + w) / p_cap q)%Q in
  let a2 := (1 / p_cap p)%Q in let b2 := (1 / p_cap q)%Q in
  if qlt a1 b1 then true else if qlt b1 a1 then false else
  if qlt a2 b2 then true else if qlt b2 a2 then false else
  p_id p <? p_id q.

(* utils.py 221-222: min(processes, key=...): the first element no later one
   is strictly smaller than; processes.index returns its position, which is
   its id because ids are distinct. *)
Fixpoint min_proc (w : Q) (best : proc) (l : list proc) : proc :=
  match l with
  | [] => best
  | q :: qs => min_proc w (if key_lt w q best then q else best) qs
  end.

Definition add_load (i : nat) (w : Q) (l : list proc) : list proc :=
  map (fun p => if p_id p =? i then {| p_id := p_id p; p_cap := p_cap p; p_load := (p_load p + w)%Q |} else p) l.

Fixpoint append_at (i : nat) (x : Z) (d : list (list Z)) : res (list (list Z)) :=
  match d, i with
  | [], _ => Err IndexError
  | l :: ls, 0 => Ok ((l ++ [x]) :: ls)
  | l :: ls, S i => do r <- append_at i x ls; Ok (l :: r)
  end.

(* utils.py 218-225: the assignment loop *)
Fixpoint assign (wt : Z -> Q) (sids : list Z) (ps : list proc) (dist : list (list Z))
  : res (list (list Z)) :=
  match sids with
  | [] => Ok dist
  | x :: xs =>
      match ps with
      | [] => Err ValueError                       (* min() of an empty list *)
      | p :: ps' =>
          if existsb (fun q => Qeq_bool (p_cap q) 0) ps then Err ZeroDivisionError else
          let i := p_id (min_proc (wt x) p ps') in
          do d <- append_at i x dist;
          assign wt xs (add_load i (wt x) ps) d
      end
  end.

(* utils.py 185-227.  weights: None, or a dict given by its lookup function;
   capacities: None or a list. *)
Definition distribute_work (nproc : nat) (ids : list Z)
  (weights : option (Z -> option Q)) (capacities : option (list Q)) : res (list (list Z)) :=
  let wlook := match weights with None => (fun _ => Some 1%Q) | Some f => f end in
  if forallb (fun x => match wlook x with Some _ => true | None => false end) ids then
    let wt := fun x => match wlook x with Some w => w | None => 0%Q end in
    let caps := match capacities with None => repeat 1%Q nproc | Some c => c end in
    let ps := map (fun ic => {| p_id := fst ic; p_cap := snd ic; p_load := 0%Q |}) (enum caps) in
    assign wt (by_weight wt ids) ps (repeat [] nproc)
  else Err KeyError.

(* ---------- targets ---------- *)

(* The part of a Target the distribution code looks at: id, number of spectra
   and (opaque) data. targets.py 492-518. *)
Record tgt (D : Type) := { t_id : Z; t_nspec : nat; t_data : D }.
Arguments t_id {D}. Arguments t_nspec {D}. Arguments t_data {D}.
Arguments Build_tgt {D}.

(* targets.py 513-517: dict of weights, a later target with the same id wins *)
Definition tweights {D} (ts : list (tgt D)) (i : Z) : option Q :=
  option_map (fun t => inject_Z (Z.of_nat (t_nspec t)))
    (find (fun t => Z.eqb (t_id t) i) (rev ts)).

(* targets.py 492-518 *)
Definition distribute_targets {D} (ts : list (tgt D)) (nproc : nat) : res (list (list Z)) :=
  distribute_work nproc (map t_id ts) (Some (tweights ts)) None.

(* targets.py 534-577 for one rank: returns (local_target_ids, local()).
   comm None: the distribution is over one process but local() is the input list. *)
Definition find_tgt {D} (ts : list (tgt D)) (i : Z) : option (tgt D) :=
  find (fun t => Z.eqb (t_id t) i) (rev ts).
Definition dist_targets_copy {D} (ts : list (tgt D)) (comm : option (nat * nat))
  : res (list Z * list (tgt D)) :=
  let size := match comm with None => 1 | Some (s, _) => s end in
  let rank := match comm with None => 0 | Some (_, r) => r end in
  do pt <- distribute_targets ts size;
  match nth_error pt rank with
  | None => Err IndexError
  | Some mine =>
      match comm with
      | None => Ok (mine, ts)
      | Some _ =>
          do data <- mapM (fun x => match find_tgt ts x with Some t => Ok t | None => Err KeyError end) mine;
          Ok (mine, data)
      end
  end.

(* external/desi.py 967-983: capacities when GPU mode is on.
   1.0/10000 is taken exactly. *)
Definition gpu_capacities (gpu_flags : list bool) : option (list Q) :=
  let ngpu := length (filter (fun b => b) gpu_flags) in
  let ncpu := length gpu_flags - ngpu in
  if (0 <? ngpu) && (0 <? ncpu) then
    Some (map (fun b : bool => if b then 1%Q else (1 / 10000)%Q) gpu_flags)
  else None.

(* ---------- numpy.array_split as used by templates.py 571 and zfind.py 169 ---------- *)
(* numpy: Neach, extras = divmod(n, k); section sizes are `extras` times
   Neach+1 then Neach; division points are their running sums. *)
Definition section_sizes (n k : nat) : list nat :=
  repeat (S (n / k)) (n mod k) ++ repeat (n / k) (k - n mod k).
Fixpoint div_points (st : nat) (sizes : list nat) : list nat :=
  match sizes with [] => [st] | s :: ss => st :: div_points (st + s) ss end.
Fixpoint slices {A} (l : list A) (pts : list nat) : list (list A) :=
  match pts with
  | a :: ((b :: _) as r) => firstn (b - a) (skipn a l) :: slices l r
  | _ => []
  end.
Definition array_split {A} (l : list A) (k : nat) : res (list (list A)) :=
  if k =? 0 then Err ValueError
  else Ok (slices l (div_points 0 (section_sizes (length l) k))).

(* templates.py 571-584 with rebin.py 490-493 (myz.max() of the local slice):
   the redshift slice of each rank, or the error that rank raises.
   gpu_mode is not modelled here. *)
Definition rank_redshifts {A} (zs : list A) (size rank : nat) : res (list A) :=
  do d <- array_split zs size;
  match nth_error d rank with
  | None => Err IndexError
  | Some [] => Err ValueError     (* zero-size array to reduction operation maximum *)
  | Some myz => Ok myz
  end.

(* ---------- dicts with insertion order ---------- *)
Definition dict (V : Type) := list (Z * V).
Fixpoint dget {V} (d : dict V) (k : Z) : option V :=
  match d with [] => None | (k', v) :: r => if Z.eqb k' k then Some v else dget r k end.
Fixpoint dset {V} (d : dict V) (k : Z) (v : V) : dict V :=
  match d with
  | [] => [(k, v)]
  | (k', v') :: r => if Z.eqb k' k then (k, v) :: r else (k', v') :: dset r k v
  end.
(* dict.update *)
Definition dupdate {V} (d e : dict V) : dict V :=
  fold_left (fun acc kv => dset acc (fst kv) (snd kv)) e d.

(* ---------- zfind._rebalance_after_scan ---------- *)
(* zfind.py 157-191: gather on rank 0, split, scatter.  The result is the list
   over ranks of (local targets, local results). *)
Definition rebalance {D V} (ltargets : list (list (tgt D))) (lresults : list (dict V))
  : res (list (list (tgt D) * dict V)) :=
  let flat := concat ltargets in
  do ix <- array_split (seq 0 (length flat)) (length ltargets);
  let dist := map (fun i => match i with
                            | [] => []
                            | i0 :: _ => firstn (length i) (skipn i0 flat)
                            end) ix in
  (* {k: v for d in results for k, v in d.items()} *)
  let merged := fold_left dupdate lresults [] in
  do dres <- mapM (fun s =>
       fold_left (fun acc t => do a <- acc;
                   match dget merged (t_id t) with
                   | Some v => Ok (dset a (t_id t) v) | None => Err KeyError end) s (Ok [])) dist;
  Ok (combine dist dres).
