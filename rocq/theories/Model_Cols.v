(* Model of how zfind() puts the columns of one target together (zfind.py 519-552, 598-599, utils.py 273-279) and of the metadata
   columns (zfind.py 636-672).  The row model of Model_Zfind.v takes the columns as aligned; here they are single arrays.
   Simplifications: an array of nmin rows is a list of rows, a row a list of cells (legcoeff of shape (nmin, ncamera, nleg) is a
   list of rows of ncamera*nleg cells); the flattening of one-column arrays (550-551) is not modelled; dtypes are left out. *)
From Verif Require Import Prelude Model_Zscan Model_Dist.

Section Cols.
Variable V : Type.
Variable zero : V.
Definition arr := list (list V).
(* the dictionary fitz returns, with the columns of zfind.py 498-514 *)
Definition blk := list (string * arr).
Definition width (a : arr) : nat := length (hd [] a).

(* utils.py 273-279 *)
Definition pca_map (k : string) : option string :=
  if String.eqb k "pca_coeff" then Some "coeff"%string else if String.eqb k "pca_subtype" then Some "subtype"%string
  else if String.eqb k "pca_spectype" then Some "spectype"%string else None.
Definition zero_like (k : string) : bool := String.eqb k "archcoeff" || String.eqb k "legcoeff".
(* np.pad(val, ((0,0),(0, max(0, ref.shape[1] - val.shape[1]))), constant_values=0)[:, :ref.shape[1]] (539, 544) *)
Definition fit_width (w : nat) (a : arr) : arr := map (fun r => firstn w (r ++ repeat zero (w - length r))) a.

(* zfind.py 535-546: the array of one block; prev is what `val` held before *)
Definition part (arch : bool) (k : string) (ref : arr) (prev : option arr) (b : blk) : res arr :=
  match sget b k with
  | Some v => Ok (match (if arch then pca_map k else None) with Some _ => fit_width (width ref) v | None => v end)
  | None =>
    match (match (if arch then pca_map k else None) with Some k' => sget b k' | None => None end) with
    | Some v => Ok (fit_width (width ref) v)
    | None =>
      if arch then (if zero_like k then Ok (map (map (fun _ => zero)) ref)
                    else match prev with Some v => Ok v | None => Err UnboundLocalError end)
      else Err UnboundLocalError                              (* zero_like_keys is only bound at 263 *)
    end
  end.
Fixpoint parts (arch : bool) (k : string) (ref : arr) (prev : option arr) (bs : list blk) : res (list arr) :=
  match bs with
  | [] => Ok []
  | b :: bs => do v <- part arch k ref prev b; do l <- parts arch k ref (Some v) bs; Ok (v :: l)
  end.
(* np.vstack: ValueError unless the rows have one width *)
Definition vstack (l : list arr) : res arr :=
  if forallb (fun r => length r =? width (concat l)) (concat l) then Ok (concat l) else Err ValueError.
(* zfind.py 530-549 *)
Definition column (arch : bool) (bs : list blk) (k : string) : res arr :=
  match bs with
  | [] => Err IndexError
  | b0 :: _ => match sget b0 k with None => Err KeyError | Some ref => do l <- parts arch k ref None bs; vstack l end
  end.
Definition merge (arch : bool) (bs : list blk) : res blk :=
  match bs with
  | [] => Err ValueError                                      (* 519: max() of no blocks *)
  | b0 :: _ => mapM (fun k => do c <- column arch bs k; Ok (k, c)) (map fst b0)
  end.
(* zfind.py 79-80, 598-599: tzfit[k][idx] *)
Definition take (idx : list nat) (a : arr) : res arr :=
  mapM (fun i => match nth_error a i with Some r => Ok r | None => Err IndexError end) idx.
Definition take_all (idx : list nat) (t : blk) : res blk := mapM (fun kc => do c <- take idx (snd kc); Ok (fst kc, c)) t.
End Cols.
Arguments width {V}. Arguments merge {V}. Arguments column {V}. Arguments part {V}. Arguments parts {V}. Arguments vstack {V}. Arguments take {V}. Arguments take_all {V}. Arguments fit_width {V}.

(* ---------- metadata, zfind.py 636-672 ---------- *)
(* the pattern of 641, matched at the start of the key: the longest start without a line break that "_datatype" follows; nothing is asked of the rest *)
Definition newline : ascii := ascii_of_nat 10.
Fixpoint typed_name (s : string) : option string :=
  match s with
  | EmptyString => None
  | String c r =>
    match (if Ascii.eqb c newline then None else typed_name r) with
    | Some p => Some (String c p)
    | None => if prefix "_datatype" s then Some ""%string else None
    end
  end.
Section Meta.
Variable V : Type.
Definition meta := list (string * V).
(* np.array(values, dtype=...) or Column(values): any conversion *)
Variable conv : option V -> list V -> res (list V).

(* 637, 642-654 *)
Definition all_keys (m0 : meta) : list string := isort String.leb (map fst m0).
Definition real_keys (m0 : meta) : list string := filter (fun k => match typed_name k with None => true | Some _ => false end) (all_keys m0).
Definition types (m0 : meta) : res (list (string * V)) :=
  fold_left (fun acc k => do d <- acc; match typed_name k with
      | None => Ok d
      | Some b => match sget m0 k with Some v => Ok (sset d b v) | None => Err KeyError end end) (all_keys m0) (Ok []).
(* 658-666: the metadata of the target of every row; add_column of a name that is there: ValueError *)
Definition meta_columns (ids : list Z) (metas : dict meta) (names : list string) : res (list (string * list V)) :=
  match ids with
  | [] => Err IndexError
  | t0 :: _ =>
    match dget metas t0 with
    | None => Err KeyError
    | Some m0 =>
      do ty <- types m0;
      fold_left (fun acc k => do cols <- acc;
          do vs <- mapM (fun t => match dget metas t with None => Err KeyError | Some m => match sget m k with None => Err KeyError | Some v => Ok v end end) ids;
          do c <- conv (sget ty k) vs;
          if existsb (String.eqb k) (names ++ map fst cols) then Err ValueError else Ok (cols ++ [(k, c)])) (real_keys m0) (Ok [])
    end
  end.
End Meta.
Arguments all_keys {V}. Arguments real_keys {V}. Arguments types {V}. Arguments meta_columns {V}.
