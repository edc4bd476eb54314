(* Model of the ranking code of py/redrock/zfind.py and the flag constants of
   py/redrock/zwarning.py.  Column dictionaries are association lists in
   insertion order (Python dict); floats are exact with NaN/inf (NumX). *)
From Verif Require Import Prelude NumX.

(* zwarning.py:15-27 *)
Definition ZW_SKY               : N := 2^0.
Definition ZW_LITTLE_COVERAGE   : N := 2^1.
Definition ZW_SMALL_DELTA_CHI2  : N := 2^2.
Definition ZW_NEGATIVE_MODEL    : N := 2^3.
Definition ZW_MANY_OUTLIERS     : N := 2^4.
Definition ZW_Z_FITLIMIT        : N := 2^5.
Definition ZW_NEGATIVE_EMISSION : N := 2^6.
Definition ZW_UNPLUGGED         : N := 2^7.
Definition ZW_BAD_TARGET        : N := 2^8.
Definition ZW_NODATA            : N := 2^9.
Definition ZW_BAD_MINFIT        : N := 2^10.
Definition ZW_POORDATA          : N := 2^11.

(* zwarning.py:52-56, one |= per line *)
Definition badfit_mask : N :=
  N.lor (N.lor (N.lor (N.lor ZW_NEGATIVE_MODEL ZW_MANY_OUTLIERS) ZW_Z_FITLIMIT)
           ZW_NEGATIVE_EMISSION) ZW_BAD_MINFIT.

(* zfind.py:202,216  (zfit['zwarn'] & badfit_mask) != 0 *)
Definition badfit (zw : N) : bool := negb (N.eqb (N.land zw badfit_mask) 0).

(* ---- dictionaries of columns ------------------------------------------- *)
(* One array element.  A 1-d numpy array has elements of one kind only;
   CVec is a row of a 2-d array (the coeff column). *)
Inductive cell := CNum (x : xq) | CInt (n : N) | CBool (b : bool) | CStr (s : string)
  | CVec (v : list Q).

(* numpy's ascending order inside one kind; across kinds (never the case in a
   numpy array) ordered by kind so that the relation is total.  2-d key columns
   are not modelled as keys (all CVec are ties). *)
Definition kind (c : cell) : nat :=
  match c with CNum _ => 0 | CInt _ => 1 | CBool _ => 2 | CStr _ => 3 | CVec _ => 4 end.
Definition cell_le (a b : cell) : bool :=
  match a, b with
  | CNum x, CNum y => nple x y
  | CInt x, CInt y => N.leb x y
  | CBool x, CBool y => implb x y
  | CStr x, CStr y => String.leb x y
  | _, _ => Nat.leb (kind a) (kind b)
  end.

(* zfind.py:46,70  type(d[k]) is np.ndarray, or anything else *)
Inductive column := Arr (l : list cell) | NotArr.
Definition dict := list (string * column).

Fixpoint dget (d : dict) (k : string) : option column :=
  match d with
  | [] => None
  | (k', c) :: d' => if String.eqb k k' then Some c else dget d' k
  end.
(* d[k] = c : replace in place, or append a new key at the end *)
Fixpoint dset (d : dict) (k : string) (c : column) : dict :=
  match d with
  | [] => [(k, c)]
  | (k', c') :: d' => if String.eqb k k' then (k', c) :: d' else (k', c') :: dset d' k c
  end.
Definition ddel (d : dict) (k : string) : dict :=
  filter (fun e => negb (String.eqb k (fst e))) d.

(* numpy fancy indexing d[k][idx] on axis 0: IndexError when out of range *)
Fixpoint take {A} (l : list A) (idx : list nat) : option (list A) :=
  match idx with
  | [] => Some []
  | i :: is => match nth_error l i, take l is with
               | Some x, Some xs => Some (x :: xs) | _, _ => None end
  end.

(* np.lexsort(keys): the last key is the primary one; implemented as stable
   sorts by each key in turn (numpy: all keys need to be the same shape, and
   an empty tuple of keys is a TypeError). *)
Definition key_le (key : list cell) (i j : nat) : bool :=
  cell_le (nth i key (CBool false)) (nth j key (CBool false)).
Definition lexsort (keys : list (list cell)) : res (list nat) :=
  match keys with
  | [] => Err TypeError
  | k0 :: _ =>
      if forallb (fun k => Nat.eqb (length k) (length k0)) keys
      then Ok (fold_left (fun idx key => isort (key_le key) idx) keys (seq 0 (length k0)))
      else Err ValueError
  end.

(* zfind.py:79-80: for k in d.keys(): d[k] = d[k][idx]; an IndexError in the
   middle leaves the earlier columns already permuted. *)
Fixpoint reindex (done todo : dict) (idx : list nat) : dict * option exn :=
  match todo with
  | [] => (done, None)
  | (k, NotArr) :: _ => (done ++ todo, Some TypeError)
  | (k, Arr l) :: rest =>
      match take l idx with
      | Some l' => reindex (done ++ [(k, Arr l')]) rest idx
      | None => (done ++ todo, Some IndexError)
      end
  end.

Definition is_arr (c : column) : bool := match c with Arr _ => true | NotArr => false end.
Definition arr_of (c : option column) : list cell :=
  match c with Some (Arr l) => l | _ => [] end.

(* zfind.py:53-81 sort_dict_by_cols: returns the final dict and the exception *)
Definition sort_dict_by_cols (d : dict) (colnames : list string) (first_first : bool)
  : dict * option exn :=
  if negb (forallb (fun c => match dget d c with Some _ => true | None => false end) colnames)
  then (d, Some KeyError)                                    (* 66-68 *)
  else if negb (forallb (fun e => is_arr (snd e)) d)
  then (d, Some ValueError)                                  (* 69-71 *)
  else
    let vals := map (fun c => arr_of (dget d c)) colnames in   (* 72-74 *)
    let vals := if first_first then rev vals else vals in      (* 75-77 *)
    match lexsort vals with                                    (* 78 *)
    | Err e => (d, Some e)
    | Ok idx => reindex [] d idx                               (* 79-80 *)
    end.

(* (zfit['zwarn'] & badfit_mask) != 0 elementwise; & on a float array or on a
   non-array is a TypeError *)
Definition badfit_column (c : column) : res column :=
  match c with
  | NotArr => Err TypeError
  | Arr l => do bs <- mapM (fun x => match x with
                                     | CInt n => Ok (CBool (badfit n))
                                     | _ => Err TypeError end) l;
             Ok (Arr bs)
  end.

Definition BADCOL : string := "__badfit__".

(* zfind.py:206-218 sort_zfit_dict *)
Definition sort_zfit_dict (d : dict) : dict * option exn :=
  match dget d "zwarn" with
  | None => (d, Some KeyError)
  | Some c =>
      match badfit_column c with
      | Err e => (d, Some e)
      | Ok bc =>
          let d1 := dset d BADCOL bc in                                  (* 216 *)
          let '(d2, e) := sort_dict_by_cols d1 [BADCOL; "chi2"%string] true in  (* 217 *)
          match e with
          | Some _ => (d2, e)
          | None => (ddel d2 BADCOL, None)                               (* 218 *)
          end
      end
  end.

(* fitz.py:41-42 get_dv; speed of light in km/s (scipy.constants / 1000) *)
Definition c_kms : Q := 299792458 # 1000.
Definition get_dv (z zref : Q) : Q := (c_kms * (z - zref) / (1 + zref))%Q.

(* ---- calc_deltachi2 ------------------------------------------------------ *)
(* One row of the arguments of calc_deltachi2.  The arrays have equal length
   in every call; a scalar dvlimit is the same value in each row (129-130). *)
Record drow := { d_chi2 : xq; d_z : Q; d_zwarn : N; d_lim : Q }.

(* zfind.py:126 okfit *)
Definition okfit (r : drow) : bool := N.eqb (N.land (d_zwarn r) badfit_mask) 0.

(* zfind.py:132-137: the loop body for row r, [rest] being the slice [i+1:] *)
Definition deltachi2_at (r : drow) (rest : list drow) : xq :=
  let ii := filter (fun s => andb
              (qlt (Qmin (d_lim r) (d_lim s)) (Qabs (get_dv (d_z s) (d_z r))))
              (okfit s)) rest in
  match map (fun s => xsub (d_chi2 s) (d_chi2 r)) ii with
  | [] => Fin 0
  | x :: xs => npmin x xs
  end.
(* zfind.py:125,132: zeros, then i in range(len(chi2)-1); for the last row the
   slice is empty and the zero stays. *)
Fixpoint deltachi2_loop (rows : list drow) : list xq :=
  match rows with [] => [] | r :: rest => deltachi2_at r rest :: deltachi2_loop rest end.

Definition min_deltachi2 : Q := 9.                      (* constants.py:11 *)

(* zfind.py:143-153 *)
Definition setzwarn_at (rows : list drow) (i : nat) (r : drow) : bool :=
  let noti := firstn i rows ++ skipn (S i) rows in
  existsb (fun s => andb (andb (okfit s)
                      (xlt (xabs (xsub (d_chi2 s) (d_chi2 r))) (Fin min_deltachi2)))
                      (Qle_bool (Qmin (d_lim r) (d_lim s)) (Qabs (get_dv (d_z s) (d_z r)))))
          noti.
Definition setzwarn_loop (rows : list drow) : list bool :=
  map (fun e => setzwarn_at rows (fst e) (snd e)) (enum rows).

(* zfind.py:103-155 *)
Definition calc_deltachi2 (rows : list drow) : list xq * list bool :=
  (deltachi2_loop rows, setzwarn_loop rows).
