(* Model of the result-assembly part of zfind() in py/redrock/zfind.py:458-710.
   A dict of equally long columns is modelled here as a list of rows; that
   sort_zfit_dict on columns is the row sort used here is proved
   (Proof_Zfind.v, rows_sort_is_dict_sort). *)
From Verif Require Import Prelude NumX Model_Rank.

(* One fit = one row of tzfit / allzfit. *)
Record frow := mk_frow {
  f_tid : Z; f_type : string; f_sub : string;
  f_z : Q; f_zerr : Q; f_chi2 : xq; f_zwarn : N;
  f_npix : N; f_ncoeff : N; f_coeff : list Q; f_lim : Q;
  f_znum : nat; f_dchi2 : xq }.

Definition set_zwarn (r : frow) (w : N) : frow :=
  mk_frow (f_tid r) (f_type r) (f_sub r) (f_z r) (f_zerr r) (f_chi2 r) w
    (f_npix r) (f_ncoeff r) (f_coeff r) (f_lim r) (f_znum r) (f_dchi2 r).
Definition set_coeff (r : frow) (c : list Q) : frow :=
  mk_frow (f_tid r) (f_type r) (f_sub r) (f_z r) (f_zerr r) (f_chi2 r) (f_zwarn r)
    (f_npix r) (f_ncoeff r) c (f_lim r) (f_znum r) (f_dchi2 r).
Definition set_prep (r : frow) (ncoeff : N) (lim : Q) : frow :=
  mk_frow (f_tid r) (f_type r) (f_sub r) (f_z r) (f_zerr r) (f_chi2 r) (f_zwarn r)
    (f_npix r) ncoeff (f_coeff r) lim (f_znum r) (f_dchi2 r).
Definition set_tid (r : frow) (t : Z) : frow :=
  mk_frow t (f_type r) (f_sub r) (f_z r) (f_zerr r) (f_chi2 r) (f_zwarn r)
    (f_npix r) (f_ncoeff r) (f_coeff r) (f_lim r) (f_znum r) (f_dchi2 r).
Definition set_num (r : frow) (k : nat) (d : xq) : frow :=
  mk_frow (f_tid r) (f_type r) (f_sub r) (f_z r) (f_zerr r) (f_chi2 r) (f_zwarn r)
    (f_npix r) (f_ncoeff r) (f_coeff r) (f_lim r) k d.
Definition set_type (r : frow) (t : string) : frow :=
  mk_frow (f_tid r) t (f_sub r) (f_z r) (f_zerr r) (f_chi2 r) (f_zwarn r)
    (f_npix r) (f_ncoeff r) (f_coeff r) (f_lim r) (f_znum r) (f_dchi2 r).

(* zfit[fulltype]['zfit']: the fits of one template for one target.  All rows
   have b_width coefficients (coeff.shape[1]).  spectype/subtype of each row are
   already parsed (475-488). *)
Record block := { b_width : nat; b_rows : list frow }.

(* str.upper on ASCII *)
Definition upper_ascii (a : ascii) : ascii :=
  let n := N_of_ascii a in
  if (N.leb 97 n && N.leb n 122)%bool then ascii_of_N (n - 32) else a.
Fixpoint upper (s : string) : string :=
  match s with EmptyString => EmptyString | String a r => String (upper_ascii a) (upper r) end.

Definition max_velo_diff : Q := 1000.        (* constants.py:7 *)
Definition max_velo_diff_star : Q := 100.    (* constants.py:8 *)

(* zfind.py:510-514: one limit per block, decided by the (first) spectype *)
Definition block_lim (rows : list frow) : Q :=
  match rows with
  | r :: _ => if String.eqb (upper (f_type r)) "STAR" then max_velo_diff_star else max_velo_diff
  | [] => max_velo_diff
  end.
(* zfind.py:506-514 *)
Definition prep_block (b : block) : list frow :=
  map (fun r => set_prep r (N.of_nat (b_width b)) (block_lim (b_rows b))) (b_rows b).

(* zfind.py:494-496: blocks without minima are skipped *)
Definition nonempty (b : block) : bool := match b_rows b with [] => false | _ => true end.

(* zfind.py:521-526: append zeros on the right *)
Definition pad (w : nat) (c : list Q) : list Q := c ++ repeat 0%Q (w - length c).

(* archetype options that matter here (559-579): do all spectypes have
   archetypes, which spectypes have one, n_nearest *)
Record archopt := { ar_all : bool; ar_types : list string; ar_nnear : option nat }.

(* zfind.py:560-577: is the row flagged NEGATIVE_MODEL *)
Definition negative_model (a : archopt) (r : frow) : bool :=
  if ar_all a then
    match ar_nnear a with
    | None => Qle_bool (hd 0%Q (f_coeff r)) 0                      (* 564 *)
    | Some n => existsb (fun c => qlt c 0) (firstn n (f_coeff r))  (* 566 *)
    end
  else
    andb (existsb (String.eqb (f_type r)) (ar_types a))            (* 569 *)
      (negb match ar_nnear a with
            | None => Qle_bool 0 (hd 0%Q (f_coeff r))              (* 573 *)
            | Some n => forallb (fun c => Qle_bool 0 c) (firstn n (f_coeff r))  (* 576 *)
            end).

(* zfind.py:559-583 *)
Definition flag_row (arch : option archopt) (r : frow) : frow :=
  let w0 := f_zwarn r in
  let w1 := match arch with
            | Some a => if negative_model a r then N.lor w0 ZW_NEGATIVE_MODEL else w0
            | None => w0 end in
  let w2 := if N.eqb (f_npix r) 0 then N.lor w1 ZW_NODATA else w1 in
  let w3 := if N.ltb (f_npix r) (10 * f_ncoeff r) then N.lor w2 ZW_LITTLE_COVERAGE else w2 in
  set_zwarn r w3.

(* ranking order of two rows: (__badfit__, chi2) *)
Definition row_le (a b : frow) : bool :=
  match badfit (f_zwarn a), badfit (f_zwarn b) with
  | false, true => true
  | true, false => false
  | _, _ => nple (f_chi2 a) (f_chi2 b)
  end.
Definition sort_rows (rows : list frow) : list frow := isort row_le rows.

(* np.unique: sorted distinct values *)
Definition np_unique (l : list string) : list string := isort String.leb (nodup string_dec l).

(* zfind.py:591-601: keep the first nminima of each spectype, re-sort *)
Definition trim (nminima : nat) (rows : list frow) : list frow :=
  let keep := flat_map (fun t => firstn nminima (filter (fun r => String.eqb (f_type r) t) rows))
                (np_unique (map f_type rows)) in
  if Nat.ltb (length keep) (length rows) then sort_rows keep else rows.

Definition to_drow (r : frow) : drow :=
  {| d_chi2 := f_chi2 r; d_z := f_z r; d_zwarn := f_zwarn r; d_lim := f_lim r |}.

Fixpoint zip3 {A B C} (a : list A) (b : list B) (c : list C) : list (A * B * C) :=
  match a, b, c with
  | x :: a', y :: b', z :: c' => (x, y, z) :: zip3 a' b' c'
  | _, _, _ => []
  end.

(* zfind.py:603-611: znum, deltachi2, SMALL_DELTA_CHI2 *)
Definition number_rows (rows : list frow) : list frow :=
  let '(dc, sz) := calc_deltachi2 (map to_drow rows) in
  map (fun e => let '(i, (r, d, s)) := e in
         let r1 := set_num r i d in
         if (s : bool) then set_zwarn r1 (N.lor (f_zwarn r1) ZW_SMALL_DELTA_CHI2) else r1)
      (enum (zip3 rows dc sz)).

Definition list_max_nat (l : list nat) : nat := fold_right Nat.max 0 l.

(* zfind.py:468-618 for one target *)
Definition flagged_rows (arch : option archopt) (tid : Z) (blocks : list block) : list frow :=
  let bs := filter nonempty blocks in
  let maxw := list_max_nat (map b_width bs) in
  map (flag_row arch)
    (map (fun r => set_tid r tid)
       (flat_map (fun b => map (fun r => set_coeff r (pad maxw (f_coeff r))) (prep_block b)) bs)).

Definition assemble_target (nminima : nat) (arch : option archopt) (tid : Z) (blocks : list block)
  : res (list frow) :=
  match filter nonempty blocks with
  | [] => Err ValueError                         (* 519: max() of an empty list *)
  | _ => Ok (number_rows (trim nminima (sort_rows (flagged_rows arch tid blocks))))
  end.

(* zfind.py:458-461, 470: allresults[tid] *)
Definition results := list (Z * list block).
Fixpoint rget (d : results) (k : Z) : option (list block) :=
  match d with
  | [] => None
  | (k', v) :: d' => if Z.eqb k k' then Some v else rget d' k
  end.

(* zfind.py:467-618: one table per target *)
Definition tables (nminima : nat) (arch : option archopt) (ids : list Z) (d : results)
  : res (list (list frow)) :=
  mapM (fun tid => match rget d tid with
                   | None => Err KeyError
                   | Some bs => assemble_target nminima arch tid bs end) ids.

(* width of the coeff column of one table (rows are never empty here) *)
Definition coeff_width (rows : list frow) : nat :=
  match rows with r :: _ => length (f_coeff r) | [] => 0 end.

(* zfind.py:620 astropy.table.vstack: no tables is a ValueError, different
   shapes of the 2-d coeff column a TableMergeError *)
Definition vstack (ts : list (list frow)) : res (list frow) :=
  match ts with
  | [] => Err ValueError
  | t :: _ => if forallb (fun u => Nat.eqb (coeff_width u) (coeff_width t)) ts
              then Ok (concat ts) else Err TableMergeError
  end.

Fixpoint stake (n : nat) (s : string) : string :=
  match n, s with S n', String a r => String a (stake n' r) | _, _ => EmptyString end.

(* zfind.py:683-710: spectype to <U6, coeff to the standard width.  maxcoeff is
   the template/archetype maximum of 686-692.  An all-equal ncoeff column cuts
   coeff to that width (706-710). *)
Definition standardise (maxcoeff : nat) (rows : list frow) : res (list frow) :=
  let rows := map (fun r => set_type r (stake 6 (f_type r))) rows in
  let w := coeff_width rows in
  if Nat.ltb maxcoeff w then Err ValueError        (* 702: cannot broadcast *)
  else
    let rows := map (fun r => set_coeff r (pad maxcoeff (f_coeff r))) rows in
    match nodup N.eq_dec (map f_ncoeff rows) with
    | [n] => Ok (map (fun r => set_coeff r (firstn (N.to_nat n) (f_coeff r))) rows)
    | _ => Ok rows
    end.

Definition zfind_table (nminima : nat) (arch : option archopt) (maxcoeff : nat)
    (ids : list Z) (d : results) : res (list frow) :=
  do ts <- tables nminima arch ids d;
  do t <- vstack ts;
  standardise maxcoeff t.
