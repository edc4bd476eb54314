(* Model of redrock/priors.py (Priors) and of its use in zfind.py 318-322.
   Numbers are exact rationals extended with inf and NaN; FITS reading is not
   modelled: the constructor receives the rows of the PRIORS table. *)
From Verif Require Import Prelude NumX Model_Dist Model_Fitz.

(* numpy float division: no exception, x/0 is inf or NaN *)
Definition npdiv (a b : Q) : xq :=
  if Qeq_bool b 0 then (if Qeq_bool a 0 then NaN else if qlt 0 a then PInf else NInf) else Fin (a / b).

(* priors.py 32-35: dict comprehension over the table rows (TARGETID, (Z, SIGMA)) *)
Definition param := dict (Q * Q).
Definition priors_init (rows : list (Z * (Q * Q))) : param :=
  fold_left (fun acc kv => dset acc (fst kv) (snd kv)) rows [].

(* what eval returns: an array over the redshift grid, or the scalar 0. (line 59) *)
Inductive pval := PArr (l : list xq) | PScalar (x : xq).

(* priors.py 45-59; func is self._func.  The except KeyError branch is reached
   exactly when targetid is not a key. *)
Definition eval (func : list Q -> Q -> Q -> list xq) (p : param) (tid : Z) (z : list Q) : pval :=
  match dget p tid with
  | Some (z0, s0) => PArr (func z z0 s0)
  | None => PScalar (Fin 0)
  end.

(* zfind.py 322: zchi2 += priors.eval(...); numpy raises ValueError for arrays of
   different length (length-1 broadcasting not modelled: lengths are equal in zfind) *)
Definition apply_prior (zchi2 : list xq) (p : pval) : res (list xq) :=
  match p with
  | PScalar s => Ok (map (fun x => xadd x s) zchi2)
  | PArr l => if length l =? length zchi2 then Ok (map2 xadd zchi2 l) else Err ValueError
  end.

(* zfind.py 318-322 for one template: every scanned target *)
Definition apply_priors (func : list Q -> Q -> Q -> list xq) (p : param) (results : dict (list Q * list xq)) : res (dict (list Q * list xq)) :=
  mapM (fun kv => do c <- apply_prior (snd (snd kv)) (eval func p (fst kv) (fst (snd kv)));
                  Ok (fst kv, (fst (snd kv), c))) results.

(* priors.py 63-72 *)
Definition gaussian (z : list Q) (z0 s0 : Q) : list xq :=
  map (fun x => let u := npdiv (x - z0) s0 in xmul u u) z.

(* priors.py 89-131.  argwhere(prior>=0.0) is taken before inf is written *)
Definition set_nth {A} (i : nat) (v : A) (l : list A) : list A :=
  map (fun p => if fst p =? i then v else snd p) (enum l).
Definition tophat (z : list Q) (z0 s0 : Q) : list xq :=
  let prior := map (fun x => if qlt (Qabs (x - z0)) (s0 / 2) then Fin 0 else NaN) z in
  if forallb isnan prior then prior
  else
    let w := where_from 0 (map (fun p => xle (Fin 0) p) prior) in
    let left := hd 0 w in let right := last w 0 in
    let prior := if left =? 0 then set_nth left PInf prior else set_nth (left - 1) PInf prior in
    if right =? length prior - 1 then set_nth right PInf prior else set_nth (right + 1) PInf prior.
