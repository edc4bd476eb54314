(* Model of py/redrock/targets.py: Spectrum, Target.compute_coadd, shared memory
   packing, Legendre cache, eval_model, wavegrids.
   Numbers are exact rationals, every computed value is brought to its canonical
   representative (Qred); rounding and NaN are not modelled here. *)
From Verif Require Import Prelude Model_Fitz.

(* ---------- scipy.sparse.dia_matrix ---------- *)
(* data[k][j] is the entry (j - offsets[k], j) of an n x n matrix; the data of a
   diagonal has as many columns as the matrix *)
Record dia := { d_off : list Z; d_data : list (list Q); d_n : nat }.
Definition inrange (n : nat) (j : Z) : bool := (0 <=? j)%Z && (j <? Z.of_nat n)%Z.
(* np.asarray(R.sum(axis=1))[:,0] *)
Definition row_sum (R : dia) (i : nat) : Q :=
  Qred (sumQ (map (fun od => let j := (Z.of_nat i + fst od)%Z in
                             if inrange (d_n R) j then nth (Z.to_nat j) (snd od) 0%Q else 0%Q)
                  (combine (d_off R) (d_data R)))).

(* ---------- wavehash, targets.py 44-53 ---------- *)
(* the arguments of Python's hash(); the last one is R.data.shape[0] if R has data *)
Definition hash_arg := (nat * Q * Q * Q * Q * option nat)%type.
Inductive key := KBand (b : string) | KHash (h : Z).
Definition key_eqb (a b : key) : bool :=
  match a, b with
  | KBand x, KBand y => String.eqb x y
  | KHash x, KHash y => (x =? y)%Z
  | _, _ => false
  end.
(* wave[0], wave[1], wave[-2], wave[-1] raise IndexError on fewer than two points.
   hashf is Python's builtin hash on such tuples, any function whatsoever. *)
Definition wavehash (hashf : hash_arg -> Z) (wave : list Q) (R : option dia) (band : option string) : res key :=
  match band with
  | Some b => Ok (KBand b)
  | None => if length wave <? 2 then Err IndexError else
      Ok (KHash (hashf (length wave, nth 0 wave 0%Q, nth 1 wave 0%Q, nth (length wave - 2) wave 0%Q, nth (length wave - 1) wave 0%Q,
                        match R with Some r => Some (length (d_data r)) | None => None end)))
  end.

(* ---------- Spectrum, targets.py 32-62 ---------- *)
Record spec := { sp_wave : list Q; sp_flux : list Q; sp_ivar : list Q; sp_R : option dia;
                 sp_Rcsr : option dia; (* the same matrix in CSR format, cached *)
                 sp_band : option string; sp_hash : key }.
Definition min_resolution_integral : Q := 99 # 100.       (* constants.py 9 *)
(* ivar[w] = 0: boolean index of another length raises IndexError *)
Definition mask_lowres (R : option dia) (ivar : list Q) : res (list Q) :=
  match R with
  | None => Ok ivar
  | Some r => if length ivar =? d_n r
              then Ok (map (fun p => if qlt (row_sum r (fst p)) min_resolution_integral then 0%Q else snd p) (enum ivar))
              else Err IndexError
  end.
(* the array ivar is modified in place: the second component is the caller's
   array after the call *)
Definition spectrum_init (hashf : hash_arg -> Z) (wave flux ivar : list Q) (R Rcsr : option dia) (band : option string)
  : res (spec * list Q) :=
  do iv <- mask_lowres R ivar;
  do h <- wavehash hashf wave R band;
  Ok ({| sp_wave := wave; sp_flux := flux; sp_ivar := iv; sp_R := R; sp_Rcsr := Rcsr; sp_band := band; sp_hash := h |}, iv).

(* ---------- compute_coadd, targets.py 267-373 ---------- *)
(* 278-281 *)
Fixpoint first_seen_acc (seen : list key) (l : list key) : list key :=
  match l with
  | [] => []
  | k :: r => if existsb (key_eqb k) seen then first_seen_acc seen r else k :: first_seen_acc (k :: seen) r
  end.
Definition first_seen (l : list key) : list key := first_seen_acc [] l.

(* R.data * ivar: numpy broadcasts ivar over the rows of data, i.e. column by column *)
Definition scale_data (R : dia) (iv : list Q) : res (list (list Q)) :=
  if length iv =? d_n R then Ok (map (fun row => map2 (fun d w => Qred (d * w)) row iv) (d_data R)) else Err ValueError.
Definition same_shape (A B : list (list Q)) : bool :=
  (length A =? length B) && forallb (fun p => length (fst p) =? length (snd p)) (combine A B).
Definition add_data (A B : list (list Q)) : res (list (list Q)) :=
  if same_shape A B then Ok (map2 (map2 (fun a b => Qred (a + b))) A B) else Err ValueError.
(* 296-308, the accumulation of Rdiags over the spectra after the first *)
Fixpoint acc_R (nwave : nat) (Rd : list (list Q)) (l : list spec) : res (list (list Q)) :=
  match l with
  | [] => Ok Rd
  | s :: r => if length (sp_wave s) =? nwave then
                match sp_R s with
                | None => Err AttributeError
                | Some m => do x <- scale_data m (sp_ivar s); do y <- add_data Rd x; acc_R nwave y r
                end
              else Err AssertionError
  end.
(* np.sum(A, axis=0) of n columns *)
Definition sum0 (n : nat) (A : list (list Q)) : list Q := map (fun j => Qred (sumQ (map (fun r => nth j r 0%Q) A))) (seq 0 n).

(* np.interp on increasing sample points *)
Fixpoint np_interp (xp fp : list Q) (x : Q) : Q :=
  match xp, fp with
  | x0 :: ((x1 :: _) as xr), f0 :: ((f1 :: _) as fr) =>
      if Qle_bool x x0 then f0
      else if qlt x x1 then Qred (f0 + (f1 - f0) / (x1 - x0) * (x - x0)) else np_interp xr fr x
  | _, f0 :: _ => f0
  | _, [] => 0%Q
  end.
Definition select (b : list bool) (l : list Q) : list Q := map snd (filter fst (combine b l)).
Fixpoint qmin_from (m : Q) (l : list Q) : Q := match l with [] => m | x :: r => qmin_from (if qlt x m then x else m) r end.
(* x[0], then x[j] op x[j-1] *)
Definition pairwise (op : Q -> Q -> Q) (l : list Q) : list Q := match l with [] => [] | x :: r => x :: map2 op r l end.
(* 317-330: (gradient, variance of the gradient) of one exposure.
   np.interp raises ValueError when there is no good pixel. *)
Definition cosmic_gradient (wave : list Q) (s : spec) : res (list Q * list Q) :=
  let good := map (fun v => qlt 0 v) (sp_ivar s) in
  if existsb (fun b => b) good then
    let xw := select good wave in
    let fill vals := map (fun p => if Qeq_bool (snd (fst p)) 0 then np_interp xw (select good vals) (snd p) else fst (fst p))
                         (combine (combine vals (sp_ivar s)) wave) in
    let tflux := fill (sp_flux s) in
    let tivar := fill (sp_ivar s) in
    let pos := filter (fun v => qlt 0 v) tivar in
    let mn := match pos with [] => 0%Q | x :: r => qmin_from x r end in
    let tivar := map (fun v => if Qle_bool v 0 then mn else v) tivar in
    let tvar := map (fun v => Qred (1 / v)) tivar in
    let g := match pairwise (fun b a => Qred (b - a)) tflux with [] => [] | _ :: r => 0%Q :: r end in
    Ok (g, pairwise (fun b a => Qred (b + a)) tvar)
  else Err ValueError.
(* numpy.argmax: first index of the largest value *)
Fixpoint argmax_from (k best : nat) (v : Q) (l : list Q) : nat :=
  match l with [] => best | x :: r => if qlt v x then argmax_from (S k) k x r else argmax_from (S k) best v r end.
Definition argmax (l : list Q) : nat := match l with [] => 0 | x :: r => argmax_from 1 0 x r end.
(* 337-351.  Note np.sum(gradivar) without axis. *)
Definition cos_gi (grads : list (list Q * list Q)) : list (list Q) := map (fun g => map (fun v => Qred (1 / v)) (snd g)) grads.
Definition cos_at (A : list (list Q)) (k j : nat) : Q := nth j (nth k A []) 0%Q.
Definition cos_mean (grads : list (list Q * list Q)) (j : nat) : Q :=
  Qred (sumQ (map (fun k => cos_at (cos_gi grads) k j * cos_at (map fst grads) k j)%Q (seq 0 (length grads)))
        / Qred (sumQ (map sumQ (cos_gi grads)))).
Definition cos_dev (grads : list (list Q * list Q)) (j k : nat) : Q :=
  let d := (cos_at (map fst grads) k j - cos_mean grads j)%Q in Qred (cos_at (cos_gi grads) k j * (d * d)).
Definition cos_chi2 (grads : list (list Q * list Q)) (j : nat) : Q :=
  Qred (sumQ (map (cos_dev grads j) (seq 0 (length grads))) / (Z.of_nat (length grads - 1) # 1)).
(* Result: the modified copy of ivar. *)
Definition cosmic_mask (nsig : Q) (n : nat) (grads : list (list Q * list Q)) (ivar : list (list Q)) : list (list Q) :=
  map (fun k => map (fun j => if qlt (nsig * nsig) (cos_chi2 grads j) && (argmax (map (cos_dev grads j) (seq 0 (length grads))) =? k) then 0%Q else cos_at ivar k j)
                    (seq 0 n)) (seq 0 (length grads)).

(* 284-369: the coadd of the spectra with a given key.  The group is not empty
   for a key taken from the list. *)
Definition coadd_group (hashf : hash_arg -> Z) (cache : bool) (nsig : Q) (group : list spec) : res spec :=
  match group with
  | [] => Err UnboundLocalError
  | s0 :: rest =>
      let wave := sp_wave s0 in let n := length wave in
      match sp_R s0 with
      | None => Err AttributeError
      | Some R0 =>
          do Rd0 <- scale_data R0 (sp_ivar s0);
          do Rd <- acc_R n Rd0 rest;
          let flux := map sp_flux group in let ivar := map sp_ivar group in
          do iv <- (if qlt 0 nsig then
                      do gs <- mapM (cosmic_gradient wave) group;
                      Ok (if 1 <? length gs then cosmic_mask nsig n gs ivar else ivar)
                    else Ok ivar);
          (* the flux and ivar arrays must be rectangular, of width n *)
          if negb (forallb (fun f => length f =? n) (flux ++ ivar)) then Err ValueError else
          let U := sum0 n flux in
          let W := sum0 n iv in
          let WF := sum0 n (map2 (map2 Qmult) iv flux) in
          let wb := map (fun w => if Qeq_bool w 0 then 1%Q else w) W in            (* weights + isbad *)
          let nspec := Z.of_nat (length group) # 1 in
          let f := map (fun j => if Qeq_bool (nth j W 0%Q) 0 then Qred (nth j U 0%Q / nspec)
                                 else Qred (nth j WF 0%Q / nth j wb 1%Q)) (seq 0 n) in
          let R := {| d_off := d_off R0; d_data := map (fun row => map2 (fun d w => Qred (d / w)) row wb) Rd; d_n := d_n R0 |} in
          do p <- spectrum_init hashf wave f W (Some R) (if cache then Some R else None) (sp_band (last group s0));
          Ok (fst p)
      end
  end.
Definition group_of (l : list spec) (k : key) : list spec := filter (fun s => key_eqb (sp_hash s) k) l.
Definition compute_coadd (hashf : hash_arg -> Z) (cache : bool) (nsig : Q) (spectra : list spec) : res (list spec) :=
  mapM (fun k => coadd_group hashf cache nsig (group_of spectra k)) (first_seen (map sp_hash spectra)).

(* ---------- Target, targets.py 161-182 ---------- *)
Record target := { tg_id : Z; tg_spectra : list spec; tg_bands : list (option string) }.
(* the bands are taken from the argument, not from self.spectra *)
Definition target_init (hashf : hash_arg -> Z) (id : Z) (spectra : list spec) (coadd : bool) (nsig : Q) : res target :=
  do sp <- (if coadd then compute_coadd hashf false nsig spectra else Ok spectra);
  Ok {| tg_id := id; tg_spectra := sp; tg_bands := map sp_band spectra |}.
(* compute_coadd as a method: replaces the spectra, leaves the bands *)
Definition target_coadd (hashf : hash_arg -> Z) (cache : bool) (nsig : Q) (t : target) : res target :=
  do sp <- compute_coadd hashf cache nsig (tg_spectra t);
  Ok {| tg_id := tg_id t; tg_spectra := sp; tg_bands := tg_bands t |}.
