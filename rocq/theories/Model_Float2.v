(* rebin.py 126-209 and 310-347 in double precision: the CPU rebinning.  Reads
   outside an array, which numba does not check, are IndexError here; division by
   zero raises ZeroDivisionError (numba's default error model). *)
From Verif Require Import Prelude.
From Flocq Require Import Core.Core IEEE754.BinarySingleNaN.
From Verif Require Import Model_Float.
Import ListNotations.
Open Scope nat_scope.

Definition fget (l : list b64) (j : nat) : res b64 :=
  match nth_error l j with Some v => Ok v | None => Err IndexError end.
(* l[j-1]; index -1 is the last element *)
Definition fgetm1 (l : list b64) (j : nat) : res b64 :=
  match j with O => fget l (length l - 1) | S k => fget l k end.
Definition pdiv (a b : b64) : res b64 := if Beqb b fzero then Err ZeroDivisionError else Ok (fdiv a b).

(* rebin.py 142-143 *)
Fixpoint fseek (fuel : nat) (x : list b64) (e : b64) (j : nat) : res nat :=
  match fuel with
  | O => Err RuntimeError
  | S n => do xj <- fget x j; if Bleb xj e then fseek n x e (S j) else Ok j
  end.
Definition fhalf : b64 := flit 1 (-1).
(* 0.5 * (a + b) * (c - d) *)
Definition trap (a b c d : b64) : b64 := fmul (fmul fhalf (fadd a b)) (fsub c d).
(* rebin.py 154-157 *)
Fixpoint finterior (fuel : nat) (x y : list b64) (hi : b64) (j : nat) (acc : b64) : res (nat * b64) :=
  match fuel with
  | O => Err RuntimeError
  | S n =>
      do xn <- fget x (j + 1);
      if Bltb xn hi then
        do yn <- fget y (j + 1); do yj <- fget y j; do xj <- fget x j;
        finterior n x y hi (j + 1) (fadd acc (trap yn yj xn xj))
      else Ok (j, acc)
  end.
(* y0 + (e - x0) * dy / dx *)
Definition fline (y0 e x0 dy dx : b64) : res b64 :=
  do t <- pdiv (fmul (fsub e x0) dy) dx; Ok (fadd y0 t).
(* rebin.py 142-169: one bin *)
Definition fbin (x y : list b64) (lo hi : b64) (j0 : nat) (r0 : b64) : res (nat * b64) :=
  do j <- fseek (length x + 1) x lo j0;
  do yp <- fgetm1 y j; do xp <- fgetm1 x j; do yj <- fget y j; do xj <- fget x j;
  do yedge <- fline yp lo xp (fsub yj yp) (fsub xj xp);                        (* 146 *)
  if Bltb xj hi then
    do p <- finterior (length x + 1) x y hi j (fadd r0 (trap yj yedge xj lo));  (* 150-157 *)
    let '(j, r2) := p in
    do yj <- fget y j; do xj <- fget x j; do yn <- fget y (j + 1); do xn <- fget x (j + 1);
    do yedge <- fline yj hi xj (fsub yn yj) (fsub xn xj);                      (* 160 *)
    Ok (j, fadd r2 (trap yedge yj hi xj))                                      (* 161-162 *)
  else
    do ylo <- fline yj lo xj (fsub yj yp) (fsub xj xp);                        (* 166 *)
    do yhi <- fline yj hi xj (fsub yj yp) (fsub xj xp);                        (* 167 *)
    Ok (j, fadd r0 (trap ylo yhi hi lo)).                                      (* 168-169 *)
(* rebin.py 140-171, results starting from zeros, and 173-174 *)
Fixpoint fbins (x y edges : list b64) (j : nat) : res (list b64) :=
  match edges with
  | lo :: ((hi :: _) as rest) =>
      do p <- fbin x y lo hi j fzero; do more <- fbins x y rest (fst p); Ok (snd p :: more)
  | _ => Ok []
  end.
Fixpoint fnormalise (edges results : list b64) : res (list b64) :=
  match edges, results with
  | lo :: ((hi :: _) as rest), r :: rs => do v <- pdiv r (fsub hi lo); do more <- fnormalise rest rs; Ok (v :: more)
  | _, _ => Ok []
  end.
Definition trapz_1d (x y edges : list b64) : res (list b64) :=
  do r <- fbins x y edges 0; fnormalise edges r.

(* rebin.py 332-347 and 199-206: the range check, and one rebinning per redshift
   (the first z and the others, for a non-empty array) *)
Definition shifted (x : list b64) (z : b64) : list b64 := map (fun v => fmul v (fadd (fint 1) z)) x.  (* 201, 346 *)
Definition trapz (x y edges : list b64) (z : b64) (zs : list b64) : res (list (list b64)) :=
  let xmin := fmul (hd fzero x) (fadd (fint 1) (maximum z zs)) in                (* 333 *)
  let xmax := fmul (last x fzero) (fadd (fint 1) (minimum z zs)) in              (* 335 *)
  if Bltb (hd fzero edges) xmin || Bltb xmax (last edges fzero) then Err ValueError  (* 340 *)
  else mapM (fun z => trapz_1d (shifted x z) y edges) (z :: zs).
