(* The parabola fit and the choice of the reported redshift in double precision: fitz.py 70-111 and 259-320. *)
From Coq Require Import ZArith List Bool.
From Flocq Require Import Core.Core IEEE754.BinarySingleNaN.
From Verif Require Import Model_Float.
Import ListNotations.

(* np.sqrt: correctly rounded *)
Definition fsqrt (x : b64) : b64 := Bsqrt mode_NE x.

(* x0, xerr, y0 and whether BAD_MINFIT is raised *)
Record parab := { p_x0 : b64; p_xerr : b64; p_y0 : b64; p_bad : bool }.
Definition minus1 : b64 := Bopp (fint 1).
Definition nofit : parab := {| p_x0 := minus1; p_xerr := minus1; p_y0 := minus1; p_bad := true |}.

Section Minfit.
Variable square : b64 -> b64.                                     (* b**2: pow() of the C library *)
Variable polyfit : list b64 -> list b64 -> option (b64 * b64 * b64).   (* np.polyfit(x, y, 2); None when it raises LinAlgError *)

(* fitz.py 83-111 *)
Definition minfit64 (x y : list b64) : parab :=
  if Nat.ltb (length x) 3 then nofit else                                          (* 83 *)
  match polyfit x y with
  | None => nofit                                                                  (* 89-90 *)
  | Some (a, b, c) =>
      if Beqb a fzero then nofit else                                              (* 92 *)
      let x0 := fdiv (Bopp b) (fmul (fint 2) a) in                                 (* 96 *)
      let y0 := fadd (fdiv (Bopp (square b)) (fmul (fint 4) a)) c in               (* 97 *)
      let lo := minimum (hd fzero x) (tl x) in
      let hi := maximum (hd fzero x) (tl x) in
      let w1 := Bleb x0 lo || Bleb hi x0 in                                        (* 100 *)
      let w2 := Bleb y0 fzero in                                                   (* 102 *)
      if Bltb fzero a                                                              (* 105 *)
      then {| p_x0 := x0; p_xerr := fdiv (fint 1) (fsqrt a); p_y0 := y0; p_bad := w1 || w2 |}
      else {| p_x0 := x0; p_xerr := fdiv (fint 1) (fsqrt (Bopp a)); p_y0 := y0; p_bad := true |}
  end.

(* np.argmin: the first NaN, else the first of the smallest values *)
Fixpoint argmin64 (k best : nat) (v : b64) (l : list b64) : nat :=
  match l with
  | [] => best
  | x :: l => if negb (is_nan v) && (is_nan x || Bltb x v) then argmin64 (S k) k x l else argmin64 (S k) best v l
  end.
(* np.where(y == np.min(y))[0][0]: None when nothing is equal (a NaN among the values), where [0] raises IndexError *)
Fixpoint first_eq (k : nat) (v : b64) (l : list b64) : option nat :=
  match l with [] => None | x :: l => if Beqb x v then Some k else first_eq (S k) v l end.

(* the part of a result decided here: redshift, its error, chi2, the two flags *)
Record picked := { k_z : b64; k_zerr : b64; k_chi2 : b64; k_bad : bool; k_limit : bool }.

(* fitz.py 259-261 and 295-320, for a fine scan zz, zzchi2 of at least three points and a
   redshift grid of at least two.  raised: the evaluation at zmin (265-293) raised ValueError.  None: the exception is not caught. *)
Definition settle (redshifts zz zzchi2 : list b64) (raised : bool) : option picked :=
  let n := length zz in
  let i := Nat.min (Nat.max (argmin64 1 0 (hd fzero zzchi2) (tl zzchi2)) 1) (n - 2) in     (* 260 *)
  let m := minfit64 (firstn 3 (skipn (i - 1) zz)) (firstn 3 (skipn (i - 1) zzchi2)) in     (* 261 *)
  let zmin := p_x0 m in
  let first := hd fzero redshifts in
  let final := last redshifts fzero in
  let beyond := Bltb zmin first || Bltb final zmin in                                       (* 296 *)
  if raised && negb beyond then None else                                                   (* 304 *)
  let bad := p_bad m || raised in                                                           (* 300 *)
  let limit := raised in                                                                    (* 299 *)
  let second := nth 1 redshifts fzero in
  let butlast := nth (length redshifts - 2) redshifts fzero in
  let finish z chi2 bad :=
    {| k_z := z; k_zerr := p_xerr m; k_chi2 := chi2; k_bad := bad;
       k_limit := limit || (Bltb z second || Bltb butlast z) || (Bltb zmin second || Bltb butlast zmin) |} in   (* 317-320 *)
  if Bltb zmin (hd fzero zz) || Bltb (last zz fzero) zmin then                              (* 310 *)
    match first_eq 0 (minimum (hd fzero zzchi2) (tl zzchi2)) zzchi2 with                    (* 312 *)
    | None => None
    | Some j => Some (finish (nth j zz fzero) (nth j zzchi2 fzero) true)                    (* 311-314 *)
    end
  else Some (finish zmin (p_y0 m) bad).
End Minfit.
