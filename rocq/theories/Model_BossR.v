(* Model of the resolution matrix built by external/boss.py 201-243 from the widths of the pixels, over the reals. *)
From Verif Require Import Prelude.
From Coq Require Import Reals Lra.
Open Scope R_scope.

(* 201-202 *)
Definition fix_width (w : R) : R := if Rlt_dec w (1 / 100000) then 2 else w.
Section Reso.
Variables (n h : nat) (wd : nat -> R).          (* nbins, ndiag // 2 (ndiag = 2 h + 1), the widths of one fibre *)
(* number of entries of the diagonal of offset o *)
Definition diag_len (o : Z) : nat := (n - Z.abs_nat o)%nat.
(* 227-234: row idiag, column j *)
Definition reso_raw (idiag j : nat) : R :=
  let o := (Z.of_nat h - Z.of_nat idiag)%Z in
  let v := exp (- (IZR o * IZR o) / 2 / (wd j * wd j)) in
  if Z.ltb o 0 then (if Nat.ltb j (diag_len o) then v else 0)
  else (if Nat.leb (n - diag_len o) j && Nat.ltb j n then v else 0).
Fixpoint rsum (k : nat) (f : nat -> R) : R := match k with O => 0 | S m => rsum m f + f m end.
(* 240 *)
Definition reso (idiag j : nat) : R := reso_raw idiag j / rsum (2 * h + 1) (fun k => reso_raw k j).
(* 241-243: dia_matrix((reso, offsets)): element (i, j) is reso[idiag, j] with offset j - i *)
Definition Rmat (i j : nat) : R :=
  let o := (Z.of_nat j - Z.of_nat i)%Z in
  let idiag := (Z.of_nat h - o)%Z in
  if Z.leb 0 idiag && Z.leb idiag (2 * Z.of_nat h) then reso (Z.to_nat idiag) j else 0.
(* the matrix applied to a spectrum *)
Definition apply_R (x : nat -> R) (i : nat) : R := rsum n (fun j => Rmat i j * x j).
End Reso.
(* 206: ndiag = 4 ceil(max width) + 1, hence ndiag // 2 = 2 ceil(max width) *)
Definition half_width (wmax : R) : nat := Z.to_nat (2 * (- Int_part (- wmax))).
