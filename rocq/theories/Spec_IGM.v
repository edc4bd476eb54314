(* What the IGM transmission should be, for one redshift and one observed wavelength. *)
From Verif Require Import Prelude Model_IGM.
Require Import Reals Lra.
Local Open Scope R_scope.
(* Calura et al. 2012 / Kamble et al. 2020: line l absorbs blueward of its rest wavelength, with
   optical depth A (1+z_abs)^B at 1+z_abs = lambda_obs/line *)
Definition line_depth (z lo : R) (l : lyman) : R := if Rlt_dec (lo / (1 + z)) (ly_line l) then ly_A l * Rpower (lo / ly_line l) (ly_B l) else 0.
Definition depth (series : list lyman) (z lo : R) : R := fold_right Rplus 0 (map (line_depth z lo) series).
(* Inoue et al. 2014, eqs 21, 22: one line.  (The code, like the package it was taken from, does not
   ask for lambda_obs > line; same here) *)
Definition pub_LS_LAF (z lo : R) (l : iline) : R :=
  let lam := Q2R (l_lam l) in let x := lo / lam in
  if Rlt_dec lo (lam * (1 + z)) then
    if Rlt_dec x (22/10) then Q2R (l_A1 l) * Rpower x (12/10) else if Rlt_dec x (57/10) then Q2R (l_A2 l) * Rpower x (37/10) else Q2R (l_A3 l) * Rpower x (55/10)
  else 0.
Definition pub_LS_DLA (z lo : R) (l : iline) : R :=
  let lam := Q2R (l_lam l) in let x := lo / lam in
  if Rlt_dec lo (lam * (1 + z)) then if Rlt_dec x 3 then Q2R (l_D1 l) * x ^ 2 else Q2R (l_D2 l) * x ^ 3 else 0.
(* eqs 25-27: Lyman continuum, LAF; u = lambda_obs / lambda_L *)
Definition pub_LC_LAF (z u : R) : R :=
  if Rlt_dec u (1 + z) then
    if Rlt_dec z (12/10) then 3248/10000 * (Rpower u (12/10) - Rpower (1 + z) (-(9/10)) * Rpower u (21/10))
    else if Rlt_dec z (47/10) then
      if Rlt_dec u (22/10) then 2545/100000 * Rpower (1 + z) (16/10) * Rpower u (21/10) + 3248/10000 * Rpower u (12/10) - 2496/10000 * Rpower u (21/10)
      else 2545/100000 * (Rpower (1 + z) (16/10) * Rpower u (21/10) - Rpower u (37/10))
    else
      if Rlt_dec u (22/10) then 5221/10000000 * Rpower (1 + z) (34/10) * Rpower u (21/10) + 3248/10000 * Rpower u (12/10) - 3140/100000 * Rpower u (21/10)
      else if Rlt_dec u (57/10) then 5221/10000000 * Rpower (1 + z) (34/10) * Rpower u (21/10) + 2182/10000 * Rpower u (21/10) - 2545/100000 * Rpower u (37/10)
      else 5221/10000000 * (Rpower (1 + z) (34/10) * Rpower u (21/10) - Rpower u (55/10))
  else 0.
(* eqs 28, 29: Lyman continuum, DLA *)
Definition pub_LC_DLA (z u : R) : R :=
  if Rlt_dec u (1 + z) then
    if Rlt_dec z 2 then 2113/10000 * (1 + z) ^ 2 - 7661/100000 * Rpower (1 + z) (23/10) * Rpower u (-(3/10)) - 1347/10000 * u ^ 2
    else if Rlt_dec u 3 then 6340/10000 + 4696/100000 * (1 + z) ^ 3 - 1779/100000 * Rpower (1 + z) (33/10) * Rpower u (-(3/10)) - 1347/10000 * u ^ 2 - 2905/10000 * Rpower u (-(3/10))
    else 4696/100000 * (1 + z) ^ 3 - 1779/100000 * Rpower (1 + z) (33/10) * Rpower u (-(3/10)) - 2916/100000 * u ^ 3
  else 0.
(* the transmission of a named model for one redshift and wavelength; Inoue14 as coded (C75 compares
   its four terms with the published ones) *)
Definition T_of (model : option string) (z lo : R) : R :=
  match model with
  | Some "Calura12"%string => exp (- depth calura12 z lo)
  | Some "Kamble20"%string => exp (- depth kamble20 z lo)
  | Some "Inoue14"%string => exp (- (tLCLAF z lo + tLCDLA z lo + tLSLAF z lo + tLSDLA z lo))
  | _ => 1
  end.
Definition is_model (model : option string) : Prop := model = None \/ In model [Some "None"; Some "Calura12"; Some "Kamble20"; Some "Inoue14"]%string.
(* entrywise application with the dimensions of the arguments *)
Definition entrywise (f : R -> R -> R) (z lo : arr) : tout :=
  match z, lo with
  | Scalar a, Scalar b => T0 (f a b)
  | Scalar a, Array l => T1 (map (f a) l)
  | Array l, Scalar b => T1 (map (fun a => f a b) l)
  | Array l, Array m => T2 (map (fun a => map (f a) m) l)
  end.
Definition elements (a : arr) : list R := match a with Scalar x => [x] | Array l => l end.
