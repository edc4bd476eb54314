(* The numbers and names of the output files: desi.py 1170-1185 (REDSHIFTS table)
   and results.py 55-62 (zfit tables of the details file) store most columns in
   smaller types than the run computed them in. *)
From Coq Require Import ZArith List Bool String.
From Flocq Require Import Core.Core IEEE754.BinarySingleNaN.
From Verif Require Import Model_Float.
Import ListNotations.
Open Scope Z_scope.

(* single precision: IEEE 754 binary32 *)
Definition b32 : Type := binary_float 24 128.
Global Instance p24 : Prec_gt_0 24 := eq_refl.
Global Instance p24e : Prec_lt_emax 24 128 := eq_refl.

(* astype('float32'): to nearest, ties to even; too large becomes an infinity *)
Definition to32 (x : b64) : b32 :=
  match x with
  | B754_zero s => B754_zero s
  | B754_infinity s => B754_infinity s
  | B754_nan => B754_nan
  | B754_finite s m e _ => binary_normalize 24 128 _ _ mode_NE (cond_Zopp s (Zpos m)) e s
  end.
(* astype of an integer column to a signed type of n bits: two's complement *)
Definition wrap (n z : Z) : Z := (z + 2 ^ (n - 1)) mod 2 ^ n - 2 ^ (n - 1).

(* the columns concerned, as the run has them; the columns not listed (TARGETID, Z, SPECTYPE, ...) keep their type *)
Record wide := { w_zerr : b64; w_chi2 : b64; w_delta : b64; w_coeff : list b64;
                 w_zwarn : Z; w_npix : Z; w_ncoeff : Z; w_znum : Z; w_subtype : string }.
Record narrow := { n_zerr : b32; n_chi2 : b32; n_delta : b32; n_coeff : list b32;
                   n_zwarn : Z; n_npix : Z; n_ncoeff : Z; n_znum : Z; n_subtype : string }.

(* astype('U<n>'): longer strings are cut *)
Definition cut (n : nat) (s : string) : string := substring 0 n s.

(* desi.py 1160, 1174-1180, 1183-1185; max of an empty column raises ValueError
   (a column of strings is a nat: its longest entry); znum is dropped from the table (1163), here it is kept: it is 0 *)
Definition best (l : list wide) : list wide := filter (fun r => w_znum r =? 0) l.
Definition maxlen (l : list wide) : nat := fold_right (fun r n => Nat.max (String.length (w_subtype r)) n) 0%nat l.
Definition redshift_row (len : nat) (r : wide) : narrow :=
  {| n_zerr := to32 (w_zerr r); n_chi2 := to32 (w_chi2 r); n_delta := to32 (w_delta r); n_coeff := map to32 (w_coeff r);
     n_zwarn := wrap 32 (w_zwarn r); n_npix := wrap 32 (w_npix r); n_ncoeff := wrap 16 (w_ncoeff r); n_znum := w_znum r;
     n_subtype := cut len (w_subtype r) |}.
Definition redshifts (l : list wide) : option (list narrow) :=
  match best l with
  | [] => None                                                          (* 1183: max() arg is an empty sequence *)
  | b => Some (map (redshift_row (Nat.max 3 (maxlen b))) b)
  end.

(* results.py 56-62: every fit *)
Definition details_row (r : wide) : narrow :=
  {| n_zerr := to32 (w_zerr r); n_chi2 := to32 (w_chi2 r); n_delta := to32 (w_delta r); n_coeff := map to32 (w_coeff r);
     n_zwarn := wrap 32 (w_zwarn r); n_npix := wrap 32 (w_npix r); n_ncoeff := wrap 8 (w_ncoeff r); n_znum := wrap 8 (w_znum r);
     n_subtype := w_subtype r |}.
Definition details (l : list wide) : list narrow := map details_row l.
