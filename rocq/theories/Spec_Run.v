(* What a user of a whole run relies on: small definitions for the statements in Props_Run.v. *)
From Verif Require Import Prelude NumX Model_Zfind Model_Run.
Open Scope nat_scope.

(* two rows of results that say the same.  Coefficients beyond the listed ones count as zero: the width of the column
   depends on the other rows of the table *)
Definition same_row (a b : frow) : Prop :=
  f_tid a = f_tid b /\ f_type a = f_type b /\ f_sub a = f_sub b /\ f_z a = f_z b /\ f_zerr a = f_zerr b /\ f_chi2 a = f_chi2 b /\ f_zwarn a = f_zwarn b /\
  f_npix a = f_npix b /\ f_ncoeff a = f_ncoeff b /\ f_lim a = f_lim b /\ f_znum a = f_znum b /\ f_dchi2 a = f_dchi2 b /\
  forall k, nth k (f_coeff a) 0%Q = nth k (f_coeff b) 0%Q.
(* the rows of one target *)
Definition rows_of (tid : Z) (tab : list frow) : list frow := filter (fun r => Z.eqb (f_tid r) tid) tab.
(* equal hash, equal wavelengths *)
Definition hashes_tell_grids (tgs : list targ) : Prop :=
  forall g g' s s', In g tgs -> In g' tgs -> In s (g_spectra g) -> In s' (g_spectra g') -> q_hash s = q_hash s' -> q_wave s = q_wave s'.
From Verif Require Import Model_Rebin Model_Dist Model_Zscan Spec_Zscan Spec_Piece.
(* the template of p at redshift z on the wavelengths w: rebinned basis vectors times the transmission *)
Definition template_on (trans : option string -> Q -> Q -> Q) (p : tmpl) (w : list Q) (z : Q) (A : mat) : Prop :=
  exists edges row, centers2edges w = Ok edges /\ row_at (t_wave (p_core p)) (t_flux (p_core p)) edges z row /\
    length A = length w /\ forall i, i < length w -> nth i A [] = map (fun v => Qred (v * trans (p_igm p) z (nth i w 0%Q))) (nth i row []).
(* one row per pixel of the target, one column per basis vector: resolution matrix times template, spectrum by spectrum *)
Definition design_of (trans : option string -> Q -> Q -> Q) (p : tmpl) (g : targ) (z : Q) (T : mat) : Prop :=
  exists blocks, T = concat blocks /\
    Forall2 (fun s B => exists A, template_on trans p (q_wave s) z A /\ length B = r_nrow (s_R (q_spec s)) /\
      forall i j, i < r_nrow (s_R (q_spec s)) -> j < nbasis p -> (at2 B i j == bigsum (r_ncol (s_R (q_spec s))) (fun l => Rent (s_R (q_spec s)) i l * at2 A l j))%Q) (g_spectra g) blocks.
(* all pixels of a target, one spectrum after the other *)
Definition pixels (f : spectrum -> vec) (g : targ) : vec := concat (map f (data_of g)).
(* a template with wavelengths *)
Definition usable (p : tmpl) : Prop := t_wave (p_core p) <> [] /\ (0 <= nth 0 (t_wave (p_core p)) 0)%Q /\ (0 <= nth (length (t_wave (p_core p)) - 1) (t_wave (p_core p)) 0)%Q.
From Verif Require Import Spec_Rank Spec_Zfind.
(* row a is ranked no worse than row b: good fits before bad ones, then by chi2 *)
Definition ranks_no_worse (a b : frow) : Prop := no_worse (f_zwarn a) (f_chi2 a) (f_zwarn b) (f_chi2 b).
(* neither is better *)
Definition ties (a b : frow) : Prop := ranks_no_worse a b /\ ranks_no_worse b a.
(* the penalty of negative [OII] emission: minus the summed flux of the model in the line, for galaxy templates *)
Definition oii_penalty (t : template) (c : vec) (v : Q) : Prop :=
  (t_rrtype t = "GALAXY"%string -> (0 <= OII_flux t c -> v == 0)%Q /\ (OII_flux t c <= 0 -> v == - OII_flux t c)%Q) /\ (t_rrtype t <> "GALAXY"%string -> v == 0)%Q.
(* v is the chi2 of template p for target g at redshift z: the smallest weighted sum of squares over all coefficients, plus the penalty of the best
   coefficients; or the sentinel when the linear system could not be solved *)
Definition on_curve (slv : solvers) (trans : option string -> Q -> Q -> Q) (p : tmpl) (g : targ) (z v : Q) : Prop :=
  exists T c pen, design_of trans p g z T /\ length c = nbasis p /\ oii_penalty (p_core p) c pen /\
   (((v == chi2 (length T) (nbasis p) (pixels s_ivar g) (pixels s_flux g) T c + pen)%Q /\
      forall c', length c' = nbasis p -> (chi2 (length T) (nbasis p) (pixels s_ivar g) (pixels s_flux g) T c <= chi2 (length T) (nbasis p) (pixels s_ivar g) (pixels s_flux g) T c')%Q)
    \/ ((v == 9999999)%Q /\ c = repeat 0%Q (nbasis p) /\ exists M y e, linsolve slv M y = Err e /\ length y = nbasis p /\ square (nbasis p) M /\
        forall j k, j < nbasis p -> k < nbasis p -> (at2 M j k == bigsum (length T) (fun q => at2 T q j * (at1 (pixels s_ivar g) q * at2 T q k)))%Q)).
(* n equally spaced redshifts from lo to hi *)
Definition fine_grid (lo hi : Q) (n : nat) (zz : list Q) : Prop :=
  length zz = n /\ forall t, t < n -> (nth t zz 0 == lo + inject_Z (Z.of_nat t) * (hi - lo) / inject_Z (Z.of_nat (n - 1)))%Q.
(* the k-th value is the smallest, and the first of its size *)
Definition smallest_at (l : list Q) (k : nat) : Prop :=
  k < length l /\ (forall t, t < length l -> (nth k l 0 <= nth t l 0)%Q) /\ (forall t, t < k -> (nth k l 0 < nth t l 0)%Q).
(* no neighbour is smaller *)
Definition dip (l : list Q) (i : nat) : Prop :=
  i < length l /\ (0 < i -> (nth i l 0 <= nth (i - 1) l 0)%Q) /\ (i + 1 < length l -> (nth i l 0 <= nth (i + 1) l 0)%Q).
(* the redshift z and the chi2 y of a minimum read off a fine scan zz, yy with its smallest value at k: the minimum of the parabola through the three points
   around k (moved inside at the ends), or, flagged, the point k itself *)
Definition read_off (polyfit : list Q -> list Q -> option (Q * Q * Q)) (zz yy : list Q) (k : nat) (z y : Q) (bad : bool) : Prop :=
  exists j, j + 2 < length zz /\ (k <= j + 2) /\ (j <= k) /\ (j + 1 = k \/ (k = 0 /\ j = 0) \/ (k = length zz - 1 /\ j = length zz - 3)) /\
   ((bad = true /\ z = nth k zz 0%Q /\ y = nth k yy 0%Q) \/
    exists a b c, polyfit [nth j zz 0%Q; nth (j + 1) zz 0%Q; nth (j + 2) zz 0%Q] [nth j yy 0%Q; nth (j + 1) yy 0%Q; nth (j + 2) yy 0%Q] = Some (a, b, c) /\
      (~ a == 0 /\ z == - b / (2 * a) /\ y == c - b * b / (4 * a))%Q /\ (bad = false -> 0 < a /\ 0 < y /\ nth j zz 0 < z /\ z < nth (j + 2) zz 0)%Q).
From Verif Require Import Spec_Rebin Spec_Fitz.
(* the template at redshift z reaches over all the bins of the wavelengths w (bins are bounded half way between wavelengths) *)
Definition covered (p : tmpl) (w : list Q) (z : Q) : Prop :=
  (nth 0 (t_wave (p_core p)) 0 * (1 + z) <= nth 0 w 0 - (nth 1 w 0 - nth 0 w 0) / 2)%Q /\
  (nth (length w - 1) w 0 + (nth (length w - 1) w 0 - nth (length w - 2) w 0) / 2 <= nth (length (t_wave (p_core p)) - 1) (t_wave (p_core p)) 0 * (1 + z))%Q.
(* a template file in order *)
Definition sound_template (p : tmpl) : Prop :=
  t_wave (p_core p) <> [] /\ strictly_increasing (t_wave (p_core p)) /\ (0 <= nth 0 (t_wave (p_core p)) 0)%Q /\ Forall (fun r => length r = length (t_wave (p_core p))) (t_flux (p_core p)) /\
  2 <= length (p_zs p) /\ nondecreasing (p_zs p) /\ Forall (fun z => (-1 < z)%Q) (p_zs p).
(* spectra in order: increasing positive wavelengths, arrays and resolution matrix of one size *)
Definition sound_target (g : targ) : Prop :=
  g_spectra g <> [] /\
  Forall (fun s => 2 <= length (q_wave s) /\ strictly_increasing (q_wave s) /\ (0 < nth 0 (q_wave s) 0)%Q /\ r_ncol (s_R (q_spec s)) = length (q_wave s) /\
                   length (s_ivar (q_spec s)) = r_nrow (s_R (q_spec s)) /\ length (s_flux (q_spec s)) = r_nrow (s_R (q_spec s))) (g_spectra g).
(* the solvers return one number per unknown or raise LinAlgError (scipy's nnls and lsq_linear: whatever) *)
Definition solvers_return (slv : solvers) : Prop :=
  (forall M y, match linsolve slv M y with Ok c => length c = length y | Err e => e = LinAlgError end) /\
  (forall M y, match nnls slv M y with Ok c => length c = length y | Err _ => True end) /\
  (forall M y b, match bvls slv M y b with Ok c => length c = length y | Err e => e = LinAlgError end).
