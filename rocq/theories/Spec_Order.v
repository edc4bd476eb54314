(* The order of spectra and of input files: small definitions for Props_Order.v. *)
From Verif Require Import Prelude NumX Model_Zscan Model_Targets Spec_Targets Spec_Fitz Spec_Rebin Model_Desi Model_RunDesi Model_Run.
Open Scope nat_scope.

(* the same target with its spectra in another order *)
Definition reordered (g g' : targ) : Prop := g_id g = g_id g' /\ Permutation (g_spectra g) (g_spectra g').
(* files in order: increasing positive wavelengths, rows of their length, square resolution matrices of that size; the diagonals stored for a band are
   the same in all files *)
Definition sound_files (fs : list (sfile dia)) : Prop :=
  (forall f b, In f fs -> In b (sf_bands f) -> 2 <= length (sf_wave f b) /\ strictly_increasing (sf_wave f b) /\ (0 < nth 0 (sf_wave f b) 0)%Q /\
     (forall fl, In fl (sf_flux f b) -> length fl = length (sf_wave f b)) /\ (forall r, In r (sf_res f b) -> wf_dia r /\ d_n r = length (sf_wave f b))) /\
  (forall f f' b r r', In f fs -> In f' fs -> In b (sf_bands f) -> In b (sf_bands f') -> In r (sf_res f b) -> In r' (sf_res f' b) -> d_off r = d_off r').
(* scipy's tocsr keeps the shape *)
Definition keeps_shape (tocsr : dia -> csr) : Prop := forall r, wf_dia r -> r_nrow (tocsr r) = d_n r /\ r_ncol (tocsr r) = d_n r.
(* exposures are not compared with each other: --allspec, or cosmic-ray rejection switched off *)
Definition no_rejection (o : dopts) : Prop := o_allspec o = true \/ (o_cosmics o <= 0)%Q.
