(* What the rows of a model file are: small definitions for Props_ModelFile.v. *)
From Verif Require Import Prelude NumX Model_Rebin Model_Zscan Spec_Zscan Model_Run Spec_Run Model_Zfind.
Open Scope nat_scope.
(* m is the model of the row o on the wavelengths of the spectrum s: zero when all coefficients are, otherwise resolution matrix times (template of the row's type
   and subtype at the row's redshift, times the row's coefficients) *)
Definition shows (trans : option string -> Q -> Q -> Q) (ps : list tmpl) (o : frow) (s : rspec) (m : list Q) : Prop :=
  length m = length (q_wave s) /\
  (((forall c, In c (Model_Zfind.f_coeff o) -> (c == 0)%Q) /\ forall x, In x m -> (x == 0)%Q) \/
   exists p A, In p ps /\ f_type o = t_rrtype (p_core p) /\ f_sub o = p_sub p /\ template_on trans p (q_wave s) (Model_Zfind.f_z o) A /\
     forall i, i < length m -> (nth i m 0 == bigsum (length (q_wave s)) (fun l => Rent (s_R (q_spec s)) i l * bigsum (nbasis p) (fun b => at2 A l b * at1 (Model_Zfind.f_coeff o) b)))%Q).
(* every target has a spectrum on every wavelength grid of the run *)
Definition all_bands (tgs : list targ) : Prop :=
  forall g g' s, In g tgs -> In g' tgs -> In s (g_spectra g) -> exists s', In s' (g_spectra g') /\ q_hash s' = q_hash s.
