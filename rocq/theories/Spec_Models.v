(* What rendered models are: the small definitions of the statements in Props_Models.v. *)
From Verif Require Import Prelude NumX Model_Rebin Model_Dist Model_Zscan Spec_Zscan Model_Run Spec_Run Model_Zfind.
Open Scope nat_scope.

(* d holds, for every spectrum of g, resolution matrix times (template of p on its wavelengths at redshift z, times the coefficients c) *)
Definition rendered (trans : option string -> Q -> Q -> Q) (p : tmpl) (g : targ) (z : Q) (c : list Q) (d : dict (list Q)) : Prop :=
  forall s, In s (g_spectra g) -> exists A m, template_on trans p (q_wave s) z A /\ dget d (q_hash s) = Some m /\ length m = length (q_wave s) /\
    forall i, i < length m -> (nth i m 0 == bigsum (length (q_wave s)) (fun l => Rent (s_R (q_spec s)) i l * bigsum (nbasis p) (fun b => at2 A l b * at1 c b)))%Q.
(* resolution matrices: square, with their indices inside; one spectrum per hash *)
Definition plain_resolution (g : targ) : Prop :=
  (forall s, In s (g_spectra g) -> wf_csr (s_R (q_spec s)) /\ r_nrow (s_R (q_spec s)) = length (q_wave s)) /\ NoDup (map q_hash (g_spectra g)).
(* nothing is absorbed: no wavelength of a spectrum lies where the intergalactic medium absorbs at a redshift of the template's range *)
Definition transparent (trans : option string -> Q -> Q -> Q) (p : tmpl) (g : targ) : Prop :=
  forall s z l, In s (g_spectra g) -> (hd 0 (p_zs p) <= z)%Q -> (z <= last (p_zs p) 0)%Q -> In l (q_wave s) -> (trans (p_igm p) z l == 1)%Q.
