(* For Props_EvalTable.v: m is the resolution matrix R times (template of the row's type and subtype at the row's redshift on the wavelengths w, times the row's coefficients). *)
From Verif Require Import Prelude NumX Model_Rebin Model_Zscan Spec_Zscan Model_Run Spec_Run Model_Zfind.
Open Scope nat_scope.
Definition evaluated (trans : option string -> Q -> Q -> Q) (ps : list tmpl) (w : list Q) (r : frow) (R : csr) (m : list Q) : Prop :=
  exists p A, In p ps /\ f_type r = t_rrtype (p_core p) /\ f_sub r = p_sub p /\ template_on trans p w (Model_Zfind.f_z r) A /\ length m = r_nrow R /\
    forall i, i < length m -> (nth i m 0 == bigsum (length w) (fun l => Rent R i l * bigsum (nbasis p) (fun b => at2 A l b * at1 (Model_Zfind.f_coeff r) b)))%Q.
