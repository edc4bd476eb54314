(* What "the spectrum is exactly a template" means, for the statements in Props_Perfect.v. *)
From Verif Require Import Prelude NumX Model_Rebin Model_Dist Model_Zscan Spec_Zscan Model_Run Spec_Run.
Open Scope nat_scope.

Section P.
Variable trans : option string -> Q -> Q -> Q.
(* every pixel of g that has weight is the value of template p at redshift z with coefficients c *)
Definition noiseless (p : tmpl) (g : targ) (z : Q) (c : vec) : Prop :=
  length c = nbasis p /\ forall T i, design_of trans p g z T -> i < length T -> (at1 (pixels s_ivar g) i == 0)%Q \/ (at1 (pixels s_flux g) i == model_at (nbasis p) T c i)%Q.
(* the pixels with weight tell all coefficients: only zero coefficients give a model that is zero there *)
Definition determined (p : tmpl) (g : targ) (z : Q) : Prop :=
  forall T v, design_of trans p g z T -> length v = nbasis p -> (forall i, i < length T -> (at1 (pixels s_ivar g) i == 0)%Q \/ (model_at (nbasis p) T v i == 0)%Q) -> forall j, j < nbasis p -> (at1 v j == 0)%Q.
(* the target is the template at z; for galaxies with a physical (not negative) [OII] line *)
Definition is_template (p : tmpl) (g : targ) (z : Q) : Prop :=
  determined p g z /\ exists c, noiseless p g z c /\ (t_rrtype (p_core p) = "GALAXY"%string -> (0 <= OII_flux (p_core p) c)%Q).
(* no coefficients describe the target at z *)
Definition not_template (p : tmpl) (g : targ) (z : Q) : Prop :=
  forall T c, design_of trans p g z T -> length c = nbasis p -> exists i, i < length T /\ ~ (at1 (pixels s_ivar g) i == 0)%Q /\ ~ (at1 (pixels s_flux g) i == model_at (nbasis p) T c i)%Q.
End P.
(* numpy.linalg.solve raises only for singular matrices (n unknowns) *)
Definition fails_when_singular (slv : solvers) (n : nat) : Prop :=
  forall M y e, length y = n -> square n M -> linsolve slv M y = Err e -> exists v, length v = n /\ (exists j, j < n /\ ~ (at1 v j == 0)%Q) /\ forall r, r < n -> (bigsum n (fun j => at2 M r j * at1 v j) == 0)%Q.
(* no other template of ps is of the type of p *)
Definition alone_of_type (ps : list tmpl) (p : tmpl) : Prop := forall q, In q ps -> t_rrtype (p_core q) = t_rrtype (p_core p) -> q = p.
