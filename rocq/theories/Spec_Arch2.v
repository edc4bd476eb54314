(* A target observed on several wavelength grids, for the statements about archetype models. *)
From Verif Require Import Prelude NumX Model_Dist Model_Zscan Model_Rebin Model_Targets2 Model_Arch Spec_Arch.

(* one spectrum of the target: its grid identifier, wavelengths, inverse variance, flux, resolution *)
Record obs := { o_hash : Z; o_wave : vec; o_ivar : vec; o_flux : vec; o_R : csr }.
Definition o_spec (o : obs) : spectrum := {| s_hash := o_hash o; s_ivar := o_ivar o; s_flux := o_flux o; s_R := o_R o |}.
Definition o_grid (o : obs) : Z * vec := (o_hash o, o_wave o).
Definition o_eval (o : obs) : Z * vec * csr := (o_hash o, o_wave o, o_R o).

(* coadded spectra: one per grid, arrays of the sizes that go with the resolution *)
Definition good_target (os : list obs) : Prop :=
  NoDup (map o_hash os) /\
  forall o, In o os -> length (o_ivar o) = r_nrow (o_R o) /\ length (o_flux o) = r_nrow (o_R o).
(* leg holds the deg Legendre polynomials on the grid of each spectrum *)
Definition legendre_of (deg : nat) (os : list obs) (leg : dict mat) : Prop :=
  Forall2 (fun o kl => fst kl = o_hash o /\ leg_array deg (o_wave o) = Ok (Some (snd kl))) os leg.
(* the weighted squared distance of the data and a model given per grid *)
Definition misfit (os : list obs) (model : dict vec) : Q :=
  sumQ (map (fun o => wdist (o_ivar o) (o_flux o) (match dget model (o_hash o) with Some m => m | None => [] end)) os).
