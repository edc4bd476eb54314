(* What a user of rrdesi relies on: small definitions for Props_RunDesi.v. *)
From Verif Require Import Prelude NumX Model_Targets Model_Desi Spec_Desi Model_Zfind Model_RunDesi.

(* the options that act on the spectra are the same; the selection of targets may differ *)
Definition same_treatment (o o' : dopts) : Prop :=
  o_allspec o = o_allspec o' /\ o_cosmics o = o_cosmics o' /\ o_negflux o = o_negflux o' /\ o_skymask o = o_skymask o'.
(* the opened files are in order: tables of the right size, masks in all tables or in none, one wavelength grid per band *)
Definition in_order (fs : list (sfile dia)) : Prop :=
  (forall f, In f fs -> table_ok f) /\
  (exists mk : bool, forall f b, In f fs -> In b (sf_bands f) -> (sf_mask f b <> None <-> mk = true)) /\
  (forall f f' b, In f fs -> In f' fs -> In b (sf_bands f) -> In b (sf_bands f') -> sf_wave f b = sf_wave f' b).
(* the entries of a target in the fibermap are the same *)
Definition same_fibers (t : Z) (fm fm' : list fmrow) : Prop := forall r, fm_id r = t -> (In r fm <-> In r fm').
