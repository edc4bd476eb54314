(* Small definitions for the statements of Props_RunDesiMP.v. *)
From Verif Require Import Prelude Model_Piece Model_Targets Model_Desi Model_RunDesi.
(* coadds: all files have the same bands; --allspec: the same number of bands *)
Definition same_bands (o : dopts) (fs : list (sfile dia)) : Prop :=
  forall f f', In f fs -> In f' fs -> if o_allspec o then length (sf_bands f) = length (sf_bands f') else forall b, In b (sf_bands f) -> In b (sf_bands f').
(* every selected target has a spectrum in a file in which it is selected *)
Definition all_there (fs : list (sfile dia)) : Prop := forall t, In t (all_ids fs) -> exists f, In f fs /\ In t (sf_keep f) /\ In t (sf_ids f).
