(* Pixels that carry no information.  Used in Props_Dead.v. *)
From Verif Require Import Prelude NumX Model_Targets Model_Desi Spec_Desi Model_RunDesi.
(* a pixel that counts: usable (Spec_Desi.used: finite, not too negative, not masked) and with an inverse variance other than zero *)
Definition live (n : Q) {R} (r : fullrow R) (i : nat) : Prop := used n (pix NaN (r_flux r) i) (pix NaN (r_ivar r) i) (pix 0%Z (r_mask r) i) /\ pix NaN (r_ivar r) i <> Fin 0.
(* two rows of a file with the same live pixels, holding the same flux and inverse variance there; anything may be in the other pixels *)
Definition same_live (n : Q) {R} (r r' : fullrow R) : Prop :=
  r_wave r = r_wave r' /\ r_band r = r_band r' /\ r_res r = r_res r' /\ length (r_flux r) = length (r_wave r) /\ length (r_flux r') = length (r_wave r) /\
  forall i, i < length (r_flux r) -> (live n r i <-> live n r' i) /\ (live n r i -> pix NaN (r_flux r) i = pix NaN (r_flux r') i /\ pix NaN (r_ivar r) i = pix NaN (r_ivar r') i).
(* two files that differ in dead pixels only *)
Definition alike (n : Q) {R} (f f' : sfile R) : Prop :=
  sf_ids f = sf_ids f' /\ sf_keep f = sf_keep f' /\ sf_bands f = sf_bands f' /\ forall b, In b (sf_bands f) -> Forall2 (same_live n) (full_rows f b) (full_rows f' b).
