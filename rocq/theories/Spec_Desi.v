(* Independent vocabulary for reading DESI files. *)
From Verif Require Import Prelude NumX Model_Desi.
(* pixel i of a row *)
Definition pix {A} (d : A) (l : list A) (i : nat) : A := nth i l d.
(* flux significance below -n, ivar >= 0: flux < 0 and flux^2 * ivar > n^2 *)
Definition too_negative (n f v : Q) : Prop := (0 <= v /\ f < 0 /\ n * n < f * f * v)%Q.
(* a pixel that is used: finite flux and ivar, not too negative, not masked *)
Definition used (n : Q) (f v : xq) (m : Z) : Prop := exists a b, f = Fin a /\ v = Fin b /\ ~ too_negative n a b /\ m = 0%Z.
(* the rows of a table that belong to target t, in file order *)
Definition rows_of {X} (ids : list Z) (t : Z) (data : list X) : list X := map snd (filter (fun p => (fst p =? t)%Z) (combine ids data)).
(* one row of a file: wavelengths, band, flux, ivar, mask (all zero without a mask table), resolution *)
Record fullrow {R} := { r_wave : list Q; r_band : string; r_flux : list xq; r_ivar : list xq; r_mask : list Z; r_res : R }.
Arguments fullrow : clear implicits.
(* what a spectrum holds of such a row *)
Definition slot_of {R} (n : Q) (s : slot R) (r : fullrow R) : Prop :=
  s_wave s = r_wave r /\ s_band s = r_band r /\ s_res s = Some (r_res r) /\
  exists fl iv, s_flux s = Some fl /\ s_ivar s = Some iv /\ length fl = length (r_flux r) /\ length iv = length (r_flux r) /\
    forall i, i < length (r_flux r) ->
      (forall q, pix NaN (r_flux r) i = Fin q -> pix NaN fl i = Fin q) /\
      ((forall q, pix NaN (r_flux r) i <> Fin q) -> pix NaN fl i = Fin 0) /\
      (used n (pix NaN (r_flux r) i) (pix NaN (r_ivar r) i) (pix 0%Z (r_mask r) i) -> pix NaN iv i = pix NaN (r_ivar r) i) /\
      (~ used n (pix NaN (r_flux r) i) (pix NaN (r_ivar r) i) (pix 0%Z (r_mask r) i) -> pix NaN iv i = Fin 0).
(* tables of the right size *)
Definition table_ok {R} (f : sfile R) : Prop := forall b, In b (sf_bands f) ->
  length (sf_flux f b) = length (sf_ids f) /\ length (sf_ivar f b) = length (sf_ids f) /\ length (sf_res f b) = length (sf_ids f) /\
  (forall md, sf_mask f b = Some md -> length md = length (sf_ids f)) /\
  (forall j, length (nth j (sf_ivar f b) []) = length (nth j (sf_flux f b) [])) /\
  (forall md j, sf_mask f b = Some md -> length (nth j md []) = length (nth j (sf_flux f b) [])).
(* the full rows of a file for one band *)
Definition full_rows {R} (f : sfile R) (b : string) : list (fullrow R) :=
  map (fun p => let '((((fl, iv), i), r)) := p in
         {| r_wave := sf_wave f b; r_band := b; r_flux := fl; r_ivar := iv; r_res := r;
            r_mask := match sf_mask f b with Some md => nth i md [] | None => map (fun _ => 0%Z) fl end |})
      (combine (combine (combine (sf_flux f b) (sf_ivar f b)) (seq 0 (length (sf_ids f)))) (sf_res f b)).
(* all the rows of target t: files, then bands, then rows, in order; a file counts if it keeps t *)
Definition target_rows {R} (files : list (sfile R)) (t : Z) : list (fullrow R) :=
  concat (map (fun f => concat (map (fun b => rows_of (sf_ids f) t (full_rows f b)) (sf_bands f))) (filter (fun f => zmem t (sf_keep f)) files)).
(* order of first appearance *)
Fixpoint first_occurrences (l : list Z) (seen : list Z) : list Z :=
  match l with [] => [] | x :: r => if in_dec Z.eq_dec x seen then first_occurrences r seen else x :: first_occurrences r (x :: seen) end.
