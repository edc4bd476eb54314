(* What the coadd is supposed to be, without the code's helpers. *)
From Verif Require Import Prelude Model_Targets.
Local Open Scope Q_scope.

(* a table of numbers, row k column j *)
Definition cell (A : list (list Q)) (k j : nat) : Q := nth j (nth k A []) 0.
(* sum over a list *)
Definition total {A} (l : list A) (f : A -> Q) : Q := sumQ (map f l).
Definition px (l : list Q) (p : nat) : Q := nth p l 0.

(* the dense matrix behind the diagonals: entry (i,j) *)
Definition entry (R : dia) (i j : nat) : Q :=
  total (combine (d_off R) (d_data R)) (fun od => if (Z.of_nat j - Z.of_nat i =? fst od)%Z then px (snd od) j else 0).
(* the resolution row of pixel i sums to less than 0.99 *)
Definition low_res (R : dia) (i : nat) : Prop := total (seq 0 (d_n R)) (fun j => entry R i j) < 99 # 100.
Definition wf_dia (R : dia) : Prop :=
  length (d_off R) = length (d_data R) /\ NoDup (d_off R) /\ Forall (fun row => length row = d_n R) (d_data R).
(* a spectrum with a resolution matrix, all arrays of the same length, and the
   hash its constructor gave it *)
Definition wf_spec (hashf : hash_arg -> Z) (s : spec) : Prop :=
  length (sp_flux s) = length (sp_wave s) /\ length (sp_ivar s) = length (sp_wave s) /\
  (exists R, sp_R s = Some R /\ wf_dia R /\ d_n R = length (sp_wave s)) /\
  wavehash hashf (sp_wave s) (sp_R s) (sp_band s) = Ok (sp_hash s).
Definition Rof (s : spec) : dia := match sp_R s with Some R => R | None => {| d_off := []; d_data := []; d_n := 0 |} end.
(* spectra with the same wavehash have the same grid and diagonals *)
Definition compatible (l : list spec) : Prop := forall s s', In s l -> In s' l -> sp_hash s = sp_hash s' ->
  sp_wave s = sp_wave s' /\ d_off (Rof s) = d_off (Rof s').

(* ks lists the distinct members of l in order of first appearance *)
Definition first_occurrences {A} (l ks : list A) : Prop :=
  NoDup ks /\ (forall k, In k ks <-> In k l) /\
  exists pos, StronglySorted lt pos /\
    Forall2 (fun k i => nth_error l i = Some k /\ forall i', (i' < i)%nat -> nth_error l i' <> Some k) ks pos.

(* s is the coadd of the exposures g when exposure k enters with weights kept[k] *)
Definition is_coadd (g : list spec) (kept : list (list Q)) (s : spec) : Prop :=
  let n := length (sp_wave s) in
  let W p := total (seq 0 (length g)) (fun k => cell kept k p) in
  (forall e, In e g -> sp_wave e = sp_wave s) /\
  length (sp_flux s) = n /\ length (sp_ivar s) = n /\ wf_dia (Rof s) /\ d_n (Rof s) = n /\
  forall p, (p < n)%nat ->
    (* total weight, unless the coadded resolution is bad at this pixel *)
    (low_res (Rof s) p -> px (sp_ivar s) p = 0) /\
    (~ low_res (Rof s) p -> px (sp_ivar s) p == W p) /\
    (* weighted mean, plain mean where there is no weight *)
    (~ W p == 0 -> px (sp_flux s) p * W p ==
        total (enum g) (fun ke => cell kept (fst ke) p * px (sp_flux (snd ke)) p)) /\
    (W p == 0 -> px (sp_flux s) p * inject_Z (Z.of_nat (length g)) == total g (fun e => px (sp_flux e) p)).
