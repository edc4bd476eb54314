(* The statistic with which compute_coadd rejects cosmic rays, for exposures without masked pixels. *)
From Verif Require Import Prelude Model_Targets Spec_Targets.
Local Open Scope Q_scope.
(* step of the flux from the pixel before, and its inverse variance *)
Definition step (e : spec) (p : nat) : Q := match p with O => 0 | S q => px (sp_flux e) p - px (sp_flux e) q end.
Definition step_weight (e : spec) (p : nat) : Q :=
  / match p with O => / px (sp_ivar e) O | S q => / px (sp_ivar e) p + / px (sp_ivar e) q end.
(* the mean step at a pixel; the divisor is the weight of ALL pixels (the code sums without axis) *)
Definition mean_step (g : list spec) (n p : nat) : Q :=
  total g (fun e => step_weight e p * step e p) / total g (fun e => total (seq 0 n) (step_weight e)).
Definition deviation (g : list spec) (n p : nat) (e : spec) : Q :=
  step_weight e p * ((step e p - mean_step g n p) * (step e p - mean_step g n p)).
Definition scatter (g : list spec) (n p : nat) : Q := total g (deviation g n p) / inject_Z (Z.of_nat (length g) - 1).
(* exposure k is rejected at pixel p: the scatter exceeds nsig^2 and k deviates most (the first such) *)
Definition rejected (g : list spec) (n : nat) (nsig : Q) (p k : nat) : Prop :=
  nsig * nsig < scatter g n p /\
  forall e, nth_error g k = Some e ->
    (forall e', In e' g -> deviation g n p e' <= deviation g n p e) /\
    (forall k' e', (k' < k)%nat -> nth_error g k' = Some e' -> deviation g n p e' < deviation g n p e).
