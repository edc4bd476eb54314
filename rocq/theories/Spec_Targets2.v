(* Vocabulary for the caches of a target and the evaluation of models. *)
From Verif Require Import Prelude Model_Targets Model_Targets2 Spec_Targets.
Local Open Scope Q_scope.
Definition least (m : Q) (l : list Q) : Prop := In m l /\ forall x, In x l -> m <= x.
Definition greatest (m : Q) (l : list Q) : Prop := In m l /\ forall x, In x l -> x <= m.
(* the Legendre polynomials, by Bonnet's recurrence *)
Definition is_legendre (P : nat -> Q -> Q) : Prop := forall x,
  P 0%nat x == 1 /\ P 1%nat x == x /\
  forall k, inject_Z (Z.of_nat (k + 2)) * P (S (S k)) x == inject_Z (Z.of_nat (2 * k + 3)) * x * P (S k) x - inject_Z (Z.of_nat (k + 1)) * P k x.
(* d holds, for the grid of each spectrum, the first n Legendre polynomials at
   the wavelengths mapped linearly to [-1,1] *)
Definition legendre_basis (n : nat) (spectra : list spec) (d : legdict) : Prop :=
  forall s lo hi, In s spectra -> least lo (sp_wave s) -> greatest hi (sp_wave s) -> lo < hi ->
    exists A, kget d (sp_hash s) = Some (Some A) /\ length A = n /\
      forall i j P, (i < n)%nat -> (j < length (sp_wave s))%nat -> is_legendre P ->
        cell A i j == P i (2 * (px (sp_wave s) j - lo) / (hi - lo) - 1).
(* every grid has two different wavelengths *)
Definition proper_grid (s : spec) : Prop := exists a b, In a (sp_wave s) /\ In b (sp_wave s) /\ a < b.
