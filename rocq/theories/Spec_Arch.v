(* What is expected of the archetype fits, independently of the model's helpers. *)
From Verif Require Import Prelude NumX Model_Dist Model_Zscan Model_IO Spec_IO Model_Rebin Model_Targets2 Model_Arch.

(* the character c is in s *)
Fixpoint has_char (c : ascii) (s : string) : Prop :=
  match s with EmptyString => False | String d r => d = c \/ has_char c r end.

(* an archetype file: one subtype name per flux row; its type is a stripped header
   value; neither contains ":::" , no subtype contains ";" *)
Record good_names (A : archetype) : Prop := {
  gn_len : length (a_raw A) = length (a_flux A);
  gn_type : trimmed (a_type A) /\ ~ occurs ":::" (a_type A) /\ ~ ends_colon (a_type A);
  gn_sub : forall r, In r (a_raw A) -> ~ occurs ":::" r /\ ~ has_char ";" r }.

(* the file with the only archetype j *)
Definition only (A : archetype) (j : nat) : archetype :=
  {| a_type := a_type A; a_raw := [nth j (a_raw A) EmptyString]; a_wave := a_wave A; a_flux := [nth j (a_flux A) []] |}.

(* a sorting order of the indices of l (numpy.argsort, whatever it does with equal values) *)
Definition sorts (argsort : vec -> list nat) : Prop := forall l : vec,
  Permutation (argsort l) (seq 0 (length l)) /\
  forall p q, (p < q < length l)%nat -> (nth (nth p (argsort l) O) l 0 <= nth (nth q (argsort l) O) l 0)%Q.

(* the squared distance, weighted, of the data of one spectrum and a model *)
Definition wdist (ivar flux model : vec) : Q :=
  sumQ (map (fun l => nth l ivar 0 * ((nth l flux 0 - nth l model 0) * (nth l flux 0 - nth l model 0)))%Q (seq 0 (length flux))).
