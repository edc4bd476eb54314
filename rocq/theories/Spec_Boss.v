(* Specifications for reading BOSS files, independent of the reading loops. *)
From Verif Require Import Prelude Model_Dist Model_IO Model_Boss.
Open Scope nat_scope.

(* number of an object: THING_ID when several plates are read, else plate, mjd and fibre *)
Definition object_id (sps : list spplate) (inf : infile) (f : nat) : Z :=
  if 1 <? length sps then nth (f - 1) (in_things inf) 0%Z
  else match sps with [s] => (sp_plate s * 1000000000 + sp_mjd s * 10000 + Z.of_nat f)%Z | _ => 0%Z end.
Definition selected (fiberid : option (list nat)) (inf : infile) : list nat :=
  match fiberid with None => in_fibers inf | Some w => filter (fun f => existsb (Nat.eqb f) w) (in_fibers inf) end.
Definition row (frames : bool) (f : nat) : nat := if frames then (f - 1) mod 500 else f - 1.
(* every spectrum of the files, in order: number of its object, file, row *)
Definition observations (frames : bool) (sps : list spplate) (fiberid : option (list nat)) : list (Z * (nat * nat)) :=
  concat (map (fun ki => map (fun f => (object_id sps (snd ki) f, (fst ki, row frames f))) (selected fiberid (snd ki))) (enum (concat (map sp_infiles sps)))).
(* the spectra of object t *)
Definition spectra_of (t : Z) (obs : list (Z * (nat * nat))) : list (nat * nat) := map snd (filter (fun o => Z.eqb (fst o) t) obs).
(* files that can be read *)
Definition readable (frames : bool) (sps : list spplate) (fiberid : option (list nat)) : Prop :=
  forall s inf f, In s sps -> In inf (sp_infiles s) ->
    (1 < length sps \/ in_plate inf = sp_plate s) /\ (In f (selected fiberid inf) -> row frames f < in_rows inf /\ (1 < length sps -> f - 1 < length (in_things inf))).
