(* What a user relies on when a scan is written and used again. *)
From Verif Require Import Prelude Model_Dist Model_Zscan Model_IO Model_Run.
(* the numbers of the scan fit into the precision of the file *)
Definition kept_exactly (f32 : Q -> Q) (zs : zscan_t) : Prop :=
  forall t ft s, Model_IO.entry zs t ft = Ok s -> (forall v, In v (sc_chi2 s) -> f32 v = v) /\ (forall v, In v (sc_pen s) -> f32 v = v).
(* in the order of the names *)
Definition alphabetical (ps : list tmpl) : Prop := StronglySorted (fun a b => String.leb (full_type a) (full_type b) = true) ps.
(* two scans that differ at most in their redshifts and coefficients *)
Definition same_chi2 (zs zs' : zscan_t) : Prop :=
  Forall2 (fun a b => fst a = fst b /\ Forall2 (fun x y => fst x = fst y /\ sc_chi2 (snd x) = sc_chi2 (snd y) /\ sc_pen (snd x) = sc_pen (snd y)) (snd a) (snd b)) zs zs'.
