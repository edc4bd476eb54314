From Verif Require Import Prelude PreludeFacts NumX Model_Zscan Model_IO Model_Arch Model_Wrap Model_Fitz Model_Cli Spec_Cli Spec_Fitz Proof_Cli Props_Cli Props_Fitz.
Open Scope nat_scope.

(* ---------- C129: archetype options ---------- *)
(* what is decided, as a table *)
Theorem C129_settings : forall archetypes no_legendre ncamera percamera degree prior b deg sigma, legendre_of archetypes no_legendre ncamera percamera degree prior = (b, deg, sigma) ->
  (b = true <-> archetypes = true /\ no_legendre = false /\ 1 < ncamera /\ (percamera = None \/ percamera = Some "True"%string)) /\
  (deg = (if archetypes && negb no_legendre then degree else 0)%Z) /\
  (forall s, sigma = Some s <-> archetypes = true /\ no_legendre = false /\ (0 < prior)%Q /\ s = prior).
Proof.
  intros archetypes no_legendre ncamera percamera degree prior b deg sigma. unfold legendre_of. destruct no_legendre, archetypes; cbn [orb negb andb]; intro H; injection H as <- <- <-;
    try (split; [split; [discriminate|intros (? & ? & _); discriminate]|split; [reflexivity|intro s; split; [discriminate|intros (? & ? & _); discriminate]]]).
  split; [|split; [reflexivity|]].
  - destruct (Nat.ltb_spec 1 ncamera) as [Hn|Hn].
    + destruct percamera as [s|].
      * destruct (String.eqb_spec s "True") as [->|N]; [split; auto|]. split; [discriminate|]. intros (_ & _ & _ & [X|X]); [discriminate|]. injection X as ->. congruence.
      * split; auto.
    + split; [discriminate|]. intros (_ & _ & X & _). lia.
  - intro s. destruct (Qle_bool prior 0) eqn:E.
    + apply Qle_bool_iff in E. split; [discriminate|]. intros (_ & _ & X & _). lra.
    + assert (X : (0 < prior)%Q) by (apply Qnot_le_lt; intro Y; apply Qle_bool_iff in Y; congruence). split; [intro Y; injection Y as <-; auto|intros (_ & _ & _ & ->); reflexivity].
Qed.
Theorem C129_nminima : forall n a, nminima_of (Some n) a = n /\ nminima_of None false = 3%Z /\ nminima_of None true = 9%Z.
Proof. auto. Qed.
(* archetypes without Legendre terms, or without prior: the fit of a target never gives a result *)
Theorem C129_no_prior_fails_refuted : forall (E C : Type) argsort polyfit (isqrt : Q -> E) neg1 scan (refit : Q -> res C) zc is_star nm nz redshifts best zchi2 out no_legendre ncamera percamera degree prior,
  argsort_ok argsort -> 0 < nm -> (forall i, i < length zchi2 -> isnan (nth i zchi2 NaN) = false) ->
  no_legendre = true \/ (prior <= 0)%Q ->
  let given := match snd (legendre_of true no_legendre ncamera percamera degree prior) with Some _ => true | None => false end in
  fitz argsort polyfit isqrt neg1 scan refit zc (velo_limit is_star) nm nz redshifts (Some (given, best)) zchi2 <> Ok out.
Proof.
  intros E C argsort polyfit isqrt neg1 scan refit zc is_star nm nz redshifts best zchi2 out no_legendre ncamera percamera degree prior Ha Hn Hnan H given.
  assert (G : given = false).
  { unfold given, legendre_of. destruct no_legendre; [reflexivity|]. destruct H as [H|H]; [discriminate|]. cbn. apply Qle_bool_iff in H. rewrite H. reflexivity. }
  apply (C32_no_prior_sigma_refuted _ _ _ _ _ _ _ _ _ _ _ _ zchi2 best out Ha Hn); [now rewrite G|exact Hnan].
Qed.
(* rrboss --archetypes never gives anything *)
Theorem C129_rrboss_archetypes_refuted : forall output zbest, boss_outputs output zbest true = ([], Some AttributeError).
Proof. reflexivity. Qed.

(* ---------- C130: MPI ranks that go on ---------- *)
Lemma filter_lt : forall m size, length (filter (fun k => Z.ltb (Z.of_nat k) (Z.of_nat m)) (seq 0 size)) = Nat.min m size.
Proof.
  intros m size. induction size as [|s IH]; [cbn; lia|]. rewrite seq_S, filter_app, app_length, IH. cbn [filter Nat.add]. destruct (Z.ltb_spec (Z.of_nat s) (Z.of_nat m)); cbn [length]; lia.
Qed.
Theorem C130_ranks_partial : forall (gpu : bool) (maxp : option Z) (size r : nat), r < size -> (forall m, maxp = Some m -> (1 <= m)%Z) ->
  let n := match maxp with Some m => if gpu then Nat.min (Z.to_nat m) size else size | None => size end in
  1 <= n <= size /\ (if r <? n then trim gpu maxp size r = Some (n, r) else trim gpu maxp size r = None).
Proof.
  intros gpu maxp size r Hr Hm n. unfold trim. destruct maxp as [m|].
  - specialize (Hm m eq_refl). destruct gpu; cbn [andb].
    + assert (Em : m = Z.of_nat (Z.to_nat m)) by lia. unfold n. set (k := Z.to_nat m) in *. split; [lia|]. clear n. rewrite Em. destruct (Z.ltb_spec (Z.of_nat k) (Z.of_nat size)) as [L|L].
      * destruct (Z.ltb_spec (Z.of_nat r) (Z.of_nat k)) as [L2|L2].
        -- rewrite !filter_lt. replace (r <? Nat.min k size) with true by (symmetry; apply Nat.ltb_lt; lia). repeat f_equal; lia.
        -- replace (r <? Nat.min k size) with false by (symmetry; apply Nat.ltb_ge; lia). reflexivity.
      * replace (r <? Nat.min k size) with true by (symmetry; apply Nat.ltb_lt; lia). repeat f_equal; lia.
    + unfold n. split; [lia|]. replace (r <? size) with true by (symmetry; apply Nat.ltb_lt; lia). reflexivity.
  - unfold n. split; [lia|]. replace (r <? size) with true by (symmetry; apply Nat.ltb_lt; lia). reflexivity.
Qed.
(* --gpu --max-gpuprocs 0 under MPI: every rank returns, nothing is computed and no error is given *)
Theorem C130_zero_refuted : forall size m r, r < size -> (m <= 0)%Z -> trim true (Some m) size r = None.
Proof.
  intros size m r Hr Hm. unfold trim. cbn [andb]. destruct (Z.ltb_spec m (Z.of_nat size)); [|lia]. destruct (Z.ltb_spec (Z.of_nat r) m); [lia|reflexivity].
Qed.
Example C130_ex : map (trim true (Some 2%Z) 4) [0; 1; 2; 3] = [Some (2, 0); Some (2, 1); None; None].
Proof. reflexivity. Qed.

(* ---------- C131: requested outputs ---------- *)
Definition asked (details outfile model : bool) (o : output) : bool := match o with ODetails => details | OOutfile => outfile | OModel => model end.
Theorem C131_only_asked : forall details outfile model n eval o, In o (fst (outputs details outfile model n eval)) -> asked details outfile model o = true.
Proof. intros [] [] [] [|n] [e|u] o; cbn; intuition (subst; reflexivity). Qed.
Theorem C131_all_asked : forall details outfile model n eval o, snd (outputs details outfile model n eval) = None -> asked details outfile model o = true -> In o (fst (outputs details outfile model n eval)).
Proof. intros [] [] [] [|n] [e|u] []; cbn; intros; try discriminate; tauto. Qed.
Theorem C131_success_partial : forall details outfile model n, 0 < n -> (model = true -> outfile = true) -> snd (outputs details outfile model n (inr tt)) = None.
Proof. intros [] [] [] [|n] H M; cbn; try lia; try reflexivity; exfalso; specialize (M eq_refl); discriminate. Qed.
(* --details and --model without --outfile passes the checks of the options, computes all redshifts, and then fails *)
Theorem C131_model_alone_refuted : forall (details : bool) n eval, outputs details false true n eval = (if details then [ODetails] else [], Some TypeError).
Proof. intros [] [|n] eval; reflexivity. Qed.
(* no target: --outfile fails *)
Theorem C131_no_target_refuted : forall (details : bool) model eval, outputs details true model 0 eval = (if details then [ODetails] else [], Some ValueError).
Proof. intros [] [] eval; reflexivity. Qed.
Print Assumptions C129_settings. Print Assumptions C129_no_prior_fails_refuted. Print Assumptions C130_ranks_partial. Print Assumptions C131_all_asked.
(* the last value wins, abbreviations are understood, the flags are set *)
Example C126_ex : parse_args (fun _ => true) rrdesi_parser ["--nminima"; "3"; "-i"; "a.fits"; "b.fits"; "--nmin=5"; "--gpu"; "-ozz.fits"; "--negflux-nsig"; "-3"]%string
  = Settings [("nminima", ["5"]); ("infiles", ["a.fits"; "b.fits"]); ("gpu", []); ("outfile", ["zz.fits"]); ("negflux_nsig", ["-3"])]%string.
Proof. vm_compute. reflexivity. Qed.
Example C126_ex2 : parse_args (fun _ => true) rrdesi_parser ["-o"; "zz.fits"]%string = Exits 2 /\ parse_args (fun _ => true) rrdesi_parser ["-i"; "a"; "--n"; "3"]%string = Exits 2 /\ parse_args (fun _ => true) rrdesi_parser ["-i"; "a"; "--mp"; "x"]%string = Exits 2.
Proof. vm_compute. auto. Qed.
