(* Archetypes: names, choice of the best archetype, transmission and prior arguments. *)
From Verif Require Import Prelude PreludeFacts Facts2 NumX Model_Dist Proof_Table Model_Fitz Proof_Fitz2 Model_Zscan Spec_Zscan Proof_Zscan3 Model_IO Spec_IO Proof_IO Model_Rebin Model_Targets2 Model_Arch Spec_Arch Proof_Arch Proof_Arch2 Proof_Arch3.

(* ---------- C97: the names of the archetypes of a file ---------- *)
(* one name per SUBTYPE entry, all different (even when SUBTYPE entries repeat), and looking a
   name up finds the archetype it was made from *)
Theorem C97_names_identify_archetypes : forall A,
  length (sub_types A) = length (a_raw A) /\ NoDup (sub_types A) /\
  forall i name, nth_error (sub_types A) i = Some name -> first_index name (sub_types A) = Some i.
Proof.
  intros A. split; [apply sub_types_length|]. split; [apply sub_types_nodup|]. intros i name H. exact (first_index_nodup _ (sub_types_nodup A) i name H).
Qed.
(* the type string reported for a list of archetypes is read back as the RRTYPE and that list of names,
   when the names contain neither ":::" nor ";" *)
Theorem C97_fulltype_round_trip_partial : forall A best, good_names A -> best <> [] -> (forall j, In j best -> j < narch A) ->
  let names := map (fun k => nth k (sub_types A) EmptyString) best in
  parse_fulltype (make_fulltype (a_type A) (Some (join ";" names))) = Ok (a_type A, join ";" names) /\
  split ";" (join ";" names) = names /\
  map (fun n => first_index n (sub_types A)) names = map Some best.
Proof.
  intros A best G Hne Hb names. assert (Hb' : forall j, In j best -> (j < length (a_raw A))%nat) by (intros j Hj; rewrite (gn_len A G); now apply Hb).
  destruct (fulltype_roundtrip A best G Hne Hb') as [H1 H2]. split; [exact H1|]. split; [exact H2|].
  unfold names. rewrite map_map. apply map_ext_in. intros k Hk. apply (first_index_nodup _ (sub_types_nodup A)). apply nth_error_nth'. rewrite sub_types_length. now apply Hb'.
Qed.
(* a SUBTYPE with ";" makes the reported name unusable: evaluating the best archetype under the
   name reported for it raises *)
Theorem C97_semicolon_refuted : exists A name, nth_error (sub_types A) 0 = Some name /\ length (a_raw A) = length (a_flux A) /\
  (forall E wave z, arch_eval E A name [1%Q] wave z None None = Err IndexError) /\
  exists A2 n2, nth_error (full_types A2) 0 = Some n2 /\ parse_fulltype n2 = Err ValueError.
Proof.
  exists {| a_type := "GALAXY"; a_raw := ["ELG;LRG"%string]; a_wave := [1; 2; 3]%Q; a_flux := [[1; 1; 1]%Q] |}, "ELG;LRG_0"%string.
  split; [reflexivity|]. split; [reflexivity|]. split; [intros; reflexivity|].
  exists {| a_type := "GALAXY"; a_raw := ["A:::B"%string]; a_wave := [1; 2; 3]%Q; a_flux := [[1; 1; 1]%Q] |}, "GALAXY:::A:::B_0"%string. split; reflexivity.
Qed.
Example C97_instance :
  let A := {| a_type := "STAR"; a_raw := [" M "; "M"; ""]%string; a_wave := []; a_flux := [[]; []; []] |} in
  sub_types A = ["M_0"; "M_1"; "_2"]%string /\ full_types A = ["STAR:::M_0"; "STAR:::M_1"; "STAR:::_2"]%string /\
  parse_fulltype "STAR:::M_1;M_0" = Ok ("STAR", "M_1;M_0")%string /\ split ";" "M_1;M_0" = ["M_1"; "M_0"]%string /\ good_names A.
Proof.
  cbn zeta. split; [reflexivity|]. split; [reflexivity|]. split; [reflexivity|]. split; [reflexivity|]. constructor; cbn [a_raw a_flux a_type].
  - reflexivity.
  - split; [|split].
    + change "STAR"%string with (strip "STAR"). apply strip_trimmed.
    + intros H. apply contains_occurs in H. discriminate.
    + intros (u & E). do 5 (destruct u as [|? u]; [discriminate|]). destruct u; discriminate.
  - intros r [<-|[<-|[<-|[]]]]; (split; [intros H; apply contains_occurs in H; discriminate|]); cbn [has_char]; intuition discriminate.
Qed.

(* ---------- C98: the best archetype ---------- *)
Lemma body_gba E A spectra bands w f wf dwave z pc trans method prior leg r :
  snd (get_best_archetype E A spectra bands w f wf dwave z pc None trans method prior leg) = Ok r <->
  exists nleg t', (exists k L0 l, leg = (k, L0) :: l /\ nleg = length L0) /\
    match trans with None => t' = map (fun kw => (fst kw, Some (A1 (e_lyman E z (snd kw))))) dwave | Some t => slice_trans t = (t', Ok tt) end /\
    best_body E A spectra bands w f wf dwave z pc None t' method prior leg nleg = Ok r.
Proof.
  unfold get_best_archetype. destruct leg as [|[k L0] l].
  - split; [discriminate|]. intros (nleg & t' & (k & L0 & l & H & _) & _). discriminate.
  - destruct trans as [t|].
    + destruct (slice_trans t) as [t' o] eqn:Es. cbn [snd]. split.
      * destruct o as [[]|]; [|discriminate]. cbn [rbind]. intros H. exists (length L0), t'. split; [exists k, L0, l; auto|]. split; [reflexivity|exact H].
      * intros (nleg & t2 & (k2 & L2 & l2 & E1 & ->) & E2 & H). injection E1 as <- <- <-. injection E2 as <- ->. exact H.
    + cbn [snd]. split.
      * intros H. eexists (length L0), _. split; [exists k, L0, l; auto|]. split; [reflexivity|exact H].
      * intros (nleg & t2 & (k2 & L2 & l2 & E1 & ->) & -> & H). injection E1 as <- <- <-. exact H.
Qed.
Theorem C98_best_of_single_fits : forall E A spectra bands w f wf dwave z pc trans method prior leg,
  length (a_raw A) = length (a_flux A) -> 0 < narch A -> (pc = true -> NoDup bands /\ ~ In "alpha"%string bands) ->
  let fit B := snd (get_best_archetype E B spectra bands w f wf dwave z pc None trans method prior leg) in
  ((exists r, fit A = Ok r) <-> (forall k, k < narch A -> exists r, fit (only A k) = Ok r)) /\
  (forall x c ft, fit A = Ok (x, c, ft) ->
    exists j, j < narch A /\ ft = make_fulltype (a_type A) (Some (label (nth j (a_raw A) EmptyString) j)) /\
      (exists ft', fit (only A j) = Ok (x, c, ft')) /\
      (forall k y d ft', k < narch A -> fit (only A k) = Ok (y, d, ft') -> (x <= y)%Q /\ (k < j -> (x < y)%Q))).
Proof.
  intros E A spectra bands w f wf dwave z pc trans method prior leg Hlen H0 Hb fit.
  assert (Hne : a_flux A <> []) by (intros Hn; unfold narch in H0; rewrite Hn in H0; cbn in H0; lia).
  assert (Hne1 : forall k, a_flux (only A k) <> []) by (intros k; discriminate).
  (* what the restricted file gives *)
  assert (Sgl : forall nleg t' ps, mapM (fit_key A z t' nleg leg) dwave = Ok ps -> forall k, k < narch A -> forall r,
     best_body E (only A k) spectra bands w f wf dwave z pc None t' method prior leg nleg = Ok r <->
     exists y d, fits E spectra bands w f wf pc method prior nleg (map2 (td_of (narch A)) dwave ps) k = Ok (y, d) /\
       r = (y, d, make_fulltype (a_type A) (Some (label (nth k (a_raw A) EmptyString) 0)))).
  { intros nleg t' ps Hps k Hk r. rewrite (body_eq E spectra bands w f wf dwave z pc t' method prior leg nleg Hb (only A k) (Hne1 k)).
    assert (Hpl : forall p, In p ps -> length (fst p) = narch A).
    { intros p Hp. apply mapM_Forall2 in Hps. destruct (Forall2_in_r _ _ _ _ Hps Hp) as (kw & _ & Ek). exact (proj2 (only_key _ _ _ _ _ _ _ _ Ek Hk)). }
    pose proof (only_keys A z t' nleg leg dwave ps k Hps Hk) as Hk1.
    assert (Hf : fits E spectra bands w f wf pc method prior nleg (map2 (td_of 1) dwave (map (fun p => ([nth k (fst p) []], snd p)) ps)) 0 =
                 fits E spectra bands w f wf pc method prior nleg (map2 (td_of (narch A)) dwave ps) k).
    { rewrite <- (td_slice (narch A) dwave ps k Hk Hpl). unfold fits. apply one_fit_slice; [exact Hb|]. intros h L Hin. apply td_lengths in Hin. lia. }
    change (narch (only A k)) with 1. cbn [seq mapM]. split.
    - intros (ps1 & zc & P1 & P2 & P3). rewrite Hk1 in P1. assert (ps1 = map (fun p => ([nth k (fst p) []], snd p)) ps) by congruence. subst ps1.
      rewrite Hf in P2. destruct (fits _ _ _ _ _ _ _ _ _ _ _ k) as [[y d]|]; [|discriminate]. cbn [rbind] in P2. injection P2 as <-. exists y, d. split; [reflexivity|].
      cbn in P3. injection P3 as <-. reflexivity.
    - intros (y & d & P2 & ->). exists (map (fun p => ([nth k (fst p) []], snd p)) ps), [(y, d)]. split; [exact Hk1|]. split; [rewrite Hf, P2; reflexivity|]. reflexivity. }
  assert (Fwd : forall x c ft, fit A = Ok (x, c, ft) -> (forall k, k < narch A -> exists r, fit (only A k) = Ok r) /\
    exists j, j < narch A /\ ft = make_fulltype (a_type A) (Some (label (nth j (a_raw A) EmptyString) j)) /\
      (exists ft', fit (only A j) = Ok (x, c, ft')) /\
      (forall k y d ft', k < narch A -> fit (only A k) = Ok (y, d, ft') -> (x <= y)%Q /\ (k < j -> (x < y)%Q))).
  { intros x c ft H. unfold fit in H. apply body_gba in H as (nleg & t' & (k0 & L0 & l0 & El & En) & Et & H).
    apply (body_eq E spectra bands w f wf dwave z pc t' method prior leg nleg Hb A Hne) in H as (ps & zc & P1 & P2 & P3).
    specialize (Sgl nleg t' ps P1).
    assert (Hfit : forall k r, k < narch A -> (fit (only A k) = Ok r <-> exists y d, nth_error zc k = Some (y, d) /\ r = (y, d, make_fulltype (a_type A) (Some (label (nth k (a_raw A) EmptyString) 0))))).
    { intros k r Hk. assert (Hz : forall y d, fits E spectra bands w f wf pc method prior nleg (map2 (td_of (narch A)) dwave ps) k = Ok (y, d) <-> nth_error zc k = Some (y, d)).
      { apply mapM_Forall2 in P2. destruct (Forall2_nth _ _ _ k k P2 (nth_error_seq0 _ _ Hk)) as (yd & Hyd & Ey). intros y d. rewrite Hyd, Ey. split; congruence. }
      unfold fit. rewrite body_gba. split.
      - intros (nl & t2 & (k2 & L2 & l2 & E1 & E2) & Et2 & Hb2).
        replace nl with nleg in Hb2 by congruence. assert (t2 = t') by (destruct trans; congruence). subst t2.
        apply (Sgl k Hk) in Hb2 as (y & d & Hy & ->). exists y, d. split; [now apply Hz|reflexivity].
      - intros (y & d & Hy & ->). exists nleg, t'. split; [eauto 6|]. split; [exact Et|]. apply (Sgl k Hk). exists y, d. split; [now apply Hz|reflexivity]. }
    assert (Hlz : length zc = narch A) by (apply mapM_Forall2 in P2; apply Forall2_len in P2; rewrite seq_length in P2; lia).
    split.
    { intros k Hk. destruct (nth_error_lt_ex zc k) as ([y d] & Hyd); [lia|]. eexists. apply (Hfit k _ Hk). eauto. }
    unfold pick_best in P3. destruct (map fst zc) as [|q0 q] eqn:Eq; [discriminate|]. rewrite <- Eq in *.
    assert (Hzne : map fst zc <> []) by (rewrite Eq; discriminate). clear Eq q0 q.
    destruct (argmin_spec (map fst zc) Hzne) as (A1' & A2' & A3'). rewrite map_length, Hlz in A1'. set (j := argmin (map fst zc)) in *.
    destruct (nth_error_lt_ex zc j) as ([yj dj] & Hj); [lia|]. rewrite !nth_error_map, Hj in P3. cbn [option_map fst snd] in P3.
    unfold full_types in P3. rewrite nth_error_map, (sub_types_nth A j) in P3 by (rewrite Hlen; exact A1'). cbn [option_map] in P3. injection P3 as <- <- <-.
    exists j. split; [exact A1'|]. split; [reflexivity|]. 
    assert (Nf : forall k y d, nth_error zc k = Some (y, d) -> nth k (map fst zc) 0%Q = y) by (intros k y d Hk; apply nth_error_nth; rewrite nth_error_map, Hk; reflexivity).
    split; [eexists; apply (Hfit j _ A1'); eauto|].
    intros k y d ft' Hk Hf. apply (Hfit k _ Hk) in Hf as (y' & d' & Hz & Er). injection Er as <- <- _.
    pose proof (Nf _ _ _ Hj) as N1. pose proof (Nf _ _ _ Hz) as N2. split.
    - rewrite <- N1, <- N2. apply A2'. rewrite map_length. lia.
    - intros Hkj. rewrite <- N1, <- N2. now apply A3'. }
  split; [|intros x c ft H; exact (proj2 (Fwd x c ft H))].
  split.
  - intros ([[x c] ft] & H). exact (proj1 (Fwd x c ft H)).
  - intros H. unfold fit in *.
    destruct (H 0 H0) as (r0 & H1). apply body_gba in H1 as (nleg & t' & (k0 & L0 & l0 & El & En) & Et & _).
    assert (Hbk : forall k, k < narch A -> exists r, best_body E (only A k) spectra bands w f wf dwave z pc None t' method prior leg nleg = Ok r).
    { intros k Hk. destruct (H k Hk) as (r & Hr). apply body_gba in Hr as (nl & t2 & (k2 & L2 & l2 & E1 & E2) & Et2 & Hb2).
      replace nl with nleg in Hb2 by congruence. assert (t2 = t') by (destruct trans; congruence). subst t2. eauto. }
    destruct (only_keys_conv A z t' nleg leg dwave H0) as (ps & Hps).
    { intros k Hk. destruct (Hbk k Hk) as (r & Hr). apply (body_eq E spectra bands w f wf dwave z pc t' method prior leg nleg Hb (only A k) (Hne1 k)) in Hr as (ps & _ & P1 & _). eauto. }
    destruct (seq_mapM_ok (fits E spectra bands w f wf pc method prior nleg (map2 (td_of (narch A)) dwave ps)) (narch A)) as (zc & Hzc).
    { intros k Hk. destruct (Hbk k Hk) as (r & Hr). apply (Sgl nleg t' ps Hps k Hk) in Hr as (y & d & Hy & _). eauto. }
    assert (Hlz : length zc = narch A) by (pose proof Hzc as G; apply mapM_Forall2 in G; apply Forall2_len in G; rewrite seq_length in G; lia).
    assert (Hp : exists r, pick_best A (map fst zc) (map snd zc) = Ok r).
    { unfold pick_best. destruct (map fst zc) as [|q0 q] eqn:Eq; [destruct zc; [cbn in Hlz; lia|discriminate]|]. rewrite <- Eq.
      assert (Hzne : map fst zc <> []) by (rewrite Eq; discriminate). clear Eq q0 q.
      destruct (argmin_spec (map fst zc) Hzne) as (A1' & _ & _). rewrite map_length, Hlz in A1'. set (j := argmin (map fst zc)) in *.
      destruct (nth_error_lt_ex zc j) as ([yj dj] & Hj); [lia|]. rewrite !nth_error_map, Hj. cbn [option_map]. unfold full_types.
      rewrite nth_error_map, (sub_types_nth A j) by (rewrite Hlen; exact A1'). cbn [option_map]. eauto. }
    destruct Hp as (r & Hr). exists r. apply body_gba. exists nleg, t'. split; [eauto 6|]. split; [exact Et|].
    apply (body_eq E spectra bands w f wf dwave z pc t' method prior leg nleg Hb A Hne). eauto 6.
Qed.

(* a concrete environment: a solver for 1 x 1 systems with a lower bound 0, a stable sort, no absorption *)
Definition toy_solve (M : mat) (y : vec) : res vec :=
  match M, y with
  | [[m]], [v] => if Qeq_bool m 0 then Err LinAlgError else Ok [Qred (let q := v / m in if Qle_bool 0 q then q else 0)%Q]
  | _, _ => Err LinAlgError
  end.
Definition toy_sort (l : vec) : list nat := map snd (isort (fun a b => Qle_bool (fst a) (fst b)) (combine l (seq 0 (length l)))).
Definition toy_env : arch_env := {|
  e_solv := {| linsolve := toy_solve; nnls := toy_solve; bvls := fun M y _ => toy_solve M y; cusolve := fun _ y => y |};
  e_argsort := toy_sort; e_lyman := fun _ w => repeat 1%Q (length w) |}.
Definition id3 : csr := {| r_nrow := 3; r_ncol := 3; r_val := [1; 1; 1]%Q; r_ind := [0; 1; 2]; r_ptr := [0; 1; 2; 3] |}.
Definition toy_arch : archetype := {| a_type := "GALAXY"; a_raw := ["FLAT"; "RED"; "RED"]%string; a_wave := [1; 2; 3; 4; 5]%Q;
   a_flux := [[1; 1; 1; 1; 1]; [1; 2; 3; 4; 5]; [2; 4; 6; 8; 10]]%Q |}.
Definition toy_spec : list spectrum := [{| s_hash := 7; s_ivar := [1; 1; 1]%Q; s_flux := [4; 6; 8]%Q; s_R := id3 |}].
Definition toy_dwave : dict vec := [(7%Z, [2; 3; 4]%Q)].
(* the two proportional archetypes fit exactly; the first of them is reported *)
Example C98_instance : forall pc, snd (get_best_archetype toy_env toy_arch toy_spec ["b"%string] [1; 1; 1]%Q [4; 6; 8]%Q [4; 6; 8]%Q toy_dwave 0 pc None None "bvls" None [(7%Z, [])]) =
  Ok (0%Q, [2%Q], "GALAXY:::RED_1"%string).
Proof. intros [|]; vm_compute; reflexivity. Qed.

(* ---------- C100: the transmission argument ---------- *)
Definition keeps_entries (t : tdic) : Prop := forall k a, In (k, a) t -> a = None.
Lemma slice_none t : keeps_entries t -> slice_trans t = (t, Ok tt).
Proof.
  induction t as [|[k a] t IH]; intros H; [reflexivity|]. cbn [slice_trans]. rewrite (H k a (or_introl eq_refl)). cbn [slice0]. rewrite IH by (intros k' a' Hin; apply (H k' a'); now right). reflexivity.
Qed.
Lemma slice_once t : forall t', slice_trans t = (t', Ok tt) -> forall k a, In (k, Some a) t' -> exists l, a = A1 l.
Proof.
  induction t as [|[k a] t IH]; intros t' H k' a' Hin; cbn [slice_trans] in H; [injection H as <-; destruct Hin|].
  destruct (slice0 a) as [a2|] eqn:Ea; [|discriminate]. destruct (slice_trans t) as [r' o] eqn:Er. injection H as <- ->. destruct Hin as [Hin|Hin]; [|now apply (IH r' eq_refl k')].
  injection Hin as -> ->. destruct a as [[l|[|r rows]]|]; try discriminate Ea. injection Ea as <-. now exists r.
Qed.
Lemma slice_some t : forall t', slice_trans t = (t', Ok tt) -> forall k a, In (k, Some a) t -> exists b, In (k, Some b) t' /\ Some b <> Some a.
Proof.
  induction t as [|[k a] t IH]; intros t' H k' a' Hin; cbn [slice_trans] in H; [destruct Hin|].
  destruct (slice0 a) as [a2|] eqn:Ea; [|discriminate]. destruct (slice_trans t) as [r' o] eqn:Er. injection H as <- ->. destruct Hin as [Hin|Hin].
  - injection Hin as -> ->. destruct a' as [l|[|r rows]]; try discriminate Ea. injection Ea as <-. exists (A1 r). split; [now left|discriminate].
  - destruct (IH r' eq_refl k' a' Hin) as (b & Hb & Hne). exists b. split; [now right|exact Hne].
Qed.
Lemma slice_twice t : (forall k a, In (k, Some a) t -> exists l, a = A1 l) -> (exists k a, In (k, Some a) t) -> snd (slice_trans t) = Err IndexError.
Proof.
  induction t as [|[k a] t IH]; intros H (k0 & a0 & Hin); [destruct Hin|]. cbn [slice_trans]. destruct a as [a|].
  - destruct (H k a (or_introl eq_refl)) as (l & ->). reflexivity.
  - cbn [slice0]. destruct Hin as [Hin|Hin]; [congruence|]. assert (G : snd (slice_trans t) = Err IndexError).
    { apply IH; [intros k' a' H'; apply (H k' a'); now right|eauto]. }
    destruct (slice_trans t) as [r' o]. exact G.
Qed.
(* every successful call that is given an absorption array changes the dictionary of the caller, and
   the same call made again with that dictionary raises IndexError *)
Theorem C100_transmission_consumed_refuted : forall E A spectra bands w f wf dwave z pc nn t method prior leg r,
  (exists k a, In (k, Some a) t) ->
  let call trans := get_best_archetype E A spectra bands w f wf dwave z pc nn trans method prior leg in
  snd (call (Some t)) = Ok r ->
  exists t', fst (call (Some t)) = Some t' /\ t' <> t /\ snd (call (Some t')) = Err IndexError.
Proof.
  intros E A spectra bands w f wf dwave z pc nn t method prior leg r (k & a & Hin) call H. unfold call in *. unfold get_best_archetype in *.
  destruct leg as [|[k0 L0] leg]; [discriminate|]. destruct (slice_trans t) as [t' o] eqn:Es. cbn [fst snd] in *. destruct o as [[]|]; [|discriminate].
  exists t'. split; [reflexivity|]. destruct (slice_some t t' Es k a Hin) as (b & Hb & Hne). split.
  - intros ->. destruct (slice_once t t Es k a Hin) as (l & ->). 
    assert (G : snd (slice_trans t) = Err IndexError) by (apply slice_twice; [exact (slice_once t t Es)|eauto]). rewrite Es in G. discriminate.
  - assert (G : snd (slice_trans t') = Err IndexError) by (apply slice_twice; [exact (slice_once t t' Es)|eauto]).
    destruct (slice_trans t') as [t2 o2]. cbn [snd] in *. rewrite G. reflexivity.
Qed.
(* without absorption in any grid (every entry None), or when the argument is left out, nothing is
   changed, so calling again gives the same result *)
Theorem C100_unchanged_partial : forall E A spectra bands w f wf dwave z pc nn trans method prior leg,
  match trans with None => True | Some t => keeps_entries t end ->
  fst (get_best_archetype E A spectra bands w f wf dwave z pc nn trans method prior leg) = trans.
Proof.
  intros E A spectra bands w f wf dwave z pc nn trans method prior leg H. unfold get_best_archetype. destruct leg as [|[k0 L0] leg]; [reflexivity|].
  destruct trans as [t|]; [|reflexivity]. rewrite (slice_none t H). reflexivity.
Qed.
(* passing the absorption of the archetype's own model at z is the same as leaving the argument out *)
Theorem C100_given_equals_computed : forall E A spectra bands w f wf dwave z pc nn method prior leg t,
  map fst t = map fst dwave -> (forall i k wv a, nth_error dwave i = Some (k, wv) -> nth_error t i = Some (k, a) -> a = Some (A2 [e_lyman E z wv])) ->
  snd (get_best_archetype E A spectra bands w f wf dwave z pc nn (Some t) method prior leg) =
  snd (get_best_archetype E A spectra bands w f wf dwave z pc nn None method prior leg).
Proof.
  intros E A spectra bands w f wf dwave z pc nn method prior leg t Hk Ht. unfold get_best_archetype. destruct leg as [|[k0 L0] leg]; [reflexivity|].
  assert (Es : slice_trans t = (map (fun kw => (fst kw, Some (A1 (e_lyman E z (snd kw))))) dwave, Ok tt)).
  { clear -Hk Ht. revert t Hk Ht. induction dwave as [|[k wv] dw IH]; intros [|[k' a] t] Hk Ht; try discriminate; [reflexivity|]. cbn [map fst] in Hk. injection Hk as -> Hk.
    rewrite (Ht 0 k wv a eq_refl eq_refl). cbn [slice_trans slice0]. rewrite (IH t Hk); [reflexivity|]. intros i. exact (Ht (S i)). }
  rewrite Es. reflexivity.
Qed.
Example C100_instance :
  let t := [(7%Z, Some (A2 [[1#2; 1; 1]%Q]))] in
  let call t := get_best_archetype toy_env toy_arch toy_spec ["b"%string] [1; 1; 1]%Q [4; 6; 8]%Q [4; 6; 8]%Q toy_dwave 0 true None (Some t) "bvls" None [(7%Z, [])] in
  fst (call t) = Some [(7%Z, Some (A1 [1#2; 1; 1]%Q))] /\ (exists r, snd (call t) = Ok r) /\ snd (call [(7%Z, Some (A1 [1#2; 1; 1]%Q))]) = Err IndexError.
Proof. cbn zeta. split; [reflexivity|]. split; [eexists; vm_compute; reflexivity|reflexivity]. Qed.

(* ---------- C101: the prior argument ---------- *)
Lemma skipn_map_seq {B} (g : nat -> B) k n : skipn k (map g (seq 0 (k + n))) = map (fun i => g (k + i)) (seq 0 n).
Proof.
  rewrite seq_app, map_app, skipn_app. rewrite map_length, seq_length, Nat.sub_diag. rewrite skipn_all2 by now rewrite map_length, seq_length. cbn [app skipn].
  cbn [Nat.add]. rewrite <- (map_map (Nat.add k) g). f_equal. clear.
  assert (G : forall n a, seq (k + a) n = map (Nat.add k) (seq a n)).
  { induction n0 as [|m IH]; intros a; [reflexivity|]. cbn [seq map]. f_equal. rewrite <- IH. f_equal. lia. }
  pose proof (G n 0) as H. rewrite Nat.add_0_r in H. exact H.
Qed.
(* the prior made for n archetypes, reduced for the fits with one archetype, is the prior made for one:
   no archetype coefficient gets a prior term and no Legendre term loses its own *)
Theorem C101_prior_for_single_fits : forall n deg sigma ncam P, 1 <= n -> prior_on_coeffs n deg sigma ncam = Ok P ->
  prior_on_coeffs 1 deg sigma ncam = Ok (prior_slice n P).
Proof.
  intros n deg sigma ncam P Hn. unfold prior_on_coeffs. destruct (Qeq_bool (sigma * sigma) 0); [discriminate|]. intros H. injection H as <-. f_equal.
  destruct n as [|k]; [lia|]. unfold prior_slice. set (m := deg * ncam). replace (S k + m) with (k + (1 + m)) by lia.
  rewrite (skipn_map_seq _ k (1 + m)). rewrite map_map. apply map_ext_in. intros i Hi. apply in_seq in Hi. rewrite (skipn_map_seq _ k (1 + m)). apply map_ext_in. intros j Hj. apply in_seq in Hj.
  replace (k + i =? k + j) with (i =? j) by (destruct (Nat.eqb_spec i j), (Nat.eqb_spec (k + i) (k + j)); lia).
  replace (k + i <? S k) with (i <? 1) by (destruct (Nat.ltb_spec i 1), (Nat.ltb_spec (k + i) (S k)); lia). reflexivity.
Qed.
(* the prior acts in per-camera mode only: otherwise the result is the same whatever prior is passed *)
Theorem C101_prior_only_per_camera : forall E A spectra bands w f wf dwave z trans method leg P P',
  get_best_archetype E A spectra bands w f wf dwave z false None trans method P leg =
  get_best_archetype E A spectra bands w f wf dwave z false None trans method P' leg.
Proof. intros. unfold get_best_archetype, best_body. destruct leg as [|[k L] leg]; [reflexivity|]. destruct trans as [t|]; [destruct (slice_trans t); reflexivity|reflexivity]. Qed.
Example C101_instance : exists P, prior_on_coeffs 3 2 (1#2) 1 = Ok P /\ prior_slice 3 P = [[0; 0; 0]; [0; 1 / (1 # 4); 0]; [0; 0; 1 / (1 # 4)]]%Q.
Proof. eexists. split; reflexivity. Qed.

(* ---------- C103: All_archetypes ---------- *)
Lemma all_arch_spec files : forall d k, sget (fold_left (fun d A => sset d (a_type A) A) files d) k =
  match find (fun A => String.eqb (a_type A) k) (rev files) with Some A => Some A | None => sget d k end.
Proof.
  induction files as [|A files IH]; intros d k; [reflexivity|]. cbn [fold_left rev]. rewrite IH.
  assert (G : forall l, find (fun A => String.eqb (a_type A) k) (l ++ [A]) = match find (fun A => String.eqb (a_type A) k) l with Some B => Some B | None => if String.eqb (a_type A) k then Some A else None end).
  { induction l as [|B l IHl]; [cbn [app find]; destruct (String.eqb (a_type A) k); reflexivity|]. cbn [app find]. destruct (String.eqb (a_type B) k); [reflexivity|exact IHl]. }
  rewrite G. destruct (find _ (rev files)); [reflexivity|]. clear. induction d as [|[k' v] d IHd]; cbn [sset sget].
  - destruct (String.eqb (a_type A) k); reflexivity.
  - destruct (String.eqb_spec k' (a_type A)) as [->|Hne]; cbn [sget].
    + destruct (String.eqb (a_type A) k); reflexivity.
    + rewrite IHd. destruct (String.eqb_spec k' k) as [->|]; [|reflexivity]. destruct (String.eqb_spec (a_type A) k); [congruence|reflexivity].
Qed.
(* every file can be found by its type when the types are different *)
Theorem C103_archetype_by_type_partial : forall files A, NoDup (map a_type files) -> In A files -> sget (all_archetypes files) (a_type A) = Some A.
Proof.
  intros files A Hn Hin. unfold all_archetypes. rewrite all_arch_spec.
  assert (Hn' : NoDup (map a_type (rev files))) by (rewrite map_rev; now apply NoDup_rev). apply in_rev in Hin. revert Hn' Hin. generalize (rev files). clear. intros l.
  induction l as [|B l IH]; intros Hn Hin; [destruct Hin|]. cbn [find]. cbn [map] in Hn. inversion Hn as [|? ? H1 H2]; subst. destruct Hin as [->|Hin]; [now rewrite String.eqb_refl|].
  destruct (String.eqb_spec (a_type B) (a_type A)) as [E|]; [|now apply IH]. exfalso. apply H1. rewrite E. now apply in_map.
Qed.
(* two files of the same type: the archetypes of the first are not used at all *)
Theorem C103_same_type_refuted : forall A B, a_type A = a_type B -> all_archetypes [A; B] = [(a_type A, B)].
Proof. intros A B H. unfold all_archetypes. cbn [fold_left sset]. rewrite H, String.eqb_refl. reflexivity. Qed.
Example C103_instance : let A := {| a_type := "GALAXY"; a_raw := ["A"%string]; a_wave := []; a_flux := [[]] |} in
  let B := {| a_type := "STAR"; a_raw := ["B"%string]; a_wave := []; a_flux := [[]] |} in
  sget (all_archetypes [A; B]) "STAR" = Some B /\ sget (all_archetypes [A; B]) "GALAXY" = Some A.
Proof. split; reflexivity. Qed.

Print Assumptions C97_names_identify_archetypes.
Print Assumptions C97_fulltype_round_trip_partial.
Print Assumptions C97_semicolon_refuted.
Print Assumptions C98_best_of_single_fits.
Print Assumptions C100_transmission_consumed_refuted.
Print Assumptions C100_unchanged_partial.
Print Assumptions C100_given_equals_computed.
Print Assumptions C101_prior_for_single_fits.
Print Assumptions C101_prior_only_per_camera.
Print Assumptions C103_archetype_by_type_partial.
Print Assumptions C103_same_type_refuted.
