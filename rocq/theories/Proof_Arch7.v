(* The fit whose result get_best_archetype returns, with one or several archetypes. *)
From Verif Require Import Prelude PreludeFacts Facts2 NumX Model_Dist Proof_Dist3 Proof_Table Model_Fitz Proof_Fitz Proof_Fitz2 Model_Zscan Spec_Zscan Proof_Zscan Proof_Zscan2 Proof_Zscan3 Proof_Zscan4 Props_Zscan2 Model_IO Spec_IO Proof_IO Model_Rebin Model_Targets2 Proof_Eval Model_Arch Spec_Arch Spec_Arch2 Proof_Arch Proof_Arch2 Proof_Arch3 Proof_Arch4 Proof_Arch5 Proof_Arch6.
Local Arguments Qred : simpl never.

Lemma td_near nar dwave ps k : k < nar -> slice1 k (map2 (td_of nar) dwave ps) = map2 (near_of [k]) dwave ps.
Proof.
  intros Hk. unfold slice1. revert ps. induction dwave as [|kw dw IH]; intros [|p ps]; cbn [map2 map]; try reflexivity. rewrite IH. f_equal.
  unfold td_of, near_of. cbn [fst snd map]. do 2 f_equal.
  rewrite (nth_indep _ [] (rows_of (length (snd kw)) (snd p) [nth 0 (fst p) []])) by now rewrite map_length, seq_length.
  rewrite (map_nth (fun j => rows_of (length (snd kw)) (snd p) [nth j (fst p) []])). now rewrite seq_nth.
Qed.

Section Near.
  Variables (E : arch_env) (A : archetype) (spectra : list spectrum) (bands : list string) (w f wf : vec) (dwave : dict vec) (z : Q) (pc : bool)
    (trans : tdic) (method : string) (P : mat) (leg : dict mat) (nleg n : nat).
  Hypothesis Hb : pc = true -> NoDup bands /\ ~ In "alpha"%string bands.
  Hypothesis Hlen : length (a_raw A) = length (a_flux A).
  Hypothesis Hs : sorts (e_argsort E).
  Lemma body_near r : best_body E A spectra bands w f wf dwave z pc (Some n) trans method (Some P) leg nleg = Ok r ->
    exists ps zc, mapM (fit_key A z trans nleg leg) dwave = Ok ps /\
      mapM (fits E spectra bands w f wf pc method (Some (prior_slice n P)) nleg (map2 (td_of (narch A)) dwave ps)) (seq 0 (narch A)) = Ok zc /\
      nearest_model E A spectra bands w f wf nleg leg (map2 bins_of dwave ps) n (map fst zc) pc P = Ok r.
  Proof.
    assert (Eq : best_body E A spectra bands w f wf dwave z pc (Some n) trans method (Some P) leg nleg =
      do q <- fit_td A z trans nleg leg (narch A) dwave; do zc <- all_fits (e_solv E) method (Some (prior_slice n P)) spectra w f wf nleg bands pc (narch A) (snd q);
      nearest_model E A spectra bands w f wf nleg leg (fst q) n (fst zc) pc P).
    { unfold best_body, fit_td, all_fits, nb_of. destruct (rebin_all A z dwave) as [raw|]; [|reflexivity]. cbn [rbind]. destruct (absorbed trans raw) as [b|]; [|reflexivity]. cbn [rbind].
      destruct (arch_tdata (narch A) nleg leg b) as [td|]; [|reflexivity]. cbn [rbind fst snd]. destruct pc; destruct (_ : res (vec * list vec)) as [[? ?]|]; reflexivity. }
    rewrite Eq. clear Eq.
    destruct (fit_td A z trans nleg leg (narch A) dwave) as [[b td]|] eqn:Et; [|discriminate]. cbn [rbind snd fst]. destruct (fit_td_inv _ _ _ _ _ _ _ _ _ Et) as (ps & P1 & P2 & P3).
    rewrite all_fits_eq by exact Hb. rewrite P3. fold (fits E spectra bands w f wf pc method (Some (prior_slice n P)) nleg (map2 (td_of (narch A)) dwave ps)). unfold fits in *.
    destruct (mapM _ (seq 0 (narch A))) as [zc|] eqn:Ez; [|discriminate]. cbn [rbind fst snd]. intros H. exists ps, zc. split; [exact P1|]. split; [exact Ez|]. rewrite <- P2. exact H.
  Qed.
  (* the archetypes selected *)
  Lemma near_inv ps zz x c ft : mapM (fit_key A z trans nleg leg) dwave = Ok ps -> length zz = narch A -> dwave <> [] ->
    nearest_model E A spectra bands w f wf nleg leg (map2 bins_of dwave ps) n zz pc P = Ok (x, c, ft) -> (pc = true \/ ~ sumQ w == 0)%Q ->
    pc = true /\ 1 <= n /\ n <= narch A /\ let best := firstn n (e_argsort E zz) in length best = n /\ (forall j, In j best -> j < narch A) /\
      ft = make_fulltype (a_type A) (Some (join ";" (map (fun k => nth k (sub_types A) EmptyString) best))) /\
      exists b td, cam_tdata n nleg (n + nleg * length bands) 0 (map2 (near_of best) dwave ps) = Ok td /\
        calc_zchi2_batch (e_solv E) "bvls" (Some (cam_bounds n (n + nleg * length bands))) (Some P) spectra td w f wf 1 (n + nleg * length bands) = Ok b /\
        x = hd 0%Q (fst b) /\ c = hd [] (snd b).
  Proof.
    intros Hps Hzz Hdw. unfold nearest_model. set (best := firstn n (e_argsort E zz)).
    rewrite (near_of_eq A z trans nleg leg best dwave ps Hps). cbn [rbind]. destruct (Hs zz) as [Hp _].
    assert (Hlb : length best = Nat.min n (narch A)).
    { unfold best. rewrite firstn_length, (Permutation_length Hp), seq_length, Hzz. reflexivity. }
    assert (Hin : forall j, In j best -> j < narch A).
    { intros j Hj. assert (Hj' : In j (e_argsort E zz)) by (unfold best in Hj; rewrite <- (firstn_skipn n); apply in_or_app; now left).
      apply (Permutation_in _ Hp) in Hj'. apply in_seq in Hj'. unfold vec in *. lia. }
    pose proof Hps as HF. apply mapM_Forall2 in HF. apply Forall2_len in HF.
    assert (Hne : length (map2 (near_of best) dwave ps) =? 0 = false).
    { apply Nat.eqb_neq. rewrite map2_length'. destruct dwave; [congruence|]. cbn [length] in *. lia. }
    destruct pc eqn:Epc.
    - rewrite Hne. cbn [negb]. rewrite andb_true_r. destruct (Nat.ltb_spec (length best) n) as [Hlt|Hge]; [discriminate|]. intros H _.
      destruct (Nat.eq_dec n 0) as [En|En].
      + exfalso. rewrite En in H. unfold per_camera_fit in H. destruct (mapM _ (seq 0 1)) as [r|]; [|discriminate]. cbn [rbind cam_assemble] in H. discriminate.
      + destruct (per_camera_fit _ _ _ _ _ _ _ _ _ _ _ _) as [[zr cr]|] eqn:Ef; [|discriminate]. cbn [rbind fst snd] in H.
        destruct (Hb eq_refl) as [Hb1 Hb2]. assert (Hn1 : (1 <= n)%nat) by lia.
        destruct (C48_layout _ _ _ _ _ _ _ _ _ _ _ _ _ _ Hn1 (or_intror eq_refl) Hb1 Hb2 Ef) as (L1 & L2 & L3). destruct (L3 0%nat (le_n 1)) as (L4 & td & L5 & L6).
        destruct zr as [|z0 [|? ?]]; try discriminate L1. destruct cr as [|c0 [|? ?]]; try discriminate L2. cbn [nth] in *. injection H as <- <- <-.
        split; [reflexivity|]. split; [lia|]. split; [lia|]. cbn zeta. split; [lia|]. split; [exact Hin|]. split; [reflexivity|].
        eexists. exists td. split; [exact L5|]. split; [exact L6|]. split; reflexivity.
    - intros H [C|Hw]; [discriminate C|]. exfalso. destruct (Qeq_bool (sumQ w) 0) eqn:Ew; [apply Qeq_bool_iff in Ew; contradiction|].
      destruct (dot_product_sparse_one _ _ _ _) as [Tb|]; [|discriminate]. cbn [rbind] in H. destruct (negb _) in H; discriminate.
  Qed.
End Near.

Lemma single_inv E A spectra bands w f wf dwave z pc trans method prior leg nleg x c ft :
  (pc = true -> NoDup bands /\ ~ In "alpha"%string bands) -> length (a_raw A) = length (a_flux A) -> a_flux A <> [] -> dwave <> [] -> (~ sumQ w == 0)%Q ->
  best_body E A spectra bands w f wf dwave z pc None trans method prior leg nleg = Ok (x, c, ft) ->
  exists ps j, mapM (fit_key A z trans nleg leg) dwave = Ok ps /\ j < narch A /\
    ft = make_fulltype (a_type A) (Some (join ";" (map (fun k => nth k (sub_types A) EmptyString) [j]))) /\
    if pc then exists b td, cam_tdata 1 nleg (1 + nleg * length bands) 0 (map2 (near_of [j]) dwave ps) = Ok td /\
        calc_zchi2_batch (e_solv E) method (if String.eqb (upper method) "BVLS" then Some (cam_bounds 1 (1 + nleg * length bands)) else None) prior spectra td w f wf 1 (1 + nleg * length bands) = Ok b /\
        x = hd 0%Q (fst b) /\ c = hd [] (snd b)
    else zchi2_at (e_solv E) (upper method) (Some (cam_bounds 1 (1 + nleg))) None (1 + nleg) spectra (map2 (near_of [j]) dwave ps) w f wf 0 = Ok (x, c).
Proof.
  intros Hb Hlen Hne Hdw Hw H. apply (body_eq E spectra bands w f wf dwave z pc trans method prior leg nleg Hb A Hne) in H as (ps & zc & P1 & P2 & P3).
  assert (Hlz : length zc = narch A) by (pose proof P2 as G; apply mapM_Forall2 in G; apply Forall2_len in G; rewrite seq_length in G; lia).
  assert (HA : 0 < narch A) by (unfold narch; destruct (a_flux A); [congruence|cbn; lia]).
  unfold pick_best in P3. destruct (map fst zc) as [|q0 q] eqn:Eq; [discriminate|]. rewrite <- Eq in *.
  assert (Hzne : map fst zc <> []) by (rewrite Eq; discriminate). clear Eq q0 q.
  destruct (argmin_spec (map fst zc) Hzne) as (A1' & _ & _). rewrite map_length, Hlz in A1'. set (j := argmin (map fst zc)) in *.
  destruct (nth_error_lt_ex zc j) as ([yj dj] & Hj); [lia|]. rewrite !nth_error_map, Hj in P3. cbn [option_map fst snd] in P3.
  unfold full_types in P3. rewrite nth_error_map, (sub_types_nth A j) in P3 by (rewrite Hlen; exact A1'). cbn [option_map] in P3. injection P3 as <- <- <-.
  exists ps, j. split; [exact P1|]. split; [exact A1'|]. split.
  { cbn [map join]. do 2 f_equal. symmetry. apply nth_error_nth. apply sub_types_nth. now rewrite Hlen. }
  apply mapM_Forall2 in P2. destruct (Forall2_nth _ _ _ j j P2 (nth_error_seq0 _ _ A1')) as (yd & Hyd & Ey). assert (yd = (yj, dj)) by congruence. subst yd.
  unfold fits in Ey. rewrite <- (one_fit_slice _ _ _ _ _ _ _ _ _ _ Hb) in Ey.
  2:{ intros h L Hin. apply td_lengths in Hin. lia. }
  rewrite td_near in Ey by exact A1'. unfold one_fit, nb_pc in Ey.
  pose proof (mapM_Forall2 (fit_key A z trans nleg leg) dwave ps) as HF. apply proj1 in HF. specialize (HF P1). apply Forall2_len in HF.
  assert (Hnb : nb_of nleg (map2 (near_of [j]) dwave ps) = 1 + nleg).
  { destruct dwave as [|? ?]; [congruence|]. destruct ps as [|? ?]; [discriminate HF|]. reflexivity. }
  destruct pc.
  - destruct (cam_tdata 1 nleg (1 + nleg * length bands) 0 _) as [td'|]; [|discriminate]. cbn [rbind] in Ey.
    destruct (calc_zchi2_batch _ _ _ _ _ _ _ _ _ _ _) as [b|] eqn:Eb; [|discriminate]. cbn [rbind] in Ey. exists b, td'. split; [reflexivity|]. split; [exact Eb|]. split; congruence.
  - destruct (Qeq_bool (sumQ w) 0) eqn:Ew; [apply Qeq_bool_iff in Ew; contradiction|]. rewrite Hnb in Ey. exact Ey.
Qed.
