From Verif Require Import Prelude PreludeFacts Facts2 NumX Model_Dist Proof_Table Model_Fitz Proof_Fitz Model_Zscan Spec_Zscan Proof_Zscan Proof_Zscan2 Proof_Zscan3 Proof_Zscan4 Model_IO Model_Rebin Model_Targets2 Model_Arch Spec_Arch Proof_Arch Proof_Arch2.

Lemma nth_error_seq0 n j : (j < n)%nat -> nth_error (seq 0 n) j = Some j.
Proof. intros H. rewrite (nth_error_nth' _ O) by now rewrite seq_length. now rewrite seq_nth. Qed.
Lemma seq_mapM_ok {B} (g : nat -> res B) n : (forall k, k < n -> exists y, g k = Ok y) -> exists ys, mapM g (seq 0 n) = Ok ys.
Proof.
  intros H. assert (G : forall l, (forall k, In k l -> exists y, g k = Ok y) -> exists ys, mapM g l = Ok ys).
  { clear H. intros l. induction l as [|a l IH]; intros H; [eexists; reflexivity|]. destruct (H a (or_introl eq_refl)) as (y & Ey). destruct IH as (ys & Eys); [intros; apply H; now right|].
    exists (y :: ys). cbn [mapM]. rewrite Ey. cbn [rbind]. now rewrite Eys. }
  apply G. intros k Hk. apply in_seq in Hk. apply H. lia.
Qed.
Lemma map2_length' {A B C} (f : A -> B -> C) : forall a b, length (map2 f a b) = Nat.min (length a) (length b).
Proof. induction a as [|x a IH]; intros [|y b]; cbn [map2 length Nat.min]; try reflexivity. now rewrite IH. Qed.

(* ---------- the fits one archetype at a time ---------- *)
Section Fit.
  Variables (S : solvers) (method : string) (prior : option mat) (spectra : list spectrum) (w f wf : vec) (nleg : nat) (bands : list string) (per_camera : bool).
  Definition nb_pc : nat := (1 + nleg * length bands)%nat.
  Definition nb_of (td : tdict) : nat := match td with [] => 1 | _ => 1 + nleg end.
  Definition one_fit (td : tdict) (j : nat) : res (Q * vec) :=
    if per_camera then
      do td' <- cam_tdata 1 nleg nb_pc j td;
      do b <- calc_zchi2_batch S method (if String.eqb (upper method) "BVLS" then Some (cam_bounds 1 nb_pc) else None) prior spectra td' w f wf 1 nb_pc;
      Ok (hd 0%Q (fst b), hd [] (snd b))
    else if Qeq_bool (sumQ w) 0 then Ok (HUGE_CHI2, repeat 0%Q (nb_of td))
    else zchi2_at S (upper method) (Some (cam_bounds 1 (nb_of td))) None (nb_of td) spectra td w f wf j.
  Definition all_fits (nar : nat) (td : tdict) : res (vec * list vec) :=
    if per_camera then per_camera_fit S method prior spectra td w f wf nleg nar 1 bands
    else calc_zchi2_batch S (upper method) (Some (cam_bounds 1 (nb_of td))) None spectra td w f wf nar (nb_of td).
  Hypothesis Hb : per_camera = true -> NoDup bands /\ ~ In "alpha"%string bands.
  Lemma batch_row_length alg args pr td nb z c : calc_zchi2_batch S alg args pr spectra td w f wf 1 nb = Ok (z, c) -> length (hd [] c) = nb.
  Proof.
    intros Eb. destruct (Qeq_dec (sumQ w) 0) as [Ew|Ew].
    - unfold calc_zchi2_batch in Eb. apply Qeq_bool_iff in Ew. rewrite Ew in Eb. injection Eb as <- <-. cbn [repeat hd]. apply repeat_length.
    - destruct (batch_inv _ _ _ _ _ _ _ _ _ _ _ _ _ Ew Eb) as (q & Hq & -> & ->). cbn [seq mapM] in Hq.
      destruct (zchi2_at _ _ _ _ _ _ _ _ _ _ 0) as [[q0 q1]|] eqn:Eq; [|discriminate]. cbn [rbind] in Hq. injection Hq as <-. cbn [map hd snd].
      destruct (zchi2_at_cases _ _ _ _ _ _ _ _ _ _ _ _ _ Eq) as (Tb & M & _ & _ & _ & _ & _ & [(_ & H & _)|(_ & ->)]); [exact H|apply repeat_length].
  Qed.
  Lemma one_fit_len td j z c : per_camera = true -> one_fit td j = Ok (z, c) -> length c = nb_pc.
  Proof.
    intros Hp. unfold one_fit. rewrite Hp. destruct (cam_tdata 1 nleg nb_pc j td) as [td'|]; [|discriminate]. cbn [rbind].
    destruct (calc_zchi2_batch _ _ _ _ _ _ _ _ _ _ _) as [[zz cc]|] eqn:Eb; [|discriminate]. cbn [rbind fst snd]. intros H. injection H as _ <-. exact (batch_row_length _ _ _ _ _ _ _ Eb).
  Qed.
  Lemma all_fits_eq nar td : all_fits nar td = do r <- mapM (one_fit td) (seq 0 nar); Ok (map fst r, map snd r).
  Proof.
    unfold all_fits. destruct per_camera eqn:Ep.
    - unfold per_camera_fit. fold nb_pc. 
      assert (E : forall l, mapM (one_fit td) l = mapM (fun j => do td' <- cam_tdata 1 nleg nb_pc j td;
         do b <- calc_zchi2_batch S method (if String.eqb (upper method) "BVLS" then Some (cam_bounds 1 nb_pc) else None) prior spectra td' w f wf 1 nb_pc;
         Ok (hd 0%Q (fst b), hd [] (snd b))) l).
      { intros l. apply mapM_ext. intros j _. unfold one_fit. rewrite Ep. reflexivity. }
      rewrite <- E. destruct (mapM (one_fit td) (seq 0 nar)) as [r|] eqn:Er; [|reflexivity]. cbn [rbind].
      destruct (Hb eq_refl) as [H1 H2]. rewrite assemble_identity; [reflexivity|lia|now left|exact H1|exact H2|].
      apply Forall_forall. intros c Hc. apply in_map_iff in Hc as ([z0 c0] & <- & Hin). cbn [snd]. apply mapM_Forall2 in Er. destruct (Forall2_in_r _ _ _ _ Er Hin) as (j & _ & Ej). 
      exact (one_fit_len _ _ _ _ Ep Ej).
    - unfold calc_zchi2_batch. destruct (Qeq_bool (sumQ w) 0) eqn:Ew.
      + assert (E : forall l, mapM (one_fit td) l = Ok (map (fun _ => (HUGE_CHI2, repeat 0%Q (nb_of td))) l)).
        { intros l. induction l as [|a l IH]; [reflexivity|]. cbn [mapM]. unfold one_fit at 1. rewrite Ep, Ew. cbn [rbind]. rewrite IH. reflexivity. }
        rewrite E. cbn [rbind]. rewrite !map_map. cbn [fst snd]. generalize 0%nat. induction nar as [|n IH]; intros a; [reflexivity|]. cbn [repeat seq map].
        specialize (IH (Datatypes.S a)). injection IH as I1 I2. now rewrite <- I1, <- I2.
      + assert (E : forall l, mapM (one_fit td) l = mapM (zchi2_at S (upper method) (Some (cam_bounds 1 (nb_of td))) None (nb_of td) spectra td w f wf) l).
        { intros l. apply mapM_ext. intros j _. unfold one_fit. now rewrite Ep, Ew. }
        rewrite E. reflexivity.
  Qed.
  Lemma cam_slice td k : (forall h L, In (h, L) td -> (k < length L)%nat) -> cam_tdata 1 nleg nb_pc 0 (slice1 k td) = cam_tdata 1 nleg nb_pc k td.
  Proof.
    unfold cam_tdata, slice1, enum. intros H.
    match goal with |- mapM ?F (enum_from 0 _) = mapM ?G _ => assert (K : forall a, mapM F (enum_from a (map (fun kv => (fst kv, [nth k (snd kv) []])) td)) = mapM G (enum_from a td)) end.
    { induction td as [|[h T] td IH]; intros a; [reflexivity|]. cbn [map enum_from mapM fst snd]. rewrite (nth_error_nth' T []) by (apply (H h); now left). cbn [nth_error].
      rewrite IH by (intros h0 L0 H0; apply (H h0); now right). reflexivity. }
    apply K.
  Qed.
  Lemma one_fit_slice td k : (forall h L, In (h, L) td -> (k < length L)%nat) -> one_fit (slice1 k td) 0 = one_fit td k.
  Proof.
    intros H. unfold one_fit. rewrite (cam_slice td k H). destruct per_camera; [reflexivity|].
    assert (E : nb_of (slice1 k td) = nb_of td) by (destruct td; reflexivity). rewrite E. destruct (Qeq_bool (sumQ w) 0); [reflexivity|]. now apply at_slice.
  Qed.
End Fit.

(* ---------- the file with one archetype ---------- *)
Lemma only_key A z trans nleg leg kw p k : fit_key A z trans nleg leg kw = Ok p -> k < narch A ->
  fit_key (only A k) z trans nleg leg kw = Ok ([nth k (fst p) []], snd p) /\ length (fst p) = narch A.
Proof.
  destruct kw as [hs w]. intros H Hk. destruct (fit_key_inv _ _ _ _ _ _ _ _ H) as (cols & t & L & Ec & Et & Eok & EL & ->).
  apply mapM_Forall2 in Ec. pose proof (Forall2_len _ _ _ Ec) as Hl. destruct (Forall2_nth _ _ _ k (nth k (a_flux A) []) Ec) as (col & Hc & E).
  { apply nth_error_nth'. exact Hk. }
  split.
  - unfold fit_key. cbn [fst snd only a_wave a_flux mapM]. unfold mat, vec in *. rewrite E. cbn [rbind]. rewrite Et, Eok, EL. cbn [rbind map].
    do 3 f_equal. symmetry. apply nth_error_nth. rewrite nth_error_map. unfold mat, vec in *. rewrite Hc. reflexivity.
  - cbn [fst]. rewrite map_length. unfold narch. unfold mat, vec in *. lia.
Qed.
Lemma only_key_conv A z trans nleg leg kw : 0 < narch A -> (forall k, k < narch A -> exists p, fit_key (only A k) z trans nleg leg kw = Ok p) ->
  exists p, fit_key A z trans nleg leg kw = Ok p.
Proof.
  destruct kw as [hs w]. intros H0 H.
  assert (G : exists cols, mapM (rb1 (a_wave A) z w) (a_flux A) = Ok cols).
  { assert (G : forall y, In y (a_flux A) -> exists c, rb1 (a_wave A) z w y = Ok c).
    { intros y Hy. apply (In_nth _ _ []) in Hy as (k & Hk & <-). destruct (H k Hk) as (p & Ep). destruct (fit_key_inv _ _ _ _ _ _ _ _ Ep) as (cols & t & L & Ec & _).
      cbn [only a_wave a_flux mapM] in Ec. destruct (rb1 (a_wave A) z w (nth k (a_flux A) [])) as [c|]; [eauto|discriminate]. }
    revert G. generalize (a_flux A). intros l G. induction l as [|y l IH]; [now exists []|]. destruct (G y (or_introl eq_refl)) as (c & Ec). destruct IH as (cs & Ecs); [intros; apply G; now right|].
    exists (c :: cs). cbn [mapM]. rewrite Ec. cbn [rbind]. now rewrite Ecs. }
  destruct G as (cols & Ec). destruct (H 0 H0) as (p & Ep). destruct (fit_key_inv _ _ _ _ _ _ _ _ Ep) as (c0 & t & L & _ & Et & Eok & EL & _).
  exists (map (tcol (length w) t) cols, L). unfold fit_key. cbn [fst snd]. unfold mat, vec in *. rewrite Ec. cbn [rbind]. rewrite Et, Eok, EL. reflexivity.
Qed.
Lemma only_keys A z trans nleg leg dwave ps k : mapM (fit_key A z trans nleg leg) dwave = Ok ps -> k < narch A ->
  mapM (fit_key (only A k) z trans nleg leg) dwave = Ok (map (fun p => ([nth k (fst p) []], snd p)) ps).
Proof.
  intros H Hk. apply mapM_Forall2 in H. apply mapM_Forall2. induction H as [|kw p dw ps E H IH]; [constructor|]. cbn [map]. constructor; [|exact IH].
  apply (only_key _ _ _ _ _ _ _ _ E Hk).
Qed.
Lemma only_keys_conv A z trans nleg leg dwave : 0 < narch A -> (forall k, k < narch A -> exists ps, mapM (fit_key (only A k) z trans nleg leg) dwave = Ok ps) ->
  exists ps, mapM (fit_key A z trans nleg leg) dwave = Ok ps.
Proof.
  intros H0 H. induction dwave as [|kw dw IH]; [now exists []|].
  destruct (only_key_conv A z trans nleg leg kw H0) as (p & Ep).
  { intros k Hk. destruct (H k Hk) as (ps & E). cbn [mapM] in E. destruct (fit_key (only A k) z trans nleg leg kw) as [p|]; [eauto|discriminate E]. }
  destruct IH as (ps & Eps).
  { intros k Hk. destruct (H k Hk) as (ps & E). cbn [mapM] in E. destruct (fit_key (only A k) z trans nleg leg kw) as [p'|]; [|discriminate E]. cbn [rbind] in E.
    destruct (mapM (fit_key (only A k) z trans nleg leg) dw) as [q|]; [eauto|discriminate E]. }
  exists (p :: ps). cbn [mapM]. rewrite Ep. cbn [rbind]. now rewrite Eps.
Qed.
Lemma td_slice nar dwave ps k : k < nar -> (forall p, In p ps -> length (fst p) = nar) ->
  slice1 k (map2 (td_of nar) dwave ps) = map2 (td_of 1) dwave (map (fun p => ([nth k (fst p) []], snd p)) ps).
Proof.
  intros Hk. unfold slice1. revert ps. induction dwave as [|kw dw IH]; intros [|p ps] H; cbn [map2 map]; try reflexivity. rewrite (IH ps) by (intros; apply H; now right). f_equal.
  unfold td_of. cbn [fst snd seq map nth]. do 2 f_equal. rewrite (nth_indep _ [] (rows_of (length (snd kw)) (snd p) [nth 0 (fst p) []])) by now rewrite map_length, seq_length.
  rewrite (map_nth (fun j => rows_of (length (snd kw)) (snd p) [nth j (fst p) []])). now rewrite seq_nth.
Qed.
Lemma td_lengths nar dwave ps h L : In (h, L) (map2 (td_of nar) dwave ps) -> length L = nar.
Proof.
  revert ps. induction dwave as [|kw dw IH]; intros [|p ps] H; cbn [map2] in H; try contradiction. destruct H as [H|H]; [|now apply IH in H].
  unfold td_of in H. injection H as _ <-. now rewrite map_length, seq_length.
Qed.

Section Body.
  Variables (E : arch_env) (A : archetype) (spectra : list spectrum) (bands : list string) (w f wf : vec) (dwave : dict vec) (z : Q) (per_camera : bool)
    (trans : tdic) (method : string) (prior : option mat) (leg : dict mat) (nleg : nat).
  Hypothesis Hb : per_camera = true -> NoDup bands /\ ~ In "alpha"%string bands.
  Definition fits (td : tdict) : nat -> res (Q * vec) := one_fit (e_solv E) method prior spectra w f wf nleg bands per_camera td.
  Lemma body_eq B : a_flux B <> [] -> forall r, best_body E B spectra bands w f wf dwave z per_camera None trans method prior leg nleg = Ok r <->
    exists ps zc, mapM (fit_key B z trans nleg leg) dwave = Ok ps /\ mapM (fits (map2 (td_of (narch B)) dwave ps)) (seq 0 (narch B)) = Ok zc /\
      pick_best B (map fst zc) (map snd zc) = Ok r.
  Proof.
    intros Hne r. 
    assert (Eq : best_body E B spectra bands w f wf dwave z per_camera None trans method prior leg nleg =
      do q <- fit_td B z trans nleg leg (narch B) dwave; do zc <- all_fits (e_solv E) method prior spectra w f wf nleg bands per_camera (narch B) (snd q); pick_best B (fst zc) (snd zc)).
    { unfold best_body, fit_td, all_fits, nb_of. destruct (rebin_all B z dwave) as [raw|]; [|reflexivity]. cbn [rbind]. destruct (absorbed trans raw) as [b|]; [|reflexivity]. cbn [rbind].
      destruct (arch_tdata (narch B) nleg leg b) as [td|]; [|reflexivity]. cbn [rbind snd]. destruct per_camera; destruct (_ : res (vec * list vec)) as [[? ?]|]; reflexivity. }
    rewrite Eq. clear Eq. split.
    - destruct (fit_td B z trans nleg leg (narch B) dwave) as [[b td]|] eqn:Et; [|discriminate]. cbn [rbind snd]. destruct (fit_td_inv _ _ _ _ _ _ _ _ _ Et) as (ps & P1 & P2 & P3).
      rewrite all_fits_eq by exact Hb. rewrite P3. fold (fits (map2 (td_of (narch B)) dwave ps)). unfold fits in *.
      destruct (mapM _ (seq 0 (narch B))) as [zc|] eqn:Ez; [|discriminate]. cbn [rbind fst snd]. intros H. exists ps, zc. split; [exact P1|]. split; [exact Ez|exact H].
    - intros (ps & zc & P1 & P2 & P3). rewrite (fit_td_conv B z trans nleg leg (narch B) dwave ps Hne P1). cbn [rbind snd]. rewrite all_fits_eq by exact Hb. unfold fits in P2. rewrite P2. cbn [rbind fst snd]. exact P3.
  Qed.
End Body.
