(* C58, C88: evaluation of the best model. *)
From Coq Require Import Reals Qreals Lra.
From Coquelicot Require Import Coquelicot.
From Verif Require Import Prelude PreludeFacts Facts2 Model_Fitz Proof_Fitz Model_Rebin Spec_Rebin Proof_Rebin Proof_Rebin2 Proof_RebinGPU Proof_Rebin3 Props_Rebin
  Model_Zscan Model_Dist Model_Targets Model_Targets2 Proof_Targets Proof_Targets5 Proof_Eval.
Open Scope nat_scope.
Local Arguments Qred : simpl never.

Lemma xnew_valid twave y wave z r : strictly_increasing twave -> strictly_increasing wave -> (0 < 1 + z)%Q ->
  trapz_rebin_xnew twave y wave (ZArray [z]) false = Ok r ->
  exists e, centers2edges wave = Ok e /\ length e = S (length wave) /\ valid twave e z /\ core twave y e (ZArray [z]) false = Ok r.
Proof.
  intros Ht Hw Hz H. unfold trapz_rebin_xnew in H. destruct (centers2edges wave) as [e|] eqn:Ee; [|discriminate]. cbn [rbind] in H.
  assert (Hc : 2 <= length wave). { destruct wave as [|a [|b c]]; [discriminate Ee|discriminate Ee|cbn; lia]. }
  destruct (C36_edges wave Hc) as (e' & E' & Hl & _). rewrite Ee in E'. assert (e' = e) by congruence. subst e'.
  destruct (C36_brackets wave e Hw Ee) as [He _].
  destruct (accepted twave y e (ZArray [z]) r H) as (Hx & _ & A & B & C); [discriminate|]. cbn [zs_of] in A, B. rewrite amax1 in A. rewrite amin1 in B.
  exists e. split; [reflexivity|]. split; [exact Hl|]. split; [|exact C].
  split; [exact Ht|]. split; [exact He|]. split; [lia|]. split; [exact Hz|]. split; assumption.
Qed.
(* Template.eval gives the fitted model: same coefficients, redshift, grid and
   resolution, no IGM transmission in the fitted range.  coeff may be longer than
   the number of basis vectors (the table pads it). *)
Theorem C58_eval_is_fitted_partial : forall twave flux coeff wave z R m,
  strictly_increasing twave -> strictly_increasing wave -> (0 < 1 + z)%Q ->
  (forall row, In row flux -> length row = length twave) -> length flux <= length coeff ->
  fitted_model twave flux (firstn (length flux) coeff) wave z None R = Ok m ->
  exists m', template_eval twave flux coeff wave z (Some R) = Ok m' /\ Forall2 Qeq m' m.
Proof.
  intros twave flux coeff wave z R m Ht Hw Hz Hf Hc H. set (c := firstn (length flux) coeff) in *.
  assert (Hlc : length c = length flux) by (unfold c; rewrite firstn_length; lia).
  unfold fitted_model, fit_matrix in H.
  destruct (trapz_rebin_xnew twave (Y2 flux) wave (ZArray [z]) false) as [r|] eqn:E; [|discriminate]. cbn [rbind] in H.
  destruct (xnew_valid _ _ _ _ _ Ht Hw Hz E) as (e & Ee & Hle & V & HC). unfold core in HC. cbn [zs_of] in HC.
  destruct (rebin_batch_spec twave flux e [z]) as (rr & Er & Hlr & Hrr); [intros z' [<-|[]]; exact V|exact Hf|].
  rewrite Er in HC. cbn [rbind reshape] in HC. assert (r = V3 rr) by congruence. subst r.
  destruct rr as [|A [|? ?]]; try discriminate Hlr. cbn [rbind] in H. destruct (Hrr 0 ltac:(cbn; lia)) as (HlA & HrA & Hcols). cbn [nth] in *.
  assert (HX : exists cols, Forall2 (fun y col => rebin_1d (redshifted twave z) y e (zeros (length e - 1)) = Ok col) flux cols /\
     forall i, i < length e - 1 -> (dotf (fun b => nth b (nth i A []) 0) (seq 0 (length flux)) c == comb_at cols c i)%Q).
  { destruct (mapM_all_ok (fun y => rebin_1d (redshifted twave z) y e (zeros (length e - 1))) [] flux) as (cols & _ & HF).
    - intros y Hy. destruct (In_nth _ _ [] Hy) as (ib & Hib & Ey). destruct (Hcols ib Hib) as (col & Ec & _). rewrite Ey in Ec. eauto.
    - exists cols. split; [exact HF|]. intros i Hi. unfold dotf, comb_at.
      assert (Em : map (fun b => nth b (nth i A []) 0%Q) (seq 0 (length flux)) = map (fun row => nth i row 0%Q) cols).
      { assert (Hlf : length cols = length flux) by (symmetry; exact (Forall2_len _ _ _ HF)).
        apply nth_error_ext. intros b. destruct (Nat.lt_ge_cases b (length flux)) as [Hb|Hb].
        - rewrite nth_error_tab by exact Hb. destruct (nth_error_lt_ex cols b ltac:(lia)) as (col & Ecol). rewrite nth_error_map, Ecol. cbn. f_equal.
          destruct (Hcols b Hb) as (col' & Ec & _ & Hv). rewrite (Hv i Hi). f_equal.
          pose proof (Forall2_nth2 _ _ _ _ _ _ HF (nth_error_nth' flux [] Hb) Ecol) as Ec2. cbv beta in Ec2. rewrite Ec in Ec2. congruence.
        - rewrite (proj2 (nth_error_None _ b)) by (rewrite map_length, seq_length; lia). symmetry. apply nth_error_None. rewrite map_length. lia. }
      now rewrite Em. }
  destruct HX as (cols & HF & Hdot).
  destruct (rebin_comb twave flux c e z cols V Hf (eq_sym Hlc) HF) as (out & Eo & Hlo & Hout).
  assert (HA : length out = length A) by lia.
  pose proof (csr_comb R (length flux) A out c HA) as HR.
  assert (Hpt : forall l, l < length A -> (nth l out 0 == dotf (fun b => nth b (nth l A []) 0) (seq 0 (length flux)) c)%Q).
  { intros l Hl. rewrite Hdot by lia. apply Hout. lia. }
  specialize (HR Hpt).
  destruct (csr_dot R (length flux) A) as [B|]; [|discriminate]. cbn [rbind] in H. destruct HR as (m' & Em & HQ). exists m'.
  split; [|assert (mvec B c = m) as <- by congruence; exact HQ].
  unfold template_eval. fold c. rewrite Hlc, Nat.eqb_refl. cbn [negb].
  unfold trapz_rebin_xnew. rewrite Ee. cbn [rbind]. pose proof (valid_len _ _ _ V) as Hlt. destruct V as (_ & He & H2 & _ & B0 & B1).
  rewrite trapz_unfold.
  - cbn [zs_of]. rewrite amax1, amin1. rewrite redshifted_length, !redshifted_nth by lia.
    rewrite !qlt_ge by lra. cbn [orb]. unfold core. cbn [zs_of negb andb hd].
    rewrite Eo. cbn [rbind]. exact Em.
  - intros E0. apply (f_equal (@length Q)) in E0. rewrite redshifted_length in E0. cbn in E0. lia.
  - intros E0. subst e. cbn in H2. lia.
  - discriminate.
Qed.

(* the same with the transmission omitted by eval *)
Theorem C58_igm_refuted : exists twave flux coeff wave z T R m m',
  strictly_increasing twave /\ strictly_increasing wave /\ (forall row, In row flux -> length row = length twave) /\
  fitted_model twave flux coeff wave z (Some T) R = Ok m /\ template_eval twave flux coeff wave z (Some R) = Ok m' /\
  Forall2 Qeq m [1#2; 1#2]%Q /\ Forall2 Qeq m' [1; 1]%Q.
Proof.
  exists [1;2;3;4;5;6]%Q, [[1;1;1;1;1;1]]%Q, [1%Q], [3;4]%Q, 0%Q, [1#2;1#2]%Q, {| r_nrow := 2; r_ncol := 2; r_val := [1;1]%Q; r_ind := [0;1]; r_ptr := [0;1;2] |}.
  eexists. eexists.
  split. { intros i j Hij Hj. do 6 (destruct j as [|j]; [do 6 (destruct i as [|i]; [try lia; reflexivity|]); lia|]). cbn in Hj. lia. }
  split. { intros i j Hij Hj. do 2 (destruct j as [|j]; [do 2 (destruct i as [|i]; [try lia; reflexivity|]); lia|]). cbn in Hj. lia. }
  split. { intros row [<-|[]]. reflexivity. }
  split; [vm_compute; reflexivity|]. split; [vm_compute; reflexivity|]. split; repeat constructor.
Qed.
(* non-vacuity of C58_eval_is_fitted_partial: two basis vectors, redshift 1/2, a
   resolution matrix that mixes neighbours, a padded coefficient array *)
Example C58_instance : exists m, fitted_model [1;2;3;4;5;6]%Q [[1;2;3;4;5;6];[0;1;0;2;0;1]]%Q (firstn 2 [2;-1;0]%Q) [4;5]%Q (1#2) None
    {| r_nrow := 2; r_ncol := 2; r_val := [1#2;1#2;1#4;3#4]%Q; r_ind := [0;1;0;1]; r_ptr := [0;2;4] |} = Ok m /\ length m = 2.
Proof. eexists. split; [vm_compute; reflexivity|reflexivity]. Qed.

(* ---------------- Target.eval_model, DistTargets.eval_models ---------------- *)
Lemma eval_fold twave flux coeff z : forall (l : list (spec * csr)) d0 d,
  fold_left (fun acc s => do d <- acc; do m <- template_eval twave flux coeff (sp_wave (fst s)) z (Some (snd s)); Ok (kset d (sp_hash (fst s)) m)) l (Ok d0) = Ok d ->
  forall k, (kget d k = kget d0 k /\ ~ In k (map (fun s => sp_hash (fst s)) l)) \/
            exists s m, In s l /\ sp_hash (fst s) = k /\ template_eval twave flux coeff (sp_wave (fst s)) z (Some (snd s)) = Ok m /\ kget d k = Some m.
Proof.
  induction l as [|s l IH]; intros d0 d H k; cbn [fold_left map] in *.
  - left. split; [now injection H as ->|intros []].
  - cbn [rbind] in H. destruct (template_eval twave flux coeff (sp_wave (fst s)) z (Some (snd s))) as [m|e] eqn:E.
    + cbn [rbind] in H. destruct (IH _ _ H k) as [[H1 H2]|(s' & m' & A & B & C & D)].
      * rewrite kget_kset in H1. destruct (key_eqb_spec (sp_hash (fst s)) k) as [Ek|Ek].
        { right. exists s, m. split; [now left|]. split; [exact Ek|]. split; [exact E|]. exact H1. }
        { left. split; [exact H1|]. intros [F|F]; [now apply Ek|now apply H2]. }
      * right. exists s', m'. split; [now right|]. auto.
    + cbn [rbind] in H. exfalso. clear -H. induction l as [|s' l IH]; [discriminate H|]. cbn [fold_left rbind] in H. now apply IH.
Qed.
(* each spectrum gets the model of its own grid and resolution, if spectra that
   share a hash share both (as after compute_coadd, see C84) *)
Theorem C58_target_models : forall twave flux coeff z spectra d,
  (exists c, In c coeff /\ ~ (c == 0)%Q) ->
  (forall s s', In s spectra -> In s' spectra -> sp_hash (fst s) = sp_hash (fst s') -> sp_wave (fst s) = sp_wave (fst s') /\ snd s = snd s') ->
  target_eval_model twave flux coeff z spectra = Ok d ->
  forall s, In s spectra -> exists m, template_eval twave flux coeff (sp_wave (fst s)) z (Some (snd s)) = Ok m /\ kget d (sp_hash (fst s)) = Some m.
Proof.
  intros twave flux coeff z spectra d (c & Hc & Hne) Hs H s Hin. unfold target_eval_model in H.
  destruct (forallb (fun c => Qeq_bool c 0) coeff) eqn:Ef.
  { rewrite forallb_forall in Ef. apply Ef in Hc. apply Qeq_bool_iff in Hc. contradiction. }
  destruct (eval_fold _ _ _ _ _ _ _ H (sp_hash (fst s))) as [[_ Hn]|(s' & m & A & B & C & D)].
  - exfalso. apply Hn. apply in_map_iff. eauto.
  - destruct (Hs s' s A Hin B) as [E1 E2]. rewrite E1, E2 in C. eauto.
Qed.
(* entirely masked data: a zero model of the right length *)
Theorem C58_masked_models : forall twave flux coeff z spectra, (forall c, In c coeff -> (c == 0)%Q) ->
  (forall s s', In s spectra -> In s' spectra -> sp_hash (fst s) = sp_hash (fst s') -> sp_wave (fst s) = sp_wave (fst s')) ->
  exists d, target_eval_model twave flux coeff z spectra = Ok d /\
  forall s, In s spectra -> kget d (sp_hash (fst s)) = Some (repeat 0%Q (length (sp_wave (fst s)))).
Proof.
  intros twave flux coeff z spectra Hc Hs. unfold target_eval_model.
  assert (Ef : forallb (fun c => Qeq_bool c 0) coeff = true) by (apply forallb_forall; intros c Hin; apply Qeq_bool_iff; now apply Hc).
  rewrite Ef. eexists. split; [reflexivity|].
  assert (G : forall (l : list (spec * csr)) d0 k, let d := fold_left (fun d s => kset d (sp_hash (fst s)) (repeat 0%Q (length (sp_wave (fst s))))) l d0 in
    (kget d k = kget d0 k /\ ~ In k (map (fun s => sp_hash (fst s)) l)) \/ exists s, In s l /\ sp_hash (fst s) = k /\ kget d k = Some (repeat 0%Q (length (sp_wave (fst s))))).
  { induction l as [|s l IH]; intros d0 k; cbn [fold_left map]; [left; split; [reflexivity|intros []]|].
    destruct (IH (kset d0 (sp_hash (fst s)) (repeat 0%Q (length (sp_wave (fst s))))) k) as [[H1 H2]|(s' & A & B & C)].
    - cbv zeta. rewrite kget_kset in H1. destruct (key_eqb_spec (sp_hash (fst s)) k) as [Ek|Ek].
      + right. exists s. split; [now left|]. split; [exact Ek|exact H1].
      + left. split; [exact H1|]. intros [F|F]; [now apply Ek|now apply H2].
    - right. exists s'. split; [now right|]. auto. }
  intros s Hin. destruct (G spectra [] (sp_hash (fst s))) as [[_ Hn]|(s' & A & B & C)].
  - exfalso. apply Hn. apply in_map_iff. eauto.
  - rewrite C. now rewrite (Hs s' s A Hin B).
Qed.
(* spectra with one hash and two grids: the model of the first is lost *)
Theorem C58_shared_hash_refuted : exists twave flux coeff z s s' d,
  sp_hash (fst s) = sp_hash (fst s') /\ target_eval_model twave flux coeff z [s; s'] = Ok d /\
  length (sp_wave (fst s)) = 2 /\ exists m, kget d (sp_hash (fst s)) = Some m /\ length m = 3.
Proof.
  exists [1;2;3;4;5;6]%Q, [[1;1;1;1;1;1]]%Q, [1%Q], 0%Q,
   ({| sp_wave := [3;4]%Q; sp_flux := []; sp_ivar := []; sp_R := None; sp_Rcsr := None; sp_band := Some "b"%string; sp_hash := KBand "b" |},
    {| r_nrow := 2; r_ncol := 2; r_val := [1;1]%Q; r_ind := [0;1]; r_ptr := [0;1;2] |}),
   ({| sp_wave := [3;4;5]%Q; sp_flux := []; sp_ivar := []; sp_R := None; sp_Rcsr := None; sp_band := Some "b"%string; sp_hash := KBand "b" |},
    {| r_nrow := 3; r_ncol := 3; r_val := [1;1;1]%Q; r_ind := [0;1;2]; r_ptr := [0;1;2;3] |}). eexists.
  split; [reflexivity|]. split; [vm_compute; reflexivity|]. split; [reflexivity|]. eexists. split; [vm_compute; reflexivity|reflexivity].
Qed.
(* the row used for a target: its first row in the table, IndexError if it has none *)
Lemma filter_first {A} (f : A -> bool) l p r : filter f l = p :: r -> exists l1 l2, l = l1 ++ p :: l2 /\ f p = true /\ forall x, In x l1 -> f x = false.
Proof.
  induction l as [|a l IH]; cbn [filter]; [discriminate|]. destruct (f a) eqn:E; intros H.
  - injection H as -> _. exists [], l. split; [reflexivity|]. split; [exact E|]. intros x [].
  - destruct (IH H) as (l1 & l2 & -> & Hp & Hx). exists (a :: l1), l2. split; [reflexivity|]. split; [exact Hp|]. intros x [<-|Hin]; auto.
Qed.
Theorem C58_row_of_target : forall ids tid,
  (In tid ids -> exists r, bestfit_row ids tid = Ok r /\ nth_error ids r = Some tid /\ forall q, q < r -> nth_error ids q <> Some tid) /\
  (~ In tid ids -> bestfit_row ids tid = Err IndexError).
Proof.
  intros ids tid. unfold bestfit_row. unfold enum.
  assert (G : forall l s, match filter (fun p : nat * Z => (snd p =? tid)%Z) (enum_from s l) with
     | [] => ~ In tid l | p :: _ => s <= fst p /\ nth_error l (fst p - s) = Some tid /\ forall q, q < fst p - s -> nth_error l q <> Some tid end).
  { induction l as [|a l IH]; intros s; cbn [enum_from filter]; [intros []|]. cbn [snd]. destruct (Z.eqb_spec a tid) as [->|Hne].
    - cbn [fst]. rewrite Nat.sub_diag. split; [lia|]. split; [reflexivity|]. intros q Hq. lia.
    - specialize (IH (S s)). destruct (filter _ (enum_from (S s) l)) as [|p r].
      + intros [E|E]; [now apply Hne|now apply IH].
      + destruct IH as (A & B & C). replace (fst p - s) with (S (fst p - S s)) by lia. split; [lia|]. split; [exact B|].
        intros [|q] Hq; cbn [nth_error]; [intros E; apply Hne; congruence|]. apply C. lia. }
  specialize (G ids 0). destruct (filter _ _) as [|p r]; split.
  - intros H. contradiction. - reflexivity.
  - intros _. exists (fst p). destruct G as (_ & B & C). rewrite Nat.sub_0_r in B, C. split; [reflexivity|]. split; [exact B|exact C].
  - intros H. exfalso. destruct G as (_ & B & _). apply H. eapply nth_error_In. exact B.
Qed.

(* ---------------- C88 ---------------- *)
(* the default R=None fails for every non-empty table, array or dictionary of wavelengths *)
Theorem C88_default_R_refuted : forall data wave, data <> [] -> mod_eval_model data wave None = Err TypeError.
Proof. intros [|r data] wave H; [congruence|]. reflexivity. Qed.
Theorem C88_default_R_dict_refuted : forall data waves, data <> [] -> waves <> [] -> mod_eval_dict data waves None = Err TypeError.
Proof. intros data [|w waves] H Hw; [congruence|]. cbn [mod_eval_dict mapM]. rewrite C88_default_R_refuted by exact H. reflexivity. Qed.
(* with one matrix per row, row i is the template of row i with its own coefficients, redshift and matrix *)
Theorem C88_with_R_partial : forall data wave Rs out, mod_eval_model data wave (Some Rs) = Ok out ->
  length out = length data /\ length data <= length Rs /\
  forall i r, nth_error data i = Some r -> exists R m, nth_error Rs i = Some R /\ nth_error out i = Some m /\
    template_eval (fr_wave r) (fr_flux r) (fr_coeff r) wave (fr_z r) (Some R) = Ok m.
Proof.
  intros data wave Rs out H. unfold mod_eval_model, enum in H.
  assert (G : forall data s out, mapM (fun p : nat * fitrow => match nth_error Rs (fst p) with None => Err IndexError
      | Some r => template_eval (fr_wave (snd p)) (fr_flux (snd p)) (fr_coeff (snd p)) wave (fr_z (snd p)) (Some r) end) (enum_from s data) = Ok out ->
    length out = length data /\ (data <> [] -> s + length data <= length Rs) /\
    forall i r, nth_error data i = Some r -> exists R m, nth_error Rs (s + i) = Some R /\ nth_error out i = Some m /\
      template_eval (fr_wave r) (fr_flux r) (fr_coeff r) wave (fr_z r) (Some R) = Ok m).
  { clear. induction data as [|r data IH]; intros s out H; cbn [enum_from mapM] in H.
    - assert (out = []) as -> by congruence. split; [reflexivity|]. split; [congruence|]. intros [|i] r E; discriminate E.
    - cbn [fst snd] in H. destruct (nth_error Rs s) as [R|] eqn:ER; [|discriminate].
      destruct (template_eval _ _ _ _ _ _) as [m|] eqn:Em; [|discriminate]. cbn [rbind] in H.
      destruct (mapM _ (enum_from (S s) data)) as [ms|] eqn:Ems; [|discriminate]. cbn [rbind] in H. assert (out = m :: ms) as -> by congruence.
      destruct (IH (S s) ms Ems) as (A & B & C). pose proof (nth_error_Some_lt _ _ _ ER) as Hlt. split; [cbn; lia|]. split.
      + intros _. destruct data; [cbn; lia|]. cbn [length] in *. specialize (B ltac:(discriminate)). lia.
      + intros [|i] r' E; cbn [nth_error] in *.
        * assert (r' = r) as -> by congruence. rewrite Nat.add_0_r. eauto.
        * replace (s + S i) with (S s + i) by lia. now apply C. }
  destruct (G data 0 out H) as (A & B & C). split; [exact A|]. split; [destruct data; [cbn; lia|apply B; discriminate]|]. exact C.
Qed.
Theorem C88_dict_partial : forall data waves Rd out, mod_eval_dict data waves (Some Rd) = Ok out ->
  map fst out = map fst waves /\
  forall k w, In (k, w) waves -> exists R m, In (k, R) Rd /\ In (k, m) out /\ mod_eval_model data w (Some R) = Ok m.
Proof.
  intros data waves Rd out H. unfold mod_eval_dict in H. destruct (_ && _); [|discriminate].
  revert out H. induction waves as [|[k w] waves IH]; intros out H; cbn [mapM] in H.
  - assert (out = []) as -> by congruence. split; [reflexivity|]. intros k w [].
  - cbn [fst snd] in H. destruct (find _ Rd) as [p|] eqn:Ef; [|discriminate]. destruct (mod_eval_model data w (Some (snd p))) as [m|] eqn:Em; [|discriminate]. cbn [rbind] in H.
    destruct (mapM _ waves) as [ms|] eqn:Ems; [|discriminate]. cbn [rbind] in H. assert (out = (k, m) :: ms) as -> by congruence.
    destruct (IH ms eq_refl) as [A B]. split; [cbn; now rewrite A|]. intros k' w' [E|Hin].
    + assert (k' = k /\ w' = w) as [-> ->] by (split; congruence). apply find_some in Ef as [F1 F2]. apply String.eqb_eq in F2. exists (snd p), m.
      split; [destruct p; cbn in *; now subst|]. split; [now left|exact Em].
    + destruct (B k' w' Hin) as (R & m' & C & D & E). exists R, m'. split; [exact C|]. split; [now right|exact E].
Qed.
Example C88_instance : exists out, mod_eval_dict [{| fr_wave := [1;2;3;4;5;6]%Q; fr_flux := [[1;2;3;4;5;6]]%Q; fr_coeff := [2]%Q; fr_z := 0%Q |}]
   [("b"%string, [3;4]%Q)] (Some [("b"%string, [{| r_nrow := 2; r_ncol := 2; r_val := [1;1]%Q; r_ind := [0;1]; r_ptr := [0;1;2] |}])]) = Ok out /\ out <> [].
Proof. eexists. split; [vm_compute; reflexivity|discriminate]. Qed.
Print Assumptions C58_eval_is_fitted_partial.
Print Assumptions C58_igm_refuted.
Print Assumptions C58_target_models.
Print Assumptions C58_masked_models.
Print Assumptions C58_shared_hash_refuted.
Print Assumptions C58_row_of_target.
Print Assumptions C88_default_R_refuted.
Print Assumptions C88_default_R_dict_refuted.
Print Assumptions C88_with_R_partial.
Print Assumptions C88_dict_partial.
