(* C43-C49: the linear fits of the redshift scan (zscan.py). *)
From Verif Require Import Prelude PreludeFacts Facts2 NumX Model_Fitz Proof_Fitz Proof_Table Model_Dist Proof_Dist3
  Model_Zscan Spec_Zscan Proof_Zscan Proof_Zscan2 Proof_Zscan3 Proof_Zscan4.
Local Open Scope Q_scope.

(* ================= C43 ================= *)
Lemma solve_pca S args M y : solve_matrices S "PCA" args M y = linsolve S M y.
Proof. reflexivity. Qed.

Lemma normal_M_square nb w T : square nb (normal_M nb w T).
Proof. split; [unfold normal_M; now rewrite map_length, seq_length|]. unfold normal_M. apply Forall_map, Forall_forall. intros j _. now rewrite map_length, seq_length. Qed.
Lemma map2_len {A B C} (f : A -> B -> C) : forall a b, length a = length b -> length (map2 f a b) = length a.
Proof. induction a as [|x a IH]; intros [|y b] H; cbn in *; try discriminate; [reflexivity|]. f_equal. apply IH. now injection H. Qed.
Lemma add_prior_square nb w T prior M : add_prior nb (normal_M nb w T) prior = Ok M -> square nb M.
Proof.
  destruct (normal_M_square nb w T) as [L F]. unfold add_prior. destruct prior as [P|]; [|intro H; injection H as <-; now split].
  destruct (Nat.eqb_spec (length P) nb) as [LP|]; [|discriminate]. cbn [andb]. destruct (forallb _ P) eqn:FP; [|discriminate]. intro H. injection H as <-.
  rewrite forallb_forall in FP. split; [rewrite map2_len; [exact L|lia]|]. clear L LP. revert P FP. revert F. generalize (normal_M nb w T). intros N F.
  induction F as [|r N Hr F IH]; intros [|q P] FP; cbn; try constructor; [|apply IH; intros; apply FP; now right].
  rewrite map2_len; [exact Hr|]. pose proof (FP q (or_introl eq_refl)) as E. apply Nat.eqb_eq in E. congruence.
Qed.
Lemma fit_optimum S args prior spectra tdata w f wf nb i T z c :
  linsolve_ok S -> spectral_data spectra = Ok (w, f, wf) -> nonneg w -> Forall (fun s => wf_csr (s_R s)) spectra ->
  match prior with None => True | Some P => psd nb P end ->
  zchi2_at S "PCA" args prior nb spectra tdata w f wf i = Ok (z, c) ->
  is_design nb spectra tdata i T ->
  (length c = nb /\ z == chi2 (length T) nb w f T c /\
   forall c', length c' = nb ->
     let reg c := match prior with None => 0 | Some P => quad nb P c end in
     chi2 (length T) nb w f T c + reg c <= chi2 (length T) nb w f T c' + reg c')
  \/ (z = HUGE_CHI2 /\ c = repeat 0 nb /\ exists M y e, linsolve S M y = Err e /\ length y = nb /\ square nb M /\
       (prior = None -> forall j k, (j < nb)%nat -> (k < nb)%nat ->
           at2 M j k == bigsum (length T) (fun p => at2 T p j * (at1 w p * at2 T p k)))).
Proof.
  intros HS Hd Hw Hwf HP H HT. apply spectral_data_inv in Hd as (_ & _ & Hl & Ewf). apply zchi2_at_inv in H.
  inversion H as [Tb M c0 E1 L1 L2 L3 EM Es Hc Ez|Tb M e E1 L1 L2 L3 EM Es He Ez]; subst.
  - left. rewrite solve_pca in Es. apply HS in Es.
    assert (He : mat_eqv (length c) Tb T) by (eapply design_unique; [apply dpso_design|]; eassumption).
    split; [reflexivity|]. split.
    + rewrite (chi2_of_chi2 (length c)) by (reflexivity || lia). now apply chi2_eqv.
    + intros c' Hc'. cbn zeta. rewrite <- !(chi2_eqv _ w f Tb T) by exact He.
      eapply (normal_solution_optimal (length c) w f _ Tb prior M c c'); eauto.
  - right. split; [reflexivity|]. split; [reflexivity|]. exists M, (tdot nb Tb (map2 (fun w f => Qred (w * f)) w f)), e.
    rewrite solve_pca in Es. split; [exact Es|]. split; [unfold tdot; now rewrite map_length, seq_length|]. split; [eapply add_prior_square; exact EM|]. intros -> j k Hj Hk. injection EM as <-.
    assert (Hev : mat_eqv nb Tb T) by (eapply design_unique; [apply dpso_design|]; eassumption).
    rewrite normal_M_at by (assumption || lia). destruct Hev as [Hlen Hev]. rewrite Hlen. apply bigsum_ext.
    intros p _. rewrite !Hev by assumption. reflexivity.
Qed.

Theorem C43_least_squares S args spectra tdata w f wf nz nb z c i T :
  linsolve_ok S -> spectral_data spectra = Ok (w, f, wf) -> nonneg w -> ~ sumQ w == 0 ->
  Forall (fun s => wf_csr (s_R s)) spectra ->
  calc_zchi2_batch S "PCA" args None spectra tdata w f wf nz nb = Ok (z, c) -> (i < nz)%nat ->
  is_design nb spectra tdata i T ->
  (length (nth i c []) = nb /\ nth i z 0 == chi2 (length T) nb w f T (nth i c []) /\
   forall c', length c' = nb -> chi2 (length T) nb w f T (nth i c []) <= chi2 (length T) nb w f T c')
  \/ (nth i z 0 = HUGE_CHI2 /\ nth i c [] = repeat 0 nb /\ exists M y e, linsolve S M y = Err e /\ length y = nb /\ square nb M /\
       forall j k, (j < nb)%nat -> (k < nb)%nat ->
           at2 M j k == bigsum (length T) (fun p => at2 T p j * (at1 w p * at2 T p k))).
Proof.
  intros HS Hd Hw Hz Hwf H Hi HT. eapply batch_at in H; [|exact Hz|exact Hi].
  destruct (fit_optimum S args None spectra tdata w f wf nb i T _ _ HS Hd Hw Hwf I H HT) as [(A & B & C)|(A & B & M & y & e & C & L & Sq & D)].
  - left. split; [exact A|]. split; [exact B|]. intros c' Hc'. specialize (C c' Hc'). cbn in C. lra.
  - right. split; [exact A|]. split; [exact B|]. exists M, y, e. auto.
Qed.
(* with a prior matrix the fit minimises chi2(c) + c^T P c, and the reported chi2
   is the data term alone *)
Theorem C43_with_prior S args P spectra tdata w f wf nz nb z c i T :
  linsolve_ok S -> spectral_data spectra = Ok (w, f, wf) -> nonneg w -> ~ sumQ w == 0 ->
  Forall (fun s => wf_csr (s_R s)) spectra -> psd nb P ->
  calc_zchi2_batch S "PCA" args (Some P) spectra tdata w f wf nz nb = Ok (z, c) -> (i < nz)%nat ->
  is_design nb spectra tdata i T ->
  (length (nth i c []) = nb /\ nth i z 0 == chi2 (length T) nb w f T (nth i c []) /\
   forall c', length c' = nb -> chi2 (length T) nb w f T (nth i c []) + quad nb P (nth i c [])
                                <= chi2 (length T) nb w f T c' + quad nb P c')
  \/ (nth i z 0 = HUGE_CHI2 /\ nth i c [] = repeat 0 nb /\ exists M y e, linsolve S M y = Err e).
Proof.
  intros HS Hd Hw Hz Hwf HP H Hi HT. eapply batch_at in H; [|exact Hz|exact Hi].
  destruct (fit_optimum S args (Some P) spectra tdata w f wf nb i T _ _ HS Hd Hw Hwf HP H HT) as [(A & B & C)|(A & B & M & y & e & C & D)].
  - left. auto.
  - right. split; [exact A|]. split; [exact B|]. exists M, y, e. auto.
Qed.

(* ================= C44 ================= *)
Theorem C44_masked_pixels S alg args prior tdata spectra spectra' w f wf w' f' wf' nz nb :
  Forall2 same_unmasked spectra spectra' ->
  spectral_data spectra = Ok (w, f, wf) -> spectral_data spectra' = Ok (w', f', wf') ->
  calc_zchi2_batch S alg args prior spectra tdata w f wf nz nb =
  calc_zchi2_batch S alg args prior spectra' tdata w' f' wf' nz nb.
Proof.
  intros H Hd Hd'. apply spectral_data_inv in Hd as (-> & -> & _ & ->), Hd' as (-> & -> & _ & ->).
  rewrite <- (same_ivar _ _ H). unfold calc_zchi2_batch. destruct (Qeq_bool _ 0); [reflexivity|].
  rewrite (mapM_ext _ (zchi2_at S alg args prior nb spectra' tdata (concat (map s_ivar spectra)) (concat (map s_flux spectra'))
     (map2 (fun w f => Qred (w * f)) (concat (map s_ivar spectra)) (concat (map s_flux spectra'))))); [reflexivity|].
  intros i _. now apply masked_fit.
Qed.
(* not for NaN: 0 * NaN is NaN, so one NaN flux value in a masked pixel reaches
   every component of the right-hand side (zscan.py 208, 760) *)
Definition xwflux (w f : list xq) : list xq := map2 xmul w f.
Definition xtdot (nb : nat) (T : list (list xq)) (v : list xq) : list xq :=
  map (fun j => fold_right xadd (Fin 0) (map2 xmul (map (fun r => nth j r (Fin 0)) T) v)) (seq 0 nb).
Theorem C44_nan_refuted : exists w f T, nth 0 w NaN = Fin 0 /\ nth 0 f PInf = NaN /\
  (forall p, (0 < p < 3)%nat -> isfinite (nth p f NaN) = true) /\
  forall y, In y (xtdot 2 T (xwflux w f)) -> y = NaN.
Proof.
  exists [Fin 0; Fin 1; Fin 1], [NaN; Fin 2; Fin 3], [[Fin 1; Fin 2]; [Fin 1; Fin 0]; [Fin 0; Fin 1]].
  split; [reflexivity|]. split; [reflexivity|]. split.
  - intros p Hp. destruct p as [|[|[|p]]]; try lia; reflexivity.
  - intros y Hy. cbn in Hy. destruct Hy as [<-|[<-|[]]]; reflexivity.
Qed.

(* ================= C45 ================= *)
Lemma sumQ_all_zero l : Forall (fun v => v == 0) l -> sumQ l == 0.
Proof. induction 1 as [|a l Ha _ IH]; [reflexivity|]. rewrite sumQ_cons, Ha, IH. lra. Qed.
Lemma fit_nonneg S alg args prior nb spectra tdata w f wf i r : nonneg w ->
  zchi2_at S alg args prior nb spectra tdata w f wf i = Ok r -> 0 <= fst r /\ length (snd r) = nb.
Proof.
  intros Hw H. apply zchi2_at_inv in H. inversion H; subst; cbn [fst snd].
  - split; [now apply chi2_of_nonneg|reflexivity].
  - split; [discriminate|apply repeat_length].
Qed.
Lemma fit_length S alg args prior nb spectra tdata w f wf i r :
  zchi2_at S alg args prior nb spectra tdata w f wf i = Ok r -> length (snd r) = nb.
Proof.
  intros H. apply zchi2_at_inv in H. inversion H; subst; cbn [snd]; [reflexivity|apply repeat_length].
Qed.
Theorem C45_nonnegative S t tdata nz targets r : Forall (Forall (fun s => nonneg (s_ivar s))) targets ->
  calc_zchi2 S t tdata nz targets = Ok r ->
  length r = length targets /\
  Forall (fun zcp => let '(z, c, p) := zcp in length z = nz /\ length c = nz /\ length p = nz /\ nonneg z /\
     Forall (fun v => length v = length (t_flux t)) c) r.
Proof.
  intros Hw H. unfold calc_zchi2 in H. apply mapM_Forall2 in H. split; [symmetry; eapply Forall2_len; exact H|].
  revert Hw. induction H as [|ss zcp l r Hs _ IH]; intros Hw; constructor; [|apply IH; now inversion Hw]. inversion Hw as [|? ? Hss Hl]; subst.
  unfold zchi2_target in Hs. destruct (spectral_data ss) as [[[w f] wf]|e] eqn:Ed; [|discriminate]. cbn [rbind] in Hs.
  assert (Hnw : nonneg w).
  { apply spectral_data_inv in Ed as (-> & _). unfold nonneg in *. apply Forall_concat. apply Forall_map. exact Hss. }
  destruct (Qeq_bool (sumQ w) 0) eqn:Ew.
  - injection Hs as <-. rewrite !repeat_length. split; [reflexivity|]. split; [reflexivity|]. split; [reflexivity|]. split.
    + apply Forall_forall. intros x Hx. apply repeat_spec in Hx. subst. discriminate.
    + apply Forall_forall. intros x Hx. apply repeat_spec in Hx. subst. apply repeat_length.
  - destruct (calc_zchi2_batch _ _ _ _ _ _ _ _ _ _ _) as [[z c]|e] eqn:Eb; [|discriminate]. cbn [rbind fst snd] in Hs. injection Hs as <-.
    apply Qeq_bool_neq in Ew. destruct (batch_inv _ _ _ _ _ _ _ _ _ _ _ _ _ Ew Eb) as (q & Hq & -> & ->).
    pose proof Hq as Hq2. apply mapM_Forall2 in Hq2. pose proof (Forall2_len _ _ _ Hq2) as Lq. rewrite seq_length in Lq.
    rewrite !map_length. split; [lia|]. split; [lia|]. split.
    { destruct (OIItemplate t); [unfold calc_negOII_penalty; rewrite !map_length; lia|apply repeat_length]. }
    assert (Hall : Forall (fun r => 0 <= fst r /\ length (snd r) = length (t_flux t)) q).
    { apply Forall_forall. intros x Hx. destruct (Forall2_in_r _ _ _ x Hq2 Hx) as (i & _ & Hi). eapply fit_nonneg; eassumption. }
    split; apply Forall_map; eapply Forall_impl; try exact Hall; cbn beta; intros x [Hx1 Hx2]; assumption.
Qed.
Theorem C45_empty_sentinel S t tdata nz targets r j ss : calc_zchi2 S t tdata nz targets = Ok r ->
  nth_error targets j = Some ss -> Forall (fun s => Forall (fun v => v == 0) (s_ivar s)) ss ->
  nth_error r j = Some (repeat 9999999 nz, repeat (repeat 0 (length (t_flux t))) nz, repeat 0 nz).
Proof.
  intros H Hj Hz. unfold calc_zchi2 in H. apply mapM_Forall2 in H.
  destruct (Forall2_nth _ _ _ _ _ H Hj) as (y & Hy & E). rewrite Hy. f_equal.
  unfold zchi2_target in E. destruct (spectral_data ss) as [[[w f] wf]|e] eqn:Ed; [|discriminate]. cbn [rbind] in E.
  assert (Hs : Qeq_bool (sumQ w) 0 = true).
  { apply Qeq_bool_iff. apply spectral_data_inv in Ed as (-> & _).
    assert (Hc : Forall (fun v => v == 0) (concat (map s_ivar ss))) by (apply Forall_concat, Forall_map; exact Hz).
    now apply sumQ_all_zero. }
  rewrite Hs in E. now injection E as <-.
Qed.

(* ================= C46 ================= *)
Theorem C46_penalty S t tdata nz targets r j z c p i :
  Forall (fun row => length row = length (t_wave t)) (t_flux t) ->
  calc_zchi2 S t tdata nz targets = Ok r -> nth_error r j = Some (z, c, p) -> (i < nz)%nat ->
  0 <= nth i p 0 /\
  (t_rrtype t = "GALAXY"%string /\ t_method t = "PCA"%string ->
     (0 <= OII_flux t (nth i c []) -> nth i p 0 == 0) /\
     (OII_flux t (nth i c []) <= 0 -> nth i p 0 == - OII_flux t (nth i c []))) /\
  (t_rrtype t <> "GALAXY"%string \/ t_method t <> "PCA"%string -> nth i p 0 == 0).
Proof.
  intros Hr H Hj Hi. unfold calc_zchi2 in H. apply mapM_Forall2 in H.
  destruct (nth_error targets j) as [ss|] eqn:Ess.
  2:{ apply nth_error_None in Ess. apply Forall2_len in H. assert (j < length r)%nat by (apply nth_error_Some; congruence). lia. }
  assert (E := Forall2_nth2 _ _ _ _ _ _ H Ess Hj). clear H.
  assert (Hzero : forall c0, OII_flux t (repeat 0 c0) == 0).
  { intros c0. unfold OII_flux. apply bigsum_zero. intros l _. destruct (_ && _); [|reflexivity]. apply bigsum_zero. intros b _.
    assert (at1 (repeat 0 c0) b = 0) by (unfold at1; destruct (Nat.lt_ge_cases b c0); [apply nth_repeat|apply nth_overflow; now rewrite repeat_length]).
    rewrite H. lra. }
  unfold zchi2_target in E. destruct (spectral_data ss) as [[[w f] wf]|e] eqn:Ed; [|discriminate]. cbn [rbind] in E.
  destruct (Qeq_bool (sumQ w) 0) eqn:Ew.
  - injection E as <- <- <-. rewrite !nth_repeat. split; [lra|]. split; [|intros; reflexivity]. intros _.
    assert (Ec : nth i (repeat (repeat 0 (length (t_flux t))) nz) [] = repeat 0 (length (t_flux t))).
    { rewrite (nth_indep _ [] (repeat 0 (length (t_flux t)))) by now rewrite repeat_length. apply nth_repeat. }
    unfold vec in *. rewrite Ec, Hzero. split; intros; lra.
  - destruct (calc_zchi2_batch _ _ _ _ _ _ _ _ _ _ _) as [[z0 c0]|e] eqn:Eb; [|discriminate]. cbn [rbind fst snd] in E. injection E as -> -> <-.
    apply Qeq_bool_neq in Ew. pose proof (batch_at _ _ _ _ _ _ _ _ _ _ _ _ _ i Ew Eb Hi) as Hat.
    destruct (batch_inv _ _ _ _ _ _ _ _ _ _ _ _ _ Ew Eb) as (q & Hq & -> & ->). apply mapM_Forall2, Forall2_len in Hq. rewrite seq_length in Hq.
    assert (Hlc : length (nth i (map snd q) []) = length (t_flux t)).
    { apply fit_length in Hat. exact Hat. }
    destruct (OIItemplate t) as [A|] eqn:EA.
    + pose proof (OII_sum t (nth i (map snd q) []) A EA Hr Hlc) as Hsum.
      assert (Ep : nth i (calc_negOII_penalty A (map snd q)) 0 = negOII_row A (nth i (map snd q) [])).
      { unfold calc_negOII_penalty. rewrite (nth_indep _ 0 (negOII_row A [])) by (rewrite !map_length; lia). apply map_nth. }
      rewrite Ep. unfold negOII_row. cbv zeta. unfold vec in *. set (s := sumQ (vecmat _ _ _)) in *. clearbody s.
      assert (Ht : t_rrtype t = "GALAXY"%string /\ t_method t = "PCA"%string).
      { unfold OIItemplate in EA. destruct (String.eqb_spec (t_rrtype t) "GALAXY"), (String.eqb_spec (t_method t) "PCA"); try discriminate. auto. }
      destruct (qlt s 0) eqn:Es.
      * apply qlt_iff in Es. pose proof (Qred_correct (- s)) as Hrd. set (qs := Qred (- s)) in *. clearbody qs. split; [lra|]. split; [intros _; split; intros; lra|]. intros [Hn|Hn]; tauto.
      * apply qlt_false in Es. split; [lra|]. split; [intros _; split; intros; lra|]. intros; lra.
    + rewrite nth_repeat. split; [lra|]. split; [|intros; reflexivity]. intros [H1 H2]. unfold OIItemplate in EA. rewrite H1, H2 in EA. discriminate.
Qed.
