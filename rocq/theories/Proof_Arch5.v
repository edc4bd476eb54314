(* The archetype models evaluated afterwards are the models fitted: chi2 over all spectra. *)
From Verif Require Import Prelude PreludeFacts Facts2 NumX Model_Dist Proof_Dist3 Proof_Table Model_Fitz Proof_Fitz Proof_Fitz2 Model_Zscan Spec_Zscan Proof_Zscan Proof_Zscan2 Proof_Zscan3 Proof_Zscan4 Model_IO Spec_IO Proof_IO Model_Rebin Model_Targets2 Proof_Eval Model_Arch Spec_Arch Spec_Arch2 Proof_Arch Proof_Arch2 Proof_Arch3 Proof_Arch4.
Local Arguments Qred : simpl never.

Lemma leg_array_len n w L : leg_array n w = Ok (Some L) -> length L = n.
Proof.
  unfold leg_array. destruct n as [|n]; [intros H; injection H as <-; reflexivity|]. destruct (reduced_wavelength w) as [[rw|]|]; try discriminate. cbn [rbind]. intros H.
  assert (L = map (fun i => map (leg i) rw) (seq 0 (S n))) by congruence. subst L. now rewrite map_length, seq_length.
Qed.

(* ---------- chi2 over concatenated spectra ---------- *)
Lemma chi2_app f1 f2 m1 m2 w1 w2 : length f1 = length m1 -> length f1 = length w1 ->
  (chi2_of (f1 ++ f2) (m1 ++ m2) (w1 ++ w2) == chi2_of f1 m1 w1 + chi2_of f2 m2 w2)%Q.
Proof.
  unfold chi2_of, dot. rewrite !Qred_correct. revert m1 w1. induction f1 as [|f f1 IH]; intros [|m m1] [|w w1] H1 H2; try discriminate.
  - cbn [app map2]. change (sumQ []) with 0%Q. lra.
  - cbn [app map2]. rewrite !sumQ_cons. rewrite IH by (cbn in *; lia). lra.
Qed.
Lemma chi2_wdist w f m m' : length w = length f -> length m' = length f -> Forall2 Qeq m m' -> (chi2_of f m' w == wdist w f m)%Q.
Proof.
  intros H1 H2 HF. unfold chi2_of, wdist. rewrite (dot_bigsum _ _ (length f)) by (rewrite map2_length; lia). rewrite sumQ_map_seq. apply bigsum_ext. intros l Hl.
  unfold at1. rewrite (map2_nth _ _ 0%Q 0%Q) by lia.
  assert (Em : (nth l m 0 == nth l m' 0)%Q).
  { pose proof (Forall2_len _ _ _ HF) as Hlm. assert (K1 : (l < length m)%nat) by (unfold vec in *; lia). assert (K2 : (l < length m')%nat) by (unfold vec in *; lia).
    exact (Forall2_nth2 _ _ _ l _ _ HF (nth_error_nth' m 0%Q K1) (nth_error_nth' m' 0%Q K2)). }
  rewrite Em. lra.
Qed.
Lemma mvec_app B C c : mvec (B ++ C) c = mvec B c ++ mvec C c.
Proof. apply map_app. Qed.
Lemma chi2_concat c : forall os blocks ms, Forall2 (fun o B => length (o_ivar o) = length B /\ length (o_flux o) = length B) os blocks ->
  Forall2 (fun m B => Forall2 Qeq m (mvec B c)) ms blocks ->
  (chi2_of (concat (map o_flux os)) (mvec (concat blocks) c) (concat (map o_ivar os)) == sumQ (map2 (fun o m => wdist (o_ivar o) (o_flux o) m) os ms))%Q.
Proof.
  induction os as [|o os IH]; intros blocks ms H1 H2; inversion H1 as [|? B ? Bs [Ha Hb] H1']; subst; inversion H2 as [|m ? ms' ? Hm H2']; subst.
  - reflexivity.
  - cbn [map concat]. rewrite mvec_app, chi2_app by (rewrite ?mvec_length; lia). rewrite (IH Bs ms' H1' H2'). cbn [map2]. rewrite sumQ_cons.
    rewrite (chi2_wdist _ _ m (mvec B c)) by (rewrite ?mvec_length; try lia; exact Hm). reflexivity.
Qed.

(* ---------- the dictionary of models ---------- *)
Lemma dset_fresh {V} (d : dict V) k v : ~ In k (map fst d) -> dset d k v = d ++ [(k, v)].
Proof.
  induction d as [|[k' v'] d IH]; intros H; [reflexivity|]. cbn [dset]. destruct (Z.eqb_spec k' k) as [->|Hne]; [exfalso; apply H; now left|].
  cbn [app]. f_equal. apply IH. intros Hin. apply H. now right.
Qed.
Lemma misfit_combine os ms : NoDup (map o_hash os) -> length ms = length os ->
  misfit os (combine (map o_hash os) ms) = sumQ (map2 (fun o m => wdist (o_ivar o) (o_flux o) m) os ms).
Proof.
  intros Hn Hl. unfold misfit. f_equal.
  assert (G : forall os ms, length ms = length os -> forall d, (forall o m, In (o, m) (combine os ms) -> dget d (o_hash o) = Some m) ->
    map (fun o => wdist (o_ivar o) (o_flux o) (match dget d (o_hash o) with Some m => m | None => [] end)) os = map2 (fun o m => wdist (o_ivar o) (o_flux o) m) os ms).
  { clear. induction os as [|o os IH]; intros [|m ms] H d Hd; try discriminate; [reflexivity|]. cbn [map map2]. rewrite (Hd o m (or_introl eq_refl)). f_equal.
    apply IH; [cbn in H; lia|]. intros; apply Hd; now right. }
  apply G; [exact Hl|]. intros o m Hin. apply dget_in.
  - replace (map fst (combine (map o_hash os) ms)) with (map o_hash os); [exact Hn|]. clear -Hl. revert ms Hl. induction os as [|o os IH]; intros [|m ms] H; try discriminate; [reflexivity|].
    cbn [map combine fst]. f_equal. apply IH. cbn in H. lia.
  - clear -Hin. revert ms Hin. induction os as [|o' os IH]; intros [|m' ms] H; try contradiction. cbn [map combine] in *. destruct H as [H|H]; [left; congruence|right; now apply IH].
Qed.
(* arch_eval_model on spectra with different grids *)
Lemma eval_model_fold E A subtype ac z rows : forall os ms d a, NoDup (map o_hash os) -> (forall k, In k (map fst d) -> ~ In k (map o_hash os)) -> length ms = length os ->
  (forall i o m, nth_error os i = Some o -> nth_error ms i = Some m -> exists lc, nth_error rows (a + i) = Some lc /\ arch_eval E A subtype ac (o_wave o) z (Some (o_R o)) (Some lc) = Ok m) ->
  fold_left (fun acc is => do d <- acc;
        match nth_error rows (fst is) with
        | None => Err IndexError
        | Some lc => do m <- arch_eval E A subtype ac (snd (fst (snd is))) z (Some (snd (snd is))) (Some lc);
                     Ok (dset d (fst (fst (snd is))) m)
        end) (enum_from a (map o_eval os)) (Ok d) = Ok (d ++ combine (map o_hash os) ms).
Proof.
  induction os as [|o os IH]; intros [|m ms] d a Hn Hd Hl H; try discriminate Hl.
  - cbn. now rewrite app_nil_r.
  - cbn [map enum_from fold_left fst snd rbind]. destruct (H 0%nat o m eq_refl eq_refl) as (lc & E1 & E2). rewrite Nat.add_0_r in E1. rewrite E1. unfold o_eval at 1 2 3. cbn [fst snd]. rewrite E2. cbn [rbind].
    cbn [map] in Hn. inversion Hn as [|? ? Hn1 Hn2]; subst. rewrite dset_fresh by (intros Hin; apply (Hd _ Hin); now left).
    refine (eq_trans (IH ms (d ++ [(o_hash o, m)]) (S a) Hn2 _ _ _) _).
    4:{ rewrite <- app_assoc. reflexivity. }
    + intros k Hk. rewrite map_app in Hk. apply in_app_or in Hk as [Hk|[<-|[]]]; [|exact Hn1]. intros Hin. apply (Hd k Hk). now right.
    + cbn in Hl. lia.
    + intros i o' m' Ho Hm. destruct (H (S i) o' m' Ho Hm) as (lc' & G1 & G2). rewrite Nat.add_succ_r in G1. exists lc'. split; [exact G1|exact G2].
Qed.

Section Core.
  Variables (E : arch_env) (A : archetype) (os : list obs) (z : Q) (deg nbt : nat) (td : tdict) (c : vec) (best : list nat) (ac : vec) (rows : list vec).
  Hypothesis HA : good_names A.
  Hypothesis Hly : forall o, In o os -> length (e_lyman E z (o_wave o)) = length (o_wave o).
  Hypothesis Hos : good_target os.
  Hypothesis Hc : length c = nbt.
  Hypothesis Hbest : best <> [].
  Hypothesis Hbl : forall j, In j best -> (j < narch A)%nat.
  Hypothesis Hac : length ac = length best.
  (* on each grid: the fitted matrix times all coefficients is the combination of archetypes and polynomials *)
  Hypothesis Hfit : forall i o, nth_error os i = Some o ->
    exists cols L M lc, mapM (rb1 (a_wave A) z (o_wave o)) (a_flux A) = Ok cols /\ leg_array deg (o_wave o) = Ok (Some L) /\
      dget td (o_hash o) = Some [M] /\ length M = length (o_wave o) /\ nth_error rows i = Some lc /\ length lc = deg /\
      forall l, (l < length (o_wave o))%nat -> (bigsum nbt (fun b => nth b (nth l M []) 0 * at1 c b) ==
         bigsum (length best) (fun k => nth l (head E (o_wave o) z cols (nth k best O)) 0 * at1 ac k) + bigsum deg (fun j => nth l (nth j L []) 0 * at1 lc j))%Q.
  Lemma core Tb : dot_product_sparse_one nbt (map o_spec os) td 0 = Ok Tb ->
    exists ms, length ms = length os /\
      (forall i o m, nth_error os i = Some o -> nth_error ms i = Some m -> exists lc, nth_error rows i = Some lc /\
          arch_eval E A (join ";" (map (fun k => nth k (sub_types A) EmptyString) best)) ac (o_wave o) z (Some (o_R o)) (Some lc) = Ok m) /\
      (chi2_of (concat (map o_flux os)) (mvec Tb c) (concat (map o_ivar os)) == misfit os (combine (map o_hash os) ms))%Q.
  Proof.
    intros H. rewrite dpso_eq in H. destruct (mapM (block nbt td 0) (map o_spec os)) as [bl|] eqn:Eb; [|discriminate]. cbn [rbind] in H.
    assert (HT : Tb = concat bl) by (destruct bl; [discriminate|congruence]). clear H.
    assert (G : exists ms, Forall2 (fun m B => Forall2 Qeq m (mvec B c)) ms bl /\ length ms = length os /\
      (forall i o m, nth_error os i = Some o -> nth_error ms i = Some m -> exists lc, nth_error rows i = Some lc /\
          arch_eval E A (join ";" (map (fun k => nth k (sub_types A) EmptyString) best)) ac (o_wave o) z (Some (o_R o)) (Some lc) = Ok m) /\
      Forall2 (fun o B => length (o_ivar o) = length B /\ length (o_flux o) = length B) os bl).
    { apply mapM_Forall2 in Eb. destruct Hos as [_ Hw]. revert Eb.
      assert (K : forall (os' : list obs) a bl, (forall i o, nth_error os' i = Some o -> nth_error os (a + i) = Some o) -> Forall2 (fun x y => block nbt td 0 x = Ok y) (map o_spec os') bl ->
        exists ms, Forall2 (fun m B => Forall2 Qeq m (mvec B c)) ms bl /\ length ms = length os' /\
        (forall i o m, nth_error os' i = Some o -> nth_error ms i = Some m -> exists lc, nth_error rows (a + i) = Some lc /\
          arch_eval E A (join ";" (map (fun k => nth k (sub_types A) EmptyString) best)) ac (o_wave o) z (Some (o_R o)) (Some lc) = Ok m) /\
        Forall2 (fun o B => length (o_ivar o) = length B /\ length (o_flux o) = length B) os' bl).
      { clear bl HT. induction os' as [|o os' IH]; intros a bl Hsub HF; cbn [map] in HF; inversion HF as [|? B ? Bs HB HF']; subst bl.
        - exists []. split; [constructor|]. split; [reflexivity|]. split; [intros [|i] ? ? H; discriminate H|constructor].
        - destruct (IH (S a) Bs) as (ms & I1 & I2 & I3 & I4); [intros i o' Ho; specialize (Hsub (S i) o' Ho); now rewrite Nat.add_succ_r in Hsub|exact HF'|].
          pose proof (Hsub 0%nat o eq_refl) as Ho0. rewrite Nat.add_0_r in Ho0. pose proof (nth_error_In _ _ Ho0) as Hin.
          destruct (Hfit a o Ho0) as (cols & L & M & lc & E1 & E2 & E3 & E4 & E5 & E6 & E7).
          destruct (eval_before E A (o_wave o) z cols (gn_len A HA) (Hly o Hin) E1 best ac lc L HA Hbest Hac Hbl) as (out & O1 & O2 & O3); [now rewrite E6|rewrite E6; now apply leg_array_len in E2|].
          unfold block in HB. cbn [o_spec s_hash s_R] in HB. rewrite E3 in HB. cbn [nth_error] in HB.
          pose proof (csr_comb (o_R o) nbt M out c) as HR. unfold mat, vec in *. rewrite HB in HR. destruct HR as (m & Em & HQ).
          + lia.
          + intros ll Hl. rewrite dotf_bigsum by exact Hc. rewrite E4 in Hl. rewrite (E7 ll Hl). rewrite (O3 ll Hl), E6. reflexivity.
          + exists (m :: ms). split; [constructor; assumption|]. split; [cbn [length]; lia|]. split.
            * intros [|i] o' m' Ho Hm; cbn [nth_error] in Ho, Hm.
              -- assert (o' = o) by congruence. assert (m' = m) by congruence. subst o' m'. rewrite Nat.add_0_r. exists lc. split; [exact E5|]. rewrite O2. exact Em.
              -- rewrite Nat.add_succ_r. exact (I3 i o' m' Ho Hm).
            * constructor; [|exact I4]. assert (HlB : length B = r_nrow (o_R o)).
              { unfold csr_dot in HB. destruct (_ =? _); [|discriminate]. injection HB as <-. now rewrite map_length, seq_length. }
              rewrite HlB. exact (Hw o Hin). }
      intros Eb. exact (K os 0%nat bl (fun i o H => H) Eb). }
    destruct G as (ms & G1 & G2 & G3 & G4). exists ms. split; [exact G2|]. split; [exact G3|].
    rewrite misfit_combine by (try exact (proj1 Hos); exact G2). rewrite HT. now apply chi2_concat.
  Qed.
End Core.
