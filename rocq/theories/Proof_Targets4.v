(* Cosmic-ray rejection on flat exposures. *)
From Verif Require Import Prelude PreludeFacts Facts2 Model_Fitz Proof_Fitz Proof_Table Model_Targets Spec_Targets
  Proof_Targets Proof_Targets2 Proof_Targets3.
Local Open Scope Q_scope.
Local Arguments Qred : simpl never.

Lemma np_interp_const c : forall xp fp x, fp <> [] -> Forall (fun f => f == c) fp -> np_interp xp fp x == c.
Proof.
  induction xp as [|x0 xp IH]; intros fp x Hne Hf.
  - destruct fp as [|f0 fp]; [contradiction|]. now inversion Hf.
  - destruct xp as [|x1 xp]; [destruct fp as [|f0 fp]; [contradiction|]; now inversion Hf|].
    destruct fp as [|f0 [|f1 fp]]; [contradiction|now inversion Hf|].
    inversion Hf as [|? ? H0 Hf']; subst. inversion Hf' as [|? ? H1 _]; subst.
    change (np_interp (x0 :: x1 :: xp) (f0 :: f1 :: fp) x) with
      (if Qle_bool x x0 then f0 else if qlt x x1 then Qred (f0 + (f1 - f0) / (x1 - x0) * (x - x0)) else np_interp (x1 :: xp) (f1 :: fp) x).
    destruct (Qle_bool x x0); [exact H0|]. destruct (qlt x x1).
    + pose proof (Qred_correct (f0 + (f1 - f0) / (x1 - x0) * (x - x0))) as HQ. rewrite HQ. unfold Qdiv.
      assert (E : f1 - f0 == 0) by lra. rewrite E. lra.
    + apply IH; [discriminate|exact Hf'].
Qed.
Lemma select_Forall (P : Q -> Prop) b l : Forall P l -> Forall P (select b l).
Proof.
  intros H. unfold select. apply Forall_map, Forall_forall. intros [x v] Hin. apply filter_In in Hin as [Hin _]. apply in_combine_r in Hin.
  now apply (proj1 (Forall_forall _ _) H).
Qed.
Lemma select_nonempty : forall b l, length b = length l -> existsb (fun x => x) b = true -> select b l <> [].
Proof.
  induction b as [|x b IH]; intros [|v l] Hl He; try discriminate. unfold select. cbn [combine filter fst].
  destruct x; [discriminate|]. apply IH; [now injection Hl|exact He].
Qed.
Lemma pairwise_const c : forall l, Forall (fun v => v == c) l -> forall x r, pairwise (fun b a => Qred (b - a)) l = x :: r -> Forall (fun v => v = 0) r.
Proof.
  intros [|x l] H y r E; [discriminate|]. cbn [pairwise] in E. injection E as <- <-. inversion H as [|? ? Hx Hl]; subst.
  revert x Hx H. induction Hl as [|v l Hv Hl IH]; intros x Hx H; [constructor|]. cbn [map2]. constructor.
  - change 0 with (Qred 0). apply Qred_complete. lra.
  - apply IH; [exact Hv|now inversion H].
Qed.
Definition flat (s : spec) : Prop := exists c, Forall (fun f => f == c) (sp_flux s).
Lemma flat_gradient wave s g v : flat s -> length (sp_flux s) = length (sp_ivar s) -> cosmic_gradient wave s = Ok (g, v) -> Forall (fun x => x = 0) g.
Proof.
  intros (c & Hc) Hl H. unfold cosmic_gradient in H.
  destruct (existsb (fun b => b) (map (fun v => qlt 0 v) (sp_ivar s))) eqn:Eg; [|discriminate].
  set (good := map (fun v => qlt 0 v) (sp_ivar s)) in *.
  assert (Hg : g = match pairwise (fun b a => Qred (b - a)) (map (fun p => if Qeq_bool (snd (fst p)) 0 then np_interp (select good wave) (select good (sp_flux s)) (snd p) else fst (fst p))
                         (combine (combine (sp_flux s) (sp_ivar s)) wave)) with [] => [] | _ :: r => 0 :: r end) by congruence.
  clear H. rewrite Hg. clear Hg.
  set (tf := map _ _).
  assert (Ht : Forall (fun v => v == c) tf).
  { unfold tf. apply Forall_map, Forall_forall. intros [[f iv] w] Hin. apply in_combine_l, in_combine_l in Hin. cbn [fst snd].
    destruct (Qeq_bool iv 0).
    - apply np_interp_const; [|now apply select_Forall]. apply select_nonempty; [unfold good; rewrite map_length; lia|exact Eg].
    - now apply (proj1 (Forall_forall _ _) Hc). }
  destruct (pairwise _ tf) as [|x r] eqn:E; constructor; [reflexivity|]. eapply pairwise_const; eassumption.
Qed.
Lemma zero_cell A k j : Forall (Forall (fun x => x = 0)) A -> cos_at A k j = 0.
Proof.
  intros H. unfold cos_at. destruct (nth_in_or_default k A []) as [Hin|E0]; [|rewrite E0; now destruct j].
  assert (Hr := proj1 (Forall_forall _ _) H _ Hin). destruct (nth_in_or_default j (nth k A []) 0) as [Hj|Hj]; [|exact Hj].
  now apply (proj1 (Forall_forall _ _) Hr).
Qed.
Lemma flat_mask nsig n gs ivar : Forall (fun g => Forall (fun x => x = 0) (fst g)) gs -> length gs = length ivar -> rect n ivar ->
  cosmic_mask nsig n gs ivar = ivar.
Proof.
  intros Hz Hl Hr.
  assert (Hz0 : forall k j, cos_at (map fst gs) k j = 0) by (intros; apply zero_cell, Forall_map, Hz).
  assert (Hm : forall j, cos_mean gs j = 0).
  { intros j. unfold cos_mean. change 0 with (Qred 0). apply Qred_complete.
    assert (E : sumQ (map (fun k => cos_at (cos_gi gs) k j * cos_at (map fst gs) k j) (seq 0 (length gs))) == 0).
    { apply (total_zero _ (seq 0 (length gs))). intros k _. rewrite Hz0. lra. }
    rewrite E. unfold Qdiv. lra. }
  assert (Hd : forall j k, cos_dev gs j k = 0).
  { intros j k. unfold cos_dev. rewrite Hz0, Hm. cbv zeta. transitivity (Qred 0); [apply Qred_complete; lra|reflexivity]. }
  assert (Hc : forall j, cos_chi2 gs j = 0).
  { intros j. unfold cos_chi2. change 0 with (Qred 0). apply Qred_complete.
    assert (E : sumQ (map (cos_dev gs j) (seq 0 (length gs))) == 0) by (apply (total_zero _ (seq 0 (length gs))); intros k _; rewrite Hd; lra).
    rewrite E. unfold Qdiv. lra. }
  assert (Hq : qlt (nsig * nsig) 0 = false). { apply qlt_false. assert (H := Qsq_nonneg nsig). lra. }
  unfold cosmic_mask. apply (nth_ext _ _ [] []); [now rewrite tab_length|]. intros k Hk. rewrite tab_length in Hk.
  rewrite nth_tab by exact Hk. apply (nth_ext _ _ 0 0).
  { rewrite tab_length. symmetry. apply (rect_nth n); [exact Hr|lia]. }
  intros j Hj. rewrite tab_length in Hj. rewrite nth_tab by exact Hj. rewrite Hc, Hq. reflexivity.
Qed.
Lemma flat_group hashf cache nsig g s : Forall (wf_spec hashf) g -> same_grid g -> Forall flat g ->
  coadd_group hashf cache nsig g = Ok s -> coadd_group hashf cache 0 g = Ok s.
Proof.
  intros Hw Hg Hf H. destruct g as [|s0 rest]; [discriminate|]. unfold coadd_group in *. remember (s0 :: rest) as g eqn:Eg.
  destruct (sp_R s0); [|discriminate]. destruct (scale_data _ _); [|discriminate]. cbn [rbind] in *. destruct (acc_R _ _ _); [|discriminate]. cbn [rbind] in *.
  change (qlt 0 0) with false. cbv iota.
  destruct (qlt 0 nsig); [|exact H].
  destruct (mapM (cosmic_gradient (sp_wave s0)) g) as [gs|] eqn:Em; [|discriminate]. cbn [rbind] in H.
  assert (E : (if (1 <? length gs)%nat then cosmic_mask nsig (length (sp_wave s0)) gs (map sp_ivar g) else map sp_ivar g) = map sp_ivar g).
  { destruct (1 <? length gs)%nat; [|reflexivity]. apply mapM_Forall2 in Em. apply flat_mask.
    - apply Forall_forall. intros [gg v] Hin. destruct (Forall2_in_r _ _ _ _ Em Hin) as (e & He & Hgr). cbn [fst].
      eapply flat_gradient; [apply (proj1 (Forall_forall _ _) Hf e He)| |exact Hgr].
      destruct (proj1 (Forall_forall _ _) Hw e He) as (A & B & _). congruence.
    - apply Forall2_len in Em. rewrite map_length. lia.
    - apply Forall_map, Forall_forall. intros e He. destruct (proj1 (Forall_forall _ _) Hw e He) as (_ & B & _).
      destruct (Hg e s0 He) as (Ew & _); [rewrite Eg; now left|]. congruence. }
  rewrite E in H. exact H.
Qed.
