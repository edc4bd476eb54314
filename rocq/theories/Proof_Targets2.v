(* The coadd of one group of exposures. *)
From Verif Require Import Prelude PreludeFacts Facts2 Model_Fitz Proof_Fitz Proof_Table Model_Targets Spec_Targets Proof_Targets.
Local Open Scope Q_scope.

Lemma total_as_seq {A} (l : list A) (d : A) f : total l f = total (seq 0 (length l)) (fun k => f (nth k l d)).
Proof. rewrite (list_as_tab l d) at 1. apply total_map. Qed.
Lemma entry_cells R i j : length (d_off R) = length (d_data R) ->
  entry R i j = total (seq 0 (length (d_off R))) (fun k => if (Z.of_nat j - Z.of_nat i =? nth k (d_off R) 0)%Z then cell (d_data R) k j else 0).
Proof.
  intros H. unfold entry. rewrite (total_as_seq _ (0%Z, [])). rewrite combine_length, <- H, Nat.min_id. unfold total. f_equal. apply map_ext_in.
  intros k Hk. rewrite combine_nth by exact H. reflexivity.
Qed.
Lemma enum_length {A} (l : list A) : length (enum l) = length l.
Proof. rewrite <- (map_length snd). f_equal. apply enum_from_snd. Qed.
Lemma total_enum {A} (l : list A) d f : total (enum l) f = total (seq 0 (length l)) (fun k => f (k, nth k l d)).
Proof.
  rewrite (total_as_seq _ (O, d)), enum_length. unfold total. f_equal. apply map_ext_in. intros k Hk. apply in_seq in Hk.
  rewrite enum_nth by lia. reflexivity.
Qed.

Lemma px_map f l p : (p < length l)%nat -> px (map f l) p = f (px l p).
Proof. intros H. unfold px. rewrite (nth_indep _ 0 (f 0)) by now rewrite map_length. apply map_nth. Qed.

(* at most one exposure is dropped at a pixel, the others keep their weight *)
Definition at_most_one_dropped (g : list spec) (n : nat) (kept : list (list Q)) : Prop :=
  length kept = length g /\ rect n kept /\
  forall p, (p < n)%nat -> exists k0, forall k, (k < length g)%nat ->
    (k <> k0 -> cell kept k p = cell (map sp_ivar g) k p) /\
    (cell kept k p = cell (map sp_ivar g) k p \/ cell kept k p = 0).
Lemma cosmic_mask_kept nsig n g gs : length gs = length g -> at_most_one_dropped g n (cosmic_mask nsig n gs (map sp_ivar g)).
Proof.
  intros Hl. unfold cosmic_mask. split; [now rewrite tab_length|]. split.
  - apply Forall_map, Forall_forall. intros k _. apply tab_length.
  - intros p Hp. exists (argmax (map (cos_dev gs p) (seq 0 (length gs)))). intros k Hk. rewrite <- Hl in Hk.
    unfold cell at 1 3 5. rewrite (nth_tab _ _ _ _ Hk), (nth_tab _ _ _ _ Hp).
    destruct (qlt (nsig * nsig) (cos_chi2 gs p)); cbn [andb]; [|split; [reflexivity|now left]].
    destruct (Nat.eqb_spec (argmax (map (cos_dev gs p) (seq 0 (length gs)))) k) as [E|E]; [split; [congruence|now right]|split; [reflexivity|now left]].
Qed.

Definition weight (kept : list (list Q)) (g : list spec) (p : nat) : Q := total (seq 0 (length g)) (fun k => cell kept k p).
Lemma weight_total kept g p : length kept = length g -> weight kept g p = total kept (fun r => px r p).
Proof. intros H. unfold weight. rewrite (total_as_seq kept []). rewrite H. reflexivity. Qed.

Definition same_grid (g : list spec) : Prop := forall s s', In s g -> In s' g ->
  sp_wave s = sp_wave s' /\ d_off (Rof s) = d_off (Rof s') /\ sp_hash s = sp_hash s'.

Lemma wf_wfR hashf s : wf_spec hashf s -> wfR (length (sp_wave s)) s.
Proof. intros (_ & _ & H & _). exact H. Qed.

Lemma coadd_group_spec hashf cache nsig g s : Forall (wf_spec hashf) g -> same_grid g ->
  coadd_group hashf cache nsig g = Ok s ->
  exists kept, at_most_one_dropped g (length (sp_wave s)) kept /\ (nsig <= 0 -> kept = map sp_ivar g) /\
    (length g = 1%nat -> kept = map sp_ivar g) /\
    is_coadd g kept s /\ wf_spec hashf s /\ (forall e, In e g -> sp_hash e = sp_hash s /\ d_off (Rof e) = d_off (Rof s) /\ sp_band e = sp_band s) /\
    (forall j, (j < length (sp_wave s))%nat -> forall i, entry (Rof s) i j * (if Qeq_bool (weight kept g j) 0 then 1 else weight kept g j)
        == total g (fun e => entry (Rof e) i j * px (sp_ivar e) j)) /\ canon (d_data (Rof s)) /\
    (forall e, In e g -> length (d_data (Rof e)) = length (d_data (Rof s))) /\
    (forall k j, (j < length (sp_wave s))%nat -> cell (d_data (Rof s)) k j * (if Qeq_bool (weight kept g j) 0 then 1 else weight kept g j)
        == total g (fun e => cell (d_data (Rof e)) k j * px (sp_ivar e) j)) /\
    (forall p, (p < length (sp_wave s))%nat -> px (sp_flux s) p = Qred (px (sp_flux s) p) /\ px (sp_ivar s) p = Qred (px (sp_ivar s) p)) /\
    sp_Rcsr s = (if cache then sp_R s else None) /\
    (0 < nsig -> (1 < length g)%nat -> exists gs, mapM (cosmic_gradient (sp_wave s)) g = Ok gs /\ kept = cosmic_mask nsig (length (sp_wave s)) gs (map sp_ivar g)).
Proof.
  intros Hwf Hsg H. destruct g as [|s0 rest]; [discriminate|]. unfold coadd_group in H.
  remember (s0 :: rest) as g eqn:Eg.
  assert (H0 : In s0 g) by (rewrite Eg; now left).
  set (n := length (sp_wave s0)) in *.
  assert (HR : Forall (wfR n) g).
  { apply Forall_forall. intros e He. destruct (Hsg e s0 He H0) as (Ew & _). pose proof (wf_wfR _ _ (proj1 (Forall_forall _ _) Hwf e He)) as Hx.
    rewrite Ew in Hx. exact Hx. }
  destruct (wfR_Rof _ _ (proj1 (Forall_forall _ _) HR s0 H0)) as (ER0 & Hwd0 & Hdn0).
  assert (HRr : Forall (wfR n) rest) by (rewrite Eg in HR; now inversion HR).
  rewrite ER0 in H.
  destruct (scale_data (Rof s0) (sp_ivar s0)) as [Rd0|] eqn:E0; [|discriminate]. cbn [rbind] in H.
  destruct (scale_data_spec _ _ _ Hwd0 E0) as (Hl0 & Hn0 & Hr0 & Hc0 & Hv0). rewrite Hdn0 in Hr0.
  destruct (acc_R n Rd0 rest) as [Rd|] eqn:E1; [|discriminate]. cbn [rbind] in H.
  destruct (acc_R_spec n rest Rd0 Rd Hr0 Hc0 HRr E1) as (Hn1 & Hr1 & Hc1 & Hd1 & Hv1).
  set (ivm := if qlt 0 nsig then _ else _) in H.
  destruct ivm as [kept|] eqn:Ek; [|discriminate]. cbn [rbind] in H.
  assert (Hkept : at_most_one_dropped g n kept /\ (nsig <= 0 -> kept = map sp_ivar g) /\ (length g = 1%nat -> kept = map sp_ivar g)).
  { assert (Hid : at_most_one_dropped g n (map sp_ivar g)).
    { split; [apply map_length|]. split; [|intros p _; exists O; intros k _; split; [reflexivity|now left]].
      apply Forall_map. apply Forall_forall. intros e He. destruct (Hsg e s0 He H0) as (Ew & _).
      destruct (proj1 (Forall_forall _ _) Hwf e He) as (_ & Hiv & _). rewrite Hiv, Ew. reflexivity. }
    unfold ivm in Ek. destruct (qlt 0 nsig) eqn:Eq.
    - destruct (mapM (cosmic_gradient (sp_wave s0)) g) as [gs|] eqn:Em; [|discriminate]. cbn [rbind] in Ek. injection Ek as <-.
      assert (Hlg : length gs = length g) by (apply mapM_Forall2, Forall2_len in Em; lia). split; [|split].
      + destruct (1 <? length gs)%nat; [now apply cosmic_mask_kept|exact Hid].
      + intros Hle. apply qlt_iff in Eq. lra.
      + intros H1. rewrite Hlg, H1. reflexivity.
    - injection Ek as <-. split; [exact Hid|]. split; reflexivity. }
  assert (Hcos : 0 < nsig -> (1 < length g)%nat -> exists gs, mapM (cosmic_gradient (sp_wave s0)) g = Ok gs /\ kept = cosmic_mask nsig n gs (map sp_ivar g)).
  { intros Hn H1. unfold ivm in Ek. assert (qlt 0 nsig = true) as Eq by now apply qlt_iff. rewrite Eq in Ek.
    destruct (mapM (cosmic_gradient (sp_wave s0)) g) as [gs|] eqn:Em; [|discriminate]. cbn [rbind] in Ek. injection Ek as <-. exists gs. split; [reflexivity|].
    assert (Hlg : length gs = length g) by (apply mapM_Forall2, Forall2_len in Em; lia). rewrite Hlg. apply Nat.ltb_lt in H1. now rewrite H1. }
  clearbody ivm. destruct Hkept as (Hkept & Hks & Hk1).
  destruct (negb (forallb (fun f => (length f =? n)%nat) (map sp_flux g ++ map sp_ivar g))) eqn:Erect; [discriminate|].
  apply negb_false_iff in Erect. rewrite forallb_app in Erect. apply andb_true_iff in Erect as [Ef Ei].
  set (W := sum0 n kept) in *.
  set (wb := map (fun w => if Qeq_bool w 0 then 1 else w) W) in *.
  set (fl := map (fun j => if Qeq_bool (nth j W 0) 0 then _ else _) (seq 0 n)) in *.
  set (R := {| d_off := d_off (Rof s0); d_data := _; d_n := _ |}) in *.
  unfold spectrum_init in H.
  destruct (mask_lowres (Some R) W) as [iv|] eqn:Em; [|discriminate]. cbn [rbind] in H.
  destruct (wavehash hashf (sp_wave s0) (Some R) (sp_band (last g s0))) as [h|] eqn:Eh; [|discriminate]. cbn [rbind fst] in H.
  assert (Es : s = {| sp_wave := sp_wave s0; sp_flux := fl; sp_ivar := iv; sp_R := Some R; sp_Rcsr := if cache then Some R else None; sp_band := sp_band (last g s0); sp_hash := h |}) by congruence.
  clear H. subst s.
  destruct Hkept as (Hkl & Hkr & Hko).
  assert (HW : forall p, (p < n)%nat -> px W p = Qred (weight kept g p)).
  { intros p Hp. unfold W. rewrite sum0_px by exact Hp. now rewrite weight_total. }
  assert (HWl : length W = n) by apply sum0_length.
  assert (Hwbl : length wb = n) by (unfold wb; rewrite map_length; exact HWl).
  assert (Hwb : forall p, (p < n)%nat -> px wb p == if Qeq_bool (weight kept g p) 0 then 1 else weight kept g p).
  { intros p Hp. unfold wb. rewrite px_map by lia. rewrite HW by exact Hp.
    destruct (Qeq_bool (Qred (weight kept g p)) 0) eqn:A, (Qeq_bool (weight kept g p) 0) eqn:B; try reflexivity.
    - apply Qeq_bool_iff in A. pose proof (Qred_correct (weight kept g p)) as HQ. rewrite HQ in A. apply Qeq_bool_iff in A. congruence.
    - apply Qeq_bool_iff in B. pose proof (Qred_correct (weight kept g p)) as HQ. rewrite <- HQ in B. apply Qeq_bool_iff in B. congruence.
    - apply Qred_correct. }
  assert (Hwb0 : forall p, (p < n)%nat -> ~ px wb p == 0).
  { intros p Hp. rewrite Hwb by exact Hp. destruct (Qeq_bool (weight kept g p) 0) eqn:B; [lra|]. now apply Qeq_bool_neq. }
  assert (HRrect : rect n (d_data R)).
  { unfold R. cbn [d_data]. apply Forall_map. eapply Forall_impl; [|exact Hr1]. cbn. intros r Hr. rewrite map2_length. lia. }
  assert (HRlen : length (d_data R) = length (d_data (Rof s0))) by (unfold R; cbn [d_data]; rewrite map_length; lia).
  assert (HRv : forall k j, (k < length (d_data R))%nat -> (j < n)%nat -> cell (d_data R) k j = Qred (cell Rd k j / px wb j)).
  { intros k j Hk Hj. assert (Hk' : (k < length Rd)%nat) by lia. unfold R, cell at 1. cbn [d_data]. rewrite (nth_map_row _ _ _ []) by exact Hk'.
    rewrite (map2_nth _ 0 0 0); [reflexivity| |lia]. rewrite (rect_nth n); assumption. }
  assert (HwdR : wf_dia R).
  { destruct Hwd0 as (A & B & C). split; [|split]; [|exact B|].
    - rewrite HRlen. exact A.
    - eapply Forall_impl; [|exact HRrect]. cbn beta. intros r Hr. rewrite Hr. symmetry. exact Hdn0. }
  assert (Hcell : forall k j, cell Rd k j == total g (fun e => cell (d_data (Rof e)) k j * px (sp_ivar e) j)).
  { intros k j. rewrite Hv1, Hv0, Eg, total_cons. reflexivity. }
  assert (Hfl : forall p, (p < n)%nat -> px fl p = if Qeq_bool (px W p) 0 then Qred (px (sum0 n (map sp_flux g)) p / (Z.of_nat (length g) # 1))
                                      else Qred (px (sum0 n (map2 (map2 Qmult) kept (map sp_flux g))) p / nth p wb 1)).
  { intros p Hp. unfold px at 1, fl. rewrite nth_tab by exact Hp. reflexivity. }
  assert (Hbands : forall e, In e g -> sp_band e = sp_band (last g s0)).
  { intros e He. assert (Hlast : In (last g s0) g).
    { destruct (exists_last (l := g)) as (l' & a & El). { rewrite Eg. discriminate. } rewrite El, last_last. apply in_or_app. right. now left. }
    destruct (proj1 (Forall_forall _ _) Hwf e He) as (_ & _ & _ & Hh1). destruct (proj1 (Forall_forall _ _) Hwf _ Hlast) as (_ & _ & _ & Hh2).
    destruct (Hsg e _ He Hlast) as (_ & _ & Hheq). unfold wavehash in Hh1, Hh2.
    destruct (sp_band e) as [b1|], (sp_band (last g s0)) as [b2|].
    - injection Hh1 as Hh1. injection Hh2 as Hh2. congruence.
    - exfalso. destruct (_ <? 2)%nat; [discriminate|]. injection Hh1 as Hh1. injection Hh2 as Hh2. rewrite <- Hh1, <- Hh2 in Hheq. discriminate.
    - exfalso. destruct (_ <? 2)%nat; [discriminate|]. injection Hh1 as Hh1. injection Hh2 as Hh2. rewrite <- Hh1, <- Hh2 in Hheq. discriminate.
    - reflexivity. }
  assert (Hhs : h = sp_hash s0).
  { destruct (proj1 (Forall_forall _ _) Hwf s0 H0) as (_ & _ & _ & Hh1). rewrite <- (Hbands s0 H0) in Eh.
    rewrite ER0 in Hh1. unfold wavehash in Hh1, Eh. destruct (sp_band s0); [congruence|]. destruct (_ <? 2)%nat; [discriminate|].
    rewrite HRlen in Eh. congruence. }
  exists kept. cbn [sp_wave sp_flux sp_ivar sp_R sp_Rcsr sp_band sp_hash].
  change (length (sp_wave s0)) with n.
  destruct (mask_at R W iv O Em) as (Hivl & HWd & _).
  split; [exact (conj Hkl (conj Hkr Hko))|]. split; [exact Hks|]. split; [exact Hk1|]. split; [|split; [|split; [|split; [|split; [|split; [|split; [|split; [|split; [|exact Hcos]]]]]]]]].
  - (* is_coadd *)
    unfold is_coadd. cbn [sp_wave sp_flux sp_ivar]. unfold Rof. cbn [sp_R]. change (length (sp_wave s0)) with n.
    split; [intros e He; apply (Hsg e s0 He H0)|]. split; [apply tab_length|]. split; [lia|]. split; [exact HwdR|]. split; [exact Hdn0|].
    intros p Hp. destruct (mask_at R W iv p Em) as (_ & _ & Hm). destruct (Hm ltac:(lia)) as [Hm1 Hm2].
    fold (weight kept g p). split; [exact Hm1|]. split; [intros Hlow; rewrite Hm2 by exact Hlow; rewrite HW by exact Hp; apply Qred_correct|].
    assert (EW : px W p == weight kept g p) by (rewrite HW by exact Hp; apply Qred_correct).
    split; intros HW0; rewrite Hfl by exact Hp.
    + destruct (Qeq_bool (px W p) 0) eqn:B; [apply Qeq_bool_iff in B; exfalso; apply HW0; lra|].
      assert (E : px (sum0 n (map2 (map2 Qmult) kept (map sp_flux g))) p == total (enum g) (fun ke => cell kept (fst ke) p * px (sp_flux (snd ke)) p)).
      { rewrite sum0_px by exact Hp. pose proof Qred_correct as HQ. rewrite HQ. rewrite (total_enum g s0). cbn [fst snd].
        rewrite (total_as_seq _ []). rewrite map2_length, Hkl, map_length, Nat.min_id. apply total_ext. intros k Hk. apply in_seq in Hk.
        unfold px. rewrite (map2_nth _ [] [] []) by (rewrite ?map_length; lia). rewrite (map2_nth _ 0 0 0).
        - unfold cell. rewrite (nth_map_row _ _ _ s0) by lia. reflexivity.
        - rewrite (rect_nth n); [exact Hp|exact Hkr|lia].
        - rewrite (nth_map_row _ _ _ s0) by lia. rewrite forallb_forall in Ef. apply Nat.lt_le_trans with n; [exact Hp|].
          apply Nat.eq_le_incl. symmetry. apply Nat.eqb_eq, Ef. apply in_map, nth_In. lia. }
      pose proof (Qred_correct (px (sum0 n (map2 (map2 Qmult) kept (map sp_flux g))) p / nth p wb 1)) as HQ. rewrite HQ.
      rewrite (nth_indep wb 1 0) by lia. change (nth p wb 0) with (px wb p). rewrite E, Hwb by exact Hp.
      destruct (Qeq_bool (weight kept g p) 0) eqn:B2; [apply Qeq_bool_iff in B2; contradiction|]. field. exact HW0.
    + destruct (Qeq_bool (px W p) 0) eqn:B; [|apply Qeq_bool_neq in B; exfalso; apply B; lra].
      pose proof (Qred_correct (px (sum0 n (map sp_flux g)) p / (Z.of_nat (length g) # 1))) as HQ. rewrite HQ. rewrite sum0_px by exact Hp.
      pose proof (Qred_correct (total (map sp_flux g) (fun r => px r p))) as HQ2. rewrite HQ2, total_map. unfold inject_Z. field.
      rewrite Eg. cbn [length]. intros E. unfold Qeq in E. cbn in E. lia.
  - (* wf_spec *)
    unfold wf_spec. cbn [sp_wave sp_flux sp_ivar sp_R sp_band sp_hash]. split; [apply tab_length|]. split; [fold n; lia|].
    split; [exists R; split; [reflexivity|]; split; [exact HwdR|exact Hdn0]|exact Eh].
  - intros e He. destruct (Hsg e s0 He H0) as (_ & A & B). split; [congruence|]. split; [unfold Rof at 2; cbn [sp_R]; unfold R; cbn [d_off]; exact A|now apply Hbands].
  - intros j Hj i. unfold Rof at 1. cbn [sp_R]. destruct HwdR as (A & _ & _). rewrite entry_cells by exact A. rewrite <- total_scale.
    assert (E : forall e, In e g -> entry (Rof e) i j * px (sp_ivar e) j == total (seq 0 (length (d_off R))) (fun k =>
        if (Z.of_nat j - Z.of_nat i =? nth k (d_off R) 0)%Z then cell (d_data (Rof e)) k j * px (sp_ivar e) j else 0)).
    { intros e He. destruct (Hsg e s0 He H0) as (_ & Eo & _). destruct (wfR_Rof _ _ (proj1 (Forall_forall _ _) HR e He)) as (_ & (HA & _) & _).
      rewrite entry_cells by exact HA. rewrite <- total_scale. change (d_off R) with (d_off (Rof s0)). rewrite Eo.
      apply total_ext. intros k _. destruct (_ =? _)%Z; lra. }
    rewrite (total_ext _ _ _ E), total_swap. apply total_ext. intros k Hk. apply in_seq in Hk.
    destruct (Z.of_nat j - Z.of_nat i =? nth k (d_off R) 0)%Z; [|rewrite total_zero by (intros; reflexivity); lra].
    rewrite HRv by (lia || exact Hj). pose proof (Qred_correct (cell Rd k j / px wb j)) as HQ. rewrite HQ, Hcell. rewrite <- (Hwb j Hj).
    field. now apply Hwb0.
  - unfold Rof. cbn [sp_R]. intros k j. destruct (Nat.lt_ge_cases k (length (d_data R))) as [Hk|Hk]; [|rewrite cell_out_k by exact Hk; reflexivity].
    destruct (Nat.lt_ge_cases j n) as [Hj|Hj]; [|rewrite (cell_out_r _ _ _ _ HRrect Hj); reflexivity].
    rewrite HRv by assumption. symmetry. apply Qred_complete, Qred_correct.
  - intros e He. destruct (Hsg e s0 He H0) as (_ & Eo & _). destruct (wfR_Rof _ _ (proj1 (Forall_forall _ _) HR e He)) as (_ & (HA & _) & _).
    unfold Rof at 2. cbn [sp_R]. rewrite HRlen, <- HA, Eo. destruct Hwd0 as (HB & _). exact HB.
  - intros k j Hj. unfold Rof at 1. cbn [sp_R]. rewrite <- Hcell. destruct (Nat.lt_ge_cases k (length (d_data R))) as [Hk|Hk].
    + rewrite HRv by assumption. pose proof (Qred_correct (cell Rd k j / px wb j)) as HQ. rewrite HQ. rewrite <- (Hwb j Hj). field. now apply Hwb0.
    + rewrite !cell_out_k by lia. lra.
  - intros p Hp. split.
    + rewrite Hfl by exact Hp. destruct (Qeq_bool (px W p) 0); symmetry; apply Qred_complete, Qred_correct.
    + destruct (mask_at R W iv p Em) as (_ & _ & Hm). destruct (Hm ltac:(lia)) as [Hm1 Hm2].
      destruct (low_res_dec R p) as [Hl|Hl]; [rewrite Hm1 by exact Hl; reflexivity|]. rewrite Hm2 by exact Hl. rewrite HW by exact Hp.
      symmetry. apply Qred_complete, Qred_correct.
  - destruct cache; reflexivity.
Qed.

(* with consistent exposures the coadd without cosmic rejection succeeds *)
Lemma coadd_group_ok hashf cache nsig g : Forall (wf_spec hashf) g -> same_grid g -> g <> [] -> nsig <= 0 ->
  exists s, coadd_group hashf cache nsig g = Ok s.
Proof.
  intros Hwf Hsg Hne Hns. destruct g as [|s0 rest]; [contradiction|]. unfold coadd_group. remember (s0 :: rest) as g eqn:Eg.
  assert (H0 : In s0 g) by (rewrite Eg; now left).
  set (n := length (sp_wave s0)).
  assert (HR : Forall (wfR n) g).
  { apply Forall_forall. intros e He. destruct (Hsg e s0 He H0) as (Ew & _). pose proof (wf_wfR _ _ (proj1 (Forall_forall _ _) Hwf e He)) as Hx.
    rewrite Ew in Hx. exact Hx. }
  assert (Hlen : forall e, In e g -> length (sp_wave e) = n /\ length (sp_flux e) = n /\ length (sp_ivar e) = n /\ length (d_data (Rof e)) = length (d_data (Rof s0))).
  { intros e He. destruct (Hsg e s0 He H0) as (Ew & Eo & _). destruct (proj1 (Forall_forall _ _) Hwf e He) as (A & B & _).
    destruct (wfR_Rof _ _ (proj1 (Forall_forall _ _) HR e He)) as (_ & (C & _) & _).
    destruct (wfR_Rof _ _ (proj1 (Forall_forall _ _) HR s0 H0)) as (_ & (D & _) & _).
    rewrite A, B, Ew. repeat split. congruence. }
  destruct (wfR_Rof _ _ (proj1 (Forall_forall _ _) HR s0 H0)) as (ER0 & Hwd0 & Hdn0). rewrite ER0.
  assert (E0 : exists Rd0, scale_data (Rof s0) (sp_ivar s0) = Ok Rd0).
  { unfold scale_data. destruct (Hlen s0 H0) as (_ & _ & A & _). rewrite A, Hdn0, Nat.eqb_refl. eauto. }
  destruct E0 as (Rd0 & E0). rewrite E0. cbn [rbind].
  destruct (scale_data_spec _ _ _ Hwd0 E0) as (Hl0 & Hn0 & Hr0 & Hc0 & Hv0). rewrite Hdn0 in Hr0.
  destruct (acc_R_ok n rest Rd0 Hr0) as (Rd & E1).
  { rewrite Eg in HR. now inversion HR. }
  { apply Forall_forall. intros e He. destruct (Hlen e) as (A & B & C & D); [rewrite Eg; now right|]. rewrite Hn0. auto. }
  rewrite E1. cbn [rbind]. destruct (qlt 0 nsig) eqn:Eq; [apply qlt_iff in Eq; lra|]. cbn [rbind].
  assert (Erect : forallb (fun f => (length f =? n)%nat) (map sp_flux g ++ map sp_ivar g) = true).
  { rewrite forallb_app. apply andb_true_iff. split; apply forallb_forall; intros f Hf; apply in_map_iff in Hf as (e & <- & He); apply Nat.eqb_eq; apply (Hlen e He). }
  rewrite Erect. cbn [negb]. unfold spectrum_init, mask_lowres. cbn [d_n]. rewrite sum0_length, Hdn0, Nat.eqb_refl. cbn [rbind].
  assert (Hlast : In (last g s0) g).
  { destruct (exists_last (l := g)) as (l' & a & El). { rewrite Eg. discriminate. } rewrite El, last_last. apply in_or_app. right. now left. }
  destruct (proj1 (Forall_forall _ _) Hwf _ Hlast) as (_ & _ & _ & Hh). unfold wavehash in *.
  destruct (sp_band (last g s0)); [cbn [rbind fst]; eauto|].
  destruct (Hsg _ s0 Hlast H0) as (Ew & _). rewrite Ew in Hh. destruct (length (sp_wave s0) <? 2)%nat; [discriminate|]. cbn [rbind fst]. eauto.
Qed.
