(* Masks never change where flux and resolution rows go; lists of targets; order of models. *)
From Verif Require Import Prelude PreludeFacts Facts2 NumX Model_Dist Model_Zscan Model_IO Proof_IO2 Proof_IO3 Model_Desi Spec_Desi Proof_Desi Proof_Desi2.

Section Sim.
  Context {R : Type} (d0 : R) (nsig : Q).
  Definition sim (s s' : slot R) : Prop := s_wave s = s_wave s' /\ s_band s = s_band s' /\ s_flux s = s_flux s' /\ s_res s = s_res s'.
  Lemma sim_refl s : sim s s. Proof. repeat split. Qed.
  Lemma sim_trans a b c : sim a b -> sim b c -> sim a c.
  Proof. unfold sim. intros (A & B & C & D) (E & F & G & H). repeat split; congruence. Qed.
  Definition nomask (f : sfile R) : sfile R :=
    {| sf_ids := sf_ids f; sf_keep := sf_keep f; sf_bands := sf_bands f; sf_wave := sf_wave f; sf_flux := sf_flux f; sf_ivar := sf_ivar f; sf_mask := fun _ => None; sf_res := sf_res f |}.
  Lemma sim_set_slot k (s s' : slot R) ss ss' : sim s s' -> Forall2 sim ss ss' -> Forall2 sim (set_slot k s ss) (set_slot k s' ss').
  Proof.
    intros H1 H2. unfold set_slot. assert (Hf : forall n (a b : list (slot R)), Forall2 sim a b -> Forall2 sim (firstn n a) (firstn n b) /\ Forall2 sim (skipn n a) (skipn n b)).
    { induction n as [|n IH]; intros a b H; [split; [constructor|exact H]|]. destruct H; [split; constructor|]. cbn. destruct (IH _ _ H0). split; [constructor; assumption|assumption]. }
    apply Forall2_app; [apply Hf; exact H2|]. constructor; [exact H1|]. apply Hf. exact H2.
  Qed.
  Lemma assign_sim {X} (set : slot R -> X -> res (slot R)) hdata : (forall s s' x u, sim s s' -> set s x = Ok u -> exists u', set s' x = Ok u' /\ sim u u') ->
    forall trows k ss ss' r, Forall2 sim ss ss' -> assign set hdata trows k ss = Ok r -> exists r', assign set hdata trows k ss' = Ok r' /\ Forall2 sim (fst r) (fst r') /\ snd r = snd r'.
  Proof.
    intros Hs. induction trows as [|p ps IH]; intros k ss ss' r Hss H; cbn [assign] in *.
    - injection H as <-. exists (ss', k). auto.
    - destruct (nth_error hdata p) as [x|]; [|discriminate]. destruct (nth_error ss k) as [s|] eqn:E; [|discriminate].
      assert (exists s', nth_error ss' k = Some s' /\ sim s s') as (s' & E' & Hsim).
      { clear -Hss E. revert k E. induction Hss; intros k E; [destruct k; discriminate|]. destruct k; [injection E as <-; eexists; split; [reflexivity|assumption]|]. now apply IHHss. }
      rewrite E'. destruct (set s x) as [u|] eqn:Eu; [|discriminate]. destruct (Hs s s' x u Hsim Eu) as (u' & Eu' & Hu). rewrite Eu'. cbn [rbind] in *.
      apply (IH (S k) _ (set_slot k u' ss') r) in H; [exact H|]. now apply sim_set_slot.
  Qed.
  Lemma assign_absorb {X} (set : slot R -> X -> res (slot R)) hdata : (forall s x u, set s x = Ok u -> sim u s) ->
    forall trows k ss ss' r, Forall2 sim ss ss' -> assign set hdata trows k ss = Ok r -> Forall2 sim (fst r) ss'.
  Proof.
    intros Hs. induction trows as [|p ps IH]; intros k ss ss' r Hss H; cbn [assign] in *.
    - injection H as <-. exact Hss.
    - destruct (nth_error hdata p) as [x|]; [|discriminate]. destruct (nth_error ss k) as [s|] eqn:E; [|discriminate]. destruct (set s x) as [u|] eqn:Eu; [|discriminate]. cbn [rbind] in H.
      apply (IH (S k) _ ss' r) in H; [exact H|].
      assert (exists s', nth_error ss' k = Some s' /\ sim s s') as (s' & E' & Hsim).
      { clear -Hss E. revert k E. induction Hss; intros k E; [destruct k; discriminate|]. destruct k; [injection E as <-; eexists; split; [reflexivity|assumption]|]. now apply IHHss. }
      replace ss' with (set_slot k s' ss'); [apply sim_set_slot; [|exact Hss]; eapply sim_trans; [exact (Hs s x u Eu)|exact Hsim]|].
      clear -E'. unfold set_slot. revert ss' E'. induction k as [|k IH]; intros [|a l] E; try discriminate; [now injection E as <-|]. cbn in *. f_equal. now apply IH.
  Qed.
  Definition st_sim (a b : tst R) : Prop := Forall2 sim (t_slots a) (t_slots b) /\ t_cf a = t_cf b /\ t_ci a = t_ci b /\ t_cr a = t_cr b.
  Lemma band_sim f b t a a' r : st_sim a a' -> band_step nsig f b t a = Ok r -> exists r', band_step nsig (nomask f) b t a' = Ok r' /\ st_sim r r'.
  Proof.
    intros (H1 & H2 & H3 & H4) H. unfold band_step in *. change (spec_keep (nomask f)) with (spec_keep f). change (sf_flux (nomask f) b) with (sf_flux f b). change (sf_ivar (nomask f) b) with (sf_ivar f b).
    change (target_specs (nomask f) t) with (target_specs f t). change (sf_mask (nomask f) b) with (@None (list (list Z))). change (sf_res (nomask f) b) with (sf_res f b). rewrite <- H2, <- H3, <- H4.
    destruct (take (spec_keep f) (sf_flux f b)) as [fl|]; [|discriminate]. cbn [rbind] in *. destruct (take (spec_keep f) (sf_ivar f b)) as [iv|]; [|discriminate]. cbn [rbind] in *.
    destruct (target_specs f t) as [tr|]; [|injection H as <-; exists a'; split; [reflexivity|repeat split; assumption]].
    destruct (assign set_flux _ tr (t_cf a) (t_slots a)) as [r1|] eqn:E1; [|discriminate]. cbn [rbind] in H.
    destruct (assign_sim set_flux _ ltac:(intros s s' x u (A & B & C & D) E; injection E as <-; eexists; split; [reflexivity|repeat split; assumption]) _ _ _ _ _ H1 E1) as (r1' & E1' & S1 & K1). rewrite E1'. cbn [rbind].
    destruct (assign (set_ivar nsig) _ tr (t_ci a) (fst r1)) as [r2|] eqn:E2; [|discriminate]. cbn [rbind] in H.
    assert (Hsi : forall s s' x u, sim s s' -> set_ivar nsig s x = Ok u -> exists u', set_ivar nsig s' x = Ok u' /\ sim u u').
    { intros s s' x u (A & B & C & D) E. unfold set_ivar in *. rewrite <- C. destruct (s_flux s) as [q|] eqn:Eq; [|discriminate]. destruct (length q =? length x); [|discriminate]. injection E as <-. eexists. split; [reflexivity|]. repeat split; assumption. }
    destruct (assign_sim (set_ivar nsig) _ Hsi _ _ _ _ _ S1 E2) as (r2' & E2' & S2 & K2). rewrite E2'. cbn [rbind fst snd].
    destruct (match sf_mask f b with None => Ok (fst r2, t_cm a) | Some md => _ end) as [r3|] eqn:E3; [|discriminate]. cbn [rbind] in H.
    assert (S3 : Forall2 sim (fst r3) (fst r2')).
    { destruct (sf_mask f b) as [md|]; [|injection E3 as <-; exact S2]. destruct (take (spec_keep f) md) as [mk|]; [|discriminate]. cbn [rbind] in E3.
      eapply (assign_absorb set_mask); [|exact S2|exact E3]. intros s x u E. unfold set_mask in E. destruct (s_ivar s) as [q|]; [|discriminate]. destruct (length q =? length x); [|discriminate]. injection E as <-. repeat split. }
    destruct (take (spec_keep f) (sf_res f b)) as [rd|]; [|discriminate]. cbn [rbind] in *.
    destruct (assign set_res rd tr (t_cr a) (fst r3)) as [r4|] eqn:E4; [|discriminate]. cbn [rbind] in H.
    destruct (assign_sim set_res _ ltac:(intros s s' x u (A & B & C & D) E; injection E as <-; eexists; split; [reflexivity|repeat split; assumption]) _ _ _ _ _ S3 E4) as (r4' & E4' & S4 & K4). rewrite E4'. cbn [rbind].
    injection H as <-. eexists. split; [reflexivity|]. unfold st_sim. cbn [t_slots t_cf t_ci t_cr]. auto.
  Qed.
  Lemma foldM_sim {A} (g g' : tst R -> A -> res (tst R)) : (forall x a a' r, st_sim a a' -> g a x = Ok r -> exists r', g' a' x = Ok r' /\ st_sim r r') ->
    forall l a a' r, st_sim a a' -> foldM g l a = Ok r -> exists r', foldM g' l a' = Ok r' /\ st_sim r r'.
  Proof.
    intros Hg. induction l as [|x l IH]; intros a a' r Hs H; cbn [foldM] in *; [injection H as <-; eauto|].
    destruct (g a x) as [b|] eqn:E; [|discriminate]. cbn [rbind] in H. destruct (Hg x a a' b Hs E) as (b' & E' & Hb). rewrite E'. cbn [rbind]. eapply IH; eassumption.
  Qed.
  Lemma load_sim files t st : load_target nsig files t = Ok st -> exists st', load_target nsig (map nomask files) t = Ok st' /\ st_sim st st'.
  Proof.
    unfold load_target. assert (Ei : init_target (map nomask files) t = init_target files t) by (unfold init_target; now rewrite map_map). rewrite Ei.
    assert (Hs : st_sim (init_target files t) (init_target files t)). { repeat split. induction (t_slots (init_target files t)); constructor; [apply sim_refl|assumption]. }
    revert Hs. generalize (init_target files t) at 1 3 as a. generalize (init_target files t) as a'. induction files as [|f files IH]; intros a' a Hs H; cbn [foldM map] in *; [injection H as <-; eauto|].
    destruct (file_step nsig t a f) as [b|] eqn:E; [|discriminate]. cbn [rbind] in H.
    assert (exists b', file_step nsig t a' (nomask f) = Ok b' /\ st_sim b b') as (b' & E' & Hb).
    { unfold file_step in *. change (spec_keep (nomask f)) with (spec_keep f). destruct (spec_keep f); [injection E as <-; eauto|]. change (sf_bands (nomask f)) with (sf_bands f).
      eapply (foldM_sim (fun st b => band_step nsig f b t st) (fun st b => band_step nsig (nomask f) b t st)); [|exact Hs|exact E]. intros x u u' r Hu Hr. eapply band_sim; eassumption. }
    rewrite E'. cbn [rbind]. apply (IH ltac:(unfold init_target; now rewrite map_map) b' b Hb H).
  Qed.
  Lemma load_any files t st : (forall f, In f files -> table_ok f) -> load_target nsig files t = Ok st -> Forall2 sim (t_slots st) (concat (map (expect_file d0 nsig t) files)).
  Proof.
    intros Ht H. destruct (load_sim files t st H) as (st' & E & (S & _)).
    rewrite (load_ok d0 nsig (map nomask files) t false) in E.
    - assert (st' = st_at (concat (map (expect_file d0 nsig t) (map nomask files))) [] false) by congruence. subst st'. unfold st_at in S. cbn [t_slots] in S. rewrite app_nil_r in S.
      assert (G : Forall2 sim (concat (map (expect_file d0 nsig t) (map nomask files))) (concat (map (expect_file d0 nsig t) files))).
      { clear. induction files as [|f files IH]; [constructor|]. cbn [map concat]. apply Forall2_app; [|exact IH]. unfold expect_file. change (sf_bands (nomask f)) with (sf_bands f). induction (sf_bands f) as [|b bs IHb]; [constructor|]. cbn [map concat]. apply Forall2_app; [|exact IHb].
        unfold expect. change (sf_keep (nomask f)) with (sf_keep f). change (rows_t (nomask f) t) with (rows_t f t). destruct (zmem t (sf_keep f)); [|constructor]. induction (rows_t f t); [constructor|]. cbn [map]. constructor; [repeat split|assumption]. }
      clear -S G. revert S G. generalize (concat (map (expect_file d0 nsig t) (map nomask files))) as m, (concat (map (expect_file d0 nsig t) files)) as r. intros m r S. revert r. induction S; intros r G; inversion G; subst; constructor; [eapply sim_trans; eassumption|]. now apply IHS.
    - intros f Hf. apply in_map_iff in Hf as (f' & <- & Hf'). intros b Hb. destruct (Ht f' Hf' b Hb) as (A & B & C & _ & F & _). cbn. repeat split; auto; discriminate.
    - intros f b Hf _. apply in_map_iff in Hf as (f' & <- & _). cbn. split; intros H0; congruence.
  Qed.
End Sim.
