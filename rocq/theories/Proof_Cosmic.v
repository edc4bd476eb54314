From Verif Require Import Prelude PreludeFacts Facts2 Model_Fitz Proof_Fitz Proof_Table Model_Targets Spec_Targets Proof_Targets Proof_Targets2 Proof_Targets3 Spec_Cosmic.
Local Open Scope Q_scope.
Local Arguments Qred : simpl never.
Lemma argmax_from_spec l : forall k best v, (best < k)%nat ->
  let r := argmax_from k best v l in
  (r = best /\ (forall i x, nth_error l i = Some x -> x <= v)) \/
  (exists i x, nth_error l i = Some x /\ r = (k + i)%nat /\ v < x /\ (forall j y, nth_error l j = Some y -> y <= x) /\ (forall j y, (j < i)%nat -> nth_error l j = Some y -> y < x)).
Proof.
  induction l as [|a l IH]; intros k best v Hb; cbn [argmax_from].
  - left. split; [reflexivity|]. intros [|i] x H; discriminate.
  - destruct (qlt v a) eqn:E.
    + apply qlt_iff in E. right. specialize (IH (S k) k a ltac:(lia)). cbn zeta in IH. destruct IH as [[-> H]|(i & x & H1 & -> & H3 & H4 & H5)].
      * exists O, a. split; [reflexivity|]. split; [lia|]. split; [exact E|]. split; [|intros j y Hj; lia].
        intros [|j] y Hy; cbn in Hy; [injection Hy as <-; lra|eauto].
      * exists (S i), x. split; [exact H1|]. split; [lia|]. split; [lra|]. split.
        -- intros [|j] y Hy; cbn in Hy; [injection Hy as <-; lra|eauto].
        -- intros [|j] y Hj Hy; cbn in Hy; [injection Hy as <-; lra|]. apply (H5 j); [lia|exact Hy].
    + apply qlt_false in E. specialize (IH (S k) best v ltac:(lia)). cbn zeta in IH. destruct IH as [[-> H]|(i & x & H1 & -> & H3 & H4 & H5)].
      * left. split; [reflexivity|]. intros [|j] y Hy; cbn in Hy; [injection Hy as <-; exact E|eauto].
      * right. exists (S i), x. split; [exact H1|]. split; [lia|]. split; [lra|]. split.
        -- intros [|j] y Hy; cbn in Hy; [injection Hy as <-; lra|eauto].
        -- intros [|j] y Hj Hy; cbn in Hy; [injection Hy as <-; lra|]. apply (H5 j); [lia|exact Hy].
Qed.
Lemma argmax_spec l : l <> [] -> exists x, nth_error l (argmax l) = Some x /\ (forall j y, nth_error l j = Some y -> y <= x) /\
  (forall j y, (j < argmax l)%nat -> nth_error l j = Some y -> y < x).
Proof.
  destruct l as [|a l]; [congruence|]. intros _. unfold argmax. pose proof (argmax_from_spec l 1 0 a ltac:(lia)) as H. cbn zeta in H.
  destruct H as [[-> H]|(i & x & H1 & -> & H3 & H4 & H5)].
  - exists a. split; [reflexivity|]. split; [|intros j y Hj; lia]. intros [|j] y Hy; cbn in Hy; [injection Hy as <-; lra|eauto].
  - exists x. split; [exact H1|]. split.
    + intros [|j] y Hy; cbn in Hy; [injection Hy as <-; lra|eauto].
    + intros [|j] y Hj Hy; cbn in Hy; [injection Hy as <-; lra|]. apply (H5 j); [lia|exact Hy].
Qed.
Lemma argmax_iff l k : (k < length l)%nat ->
  (argmax l = k <-> (forall y, In y l -> y <= nth k l 0) /\ (forall j, (j < k)%nat -> nth j l 0 < nth k l 0)).
Proof.
  intros Hk. assert (Hn : l <> []) by (intros ->; cbn in Hk; lia). destruct (argmax_spec l Hn) as (x & H1 & H2 & H3).
  assert (Ha : (argmax l < length l)%nat) by (eapply nth_error_Some_lt; exact H1). assert (Ex : nth (argmax l) l 0 = x) by (now apply nth_error_nth).
  split.
  - intros <-. rewrite Ex. split; [intros y Hy; apply In_nth_error in Hy as (j & Hj); eauto|].
    intros j Hj. apply (H3 j); [exact Hj|]. apply nth_error_nth'. lia.
  - intros [A B]. destruct (Nat.lt_trichotomy (argmax l) k) as [H|[H|H]]; [|exact H|].
    + exfalso. specialize (B _ H). rewrite Ex in B. pose proof (H2 k _ (nth_error_nth' l 0 Hk)). lra.
    + exfalso. pose proof (H3 k _ H (nth_error_nth' l 0 Hk)). pose proof (A x (nth_error_In _ _ H1)). lra.
Qed.

Definition unmasked (e : spec) : Prop := Forall (fun v => 0 < v) (sp_ivar e).
Lemma fill_id (g : list Q -> Q -> Q) : forall vals iv wave, length vals = length iv -> length iv = length wave -> Forall (fun v => 0 < v) iv ->
  map (fun p => if Qeq_bool (snd (fst p)) 0 then g vals (snd p) else fst (fst p)) (combine (combine vals iv) wave) = vals.
Proof.
  intros vals0 iv wave. generalize (g vals0) as h. intros h. revert vals0 iv wave.
  induction vals0 as [|v vals IH]; intros [|i iv] [|w wave] H1 H2 Hf; try discriminate; [reflexivity|]. cbn [combine map fst snd].
  inversion Hf as [|? ? Hi Hf']. destruct (Qeq_bool i 0) eqn:E; [apply Qeq_bool_iff in E; lra|]. f_equal. apply IH; [now injection H1|now injection H2|assumption].
Qed.
Lemma pairwise_nth op l p : (p < length l)%nat -> px (pairwise op l) p = match p with O => px l 0 | S q => op (px l p) (px l q) end.
Proof.
  destruct l as [|x r]; [cbn; lia|]. intros Hp. unfold pairwise. destruct p as [|q]; [reflexivity|]. unfold px. cbn [nth] in *. cbn [length] in Hp.
  rewrite (map2_nth _ 0 0 0); [reflexivity|lia|cbn [length]; lia].
Qed.
Lemma pairwise_length op l : length (pairwise op l) = length l.
Proof. destruct l as [|x r]; [reflexivity|]. cbn [pairwise length]. rewrite map2_length. cbn [length]. lia. Qed.
Lemma gradient_unmasked wave e g v : length (sp_flux e) = length wave -> length (sp_ivar e) = length wave -> unmasked e ->
  cosmic_gradient wave e = Ok (g, v) ->
  length g = length wave /\ length v = length wave /\ forall p, (p < length wave)%nat -> px g p == step e p /\ / px v p == step_weight e p.
Proof.
  intros Hf Hi Hu H. unfold cosmic_gradient in H. destruct (existsb _ _) eqn:Ex; [|discriminate].
  set (good := map (fun v => qlt 0 v) (sp_ivar e)) in *. cbv zeta in H.
  pose proof (fill_id (fun vals => np_interp (select good wave) (select good vals)) (sp_flux e) (sp_ivar e) wave ltac:(lia) Hi Hu) as F1. cbv beta in F1.
  pose proof (fill_id (fun vals => np_interp (select good wave) (select good vals)) (sp_ivar e) (sp_ivar e) wave eq_refl Hi Hu) as F2. cbv beta in F2.
  rewrite F1, F2 in H. clear F1 F2.
  set (mn := match filter _ _ with [] => _ | _ => _ end) in H.
  assert (F3 : map (fun v => if Qle_bool v 0 then mn else v) (sp_ivar e) = sp_ivar e).
  { rewrite <- (map_id (sp_ivar e)) at 2. apply map_ext_in. intros a Ha. pose proof (proj1 (Forall_forall _ _) Hu a Ha) as Hp. cbv beta in Hp. destruct (Qle_bool a 0) eqn:E; [apply Qle_bool_iff in E; lra|reflexivity]. }
  rewrite F3 in H. clear F3.
  set (tv := map (fun v => Qred (1 / v)) (sp_ivar e)) in H. assert (Htv : length tv = length wave) by (unfold tv; now rewrite map_length).
  assert (Hg : g = match pairwise (fun b a => Qred (b - a)) (sp_flux e) with [] => [] | _ :: r => 0 :: r end) by congruence.
  assert (Hv : v = pairwise (fun b a => Qred (b + a)) tv) by congruence. clear H.
  pose proof (pairwise_length (fun b a => Qred (b - a)) (sp_flux e)) as Hpl.
  split; [|split].
  - rewrite Hg. destruct (pairwise _ (sp_flux e)); cbn [length] in *; lia.
  - rewrite Hv, pairwise_length. exact Htv.
  - intros p Hp. assert (Htp : forall q, (q < length wave)%nat -> px tv q == / px (sp_ivar e) q).
    { intros q Hq. unfold tv. rewrite px_map by lia. pose proof (Qred_correct (1 / px (sp_ivar e) q)) as HQ. rewrite HQ. unfold Qdiv. apply Qmult_1_l. }
    split.
    + rewrite Hg. pose proof (pairwise_nth (fun b a => Qred (b - a)) (sp_flux e) p ltac:(lia)) as Hpn.
      destruct (pairwise _ (sp_flux e)) as [|a r]; [cbn [length] in Hpl; lia|]. destruct p as [|q]; [reflexivity|]. unfold px in Hpn |- *. cbn [nth] in *. rewrite Hpn. apply Qred_correct.
    + rewrite Hv, pairwise_nth by lia. unfold step_weight. apply Qinv_comp. destruct p as [|q]; [now apply Htp|].
      rewrite Qred_correct, !Htp by lia. reflexivity.
Qed.

Section Mask.
Variables (g : list spec) (wave : list Q) (gs : list (list Q * list Q)).
Hypothesis Hwf : forall e, In e g -> length (sp_flux e) = length wave /\ length (sp_ivar e) = length wave /\ unmasked e.
Hypothesis Hgs : mapM (cosmic_gradient wave) g = Ok gs.
Let n := length wave.
Lemma gs_len : length gs = length g.
Proof. apply mapM_Forall2, Forall2_len in Hgs. lia. Qed.
Lemma gs_at k e : nth_error g k = Some e -> exists gv, nth_error gs k = Some gv /\ length (fst gv) = n /\ length (snd gv) = n /\
  forall p, (p < n)%nat -> px (fst gv) p == step e p /\ / px (snd gv) p == step_weight e p.
Proof.
  intros Hk. assert (H := Hgs). apply mapM_Forall2 in H. destruct (nth_error_lt_ex gs k) as [gv Hg]; [rewrite gs_len; eapply nth_error_Some_lt; exact Hk|].
  exists gv. split; [exact Hg|]. destruct (Forall2_nth _ _ _ k e H Hk) as (gv2 & Hg2 & Hc). cbv beta in Hc. assert (gv2 = gv) as -> by congruence. destruct gv as [a b].
  destruct (Hwf e (nth_error_In _ _ Hk)) as (A & B & C). exact (gradient_unmasked wave e a b A B C Hc).
Qed.
Lemma gi_at k e p : nth_error g k = Some e -> (p < n)%nat -> cos_at (cos_gi gs) k p == step_weight e p /\ cos_at (map fst gs) k p == step e p.
Proof.
  intros Hk Hp. destruct (gs_at k e Hk) as (gv & Hg & L1 & L2 & H). destruct (H p Hp) as [H1 H2]. unfold cos_at, cos_gi.
  rewrite (nth_error_nth _ _ [] (map_nth_error _ _ _ Hg)). rewrite (nth_error_nth _ _ [] (map_nth_error _ _ _ Hg)). split; [|exact H1].
  change (px (map (fun v : Q => Qred (1 / v)) (snd gv)) p == step_weight e p). rewrite px_map by lia. rewrite Qred_correct, <- H2. unfold Qdiv. apply Qmult_1_l.
Qed.
Lemma over_g (f : nat -> Q) (h : spec -> Q) : (forall k e, nth_error g k = Some e -> f k == h e) -> sumQ (map f (seq 0 (length gs))) == total g h.
Proof.
  intros H. rewrite gs_len. destruct g as [|e0 r] eqn:Eg; [reflexivity|]. rewrite <- Eg in *. rewrite (total_as_seq g e0). apply total_ext. intros k Hk. apply in_seq in Hk.
  apply H. apply nth_error_nth'. lia.
Qed.
Lemma rows_total : forall l, length l = n -> forall h, (forall p, (p < n)%nat -> px l p == h p) -> sumQ l == total (seq 0 n) h.
Proof. intros l Hl h H. change (sumQ l) with (total [l] sumQ - 0 + 0) || idtac. rewrite <- (map_id l). change (total l (fun x => x) == total (seq 0 n) h). rewrite (total_as_seq l 0), Hl. apply total_ext. intros p Hp. apply in_seq in Hp. apply H. lia. Qed.
Lemma all_total : sumQ (map sumQ (cos_gi gs)) == total g (fun e => total (seq 0 n) (step_weight e)).
Proof.
  change (total (cos_gi gs) sumQ == total g (fun e => total (seq 0 n) (step_weight e))). rewrite (total_as_seq _ []).
  replace (length (cos_gi gs)) with (length gs) by (unfold cos_gi; now rewrite map_length). apply over_g. intros k e Hk.
  apply rows_total; [|intros p Hp; exact (proj1 (gi_at k e p Hk Hp))].
  destruct (gs_at k e Hk) as (gv & Hg & L1 & L2 & _). unfold cos_gi. rewrite (nth_error_nth _ _ [] (map_nth_error _ _ _ Hg)). now rewrite map_length.
Qed.
Lemma mean_eq p : (p < n)%nat -> cos_mean gs p == mean_step g n p.
Proof.
  intros Hp. unfold cos_mean, mean_step. rewrite Qred_correct. apply Qdiv_comp.
  - apply over_g. intros k e Hk. destruct (gi_at k e p Hk Hp) as [A B]. now rewrite A, B.
  - rewrite Qred_correct. apply all_total.
Qed.
Lemma dev_eq p k e : (p < n)%nat -> nth_error g k = Some e -> cos_dev gs p k == deviation g n p e.
Proof.
  intros Hp Hk. unfold cos_dev, deviation. destruct (gi_at k e p Hk Hp) as [A B]. pose proof (mean_eq p Hp) as M. cbv zeta. rewrite Qred_correct, A, B, M. reflexivity.
Qed.
Lemma scatter_eq p : (p < n)%nat -> (1 < length g)%nat -> cos_chi2 gs p == scatter g n p.
Proof.
  intros Hp H1. unfold cos_chi2, scatter. rewrite Qred_correct. apply Qdiv_comp; [apply over_g; intros k e Hk; now apply dev_eq|].
  rewrite gs_len. unfold inject_Z. rewrite Nat2Z.inj_sub by lia. reflexivity.
Qed.
Lemma mask_rejects nsig p k e : (p < n)%nat -> (1 < length g)%nat -> nth_error g k = Some e ->
  (rejected g n nsig p k -> cell (cosmic_mask nsig n gs (map sp_ivar g)) k p = 0) /\
  (~ rejected g n nsig p k -> cell (cosmic_mask nsig n gs (map sp_ivar g)) k p = px (sp_ivar e) p).
Proof.
  intros Hp H1 Hk. assert (Hkl : (k < length gs)%nat) by (rewrite gs_len; eapply nth_error_Some_lt; exact Hk).
  unfold cell at 1 2. unfold cosmic_mask. rewrite (nth_tab _ _ _ _ Hkl), (nth_tab _ _ _ _ Hp).
  assert (Hiv : cos_at (map sp_ivar g) k p = px (sp_ivar e) p) by (unfold cos_at; now rewrite (nth_error_nth _ _ [] (map_nth_error _ _ _ Hk))).
  rewrite Hiv. set (b := qlt (nsig * nsig) (cos_chi2 gs p) && (argmax (map (cos_dev gs p) (seq 0 (length gs))) =? k)%nat).
  assert (Hb : b = true <-> rejected g n nsig p k).
  { unfold b, rejected. rewrite andb_true_iff, qlt_iff, Nat.eqb_eq. rewrite argmax_iff by (now rewrite tab_length). pose proof (scatter_eq p Hp H1) as Es. rewrite Es.
    split; intros [A B]; (split; [exact A|]).
    - intros e' He'. replace e' with e by congruence. destruct B as [B1 B2]. rewrite nth_tab in B1 by exact Hkl. split.
      + intros e2 H2. apply In_nth_error in H2 as (j & Hj). rewrite <- (dev_eq p j e2 Hp Hj), <- (dev_eq p k e Hp Hk). apply B1. apply in_map, in_seq. split; [lia|]. rewrite gs_len. cbn. eapply nth_error_Some_lt; exact Hj.
      + intros j e2 Hj H2. specialize (B2 j Hj). rewrite !nth_tab in B2 by (lia || exact Hkl). rewrite <- (dev_eq p j e2 Hp H2), <- (dev_eq p k e Hp Hk). exact B2.
    - destruct (B e Hk) as [B1 B2]. rewrite nth_tab by exact Hkl. split.
      + intros y Hy. apply in_map_iff in Hy as (j & <- & Hj). apply in_seq in Hj. rewrite gs_len in Hj. destruct (nth_error_lt_ex g j ltac:(lia)) as [e2 H2].
        rewrite (dev_eq p j e2 Hp H2), (dev_eq p k e Hp Hk). apply B1. eapply nth_error_In; exact H2.
      + intros j Hj. rewrite nth_tab by lia. destruct (nth_error_lt_ex g j) as [e2 H2]; [rewrite <- gs_len; lia|]. rewrite (dev_eq p j e2 Hp H2), (dev_eq p k e Hp Hk). exact (B2 j e2 Hj H2). }
  destruct b; split; intros H; try reflexivity.
  - exfalso. apply H. now apply Hb.
  - exfalso. apply Hb in H. discriminate.
Qed.
End Mask.
