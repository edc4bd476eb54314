(* rrdesi does not depend on the order of the rows of a target. *)
From Verif Require Import Prelude PreludeFacts NumX Facts2 Model_Fitz Proof_Fitz Model_Rebin Spec_Rebin Spec_Fitz Model_Dist Proof_Dist3 Model_Zscan Proof_Zscan3 Model_Piece Model_IO Model_Zfind Model_Targets Spec_Targets Proof_Targets2 Proof_Targets3 Model_Desi Spec_Desi Proof_Desi2 Proof_Desi4 Proof_Table
  Model_Run Spec_Run Proof_Run Proof_Run2 Proof_Run3 Proof_Run5 Proof_Run6 Proof_Run7 Model_RunMPI Proof_RunMPI2 Proof_RunMPI3 Model_RunDesi Spec_RunDesi Proof_RunDesi Spec_Order Proof_Order.
Open Scope nat_scope.
Local Arguments Qred : simpl never.

Lemma F2_perm_r {A B} (P : A -> B -> Prop) l m m' : Forall2 P l m -> Permutation m m' -> exists l', Permutation l l' /\ Forall2 P l' m'.
Proof.
  intros F Pm. revert l F. induction Pm as [|x m m' _ IH|x y m|m m' m'' _ IH1 _ IH2]; intros l F.
  - exists l. split; [reflexivity|exact F].
  - inversion F as [|a ? l0 ? Ha F0]; subst. destruct (IH l0 F0) as (l' & Pl & F'). exists (a :: l'). split; [now constructor|now constructor].
  - inversion F as [|a ? l0 ? Ha F0]; subst. inversion F0 as [|b ? l1 ? Hb F1]; subst. exists (b :: a :: l1). split; [constructor|repeat constructor; assumption].
  - destruct (IH1 l F) as (l' & P1 & F1). destruct (IH2 l' F1) as (l'' & P2 & F2). exists l''. split; [now transitivity l'|exact F2].
Qed.
(* rows of sound files *)
Lemma row_facts (fs : list (sfile dia)) t (r : fullrow dia) : In r (target_rows fs t) -> exists f, In f fs /\ In (r_band r) (sf_bands f) /\ r_wave r = sf_wave f (r_band r) /\ In (r_flux r) (sf_flux f (r_band r)) /\ In (r_res r) (sf_res f (r_band r)).
Proof.
  unfold target_rows. intro H. apply in_concat in H as (l & Hl & Hr). apply in_map_iff in Hl as (f & <- & Hf). apply filter_In in Hf as [Hf _]. apply in_concat in Hr as (l & Hl & Hr). apply in_map_iff in Hl as (b & <- & Hb).
  unfold Spec_Desi.rows_of in Hr. apply in_map_iff in Hr as ([i r'] & E & Hr). cbn in E. subst r'. apply filter_In in Hr as [Hr _]. apply in_combine_r in Hr. unfold full_rows in Hr. apply in_map_iff in Hr as ([[[fl iv] i'] rr] & <- & Hc). cbn [r_band r_wave r_flux r_res]. exists f.
  split; [exact Hf|]. split; [exact Hb|]. split; [reflexivity|]. split; [|exact (in_combine_r _ _ _ _ Hc)]. apply in_combine_l in Hc. apply in_combine_l in Hc. now apply in_combine_l in Hc.
Qed.
Section P.
Variables (hashf : hash_arg -> Z) (tocsr : dia -> csr).
Notation prepare := (prepare hashf tocsr).
Notation reads := (reads hashf tocsr).

(* what a slot of sound files gives *)
Lemma spec_facts o fs t l rows ss : sound_files fs -> Forall2 (slot_of (o_negflux o)) l rows -> incl rows (target_rows fs t) -> mapM (spec_of o) l = Ok ss ->
  Forall (fun s => wf_spec hashf s /\ exists f b, In f fs /\ In b (sf_bands f) /\ sp_hash s = KBand b /\ sp_wave s = sf_wave f b /\ In (Rof s) (sf_res f b)) ss.
Proof.
  intros [Sf _] F I H. apply mapM_Forall2 in H. revert rows F I. induction H as [|sl s l ss Hs _ IH]; intros rows F I; [constructor|]. inversion F as [|? r ? rows' Hr F']; subst. constructor; [|eapply IH; [exact F'|intros x Hx; apply I; now right]]. clear IH.
  destruct (row_facts fs t r (I r (or_introl eq_refl))) as (f & If & Ib & Ew & Ifl & Ir). destruct Hr as (Hw & Hb & Hres & fl & iv & Hf & Hv & Lf & Lv & _). unfold spec_of in Hs. rewrite Hf, Hv, Hres in Hs.
  destruct (Sf f (r_band r) If Ib) as (_ & _ & _ & Lw & Rw). specialize (Lw _ Ifl). destruct (Rw _ Ir) as [Rw1 Rw2]. rewrite <- Ew in Lw, Rw2.
  assert (Es : s = {| sp_wave := Model_Desi.s_wave sl; sp_flux := map fin fl; sp_ivar := map fin iv; sp_R := Some (r_res r); sp_Rcsr := if o_allspec o then Some (r_res r) else None; sp_band := Some (s_band sl); sp_hash := KBand (s_band sl) |}) by congruence. rewrite Es. clear Es Hs.
  unfold wf_spec, Rof. cbn [sp_wave sp_flux sp_ivar sp_R sp_band sp_hash]. rewrite Hw, Hb, !map_length. split; [|exists f, (r_band r); repeat split; auto]. split; [congruence|]. split; [congruence|]. split; [exists (r_res r); split; [reflexivity|]; split; [exact Rw1|exact Rw2]|reflexivity].
Qed.
Lemma spec_compat fs ss : in_order fs -> sound_files fs -> Forall (fun s => wf_spec hashf s /\ exists f b, In f fs /\ In b (sf_bands f) /\ sp_hash s = KBand b /\ sp_wave s = sf_wave f b /\ In (Rof s) (sf_res f b)) ss -> compatible ss.
Proof.
  intros (_ & _ & W) [_ O] F s s' Is Is' E. rewrite Forall_forall in F. destruct (F s Is) as (_ & f & b & If & Ib & Eh & Ew & Ir). destruct (F s' Is') as (_ & f' & b' & If' & Ib' & Eh' & Ew' & Ir'). rewrite Eh, Eh' in E. injection E as <-. split; [rewrite Ew, Ew'; now apply W|exact (O f f' b _ _ If If' Ib Ib' Ir Ir')].
Qed.
Lemma sky_len o w iv : length iv = length w -> length (mask_sky o w iv) = length w.
Proof. intro L. unfold mask_sky. destruct (o_skymask o); [|exact L]. unfold skymask. rewrite !map_length, combine_length, map_length, L. apply Nat.min_id. Qed.
Definition wf_out (fs : list (sfile dia)) (s : Model_Targets.spec) : Prop :=
  length (sp_flux s) = length (sp_wave s) /\ length (sp_ivar s) = length (sp_wave s) /\ (exists R, sp_R s = Some R /\ wf_dia R /\ d_n R = length (sp_wave s)) /\ exists f b, In f fs /\ In b (sf_bands f) /\ sp_wave s = sf_wave f b.
Lemma coadd_out fs nsig ss c : in_order fs -> sound_files fs -> Forall (fun s => wf_spec hashf s /\ exists f b, In f fs /\ In b (sf_bands f) /\ sp_hash s = KBand b /\ sp_wave s = sf_wave f b /\ In (Rof s) (sf_res f b)) ss ->
  compute_coadd hashf true nsig ss = Ok c -> Forall (wf_out fs) c.
Proof.
  intros Or So F H. pose proof (spec_compat fs ss Or So F) as C. assert (Wf : Forall (wf_spec hashf) ss) by (eapply Forall_impl; [|exact F]; intros a Ha; apply Ha).
  destruct (coadd_hashes _ _ _ _ _ Wf C H) as [_ G]. apply Forall_forall. intros s Is. destruct (G s Is) as [Hg (e & Ie)]. destruct (coadd_group_spec hashf true nsig _ s (group_wf _ _ _ Wf) (group_same _ _ C) Hg) as (kept & _ & _ & _ & X).
  destruct X as ((X1 & _) & (W1 & W2 & W3 & _) & _). split; [exact W1|]. split; [exact W2|]. split; [exact W3|].
  pose proof Ie as Ie'. apply group_in in Ie' as [Ie' _]. rewrite Forall_forall in F. destruct (F e Ie') as (_ & f & b & If & Ib & _ & Ew & _). exists f, b. split; [exact If|]. split; [exact Ib|]. rewrite <- Ew. symmetry. now apply X1.
Qed.
Lemma seen_sound o fs ss qs : keeps_shape tocsr -> sound_files fs -> Forall (wf_out fs) ss -> mapM (seen tocsr o) ss = Ok qs ->
  Forall (fun s => 2 <= length (q_wave s) /\ strictly_increasing (q_wave s) /\ (0 < nth 0 (q_wave s) 0)%Q /\ r_ncol (s_R (q_spec s)) = length (q_wave s) /\
                   length (Model_Zscan.s_ivar (q_spec s)) = r_nrow (s_R (q_spec s)) /\ length (Model_Zscan.s_flux (q_spec s)) = r_nrow (s_R (q_spec s))) qs.
Proof.
  intros K [Sf _] F H. apply mapM_Forall2 in H. induction H as [|s q ss qs Hq _ IH]; [constructor|]. inversion F as [|? ? (L1 & L2 & (R & ER & WR & NR) & f & b & If & Ib & Ew) F']; subst. constructor; [|now apply IH]. unfold seen in Hq. rewrite ER in Hq. destruct (K R WR) as [K1 K2].
  assert (Eq : q = {| q_wave := sp_wave s; q_spec := {| s_hash := key_code (sp_hash s); Model_Zscan.s_ivar := mask_sky o (sp_wave s) (sp_ivar s); Model_Zscan.s_flux := sp_flux s; s_R := tocsr R |} |}) by congruence. rewrite Eq. cbn [q_wave q_spec Model_Zscan.s_ivar Model_Zscan.s_flux s_R].
  rewrite (sky_len o _ _ L2), L1, K1, K2, NR. rewrite Ew. destruct (Sf f b If Ib) as (A & B & C & _). rewrite Ew in *. repeat split; assumption.
Qed.
Lemma prepare_parts o t l g : prepare o t l = Ok g <-> exists ss cs qs, mapM (spec_of o) l = Ok ss /\ (if o_allspec o then Ok ss else compute_coadd hashf true (o_cosmics o) ss) = Ok cs /\ mapM (seen tocsr o) cs = Ok qs /\ g = {| g_id := t; g_spectra := qs |}.
Proof.
  unfold Model_RunDesi.prepare. split.
  - intro H. destruct (mapM (spec_of o) l) as [ss|]; cbn [rbind] in H; [|discriminate]. destruct (if o_allspec o then _ else _) as [cs|] eqn:Ec; cbn [rbind] in H; [|discriminate]. destruct (mapM (seen tocsr o) cs) as [qs|] eqn:Eq; cbn [rbind] in H; [|discriminate]. exists ss, cs, qs. repeat split; auto. congruence.
  - intros (ss & cs & qs & -> & E & H & ->). cbn [rbind]. rewrite E. cbn [rbind]. now rewrite H.
Qed.
Lemma parts_out o fs t l rows ss cs : in_order fs -> sound_files fs -> Forall2 (slot_of (o_negflux o)) l rows -> incl rows (target_rows fs t) -> mapM (spec_of o) l = Ok ss ->
  (if o_allspec o then Ok ss else compute_coadd hashf true (o_cosmics o) ss) = Ok cs -> Forall (wf_out fs) cs.
Proof.
  intros Or So F I Hs Hc. pose proof (spec_facts o fs t l rows ss So F I Hs) as X. destruct (o_allspec o).
  - injection Hc as <-. eapply Forall_impl; [|exact X]. intros s ((A & B & C & _) & f & b & If & Ib & _ & Ew & _). split; [exact A|]. split; [exact B|]. split; [exact C|]. exists f, b. now repeat split.
  - eapply coadd_out; eassumption.
Qed.
Lemma reads_sound o fs g : in_order fs -> sound_files fs -> keeps_shape tocsr -> reads o fs g -> g_spectra g <> [] -> sound_target g.
Proof.
  intros Or So K (sl & F & H) Ne. split; [exact Ne|]. apply prepare_parts in H as (ss & cs & qs & Hs & Hc & Hq & Eg). rewrite Eg. cbn [g_spectra]. eapply (seen_sound o fs cs qs K So); [|exact Hq]. eapply parts_out; [exact Or|exact So|exact F|apply incl_refl|exact Hs|exact Hc].
Qed.
Lemma reads_perm o o' fs fs' g : same_treatment o o' -> no_rejection o -> in_order fs -> sound_files fs -> Permutation (target_rows fs (g_id g)) (target_rows fs' (g_id g)) -> reads o fs g -> exists g', reads o' fs' g' /\ reordered g g'.
Proof.
  intros (S1 & S2 & S3 & S4) NR Or So Pm (sl & F & H). destruct (F2_perm_r _ _ _ _ F Pm) as (sl' & Psl & F'). apply prepare_parts in H as (ss & cs & qs & Hs & Hc & Hq & Eg).
  destruct (mapM_perm_ok (spec_of o) sl sl' Psl ss Hs) as (ss' & Hs' & Ps).
  assert (X : exists cs', (if o_allspec o then Ok ss' else compute_coadd hashf true (o_cosmics o) ss') = Ok cs' /\ Permutation cs cs').
  { pose proof (spec_facts o fs _ sl _ ss So F (incl_refl _) Hs) as Fs. destruct NR as [NR|NR]; [rewrite NR in *; exists ss'; split; [reflexivity|]; injection Hc as <-; exact Ps|]. destruct (o_allspec o); [exists ss'; split; [reflexivity|]; injection Hc as <-; exact Ps|].
    eapply coadd_perm; [|eapply spec_compat; eassumption|exact NR|exact Ps|exact Hc]. eapply Forall_impl; [|exact Fs]. intros a Ha; apply Ha. }
  destruct X as (cs' & Hc' & Pc). destruct (mapM_perm_ok (seen tocsr o) cs cs' Pc qs Hq) as (qs' & Hq' & Pq).
  exists {| g_id := g_id g; g_spectra := qs' |}. split; [|split; [reflexivity|]; rewrite Eg; exact Pq]. exists sl'. cbn [g_id]. rewrite <- S3. split; [exact F'|]. apply prepare_parts. exists ss', cs', qs'.
  assert (Y : forall l, mapM (spec_of o) l = mapM (spec_of o') l) by (intro l; apply mapM_ext; intros s _; unfold spec_of; now rewrite S1).
  assert (Z : forall l, mapM (seen tocsr o) l = mapM (seen tocsr o') l) by (intro l; apply mapM_ext; intros s _; unfold seen, mask_sky; now rewrite S4).
  rewrite <- Y, <- Z, <- S1, <- S2. repeat split; assumption.
Qed.
End P.
