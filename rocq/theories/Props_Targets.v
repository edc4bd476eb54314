(* C50-C53, C55, C84-C86: spectra, coadds. *)
From Verif Require Import Prelude PreludeFacts Facts2 Model_Fitz Proof_Fitz Proof_Table Model_Targets Spec_Targets
  Proof_Targets Proof_Targets2 Proof_Targets3 Proof_Targets4 Spec_Cosmic Proof_Cosmic.
Local Open Scope Q_scope.
Local Arguments Qred : simpl never.

(* ================= C50 ================= *)
(* one spectrum per wavehash, in order of first appearance *)
Theorem C50_order hashf cache nsig l c : Forall (wf_spec hashf) l -> compatible l ->
  compute_coadd hashf cache nsig l = Ok c -> first_occurrences (map sp_hash l) (map sp_hash c).
Proof. intros Hw Hc H. destruct (coadd_hashes _ _ _ _ _ Hw Hc H) as [-> _]. apply first_seen_ok. Qed.
(* each is the inverse-variance weighted mean of the exposures with its hash *)
Theorem C50_values hashf cache l c s : Forall (wf_spec hashf) l -> compatible l ->
  compute_coadd hashf cache 0 l = Ok c -> In s c ->
  let g := group_of l (sp_hash s) in
  (forall e, In e g <-> In e l /\ sp_hash e = sp_hash s) /\ g <> [] /\ is_coadd g (map sp_ivar g) s /\ wf_spec hashf s.
Proof.
  intros Hw Hc H Hs g. destruct (coadd_hashes _ _ _ _ _ Hw Hc H) as [_ Hg]. destruct (Hg s Hs) as [Hgr (e & He)].
  destruct (coadd_group_spec _ _ _ _ _ (group_wf _ _ (sp_hash s) Hw) (group_same _ _ Hc) Hgr) as (kept & _ & Hk & _ & HC & Hws & _).
  rewrite (Hk ltac:(lra)) in HC. split; [intros; apply group_in|]. split; [|split; [exact HC|exact Hws]].
  intros E. unfold g in E. rewrite E in He. exact He.
Qed.
(* with cosmic rejection: the same, where at most one exposure per pixel is dropped *)
Theorem C50_values_cosmics hashf cache nsig l c s : Forall (wf_spec hashf) l -> compatible l ->
  compute_coadd hashf cache nsig l = Ok c -> In s c ->
  exists kept, at_most_one_dropped (group_of l (sp_hash s)) (length (sp_wave s)) kept /\ is_coadd (group_of l (sp_hash s)) kept s.
Proof.
  intros Hw Hc H Hs. destruct (coadd_hashes _ _ _ _ _ Hw Hc H) as [_ Hg]. destruct (Hg s Hs) as [Hgr _].
  destruct (coadd_group_spec _ _ _ _ _ (group_wf _ _ (sp_hash s) Hw) (group_same _ _ Hc) Hgr) as (kept & Hk & _ & _ & HC & _).
  exists kept. auto.
Qed.
Theorem C50_defined hashf cache l : Forall (wf_spec hashf) l -> compatible l -> exists c, compute_coadd hashf cache 0 l = Ok c.
Proof. intros. apply coadd_ok; auto. lra. Qed.

(* ================= C51 ================= *)
Theorem C51_order_irrelevant hashf cache l l' c : Forall (wf_spec hashf) l -> compatible l -> Permutation l l' ->
  compute_coadd hashf cache 0 l = Ok c -> exists c', compute_coadd hashf cache 0 l' = Ok c' /\ Permutation c c'.
Proof. intros. eapply coadd_perm; eauto. lra. Qed.
Theorem C51_same_keys hashf cache l l' c : Forall (wf_spec hashf) l -> compatible l -> Permutation l l' ->
  first_seen (map sp_hash l) = first_seen (map sp_hash l') ->
  compute_coadd hashf cache 0 l = Ok c -> compute_coadd hashf cache 0 l' = Ok c.
Proof.
  intros Hw Hc HP Hk H.
  assert (Hw' : Forall (wf_spec hashf) l') by (eapply Permutation_Forall; eassumption).
  assert (Hc' : compatible l') by (intros a b Ha Hb; apply Hc; (eapply Permutation_in; [apply Permutation_sym; exact HP|assumption])).
  destruct (C51_order_irrelevant hashf cache l l' c Hw Hc HP H) as (c' & H' & Hp). rewrite H'. f_equal.
  destruct (coadd_hashes _ _ _ _ _ Hw Hc H) as [E1 _]. destruct (coadd_hashes _ _ _ _ _ Hw' Hc' H') as [E2 _].
  rewrite Hk, <- E2 in E1. assert (Hn : NoDup (map sp_hash c')) by (rewrite E2; apply first_seen_ok).
  clear - Hp E1 Hn. revert c Hp E1. induction c' as [|s' c' IH]; intros [|s c] Hp E; try discriminate; [reflexivity|].
  cbn [map] in E. injection E as E0 E. inversion Hn as [|? ? Hni Hn']; subst.
  assert (Hin : In s (s' :: c')) by (eapply Permutation_in; [exact Hp|now left]). destruct Hin as [->|Hin].
  - f_equal. apply IH; [exact Hn'|eapply Permutation_cons_inv; exact Hp|exact E].
  - exfalso. apply Hni. rewrite <- E0. now apply in_map.
Qed.
(* with cosmic rejection the order matters: on a tie the first exposure is dropped *)
Definition toep (a b : Q) (n : nat) : dia :=
  {| d_off := [1; 0; -1]%Z;
     d_data := [ map (fun j => if (j =? 0)%nat then 0 else b) (seq 0 n);
                 map (fun j => if ((j =? 0) || (j =? n - 1))%nat then a + b else a) (seq 0 n);
                 map (fun j => if (j =? n - 1)%nat then 0 else b) (seq 0 n) ];
     d_n := n |}.
Definition mk (flux ivar : list Q) (R : dia) : spec :=
  {| sp_wave := map (fun i => inject_Z (Z.of_nat i)) (seq 1 (length flux)); sp_flux := flux; sp_ivar := ivar;
     sp_R := Some R; sp_Rcsr := None; sp_band := Some "b"%string; sp_hash := KBand "b" |}.
Lemma mk_wf hashf flux ivar R : length ivar = length flux -> wf_dia R -> d_n R = length flux -> wf_spec hashf (mk flux ivar R).
Proof.
  intros A B C. unfold wf_spec. cbn [mk sp_flux sp_wave sp_ivar sp_R sp_band sp_hash]. rewrite map_length, seq_length.
  split; [reflexivity|]. split; [exact A|]. split; [exists R; auto|reflexivity].
Qed.
Lemma toep_wf a b n : wf_dia (toep a b n).
Proof.
  split; [reflexivity|]. split.
  - repeat constructor; cbn; intuition discriminate.
  - repeat constructor; apply tab_length.
Qed.
Theorem C51_cosmics_refuted hashf : exists nsig l l' c c', Forall (wf_spec hashf) l /\ compatible l /\ Permutation l l' /\
  compute_coadd hashf false nsig l = Ok c /\ compute_coadd hashf false nsig l' = Ok c' /\ map sp_flux c <> map sp_flux c'.
Proof.
  set (A := mk [0; 10; 0; 10] [1;1;1;1] (toep 1 0 4)). set (B := mk [0; -10; 0; -10] [1;1;1;1] (toep 1 0 4)).
  exists 4, [A; B], [B; A].
  assert (HA : wf_spec hashf A) by (apply mk_wf; [reflexivity|apply toep_wf|reflexivity]).
  assert (HB : wf_spec hashf B) by (apply mk_wf; [reflexivity|apply toep_wf|reflexivity]).
  eexists. eexists. split; [constructor; [exact HA|constructor; [exact HB|constructor]]|].
  split; [intros s s' [<-|[<-|[]]] [<-|[<-|[]]] _; split; reflexivity|]. split; [apply perm_swap|].
  split; [vm_compute; reflexivity|]. split; [vm_compute; reflexivity|]. vm_compute. discriminate.
Qed.

(* ================= C52 ================= *)
(* a single exposure: flux is kept, the resolution loses the columns of masked
   pixels, and pixels whose remaining resolution falls below 0.99 lose their weight *)
Theorem C52_single hashf cache nsig s s' : wf_spec hashf s -> compute_coadd hashf cache nsig [s] = Ok [s'] ->
  sp_wave s' = sp_wave s /\ sp_hash s' = sp_hash s /\
  forall p, (p < length (sp_wave s))%nat ->
    px (sp_flux s') p == px (sp_flux s) p /\
    let rest := total (seq 0 (length (sp_wave s))) (fun j => if Qeq_bool (px (sp_ivar s) j) 0 then 0 else entry (Rof s) p j) in
    (rest < 99 # 100 -> px (sp_ivar s') p = 0) /\ (99 # 100 <= rest -> px (sp_ivar s') p == px (sp_ivar s) p).
Proof.
  intros Hw H. apply coadd_inv in H. cbn [map first_seen first_seen_acc existsb] in H.
  change (first_seen_acc [] [sp_hash s]) with [sp_hash s] in H. inversion H as [|? ? ? ? Hg _]; subst.
  assert (Eg : group_of [s] (sp_hash s) = [s]) by (unfold group_of; cbn [filter]; now destruct (key_eqb_spec (sp_hash s) (sp_hash s))).
  rewrite Eg in Hg. destruct (coadd_single _ _ _ _ _ Hw Hg) as (E1 & E2 & _ & Hw' & Hp). split; [exact E1|]. split; [exact E2|].
  intros p Hlt. destruct (Hp p Hlt) as (F1 & F2 & F3 & _). split; [exact F1|]. intros rest.
  assert (Er : total (seq 0 (d_n (Rof s'))) (fun j => entry (Rof s') p j) == rest).
  { destruct Hw' as (_ & _ & (R & ER & HR1 & HR2) & _). unfold Rof at 1. rewrite ER, HR2, E1. apply total_ext. intros j Hj. apply in_seq in Hj.
    destruct (Hp j ltac:(lia)) as (_ & _ & _ & G1 & G2). destruct (Qeq_bool (px (sp_ivar s) j) 0) eqn:B.
    - apply G1. now apply Qeq_bool_iff.
    - apply G2. now apply Qeq_bool_neq. }
  unfold low_res in F2, F3. rewrite Er in F2, F3. split; [exact F2|]. intros Hge. apply F3. lra.
Qed.
(* without masked pixels coadding is the identity *)
Theorem C52_unmasked_partial hashf cache nsig s s' : wf_spec hashf s ->
  (forall p, (p < length (sp_wave s))%nat -> ~ px (sp_ivar s) p == 0) ->
  (forall p, (p < length (sp_wave s))%nat -> low_res (Rof s) p -> px (sp_ivar s) p == 0) -> (* as built by the constructor *)
  compute_coadd hashf cache nsig [s] = Ok [s'] ->
  sp_wave s' = sp_wave s /\ forall p, (p < length (sp_wave s))%nat ->
    px (sp_flux s') p == px (sp_flux s) p /\ px (sp_ivar s') p == px (sp_ivar s) p /\
    forall i, entry (Rof s') i p == entry (Rof s) i p.
Proof.
  intros Hw Hnz Hlow H. destruct (C52_single _ _ _ _ _ Hw H) as (E1 & _ & Hp). split; [exact E1|]. intros p Hlt.
  destruct (Hp p Hlt) as (F1 & F2 & F3). split; [exact F1|]. split.
  - apply F3. destruct (Qlt_le_dec (total (seq 0 (d_n (Rof s))) (fun j => entry (Rof s) p j)) (99#100)) as [L|L].
    + exfalso. apply (Hnz p Hlt). apply Hlow; assumption.
    + assert (E : total (seq 0 (length (sp_wave s))) (fun j => if Qeq_bool (px (sp_ivar s) j) 0 then 0 else entry (Rof s) p j) ==
                  total (seq 0 (d_n (Rof s))) (fun j => entry (Rof s) p j)).
      { destruct Hw as (_ & _ & (R & ER & HR1 & HR2) & _). unfold Rof at 2. rewrite ER, HR2. apply total_ext. intros j Hj. apply in_seq in Hj.
        destruct (Qeq_bool (px (sp_ivar s) j) 0) eqn:B; [|reflexivity]. apply Qeq_bool_iff in B. exfalso. apply (Hnz j); [lia|exact B]. }
      rewrite E. exact L.
  - apply coadd_inv in H. change (first_seen (map sp_hash [s])) with [sp_hash s] in H. inversion H as [|? ? ? ? Hg _]; subst.
    assert (Eg : group_of [s] (sp_hash s) = [s]) by (unfold group_of; cbn [filter]; now destruct (key_eqb_spec (sp_hash s) (sp_hash s))).
    rewrite Eg in Hg. destruct (coadd_single _ _ _ _ _ Hw Hg) as (_ & _ & _ & _ & Hp'). destruct (Hp' p Hlt) as (_ & _ & _ & _ & G2).
    intros i. apply G2. now apply Hnz.
Qed.
(* one masked pixel: its neighbours are lost in the coadd, and all five pixels
   when coadding a second time *)
Theorem C52_masked_refuted hashf : exists s c c2, wf_spec hashf s /\ (forall p, (p < 5)%nat -> ~ low_res (Rof s) p) /\
  compute_coadd hashf false 0 [s] = Ok c /\ compute_coadd hashf false 0 c = Ok c2 /\
  sp_ivar s = [1;1;0;1;1] /\ map sp_ivar c = [[1;0;0;0;1]] /\ map sp_ivar c2 = [[0;0;0;0;0]].
Proof.
  exists (mk [1;2;3;2;1] [1;1;0;1;1] (toep (8#10) (1#10) 5)). eexists. eexists.
  split; [apply mk_wf; [reflexivity|apply toep_wf|reflexivity]|]. split.
  - intros p Hp L. apply low_res_iff in L. destruct p as [|[|[|[|[|]]]]]; try lia; vm_compute in L; discriminate.
  - split; [vm_compute; reflexivity|]. split; [vm_compute; reflexivity|]. split; [reflexivity|]. split; reflexivity.
Qed.

(* ================= C53 ================= *)
(* two identical noiseless exposures: a spectral feature is taken for a cosmic
   ray, because the mean gradient is divided by the sum over all pixels *)
Theorem C53_refuted hashf : exists s c, wf_spec hashf s /\ (forall p, (p < 3)%nat -> ~ low_res (Rof s) p) /\
  sp_ivar s = [1;1;1] /\ compute_coadd hashf false 4 [s; s] = Ok c /\ map sp_ivar c = [[2; 1; 1]].
Proof.
  exists (mk [0; 10; 0] [1;1;1] (toep 1 0 3)). eexists. split; [apply mk_wf; [reflexivity|apply toep_wf|reflexivity]|]. split.
  - intros p Hp L. apply low_res_iff in L. destruct p as [|[|[|]]]; try lia; vm_compute in L; discriminate.
  - split; [reflexivity|]. split; vm_compute; reflexivity.
Qed.
(* exposures with constant flux are left alone *)
Theorem C53_flat_partial hashf cache nsig l c : Forall (wf_spec hashf) l -> compatible l ->
  (forall s, In s l -> exists v, forall p, (p < length (sp_flux s))%nat -> px (sp_flux s) p == v) ->
  compute_coadd hashf cache nsig l = Ok c -> compute_coadd hashf cache 0 l = Ok c.
Proof.
  intros Hw Hc Hf H. unfold compute_coadd in *. apply mapM_Forall2 in H. revert H. generalize (first_seen (map sp_hash l)). intros ks H.
  induction H as [|k s ks ss Hs _ IH]; [reflexivity|]. cbn [mapM].
  rewrite (flat_group hashf cache nsig (group_of l k) s (group_wf _ _ k Hw) (group_same _ k Hc)); [|clear IH|exact Hs].
  - cbn [rbind]. rewrite IH. reflexivity.
  - apply Forall_forall. intros e He. apply group_in in He as [He _]. destruct (Hf e He) as (v & Hv). exists v.
    apply Forall_forall. intros f Hfl. apply (In_nth _ _ 0) in Hfl as (p & Hp & <-). now apply Hv.
Qed.
(* at most one exposure is dropped at any pixel, and no weight is changed otherwise *)
Theorem C53_at_most_one_partial hashf cache nsig l c s : Forall (wf_spec hashf) l -> compatible l ->
  compute_coadd hashf cache nsig l = Ok c -> In s c ->
  exists kept, is_coadd (group_of l (sp_hash s)) kept s /\
    forall p, (p < length (sp_wave s))%nat -> exists k0, forall k e, nth_error (group_of l (sp_hash s)) k = Some e -> 
      (k <> k0 -> cell kept k p = px (sp_ivar e) p) /\ (cell kept k p = px (sp_ivar e) p \/ cell kept k p = 0).
Proof.
  intros Hw Hc H Hs. destruct (C50_values_cosmics _ _ _ _ _ _ Hw Hc H Hs) as (kept & (Hl & _ & Ho) & HC). exists kept. split; [exact HC|].
  intros p Hp. destruct (Ho p Hp) as (k0 & Hk). exists k0. intros k e He.
  assert (Hlt : (k < length (group_of l (sp_hash s)))%nat) by (eapply nth_error_Some_lt; exact He).
  destruct (Hk k Hlt) as [H1 H2]. rewrite (cell_plain _ _ _ e Hlt), (nth_error_nth _ _ _ He) in H1, H2. auto.
Qed.

(* exactly which weights are dropped, for exposures without masked pixels *)
Theorem C53_which_is_dropped_partial hashf cache nsig l c s : Forall (wf_spec hashf) l -> compatible l -> 0 < nsig ->
  compute_coadd hashf cache nsig l = Ok c -> In s c ->
  let g := group_of l (sp_hash s) in
  (1 < length g)%nat -> (forall e p, In e g -> (p < length (sp_wave s))%nat -> 0 < px (sp_ivar e) p) ->
  exists kept, is_coadd g kept s /\
    forall p, (p < length (sp_wave s))%nat -> forall k e, nth_error g k = Some e ->
      (rejected g (length (sp_wave s)) nsig p k -> cell kept k p = 0) /\
      (~ rejected g (length (sp_wave s)) nsig p k -> cell kept k p = px (sp_ivar e) p).
Proof.
  intros Hw Hc Hn H Hs g H1 Hpos. destruct (coadd_hashes _ _ _ _ _ Hw Hc H) as [_ Hg]. destruct (Hg s Hs) as [Hgr _].
  destruct (coadd_group_spec _ _ _ _ _ (group_wf _ _ (sp_hash s) Hw) (group_same _ _ Hc) Hgr) as (kept & _ & _ & _ & HC & _ & _ & _ & _ & _ & _ & _ & _ & Hcos).
  destruct (Hcos Hn H1) as (gs & Em & Ek). fold g in Em, Ek, HC. exists kept. split; [exact HC|]. intros p Hp k e He. rewrite Ek.
  apply (mask_rejects g (sp_wave s) gs); try assumption.
  intros e' He'. destruct HC as (Hwv & _). pose proof (Hwv e' He') as Ew.
  assert (Hwe : wf_spec hashf e') by (apply (proj1 (Forall_forall _ _) (group_wf _ _ (sp_hash s) Hw)); exact He'). destruct Hwe as (A & B & _). rewrite Ew in A, B.
  split; [exact A|]. split; [exact B|]. unfold unmasked. apply Forall_forall. intros v Hv. apply (In_nth _ _ 0) in Hv as (q & Hq & <-). apply Hpos; [exact He'|]. lia.
Qed.

Example C53_ex_rejected : let s := mk [0; 10; 0] [1;1;1] (toep 1 0 3) in rejected [s; s] 3 4 1 0 /\ ~ rejected [s; s] 3 4 1 1 /\ ~ rejected [s; s] 3 4 0 0.
Proof.
  cbv zeta. split; [|split].
  - split; [vm_compute; reflexivity|]. intros e He. injection He as <-. split; [intros e' [<-|[<-|[]]]; apply Qle_refl|intros k' e' Hk; lia].
  - intros [_ H]. destruct (H _ eq_refl) as [_ H2]. specialize (H2 O _ ltac:(lia) eq_refl). apply (Qlt_irrefl _ H2).
  - intros [H _]. vm_compute in H. discriminate.
Qed.

(* ================= C55 ================= *)
Theorem C55_low_resolution hashf wave flux ivar R Rcsr band s iv' :
  spectrum_init hashf wave flux ivar (Some R) Rcsr band = Ok (s, iv') ->
  sp_flux s = flux /\ sp_wave s = wave /\ length (sp_ivar s) = length ivar /\
  forall p, (p < length ivar)%nat -> (low_res R p -> px (sp_ivar s) p = 0) /\ (~ low_res R p -> px (sp_ivar s) p = px ivar p).
Proof.
  unfold spectrum_init. destruct (mask_lowres (Some R) ivar) as [iv|] eqn:E; [|discriminate]. cbn [rbind].
  destruct (wavehash hashf wave (Some R) band) as [h|]; [|discriminate]. cbn [rbind]. intros H.
  assert (Hs : s = {| sp_wave := wave; sp_flux := flux; sp_ivar := iv; sp_R := Some R; sp_Rcsr := Rcsr; sp_band := band; sp_hash := h |}) by congruence.
  rewrite Hs. cbn [sp_flux sp_wave sp_ivar]. split; [reflexivity|]. split; [reflexivity|]. split; [apply (mask_at R ivar iv O E)|].
  intros p Hp. now apply (mask_at R ivar iv p E).
Qed.
Theorem C55_no_resolution hashf wave flux ivar Rcsr band s iv' :
  spectrum_init hashf wave flux ivar None Rcsr band = Ok (s, iv') -> sp_ivar s = ivar.
Proof.
  unfold spectrum_init, mask_lowres. cbn [rbind]. destruct (wavehash hashf wave None band); [|discriminate]. cbn [rbind]. intros H.
  injection H as <- <-. reflexivity.
Qed.
Example C55_instance : forall hashf, exists s iv', spectrum_init hashf [1;2;3] [5;6;7] [1;1;1] (Some (toep (98#100) (1#100) 3)) None (Some "r"%string) = Ok (s, iv') /\ sp_ivar s = [1;1;1].
Proof. intros. eexists. eexists. split; vm_compute; reflexivity. Qed.
Example C55_instance2 : forall hashf, exists s iv', spectrum_init hashf [1;2;3] [5;6;7] [1;1;1] (Some {| d_off := [0]%Z; d_data := [[1; 98#100; 1]]; d_n := 3 |}) None (Some "r"%string) = Ok (s, iv') /\ sp_ivar s = [1;0;1].
Proof. intros. eexists. eexists. split; vm_compute; reflexivity. Qed.

(* ================= C86 ================= *)
(* the constructor modifies the caller's ivar array *)
Theorem C86_constructor_mutates_refuted hashf : exists wave flux ivar R s iv',
  spectrum_init hashf wave flux ivar (Some R) None (Some "r"%string) = Ok (s, iv') /\ iv' <> ivar.
Proof.
  exists [1;2;3], [5;6;7], [1;1;1], {| d_off := [0]%Z; d_data := [[1; 98#100; 1]]; d_n := 3 |}. eexists. eexists.
  split; [vm_compute; reflexivity|discriminate].
Qed.
Theorem C86_unchanged_partial hashf wave flux ivar R Rcsr band s iv' :
  (forall r, R = Some r -> forall p, (p < length ivar)%nat -> low_res r p -> px ivar p = 0) ->
  spectrum_init hashf wave flux ivar R Rcsr band = Ok (s, iv') -> iv' = ivar.
Proof.
  intros Hl H. destruct R as [R|].
  - unfold spectrum_init in H. destruct (mask_lowres (Some R) ivar) as [iv|] eqn:E; [|discriminate]. cbn [rbind] in H.
    destruct (wavehash _ _ _ _); [|discriminate]. cbn [rbind] in H. assert (iv' = iv) by congruence. subst iv'.
    destruct (mask_at R ivar iv O E) as (A & _). apply (list_px _ _ (length ivar) A eq_refl). intros p Hp.
    destruct (mask_at R ivar iv p E) as (_ & _ & B). destruct (B Hp) as [B1 B2].
    destruct (low_res_dec R p) as [L|L]; [|now apply B2]. rewrite (B1 L). symmetry. now apply (Hl R eq_refl).
  - unfold spectrum_init, mask_lowres in H. cbn [rbind] in H. destruct (wavehash _ _ _ _); [|discriminate]. cbn [rbind] in H. injection H as _ <-. reflexivity.
Qed.

(* ================= C84 ================= *)
Theorem C84_bands_partial hashf id spectra nsig t : target_init hashf id spectra false nsig = Ok t ->
  tg_bands t = map sp_band (tg_spectra t).
Proof. unfold target_init. cbn [rbind]. intros H. injection H as <-. reflexivity. Qed.
Lemma bands_F2 (P : key -> spec -> Prop) : forall l c, Forall2 P (map sp_hash l) c ->
  (forall e s, In e l -> P (sp_hash e) s -> sp_band s = sp_band e) -> map sp_band l = map sp_band c.
Proof.
  induction l as [|e l IH]; intros c H Hp; cbn [map] in *; inversion H as [|? s ? c' Hs Hr]; subst; [reflexivity|]. cbn [map]. f_equal.
  - symmetry. apply Hp; [now left|exact Hs].
  - apply IH; [exact Hr|]. intros e' s' He'. apply Hp. now right.
Qed.
(* with one exposure per wavehash also after the coadd *)
Theorem C84_bands_coadd_partial hashf id spectra nsig t : Forall (wf_spec hashf) spectra -> NoDup (map sp_hash spectra) ->
  target_init hashf id spectra true nsig = Ok t -> tg_bands t = map sp_band (tg_spectra t).
Proof.
  intros Hw Hn H. unfold target_init in H. destruct (compute_coadd hashf false nsig spectra) as [c|] eqn:E; [|discriminate]. cbn [rbind] in H.
  assert (Et : t = {| tg_id := id; tg_spectra := c; tg_bands := map sp_band spectra |}) by congruence. subst t. cbn [tg_bands tg_spectra].
  apply coadd_inv in E.
  assert (Efs : forall l seen, NoDup l -> (forall k, In k l -> ~ In k seen) -> first_seen_acc seen l = l).
  { induction l as [|k l IH]; intros seen Hnd Hd; [reflexivity|]. cbn [first_seen_acc]. inversion Hnd as [|? ? H1 H2]; subst.
    destruct (existsb (key_eqb k) seen) eqn:Ee; [apply existsb_key in Ee; exfalso; apply (Hd k); [now left|exact Ee]|].
    f_equal. apply IH; [exact H2|]. intros k' Hk' [->|Hin]; [contradiction|]. apply (Hd k'); [now right|exact Hin]. }
  unfold first_seen in E. rewrite (Efs _ [] Hn) in E by (intros ? ? []).
  assert (Hg : forall e, In e spectra -> group_of spectra (sp_hash e) = [e]).
  { clear - Hn. induction spectra as [|s l IH]; intros e He; [destruct He|]. cbn [map] in Hn. inversion Hn as [|? ? H1 H2]; subst. unfold group_of. cbn [filter].
    destruct He as [->|He].
    - destruct (key_eqb_spec (sp_hash e) (sp_hash e)) as [_|]; [|congruence]. f_equal.
      destruct (filter (fun s => key_eqb (sp_hash s) (sp_hash e)) l) as [|x r] eqn:Ef; [reflexivity|]. exfalso.
      assert (Hx : In x (filter (fun s => key_eqb (sp_hash s) (sp_hash e)) l)) by (rewrite Ef; now left). apply filter_In in Hx as [Hx Hk].
      destruct (key_eqb_spec (sp_hash x) (sp_hash e)) as [Ek|]; [|discriminate]. apply H1. rewrite <- Ek. now apply in_map.
    - destruct (key_eqb_spec (sp_hash s) (sp_hash e)) as [Ek|]; [exfalso; apply H1; rewrite Ek; now apply in_map|]. apply (IH H2 e He). }
  apply (bands_F2 (fun k s => coadd_group hashf false nsig (group_of spectra k) = Ok s)); [exact E|].
  intros e s He Hs. rewrite (Hg e He) in Hs. apply (coadd_single hashf false nsig); [|exact Hs]. now apply (proj1 (Forall_forall _ _) Hw).
Qed.
(* several exposures: the bands are those of the exposures, not of the coadds *)
Theorem C84_coadd_refuted hashf : exists spectra t, Forall (wf_spec hashf) spectra /\ compatible spectra /\ target_init hashf 1%Z spectra true 0 = Ok t /\ length (tg_spectra t) = 1%nat /\ tg_bands t = [Some "b"%string; Some "b"%string].
Proof.
  set (A := mk [1;2;3] [1;1;1] (toep 1 0 3)). exists [A; A]. eexists.
  assert (HA : wf_spec hashf A) by (apply mk_wf; [reflexivity|apply toep_wf|reflexivity]).
  split; [constructor; [exact HA|constructor; [exact HA|constructor]]|].
  split; [intros s s' [<-|[<-|[]]] [<-|[<-|[]]] _; split; reflexivity|].
  split; [vm_compute; reflexivity|]. split; reflexivity.
Qed.
(* calling compute_coadd on an existing target has the same effect *)
Theorem C84_method_refuted hashf : exists t t', tg_bands t = map sp_band (tg_spectra t) /\ target_coadd hashf false 0 t = Ok t' /\ tg_bands t' <> map sp_band (tg_spectra t').
Proof.
  set (A := mk [1;2;3] [1;1;1] (toep 1 0 3)). exists {| tg_id := 1%Z; tg_spectra := [A; A]; tg_bands := [Some "b"%string; Some "b"%string] |}. eexists.
  split; [reflexivity|]. split; [vm_compute; reflexivity|]. discriminate.
Qed.

(* ================= C85 ================= *)
(* noiseless exposures of a common high-resolution spectrum m *)
Definition noiseless (m : list Q) (e : spec) : Prop := forall p, (p < length (sp_wave e))%nat ->
  px (sp_flux e) p == total (seq 0 (length (sp_wave e))) (fun j => entry (Rof e) p j * px m j).
Theorem C85_resolution_refuted hashf : exists l s m p, Forall (wf_spec hashf) l /\ compatible l /\ Forall (noiseless m) l /\ compute_coadd hashf false 0 l = Ok [s] /\ 0 < px (sp_ivar s) p /\ (p < length (sp_wave s))%nat /\ ~ px (sp_flux s) p == total (seq 0 (length (sp_wave s))) (fun j => entry (Rof s) p j * px m j).
Proof.
  set (A := mk [1#100; 98#100; 1#100] [1;1;1] (toep (98#100) (1#100) 3)).
  set (B := mk [0; 1; 0] [1;3;1] (toep 1 0 3)). exists [A; B]. eexists. exists [0; 1; 0], O.
  assert (HA : wf_spec hashf A) by (apply mk_wf; [reflexivity|apply toep_wf|reflexivity]).
  assert (HB : wf_spec hashf B) by (apply mk_wf; [reflexivity|apply toep_wf|reflexivity]).
  split; [constructor; [exact HA|constructor; [exact HB|constructor]]|].
  split; [intros s s' [<-|[<-|[]]] [<-|[<-|[]]] _; split; reflexivity|].
  split. { repeat constructor; intros p Hp; cbn in Hp; destruct p as [|[|[|]]]; try lia; vm_compute; reflexivity. }
  split; [vm_compute; reflexivity|]. split; [reflexivity|]. split; [cbn; lia|]. vm_compute. discriminate.
Qed.
(* proved when the exposures share their resolution and every pixel has weight *)
Theorem C85_shared_resolution_partial hashf cache l c s m : Forall (wf_spec hashf) l -> compatible l ->
  compute_coadd hashf cache 0 l = Ok c -> In s c -> Forall (noiseless m) l ->
  (forall e e' i j, In e l -> In e' l -> sp_hash e = sp_hash e' -> entry (Rof e) i j == entry (Rof e') i j) ->
  (forall p, (p < length (sp_wave s))%nat -> ~ total (group_of l (sp_hash s)) (fun e => px (sp_ivar e) p) == 0) ->
  noiseless m s.
Proof.
  intros Hw Hc H Hs Hm HR HW. destruct (coadd_hashes _ _ _ _ _ Hw Hc H) as [_ Hg]. destruct (Hg s Hs) as [Hgr (e0 & He0)].
  destruct (coadd_group_spec _ _ _ _ _ (group_wf _ _ (sp_hash s) Hw) (group_same _ _ Hc) Hgr) as (kept & _ & Hk & _ & HC & _ & _ & Hent & _).
  rewrite (Hk ltac:(lra)) in *. set (g := group_of l (sp_hash s)) in *.
  destruct HC as (Hwv & _ & _ & _ & _ & HV).
  assert (HE : forall i j, (j < length (sp_wave s))%nat -> entry (Rof s) i j == entry (Rof e0) i j).
  { intros i j Hj. pose proof (Hent j Hj i) as E. rewrite weight_plain in E.
    destruct (Qeq_bool (total g (fun e => px (sp_ivar e) j)) 0) eqn:B; [apply Qeq_bool_iff in B; exfalso; exact (HW j Hj B)|].
    assert (E2 : total g (fun e => entry (Rof e) i j * px (sp_ivar e) j) == total g (fun e => px (sp_ivar e) j) * entry (Rof e0) i j).
    { rewrite <- total_scale. apply total_ext. intros e He. apply group_in in He as [He Hh]. apply group_in in He0 as [He0 Hh0].
      rewrite (HR e e0 i j He He0) by congruence. lra. }
    rewrite E2 in E. assert (E3 : entry (Rof s) i j * total g (fun e => px (sp_ivar e) j) == entry (Rof e0) i j * total g (fun e => px (sp_ivar e) j)) by lra.
    apply Qmult_inj_r in E3; [exact E3|exact (HW j Hj)]. }
  intros p Hp. destruct (HV p Hp) as (_ & _ & V3 & _). fold (weight (map sp_ivar g) g p) in V3. rewrite weight_plain, wflux_plain in V3.
  specialize (V3 (HW p Hp)).
  set (M := total (seq 0 (length (sp_wave s))) (fun j => entry (Rof e0) p j * px m j)).
  assert (E4 : total (seq 0 (length (sp_wave s))) (fun j => entry (Rof s) p j * px m j) == M).
  { apply total_ext. intros j Hj. apply in_seq in Hj. rewrite HE by lia. reflexivity. }
  rewrite E4. assert (E5 : total g (fun e => px (sp_ivar e) p * px (sp_flux e) p) == total g (fun e => px (sp_ivar e) p) * M).
  { rewrite <- total_scale. apply total_ext. intros e He. assert (Hwe := Hwv e He). apply group_in in He as [He Hh]. apply group_in in He0 as [He0 Hh0].
    assert (Hn := proj1 (Forall_forall _ _) Hm e He p). rewrite Hwe in Hn. specialize (Hn Hp). rewrite Hn.
    assert (E6 : total (seq 0 (length (sp_wave s))) (fun j => entry (Rof e) p j * px m j) == M).
    { apply total_ext. intros j _. rewrite (HR e e0 p j He He0) by congruence. reflexivity. }
    rewrite E6. reflexivity. }
  rewrite E5 in V3. assert (E7 : px (sp_flux s) p * total g (fun e => px (sp_ivar e) p) == M * total g (fun e => px (sp_ivar e) p)) by lra.
  apply Qmult_inj_r in E7; [exact E7|exact (HW p Hp)].
Qed.
(* ... and when each exposure has the same weight at every pixel *)
Theorem C85_uniform_weights_partial hashf cache l c s m : Forall (wf_spec hashf) l -> compatible l ->
  compute_coadd hashf cache 0 l = Ok c -> In s c -> Forall (noiseless m) l ->
  (forall e p p', In e l -> (p < length (sp_wave e))%nat -> (p' < length (sp_wave e))%nat -> px (sp_ivar e) p == px (sp_ivar e) p') ->
  (forall p, (p < length (sp_wave s))%nat -> ~ total (group_of l (sp_hash s)) (fun e => px (sp_ivar e) p) == 0) ->
  noiseless m s.
Proof.
  intros Hw Hc H Hs Hm HU HW. destruct (coadd_hashes _ _ _ _ _ Hw Hc H) as [_ Hg]. destruct (Hg s Hs) as [Hgr _].
  destruct (coadd_group_spec _ _ _ _ _ (group_wf _ _ (sp_hash s) Hw) (group_same _ _ Hc) Hgr) as (kept & _ & Hk & _ & HC & _ & _ & Hent & _).
  rewrite (Hk ltac:(lra)) in *. set (g := group_of l (sp_hash s)) in *.
  destruct HC as (Hwv & _ & _ & _ & _ & HV). set (n := length (sp_wave s)) in *.
  intros p Hp. fold n in Hp. fold n. destruct (HV p Hp) as (_ & _ & V3 & _). fold (weight (map sp_ivar g) g p) in V3. rewrite weight_plain, wflux_plain in V3.
  specialize (V3 (HW p Hp)). set (S := total g (fun e => px (sp_ivar e) p)) in *.
  assert (HS : forall j, (j < n)%nat -> total g (fun e => px (sp_ivar e) j) == S).
  { intros j Hj. apply total_ext. intros e He. assert (Hwe := Hwv e He). apply group_in in He as [He _]. apply HU; [exact He| |]; rewrite Hwe; assumption. }
  assert (E : total (seq 0 n) (fun j => entry (Rof s) p j * px m j) * S == total g (fun e => px (sp_ivar e) p * px (sp_flux e) p)).
  { rewrite <- total_scale.
    assert (E1 : total (seq 0 n) (fun j => entry (Rof s) p j * px m j * S) == total (seq 0 n) (fun j => total g (fun e => entry (Rof e) p j * px (sp_ivar e) p * px m j))).
    { apply total_ext. intros j Hj. apply in_seq in Hj. assert (Hj' : (j < n)%nat) by lia. pose proof (Hent j Hj' p) as E. rewrite weight_plain in E.
      destruct (Qeq_bool (total g (fun e => px (sp_ivar e) j)) 0) eqn:B; [apply Qeq_bool_iff in B; exfalso; exact (HW j Hj' B)|].
      rewrite total_scale, (HS j Hj') in *.
      assert (E2 : total g (fun e => entry (Rof e) p j * px (sp_ivar e) p) == total g (fun e => entry (Rof e) p j * px (sp_ivar e) j)).
      { apply total_ext. intros e He. assert (Hwe := Hwv e He). apply group_in in He as [He _].
        rewrite (HU e p j He) by (rewrite Hwe; assumption). reflexivity. }
      rewrite E2, <- E. ring. }
    rewrite E1, total_swap. apply total_ext. intros e He. assert (Hwe := Hwv e He). apply group_in in He as [He _].
    assert (Hn := proj1 (Forall_forall _ _) Hm e He p). rewrite Hwe in Hn. specialize (Hn Hp). rewrite Hn. fold n.
    assert (E3 : forall a b, a * b == b * a) by (intros; ring). rewrite (E3 (px (sp_ivar e) p)), <- total_scale. apply total_ext. intros j _. ring. }
  rewrite <- E in V3. apply Qmult_inj_r in V3; [exact V3|exact (HW p Hp)].
Qed.
(* cosmic rejection: the weights of a dropped exposure stay in the resolution but
   not in the normalisation; here the coadd of two identical exposures has a
   resolution entry 2 where each exposure has 1 *)
Theorem C85_cosmics_refuted hashf : exists s c t, wf_spec hashf s /\ compute_coadd hashf false 4 [s; s] = Ok c /\ c = [t] /\ entry (Rof s) 1 1 == 1 /\ entry (Rof t) 1 1 == 2.
Proof.
  exists (mk [0; 10; 0] [1;1;1] (toep 1 0 3)). eexists. eexists. split; [apply mk_wf; [reflexivity|apply toep_wf|reflexivity]|].
  split; [vm_compute; reflexivity|]. split; [reflexivity|]. split; reflexivity.
Qed.

(* a run with two bands and two exposures meets the hypotheses of C50-C51 *)
Example C50_instance hashf :
  let A := mk [1;2;3] [1;1;1] (toep 1 0 3) in let B := mk [3;2;9] [3;0;1] (toep 1 0 3) in
  let Z := {| sp_wave := [7;8]; sp_flux := [5;5]; sp_ivar := [2;2]; sp_R := Some {| d_off := [0]%Z; d_data := [[1;1]]; d_n := 2 |};
              sp_Rcsr := None; sp_band := Some "z"%string; sp_hash := KBand "z" |} in
  Forall (wf_spec hashf) [A; Z; B] /\ compatible [A; Z; B] /\ exists c, compute_coadd hashf false 0 [A; Z; B] = Ok c /\ map sp_hash c = [KBand "b"; KBand "z"] /\ map sp_flux c = [[5#2; 2; 6]; [5;5]] /\ map sp_ivar c = [[4;1;2]; [2;2]].
Proof.
  intros A B Z. split; [|split].
  - constructor; [apply mk_wf; [reflexivity|apply toep_wf|reflexivity]|]. constructor; [|constructor; [apply mk_wf; [reflexivity|apply toep_wf|reflexivity]|constructor]].
    split; [reflexivity|]. split; [reflexivity|]. split; [|reflexivity]. eexists. split; [reflexivity|]. split; [|reflexivity].
    split; [reflexivity|]. split; repeat constructor. intros [].
  - intros s s' Hs Hs' E. destruct Hs as [<-|[<-|[<-|[]]]], Hs' as [<-|[<-|[<-|[]]]]; try discriminate; split; reflexivity.
  - eexists. split; [vm_compute; reflexivity|]. split; [reflexivity|]. split; reflexivity.
Qed.

Print Assumptions C50_order.
Print Assumptions C50_values.
Print Assumptions C51_order_irrelevant.
Print Assumptions C51_same_keys.
Print Assumptions C52_single.
Print Assumptions C52_unmasked_partial.
Print Assumptions C52_masked_refuted.
Print Assumptions C53_refuted.
Print Assumptions C53_flat_partial.
Print Assumptions C53_which_is_dropped_partial.
Print Assumptions C55_low_resolution.
Print Assumptions C84_bands_coadd_partial.
Print Assumptions C85_shared_resolution_partial.
Print Assumptions C85_uniform_weights_partial.
