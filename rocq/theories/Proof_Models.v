(* What the rendered models are. *)
From Coq Require Import Reals Qreals Lra.
From Coquelicot Require Import Coquelicot.
From Verif Require Import Prelude PreludeFacts NumX Facts2 Model_Fitz Spec_Fitz Proof_Fitz Model_Rebin Spec_Rebin Proof_Rebin Proof_Rebin2 Proof_RebinGPU Proof_Rebin3 Props_Rebin Model_Dist Proof_Dist3 Model_Rank Proof_Table Model_Zscan Spec_Zscan Proof_Zscan Proof_Zscan2 Proof_Zscan3 Proof_GPU2 Proof_Arch6
  Model_Piece Spec_Piece Proof_Piece Model_IO Model_Targets Model_Targets2 Proof_Eval Model_Zfind Model_Run Spec_Run Proof_Run Proof_Run9 Model_RunDesi Model_Models.
Open Scope nat_scope.
Local Arguments Qred : simpl never.
Local Notation dget := Model_Dist.dget. Local Notation dset := Model_Dist.dset.

Lemma dotf_big nb (f : nat -> Q) c : nb <= length c -> (dotf f (seq 0 nb) (firstn nb c) == bigsum nb (fun b => f b * at1 c b))%Q.
Proof.
  intro H. rewrite (Proof_GPU2.bigsum_seq (fun b => f b * at1 c b)%Q 0 nb). change (bigsum 0 (fun b => (f b * at1 c b)%Q)) with 0%Q. rewrite Qplus_0_l. unfold dotf. assert (G : forall k s c0, (forall i, i < k -> nth i c0 0%Q = nth (s + i) c 0%Q) -> k <= length c0 ->
     (sumQ (map2 Qmult (map f (seq s k)) (firstn k c0)) == sumQ (map (fun b => f b * at1 c b)%Q (seq s k)))%Q).
  { induction k as [|k IH]; intros s c0 E L; [reflexivity|]. destruct c0 as [|x c0]; [cbn in L; lia|]. cbn [seq map firstn map2]. rewrite !sumQ_cons. rewrite (IH (S s) c0).
    - pose proof (E 0 ltac:(lia)) as E0. cbn in E0. rewrite Nat.add_0_r in E0. unfold at1. rewrite <- E0. reflexivity.
    - intros i Hi. specialize (E (S i) ltac:(lia)). cbn [nth] in E. rewrite E. f_equal. lia.
    - cbn in L. lia. }
  apply G; [reflexivity|exact H].
Qed.
(* one spectrum *)
Lemma eval_on trans p w z c R : sound_template p -> sound_wave w -> (-1 < z)%Q -> covered p w z -> (forall l, In l w -> (trans (p_igm p) z l == 1)%Q) ->
  wf_csr R -> r_ncol R = length w -> nbasis p <= length c ->
  exists A m, template_on trans p w z A /\ template_eval (t_wave (p_core p)) (t_flux (p_core p)) c w z (Some R) = Ok m /\ length m = r_nrow R /\
    forall i, i < r_nrow R -> (nth i m 0 == bigsum (r_ncol R) (fun l => Rent R i l * bigsum (nbasis p) (fun b => at2 A l b * at1 c b)))%Q.
Proof.
  intros S W Hz Cv Tr Hwf Hn Hc. destruct (template_exists trans p w z S W Hz Cv) as (A & HA). exists A.
  pose proof HA as (e & row & Ee & (G1 & G2 & cols & F & Lr & Hr) & LA & HAi).
  destruct S as (T1 & T2 & T3 & T4 & _). destruct W as (Lw & Iw & Pw). destruct (C36_edges w Lw) as (e' & E' & Le & _). assert (e' = e) by congruence. subst e'.
  destruct (C36_brackets w e Iw Ee) as [Ie _]. rewrite Forall_forall in T4. set (x := t_wave (p_core p)) in *. set (flux := t_flux (p_core p)) in *. change (nbasis p) with (length flux) in *.
  assert (V : valid x e z) by (split; [exact T2|]; split; [exact Ie|]; split; [lia|]; split; [lra|]; now split).
  set (c1 := firstn (length flux) c). assert (Lc : length c1 = length flux) by (unfold c1; rewrite firstn_length; lia).
  destruct (rebin_comb x flux c1 e z cols V T4 (eq_sym Lc) F) as (out & Eo & Lo & Ho).
  assert (Lf : length cols = length flux) by (symmetry; exact (Forall2_len _ _ _ F)).
  assert (Hpt : forall l, l < length A -> (nth l out 0 == dotf (fun b => nth b (nth l A []) 0) (seq 0 (length flux)) c1)%Q).
  { intros l Hl. rewrite Ho by lia. rewrite (HAi l) by lia. rewrite (Hr l) by lia. unfold dotf, comb_at.
    assert (E1 : (trans (p_igm p) z (nth l w 0) == 1)%Q) by (apply Tr, nth_In; lia). rewrite map_map. clear -E1 Lf Lc. revert c1 Lc. rewrite <- Lf. clear Lf. intro c1.
    assert (G : forall cs k s c0, length cs = k -> (sumQ (map2 Qmult (map (fun row => nth l row 0%Q) cs) c0) == sumQ (map2 Qmult (map (fun b => nth (b - s) (map (fun x => Qred (nth l x 0 * trans (p_igm p) z (nth l w 0))) cs) 0%Q) (seq s k)) c0))%Q).
    { induction cs as [|y cs IH]; intros k s c0 <-; [destruct c0; reflexivity|]. destruct c0 as [|a c0]; [reflexivity|]. cbn [length seq map map2]. rewrite !sumQ_cons, Nat.sub_diag. cbn [nth]. rewrite Qred_correct, E1, (IH (length cs) (S s) c0 eq_refl).
      assert (X : map (fun b => nth (b - S s) (map (fun x => Qred (nth l x 0%Q * trans (p_igm p) z (nth l w 0%Q))%Q) cs) 0%Q) (seq (S s) (length cs)) =
                  map (fun b => nth (b - s) (Qred (nth l y 0%Q * trans (p_igm p) z (nth l w 0%Q))%Q :: map (fun x => Qred (nth l x 0%Q * trans (p_igm p) z (nth l w 0%Q))%Q) cs) 0%Q) (seq (S s) (length cs))).
      { apply map_ext_in. intros b Hb. apply in_seq in Hb. replace (b - s) with (S (b - S s)) by lia. reflexivity. }
      rewrite X. apply Qplus_comp; [ring|reflexivity]. }
    intros _. rewrite (G cols (length cols) 0 c1 eq_refl). erewrite map_ext; [reflexivity|]. intro b. cbv beta. rewrite Nat.sub_0_r. reflexivity. }
  pose proof (csr_comb R (length flux) A out c1 ltac:(lia) Hpt) as HR.
  destruct (csr_dot R (length flux) A) as [B|] eqn:EB; [|unfold csr_dot in EB; rewrite LA, Hn, Nat.eqb_refl in EB; discriminate].
  destruct HR as (m & Em & HQ). exists m. split; [exact HA|].
  pose proof (csr_dot_spec R (length flux) A B Hwf EB) as (_ & LB & RB & HB). split; [|split].
  - unfold template_eval. fold c1. rewrite Lc, Nat.eqb_refl. cbn [negb]. unfold trapz_rebin_xnew. rewrite Ee. cbn [rbind]. pose proof (valid_len _ _ _ V) as Hlt. destruct V as (_ & _ & H2 & Hp & B0 & B1).
    rewrite trapz_unfold.
    + cbn [zs_of]. rewrite amax1, amin1. rewrite redshifted_length, !redshifted_nth by lia. rewrite !qlt_ge by lra. cbn [orb]. unfold core. cbn [zs_of negb andb hd]. rewrite Eo. cbn [rbind]. exact Em.
    + intros E0. apply (f_equal (@length Q)) in E0. rewrite redshifted_length in E0. cbn in E0. lia.
    + intros E0. subst e. cbn in H2. lia.
    + discriminate.
  - apply Forall2_len in HQ. rewrite HQ. unfold mvec. now rewrite map_length.
  - intros i Hi.
    assert (Q1 : (nth i m 0 == nth i (mvec B c1) 0)%Q) by (apply (F2nth Qeq 0%Q 0%Q _ _ HQ i); apply Forall2_len in HQ; rewrite HQ; unfold mvec; rewrite map_length; unfold vec, mat in *; rewrite LB; exact Hi).
    rewrite Q1. clear Q1. unfold vec, mat in *.
    rewrite mvec_nth by (rewrite LB; exact Hi). rewrite Forall_forall in RB. assert (Li : length (nth i B []) = length flux) by (apply RB, nth_In; rewrite LB; exact Hi).
    rewrite (dot_bigsum (nth i B []) c1 (length flux)) by lia.
    rewrite (bigsum_ext (length flux) (fun b => at1 (nth i B []) b * at1 c1 b)%Q (fun b => bigsum (r_ncol R) (fun l => Rent R i l * (at2 A l b * at1 c b)))%Q).
    + rewrite bigsum_swap. apply bigsum_ext. intros l Hl. rewrite <- bigsum_scale. reflexivity.
    + intros b Hb. change (at1 (nth i B []) b) with (at2 B i b). rewrite (HB i b Hi Hb). rewrite <- bigsum_scale_r. apply bigsum_ext. intros l Hl. unfold at1, c1. rewrite nth_firstn_lt by exact Hb. ring.
Qed.
(* a dictionary filled by one pass over spectra of different hashes *)
Lemma fill (f : rspec -> res (list Q)) (P : rspec -> list Q -> Prop) : forall l d0, (forall s, In s l -> exists m, f s = Ok m /\ P s m) -> NoDup (map q_hash l) ->
  exists d, fold_left (fun acc s => do d <- acc; do m <- f s; Ok (dset d (q_hash s) m)) l (Ok d0) = Ok d /\
    (forall s, In s l -> exists m, P s m /\ dget d (q_hash s) = Some m) /\ (forall h, ~ In h (map q_hash l) -> dget d h = dget d0 h).
Proof.
  induction l as [|s l IH]; intros d0 H N; [exists d0; split; [reflexivity|]; split; [intros s []|reflexivity]|]. cbn [map] in N. inversion N as [|? ? N1 N2]; subst.
  destruct (H s (or_introl eq_refl)) as (m & E & Pm). destruct (IH (dset d0 (q_hash s) m) (fun s' I => H s' (or_intror I)) N2) as (d & Ed & D1 & D2). exists d. cbn [fold_left rbind]. rewrite E. cbn [rbind]. split; [exact Ed|]. split.
  - intros s' [<-|I]; [|now apply D1]. exists m. split; [exact Pm|]. rewrite D2 by exact N1. rewrite dget_dset. now rewrite Z.eqb_refl.
  - intros h Hh. rewrite D2 by (intro I; apply Hh; now right). rewrite dget_dset. destruct (Z.eqb_spec (q_hash s) h) as [E0|]; [exfalso; apply Hh; now left|reflexivity].
Qed.
Lemma fill0 (m : rspec -> list Q) l : NoDup (map q_hash l) -> forall s, In s l -> dget (fold_left (fun d s => dset d (q_hash s) (m s)) l []) (q_hash s) = Some (m s).
Proof.
  intros N. assert (G : forall l d0, NoDup (map q_hash l) -> (forall s, In s l -> dget (fold_left (fun d s => dset d (q_hash s) (m s)) l d0) (q_hash s) = Some (m s)) /\
     (forall h, ~ In h (map q_hash l) -> dget (fold_left (fun d s => dset d (q_hash s) (m s)) l d0) h = dget d0 h)).
  { clear. induction l as [|s l IH]; intros d0 N; [split; [intros s []|reflexivity]|]. cbn [map] in N. inversion N as [|? ? N1 N2]; subst. destruct (IH (dset d0 (q_hash s) (m s)) N2) as [D1 D2]. cbn [fold_left]. split.
    - intros s' [<-|I]; [|now apply D1]. rewrite D2 by exact N1. rewrite dget_dset. now rewrite Z.eqb_refl.
    - intros h Hh. rewrite D2 by (intro I; apply Hh; now right). rewrite dget_dset. destruct (Z.eqb_spec (q_hash s) h) as [E0|]; [exfalso; apply Hh; now left|reflexivity]. }
  apply G. exact N.
Qed.
(* the template of a type and subtype, when types are not repeated *)
Lemma template_found ps p : NoDup (map full_type ps) -> In p ps -> template_of ps (t_rrtype (p_core p)) (p_sub p) = Some p.
Proof.
  intros N I. unfold template_of. destruct (find _ (rev ps)) as [q|] eqn:E.
  - apply find_some in E as [Iq E]. apply andb_true_iff in E as [E1 E2]. apply String.eqb_eq in E1, E2. apply in_rev in Iq. f_equal.
    assert (F : full_type q = full_type p) by (unfold full_type; now rewrite E1, E2). clear E1 E2. revert I Iq F N. clear. induction ps as [|a ps IH]; intros I Iq F N; [destruct I|]. cbn [map] in N. inversion N as [|? ? N1 N2]; subst.
    destruct I as [->|I], Iq as [->|Iq]; [reflexivity| | |now apply IH]; exfalso; apply N1; [rewrite <- F|rewrite F]; now apply in_map.
  - exfalso. pose proof (find_none _ _ E p) as X. cbv beta in X. rewrite !String.eqb_refl in X. discriminate X. now apply -> in_rev.
Qed.
