(* C179: from the table of a run to the models of rrdesi --model. *)
From Verif Require Import Prelude PreludeFacts NumX Facts2 Model_Fitz Spec_Fitz Proof_Fitz2 Props_Fitz Model_Rebin Spec_Rebin Model_Dist Proof_Dist3 Model_Rank Proof_Table Model_Zscan Spec_Zscan Proof_Zscan Props_Zscan2 Props_GPU Model_Piece Model_IO Spec_IO Proof_IO Model_Targets2 Model_Zfind Proof_Zfind
  Model_Run Spec_Run Proof_Run Proof_Run2 Proof_Run3 Proof_Piece2 Proof_Run5 Proof_Run8 Proof_Run9 Props_Eval Props_Run Props_Run2 Model_RunDesi Props_RunDesi Model_Models Spec_Models Proof_Models.
Open Scope nat_scope.
Local Notation dget := Model_Dist.dget. Local Notation dset := Model_Dist.dset.

Section Props.
Variables (slv : solvers) (argsort : list xq -> list nat) (polyfit : list Q -> list Q -> option (Q * Q * Q)) (isqrt : Q -> Q).
Variable trans : option string -> Q -> Q -> Q.
Variables (nminima nz : nat).
Notation run := (run slv argsort polyfit isqrt trans nminima nz).

Lemma stake_short n s : String.length s <= n -> stake n s = s.
Proof. revert s. induction n as [|n IH]; intros [|c s] H; cbn in *; try reflexivity; [lia|]. f_equal. apply IH. lia. Qed.
(* the coefficients of a row are at least as many as its template needs *)
Lemma enough ps tgs tab o : argsort_ok argsort -> NoDup (map g_id tgs) -> run ps tgs = Ok tab -> In o tab -> (exists p, In p ps /\ f_ncoeff o = N.of_nat (nbasis p)) -> N.to_nat (f_ncoeff o) <= Datatypes.length (Model_Zfind.f_coeff o).
Proof.
  intros A N H Ho (p & Ip & En). destruct (run_parts _ _ _ _ _ _ _ A _ _ _ N H) as (tds & bss & ts & cut & _ & _ & _ & _ & -> & Hc).
  apply in_concat in Ho as (x & Ix & Ho). apply in_map_iff in Ix as (t & <- & It). apply in_map_iff in Ho as (r & <- & Ir).
  assert (M : nbasis p <= list_max_nat (map nbasis ps)) by (apply list_max_le; now apply in_map).
  assert (E : f_ncoeff (finalised (list_max_nat (map nbasis ps)) cut r) = f_ncoeff r) by (unfold finalised; destruct cut; reflexivity). rewrite E in *. rewrite En, Nnat.Nat2N.id.
  assert (P : list_max_nat (map nbasis ps) <= Datatypes.length (pad (list_max_nat (map nbasis ps)) (Model_Zfind.f_coeff r))) by (unfold pad; rewrite app_length, repeat_length; lia).
  unfold finalised. destruct cut as [n|]; cbn [Model_Zfind.f_coeff set_coeff set_type].
  - rewrite firstn_length. pose proof (Hc n eq_refl t r It Ir) as X. rewrite En, Nnat.Nat2N.id in X. lia.
  - lia.
Qed.
(* After a successful run with no absorption, on template types of at most six characters, every target's best row is rendered, by its own template:
   each model is resolution times template at the row's redshift times the row's coefficients. *)
Theorem C179_models_partial : forall ps tgs tab, argsort_ok argsort -> solvers_return slv -> 0 < nz -> 0 < nminima -> ps <> [] -> tgs <> [] ->
  NoDup (map full_type ps) -> NoDup (map g_id tgs) -> hashes_tell_grids tgs ->
  (forall p, In p ps -> sound_template p /\ plain_names p /\ full_type p <> "meta"%string /\ String.length (t_rrtype (p_core p)) <= 6) ->
  (forall g, In g tgs -> sound_target g /\ plain_resolution g) -> (forall p g, In p ps -> In g tgs -> transparent trans p g) ->
  run ps tgs = Ok tab ->
  exists ds, render_all ps tab tgs = Ok ds /\
    Forall2 (fun g d => exists o p, In o tab /\ f_tid o = g_id g /\ f_znum o = 0 /\ In p ps /\ f_type o = t_rrtype (p_core p) /\ f_sub o = p_sub p /\
      rendered trans p g (Model_Zfind.f_z o) (Model_Zfind.f_coeff o) d) tgs ds.
Proof.
  intros ps tgs tab A HS Hnz Hnm Pne Tne Nf N C HP HG HT H.
  assert (Cv : forall p g s z, In p ps -> In g tgs -> In s (g_spectra g) -> In z (p_zs p) -> covered p (q_wave s) z).
  { apply (C145_succeeds slv argsort polyfit isqrt trans nminima nz ps tgs); auto; [intros p Ip; destruct (HP p Ip) as (a & b & c & _); now split|intros g Ig; apply (HG g Ig)|now exists tab]. }
  assert (One : forall g, In g tgs -> exists d, render_target ps (zbest tab) g = Ok d /\ exists o p, In o tab /\ f_tid o = g_id g /\ f_znum o = 0 /\ In p ps /\ f_type o = t_rrtype (p_core p) /\ f_sub o = p_sub p /\
      rendered trans p g (Model_Zfind.f_z o) (Model_Zfind.f_coeff o) d).
  { intros g Ig. pose proof (run_best _ _ _ _ _ _ _ _ _ _ A N H) as B. unfold render_target. rewrite B.
    destruct (proj1 (C58_row_of_target (map g_id tgs) (g_id g)) (in_map _ _ _ Ig)) as (r & Er & Hr & _). rewrite Er. cbn [rbind].
    assert (Hb : nth_error (map f_tid (zbest tab)) r = Some (g_id g)) by now rewrite B. rewrite nth_error_map in Hb. destruct (nth_error (zbest tab) r) as [o|] eqn:Eo; [|discriminate]. cbn [option_map] in Hb. assert (Et : f_tid o = g_id g) by congruence.
    apply nth_error_In in Eo. unfold zbest in Eo. apply filter_In in Eo as [Io Ez]. apply Nat.eqb_eq in Ez.
    destruct (C139_row slv argsort polyfit isqrt trans nminima nz ps tgs tab o A N H Io) as (g' & p & Ig' & Ip & Et' & Ey & Es & [Z0 Z1] & _ & Enc & _); [intros p Ip; destruct (HP p Ip) as ((_ & _ & _ & _ & _ & M & _) & b & _); now split|].
    destruct (HP p Ip) as (Sp & Pp & Mp & L6). rewrite (stake_short 6 _ L6) in Ey. destruct (HG g Ig) as ([_ Sg] & Wg & Nh). rewrite Forall_forall in Sg.
    pose proof (enough ps tgs tab o A N H Io ltac:(exists p; split; [exact Ip|exact Enc])) as Le. rewrite Enc, Nnat.Nat2N.id in Le.
    pose proof Sp as (_ & _ & _ & _ & L2 & _ & Gt). rewrite Forall_forall in Gt.
    assert (I0 : In (hd 0%Q (p_zs p)) (p_zs p)) by (destruct (p_zs p); [cbn in L2; lia|now left]).
    assert (I1 : In (last (p_zs p) 0%Q) (p_zs p)) by (apply last_in; intro E; rewrite E in L2; cbn in L2; lia).
    assert (Zm : (-1 < Model_Zfind.f_z o)%Q) by (pose proof (Gt _ I0) as X; cbv beta in X; lra).
    assert (K : forall s, In s (g_spectra g) -> exists A m, template_on trans p (q_wave s) (Model_Zfind.f_z o) A /\
       template_eval (t_wave (p_core p)) (t_flux (p_core p)) (Model_Zfind.f_coeff o) (q_wave s) (Model_Zfind.f_z o) (Some (s_R (q_spec s))) = Ok m /\ Datatypes.length m = r_nrow (s_R (q_spec s)) /\
       forall i, i < r_nrow (s_R (q_spec s)) -> (nth i m 0 == bigsum (r_ncol (s_R (q_spec s))) (fun l => Rent (s_R (q_spec s)) i l * bigsum (nbasis p) (fun b => at2 A l b * at1 (Model_Zfind.f_coeff o) b)))%Q).
    { intros s Is. destruct (Sg s Is) as (W1 & W2 & W3 & W4 & _). destruct (Wg s Is) as [Wf _]. apply eval_on; auto; [now repeat split| |].
      - apply (between p (q_wave s) (hd 0%Q (p_zs p)) (last (p_zs p) 0%Q)); auto; now apply (Cv p g).
      - intros l Il. now apply (HT p g Ip Ig s). }
    unfold render. destruct (forallb (fun c => Qeq_bool c 0) (Model_Zfind.f_coeff o)) eqn:Ef.
    - eexists. split; [reflexivity|]. exists o, p. split; [exact Io|]. split; [exact Et|]. split; [exact Ez|]. split; [exact Ip|]. split; [exact Ey|]. split; [exact Es|].
      intros s Is. destruct (K s Is) as (M & m & HM & _). exists M, (repeat 0%Q (Datatypes.length (q_wave s))). split; [exact HM|]. split; [exact (fill0 (fun s => repeat 0%Q (Datatypes.length (q_wave s))) (g_spectra g) Nh s Is)|].
      split; [apply repeat_length|]. intros i _. rewrite (bigsum_zero (Datatypes.length (q_wave s))).
      + rewrite nth_repeat. reflexivity.
      + intros l _. rewrite (bigsum_zero (nbasis p)); [ring|]. intros b _. assert (X : (at1 (Model_Zfind.f_coeff o) b == 0)%Q); [|rewrite X; ring]. unfold at1. rewrite forallb_forall in Ef.
        destruct (nth_in_or_default b (Model_Zfind.f_coeff o) 0%Q) as [I|E]; [apply Qeq_bool_iff; now apply Ef|now rewrite E].
    - rewrite Ey, Es, (template_found ps p Nf Ip).
      destruct (fill (fun s => template_eval (t_wave (p_core p)) (t_flux (p_core p)) (Model_Zfind.f_coeff o) (q_wave s) (Model_Zfind.f_z o) (Some (s_R (q_spec s))))
        (fun s m => exists A, template_on trans p (q_wave s) (Model_Zfind.f_z o) A /\ Datatypes.length m = r_nrow (s_R (q_spec s)) /\
         forall i, i < r_nrow (s_R (q_spec s)) -> (nth i m 0 == bigsum (r_ncol (s_R (q_spec s))) (fun l => Rent (s_R (q_spec s)) i l * bigsum (nbasis p) (fun b => at2 A l b * at1 (Model_Zfind.f_coeff o) b)))%Q) (g_spectra g) []) as (d & Ed & D & _); [|exact Nh|].
      + intros s Is. destruct (K s Is) as (M & m & HM & E & Lm & Hm). exists m. split; [exact E|]. exists M. now repeat split.
      + exists d. split; [exact Ed|]. exists o, p. split; [exact Io|]. split; [exact Et|]. split; [exact Ez|]. split; [exact Ip|]. split; [first [exact Ey|reflexivity]|]. split; [first [exact Es|reflexivity]|].
        intros s Is. destruct (D s Is) as (m & (M & HM & Lm & Hm) & G). destruct (Sg s Is) as (_ & _ & _ & W4 & _). destruct (Wg s Is) as [_ Wr]. exists M, m. split; [exact HM|]. split; [exact G|]. split; [now rewrite Lm|]. rewrite Lm, <- W4. exact Hm. }
  unfold render_all. destruct (F2_build (fun g d => render_target ps (zbest tab) g = Ok d /\ exists o p, In o tab /\ f_tid o = g_id g /\ f_znum o = 0 /\ In p ps /\ f_type o = t_rrtype (p_core p) /\ f_sub o = p_sub p /\
      rendered trans p g (Model_Zfind.f_z o) (Model_Zfind.f_coeff o) d) tgs) as [ds F]; [exact One|]. exists ds. split.
  - apply mapM_Forall2. eapply Forall2_impl; [|exact F]. intros g d [E _]. exact E.
  - eapply Forall2_impl; [|exact F]. intros g d [_ E]. exact E.
Qed.
End Props.

(* ---------------- concrete runs ---------------- *)
Lemma name_of t : strip t = t -> contains ":::" t = false -> name_ok t.
Proof. intros E H. split; [rewrite <- E; apply strip_trimmed|]. intro X. apply contains_occurs in X. congruence. Qed.
Lemma tg_plain i h w iv fl : plain_resolution (tg i h w iv fl).
Proof.
  split; [|cbn; repeat constructor; intros []]. intros s [<-|[]]. cbn [q_spec q_wave s_R]. split; [|reflexivity].
  intros row jj Hr Hj. cbn in *. change (seq 0 (S (Datatypes.length w))) with (0 :: seq 1 (Datatypes.length w)) in *. destruct row as [|row]; cbn [nth] in Hj; rewrite ?seq_nth in Hj by lia; rewrite seq_nth by lia; lia.
Qed.
Lemma clear p g : transparent no_igm p g. Proof. intros s z l _ _ _ _. reflexivity. Qed.
Local Opaque run.
Example C179_nonvacuous : exists tab ds, erun [ga; st] [g1; g2] = Ok tab /\ render_all [ga; st] tab [g1; g2] = Ok ds /\ Datatypes.length ds = 2 /\
  match ds with [d1; d2] => exists m, dget d1 1 = Some m /\ Datatypes.length m = 2 /\ ~ (nth 0 m 0 == 0)%Q | _ => False end.
Proof.
  destruct (tell_ok _ _ _ run_two) as (tab & E & _).  unfold erun in E.
  destruct (C179_models_partial demo argsort0 lagrange3 (fun x => x) no_igm 2 3 [ga; st] [g1; g2] tab) as (ds & R & F); [exact argsort0_ok|exact (proj1 C145_nonvacuous)|lia|lia|discriminate|discriminate| | | | | | |exact E|].
  - cbn. repeat constructor; cbn; intuition discriminate.
  - cbn. repeat constructor; cbn; intuition discriminate.
  - destruct C138_nonvacuous as (_ & _ & C & _). exact C.
  - intros p Hp. split; [now apply ga_sound|]. destruct Hp as [<-|[<-|[]]]; (split; [split; [apply name_of; reflexivity|split; [apply name_of; reflexivity|]]|split; [discriminate|cbn; lia]]); [now left|right]. intros [a X]. destruct a as [|? [|? [|? [|? [|? ?]]]]]; discriminate.
  - intros g [<-|[<-|[]]]; (split; [apply tg_sound; reflexivity|apply tg_plain]).
  - intros p g _ _. apply clear.
  - exists tab, ds. split; [exact E|]. split; [exact R|]. inversion F as [|a d1 ? ? _ F1]; subst. inversion F1 as [|b d2 ? ? _ F2]; subst. inversion F2; subst. split; [reflexivity|].
    clear F F1 F2. revert R. revert E. assert (K : match run demo argsort0 lagrange3 (fun x => x) no_igm 2 3 [ga; st] [g1; g2] with Ok t => match render_all [ga; st] t [g1; g2] with Ok [d1; d2] => match dget d1 1 with Some m => (Datatypes.length m =? 2) && negb (Qeq_bool (nth 0 m 0%Q) 0) | None => false end | _ => false end | _ => false end = true) by (vm_compute; reflexivity).
    intro E. rewrite E in K. intro R. rewrite R in K. clear E R. destruct (dget d1 1) as [m|]; [|discriminate]. exists m. split; [reflexivity|]. apply andb_true_iff in K as [K1 K2]. split; [now apply Nat.eqb_eq|]. intro Z. apply Qeq_bool_iff in Z. rewrite Z in K2. discriminate.
Qed.
Local Transparent run.
(* a type of more than six characters: the run succeeds, the row bears the first six of them, and no template has that name *)
Theorem C179_long_type_refuted : exists p g tab, sound_template p /\ plain_names p /\ full_type p <> "meta"%string /\ sound_target g /\ plain_resolution g /\ transparent no_igm p g /\
  run demo argsort0 lagrange3 (fun x => x) no_igm 2 3 [p] [g] = Ok tab /\ render_all [p] tab [g] = Err KeyError.
Proof.
  assert (E : exists tab, run demo argsort0 lagrange3 (fun x => x) no_igm 2 3 [tm "GALAXIES" "" [1; 2; 1; 1]%Q] [g1] = Ok tab /\ render_all [tm "GALAXIES" "" [1; 2; 1; 1]%Q] tab [g1] = Err KeyError).
  { destruct (run demo argsort0 lagrange3 (fun x => x) no_igm 2 3 [tm "GALAXIES" "" [1; 2; 1; 1]%Q] [g1]) as [tab|] eqn:E; [|exfalso; revert E; vm_compute; discriminate]. exists tab. split; [reflexivity|]. revert E. vm_compute. intro E. injection E as <-. reflexivity. }
  destruct E as (tab & E1 & E2). exists (tm "GALAXIES" "" [1; 2; 1; 1]%Q), g1, tab. split; [|split; [|split; [|split; [|split; [|split; [|split]]]]]].
  - exact (ga_sound ga (or_introl eq_refl)).
  - split; [apply name_of; reflexivity|]. split; [apply name_of; reflexivity|now left].
  - discriminate.
  - apply tg_sound; reflexivity.
  - apply tg_plain.
  - apply clear.
  - exact E1.
  - exact E2.
Qed.
Print Assumptions C179_models_partial. Print Assumptions C179_long_type_refuted.
