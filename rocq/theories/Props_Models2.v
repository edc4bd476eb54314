(* C179: two template types that share their first six characters: a fit of the first is rendered with the second. *)
From Verif Require Import Prelude PreludeFacts NumX Facts2 Model_Fitz Spec_Fitz Proof_Fitz2 Props_Fitz Model_Rebin Spec_Rebin Model_Dist Proof_Dist3 Model_Rank Proof_Table Model_Zscan Spec_Zscan Proof_Zscan Props_Zscan2 Props_GPU Model_Piece Model_IO Spec_IO Proof_IO Model_Targets2 Model_Zfind Proof_Zfind
  Model_Run Spec_Run Proof_Run Proof_Run2 Proof_Run3 Proof_Run4 Proof_Piece2 Proof_Run5 Proof_Run8 Proof_Run9 Props_Eval Props_Run Props_Run2 Model_RunDesi Props_RunDesi Model_Models Spec_Models Proof_Models Props_Models.
Open Scope nat_scope.
Local Notation dget := Model_Dist.dget.
Definition pa := tm "GALAXYA" "" [1; 2; 1; 1]%Q.
Definition pq := tm "GALAXY" "" [2; 1; 1; 1]%Q.
Local Notation orun := (run demo argsort0 lagrange3 (fun x => x) no_igm 2 3).
Definition zb : Q := 113892746720586860 # 210696372339470680.
Definition cb : list Q := [4193698071854044401955672028891831784 # 1612446042569741634797947065157538345].
Lemma runs : exists o r1 r2 alone, orun [pa; pq] [g1] = Ok [o; r1; r2] /\ orun [pa] [g1] = Ok [alone] /\ f_tid o = 7%Z /\ f_znum o = 0 /\ f_znum r1 = 1 /\ f_znum r2 = 2 /\ f_type o = "GALAXY"%string /\ f_sub o = ""%string /\
  f_z o = zb /\ f_z alone = zb /\ f_chi2 o = f_chi2 alone /\ f_coeff o = cb /\ f_coeff alone = cb.
Proof.
  destruct (orun [pa; pq] [g1]) as [tab|] eqn:E1; [|exfalso; revert E1; vm_compute; discriminate]. destruct (orun [pa] [g1]) as [al|] eqn:E2; [|exfalso; revert E2; vm_compute; discriminate].
  revert E1 E2. vm_compute. intros E1 E2. injection E1 as <-. injection E2 as <-. do 4 eexists. split; [reflexivity|]. split; [reflexivity|]. now repeat split.
Qed.
Local Opaque run.
Definition on (p : tmpl) : mat := match one_grid no_igm p [zb] ((nth 0 (t_wave (p_core p)) 0 * (1 + amax [zb]))%Q, (nth (length (t_wave (p_core p)) - 1) (t_wave (p_core p)) 0 * (1 + amin [zb]))%Q) [20; 30]%Q with Ok [A] => A | _ => [] end.
(* the values of the template of p at the redshift of the row *)
Lemma only_one p A : (p = pa \/ p = pq) -> template_on no_igm p [20; 30]%Q zb A -> A = on p.
Proof.
  intros Hp T.
  assert (U : Spec_Run.usable p) by (destruct Hp as [-> | ->]; (split; [discriminate|split; cbn; discriminate])).
  destruct (Proof_Run.ends p [zb]) as [x|] eqn:Ex; [|exfalso; destruct Hp as [-> | ->]; vm_compute in Ex; discriminate].
  pose proof (proj2 (one_grid_rows no_igm p [zb] x [20; 30]%Q [A] U ltac:(discriminate) Ex)) as X.
  assert (Y : one_grid no_igm p [zb] x [20; 30]%Q = Ok [A]). { apply X. split; [constructor; [exact T|constructor]|]. destruct T as (e & _ & E & _). now exists e. }
  destruct Hp as [-> | ->]; vm_compute in Ex; injection Ex as <-; vm_compute in Y; injection Y as <-; vm_compute; reflexivity.
Qed.
(* Two types that share their first six characters, the longer one first: both are sound, the run succeeds, the best row of the target is the fit of the first template
   (the redshift, chi2 and coefficients of its run on its own), but its model is that of the second. *)
Theorem C179_same_prefix_refuted : exists p q g tab alone o d, sound_template p /\ sound_template q /\ plain_names p /\ plain_names q /\ NoDup (map full_type [p; q]) /\ sound_target g /\ plain_resolution g /\
  orun [p; q] [g] = Ok tab /\ orun [p] [g] = Ok [alone] /\ In o tab /\ f_tid o = g_id g /\ f_znum o = 0 /\
  f_z o = f_z alone /\ f_chi2 o = f_chi2 alone /\ f_coeff o = f_coeff alone /\
  render_all [p; q] tab [g] = Ok [d] /\ rendered no_igm q g (f_z o) (f_coeff o) d /\ ~ rendered no_igm p g (f_z o) (f_coeff o) d.
Proof.
  destruct runs as (o & r1 & r2 & alone & E1 & E2 & T & N0 & N1 & N2 & Ty & Sb & Z1 & Z2 & X & C1 & C2).
  assert (Cv : covered pq [20; 30]%Q zb) by (split; vm_compute; discriminate).
  assert (Sq : sound_template pq) by (destruct (ga_sound ga (or_introl eq_refl)) as (a & b & c & _ & e); split; [exact a|split; [exact b|split; [exact c|split; [|exact e]]]]; repeat constructor).
  pose proof (tg_plain 7 1 [20; 30]%Q [1; 1]%Q [5; 2]%Q) as Pl. destruct Pl as [Wf Nh].
  destruct (eval_on no_igm pq [20; 30]%Q zb cb (idcsr 2)) as (A & m & HA & Em & Lm & Hm); [exact Sq| | |exact Cv| | | | |].
  - split; [cbn; lia|]. split; [|vm_compute; reflexivity]. apply inc2. cbn [length]. intros [|[|i']] Hx; cbn [nth]; try lia. reflexivity.
  - vm_compute. reflexivity.
  - intros l _. reflexivity.
  - exact (proj1 (Wf _ (or_introl eq_refl))).
  - reflexivity.
  - vm_compute. lia.
  - assert (Er : render_all [pa; pq] [o; r1; r2] [g1] = Ok [[(1%Z, m)]]).
    { assert (Rn : render [pa; pq] g1 o = Ok [(1%Z, m)]).
      { unfold render. rewrite Ty, Sb, Z1, C1. change (template_of [pa; pq] "GALAXY" "") with (Some pq). change (forallb (fun c : Q => Qeq_bool c 0) cb) with false.
        assert (K : (do d <- Ok ([] : Model_Dist.dict (list Q)); do m <- template_eval (t_wave (p_core pq)) (t_flux (p_core pq)) cb [20; 30]%Q zb (Some (idcsr 2)); Ok (Model_Dist.dset d 1%Z m)) = Ok [(1%Z, m)]) by (cbn [rbind]; rewrite Em; reflexivity). exact K. }
      unfold render_all. assert (Eb : zbest [o; r1; r2] = [o]) by (unfold zbest; cbn [filter]; rewrite N0, N1, N2; reflexivity). rewrite Eb. cbn [mapM]. unfold render_target. cbn [map]. rewrite T. change (bestfit_row [7%Z] (g_id g1)) with (@Ok nat 0). cbn [rbind nth_error]. rewrite Rn. reflexivity. }
    exists pa, pq, g1, [o; r1; r2], alone, o, [(1%Z, m)].
    split; [exact (ga_sound ga (or_introl eq_refl))|]. split; [exact Sq|].
    split; [split; [apply name_of; reflexivity|split; [apply name_of; reflexivity|now left]]|]. split; [split; [apply name_of; reflexivity|split; [apply name_of; reflexivity|now left]]|].
    split; [cbn; repeat constructor; cbn; intuition discriminate|]. split; [apply tg_sound; reflexivity|]. split; [exact (conj Wf Nh)|].
    split; [exact E1|]. split; [exact E2|]. split; [now left|]. split; [exact T|]. split; [exact N0|]. split; [congruence|]. split; [exact X|]. split; [congruence|]. split; [exact Er|]. rewrite Z1, C1. split.
    + intros s [<-|[]]. exists A, m. split; [exact HA|]. split; [reflexivity|]. split; [exact Lm|]. intros i Hi. rewrite Lm in Hi. exact (Hm i Hi).
    + intro R. destruct (R _ (or_introl eq_refl)) as (B & m' & HB & Eg & L' & Hm'). change (dget [(1%Z, m)] 1%Z) with (Some m) in Eg. injection Eg as <-.
      change (q_wave _) with [20; 30]%Q in HA, HB, Hm'. apply only_one in HA; [|now right]. apply only_one in HB; [|now left]. subst A B.
      specialize (Hm 0 ltac:(cbn; lia)). specialize (Hm' 0 ltac:(rewrite L'; cbn; lia)). rewrite Hm in Hm'. revert Hm'. vm_compute. discriminate.
Qed.
Print Assumptions C179_same_prefix_refuted.
