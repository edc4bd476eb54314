(* A whole run with several processes and the serial run: C151. *)
From Verif Require Import Prelude PreludeFacts NumX Model_Fitz Spec_Fitz Props_Fitz Model_Rebin Model_Dist Spec_Dist Proof_Dist Proof_Dist2 Proof_Dist3 Model_MP Proof_MP Proof_MP2 Proof_Zfind Props_Par Model_Zscan Spec_Zscan Props_Zscan2 Props_GPU Model_Piece Model_IO Model_Zfind Model_Run Props_Run
  Model_RunMPI Model_RunMP Spec_RunMP Proof_RunMP Proof_RunMP2.
Open Scope nat_scope.
Local Notation dget := Model_Dist.dget. Local Notation dset := Model_Dist.dset. Local Notation dict := Model_Dist.dict.


Lemma greedy_local {D} (local : list (tgt D)) nproc : 0 < nproc -> NoDup (map t_id local) -> StronglySorted (fun a b => t_nspec b <= t_nspec a) local ->
  exists ml, distribute_targets local nproc = Ok ml /\ Permutation (concat ml) (map t_id local) /\ ml = map (fun l => map t_id (worker_data local l)) ml.
Proof.
  intros Hn Hnd Hso.
  destruct (distribute_work_greedy nproc (map t_id local) (Some (tweights local)) None (tw local))
    as (ml & E & Hl & Hp & wt' & Hwt & Hg); [intros x Hx; apply tweights_tot, Hx|exact Hn|apply repeat_length|apply Forall_pos_repeat|].
  assert (Hid : by_weight wt' (map t_id local) = map t_id local).
  { unfold by_weight. apply isort_id.
    assert (Hw : forall t, In t local -> wt' (t_id t) = inject_Z (Z.of_nat (t_nspec t))) by (intros t Ht; rewrite Hwt by (apply in_map, Ht); apply tw_in; assumption).
    clear - Hso Hw. induction Hso as [|a l Hs IH Hall]; cbn [map]; constructor.
    - apply IH. intros; apply Hw; right; assumption.
    - apply Forall_forall. intros x Hx. apply in_map_iff in Hx as (b & <- & Hb). apply Qle_bool_iff.
      rewrite !Hw by (try (left; reflexivity); right; exact Hb). rewrite <- Zle_Qle. rewrite Forall_forall in Hall. specialize (Hall b Hb). lia. }
  rewrite Hid in Hg. exists ml. split; [exact E|]. split; [exact Hp|].
  rewrite <- (map_id ml) at 1. apply map_ext_in. intros l Hin. apply In_nth with (d := []) in Hin as (i & Hi & <-). symmetry.
  apply worker_data_subseq; [exact Hnd|]. eapply greedy_subseq; exact Hg.
Qed.

Section Props.
Variables (slv : solvers) (argsort : list xq -> list nat) (polyfit : list Q -> list Q -> option (Q * Q * Q)) (isqrt : Q -> Q).
Variable trans : option string -> Q -> Q -> Q.
Variables (nminima nz : nat).
Notation run := (run slv argsort polyfit isqrt trans nminima nz).
Notation run_as := (run_as slv argsort polyfit isqrt trans nminima nz).
Notation run_mp := (run_mp slv argsort polyfit isqrt trans nminima nz).

(* what a run with several processes gives, in every order of events: the table of a serial run in which the chi2 scan of a target is that of the
   target at its place in the list of its process; when that serial run has a table, some run with processes ends with it *)
Theorem C151_outcome : forall nproc (ts : list (tgt targ)), 0 < nproc -> ts <> [] -> Forall sound ts -> NoDup (map t_id ts) ->
  exists swapped, Forall2 (fun t g => exists u, In u ts /\ (forall v, scanned_for ts nproc t v <-> v = u) /\ g = renamed (t_data t) (t_data u)) ts swapped /\
    forall ps tab, run_mp nproc ps ts tab <-> run_as ps (map t_data ts) swapped = Ok tab.
Proof.
  intros nproc ts Hn Hne Hs N. assert (Hid : Forall (fun t => t_id t = g_id (t_data t)) ts) by (eapply Forall_impl; [|exact Hs]; intros t [H _]; exact H).
  destruct (distribute_targets_ok ts nproc Hn) as (ml & E & _ & P). exists (scanned ts ml). split.
  - unfold scanned. assert (G : forall l, incl l ts -> Forall2 (fun t g => exists u, In u ts /\ (forall v, scanned_for ts nproc t v <-> v = u) /\ g = renamed (t_data t) (t_data u)) l (map (fun t => renamed (t_data t) (t_data (source ts ml t))) l)).
    { induction l as [|t l IH]; intro I; [constructor|]. cbn [map]. constructor; [|apply IH; intros x Hx; apply I; now right]. assert (Ht : In t ts) by (apply I; now left).
      exists (source ts ml t). split; [exact (proj2 (pairs_get ts ml t N P Ht))|]. split; [intro v; now apply source_spec|reflexivity]. }
    apply G, incl_refl.
  - intros ps tab. now apply run_mp_as.
Qed.

(* if the targets come in the order of decreasing number of spectra, the processes change nothing *)
Theorem C151_same_table_partial : forall nproc (ts : list (tgt targ)), 0 < nproc -> ts <> [] -> Forall sound ts -> NoDup (map t_id ts) ->
  StronglySorted (fun a b => length (g_spectra (t_data b)) <= length (g_spectra (t_data a))) ts ->
  forall ps tab, run_mp nproc ps ts tab <-> run ps (map t_data ts) = Ok tab.
Proof.
  intros nproc ts Hn Hne Hs N So ps tab. assert (Hid : Forall (fun t => t_id t = g_id (t_data t)) ts) by (eapply Forall_impl; [|exact Hs]; intros t [H _]; exact H).
  assert (So' : StronglySorted (fun a b => t_nspec b <= t_nspec a) ts). { clear -So Hs. induction So as [|a l S1 IH F]; [constructor|]. inversion Hs as [|? ? Ha Hl]; subst. constructor; [now apply IH|]. rewrite Forall_forall in *. intros b Hb. rewrite (proj2 Ha), (proj2 (Hl b Hb)). now apply F. }
  destruct (greedy_local ts nproc Hn N So') as (ml & E & P & K).
  rewrite (run_mp_as slv argsort polyfit isqrt trans nminima nz nproc ts ml N Hid E P ps tab Hne).
  assert (Sc : scanned ts ml = map t_data ts).
  { unfold scanned. apply map_ext_in. intros t Ht. unfold source, pairs. rewrite K at 1. rewrite (fit_pairs ts ml N P t Ht). destruct (t_data t); reflexivity. }
  rewrite Sc, run_as_self. reflexivity.
Qed.
(* in particular if all targets have the same number of spectra *)
Theorem C151_equal_numbers_partial : forall nproc (ts : list (tgt targ)) n, 0 < nproc -> ts <> [] -> Forall sound ts -> NoDup (map t_id ts) ->
  (forall t, In t ts -> length (g_spectra (t_data t)) = n) -> forall ps tab, run_mp nproc ps ts tab <-> run ps (map t_data ts) = Ok tab.
Proof.
  intros nproc ts n Hn Hne Hs N He. apply C151_same_table_partial; try assumption. clear -He. induction ts as [|a l IH]; constructor; [apply IH; intros; apply He; now right|].
  apply Forall_forall. intros b Hb. rewrite (He a (or_introl eq_refl)), (He b (or_intror Hb)). lia.
Qed.
(* no targets: the main process divides by zero, whatever the number of processes *)
Theorem C151_no_targets : forall nproc ps tab, 0 < nproc -> ps <> [] -> progincr nproc 0 = Err ZeroDivisionError /\ ~ run_mp nproc ps [] tab.
Proof.
  intros nproc ps tab Hn Hp. assert (E : progincr nproc 0 = Err ZeroDivisionError) by (unfold progincr; destruct (Nat.ltb_spec 0 nproc); [reflexivity|lia]). split; [exact E|].
  intros (tds & r1 & r2 & E1 & E2 & _). destruct ps as [|p ps]; [congruence|]. destruct tds as [|td tds]; [cbn [mapM] in E1; destruct (tdata _ _ _ _) in E1; cbn [rbind] in E1; [destruct (mapM _ _) in E1; discriminate|discriminate]|]. cbn [combine] in E2. inversion E2 as [|? ? ? ? ? Hs _]; subst. destruct Hs as (data & keys & inc & d & _ & Hi & _). cbn [length] in Hi. rewrite E in Hi. discriminate.
Qed.
End Props.
Print Assumptions C151_outcome.
Print Assumptions C151_same_table_partial.
Print Assumptions C151_equal_numbers_partial.
Print Assumptions C151_no_targets.

(* ---------------- concrete runs ---------------- *)
Definition gs3 (i : Z) (n : nat) (fl : list Q) : targ := {| g_id := i; g_spectra := repeat {| q_wave := [20; 30]; q_spec := {| s_hash := 1; s_ivar := [1; 1]; s_flux := fl; s_R := idcsr 2 |} |} n |}%Q.
Definition gA := gs3 1 1 [5; 2]%Q.
Definition gB := gs3 2 2 [1; 2]%Q.
Definition gC := gs3 3 3 [4; 2]%Q.
Definition ga5 : tmpl := {| p_core := p_core ga; p_sub := ""; p_igm := None; p_zs := [0; 1#4; 1#2; 3#4; 1] |}%Q.
Local Notation as_run := (run_as demo argsort0 lagrange3 (fun x => x) no_igm 2 3).
Local Notation mp_run := (run_mp demo argsort0 lagrange3 (fun x => x) no_igm 2 3).
Definition tt (g : targ) : tgt targ := {| t_id := g_id g; t_nspec := length (g_spectra g); t_data := g |}.
Definition rowz (t : list frow) : list (Z * Q * N) := map (fun o => (f_tid o, Qred (Model_Zfind.f_z o), Model_Zfind.f_zwarn o)) t.
Definition showz (r : res (list frow)) : list (Z * Q * N) := match r with Ok t => rowz t | Err _ => [] end.
Lemma serial_z : showz (erun [ga5] [gA; gB; gC]) = [(1%Z, 2757161877 # 5498108392, 2%N); (2%Z, 0%Q, 1058%N); (2%Z, 1%Q, 1058%N); (3%Z, 299609787 # 597354392, 2%N)].
Proof. vm_compute. reflexivity. Qed.
Lemma swapped_z : showz (as_run [ga5] [gA; gB; gC] [renamed gA gB; renamed gB gA; renamed gC gC]) = [(1%Z, 3 # 4, 1058%N); (1%Z, 1 # 4, 1058%N); (2%Z, 191900631 # 382796408, 1026%N); (3%Z, 299609787 # 597354392, 2%N)].
Proof. vm_compute. reflexivity. Qed.
Lemma mp_lists : distribute_targets [tt gA; tt gB; tt gC] 2 = Ok [[3]; [2; 1]]%Z /\ scanned [tt gA; tt gB; tt gC] [[3]; [2; 1]]%Z = [renamed gA gB; renamed gB gA; renamed gC gC].
Proof. split; vm_compute; reflexivity. Qed.
Lemma showz_ok r x l : showz r = x :: l -> exists tab, r = Ok tab /\ rowz tab = x :: l.
Proof. destruct r as [t|]; [|discriminate]. intro H. now exists t. Qed.
Lemma abc_ok : Forall sound [tt gA; tt gB; tt gC] /\ NoDup (map t_id [tt gA; tt gB; tt gC]).
Proof. split; [repeat constructor|]. cbn. repeat constructor; cbn; intuition discriminate. Qed.
Global Opaque erun run_as.

(* three targets with 1, 2 and 3 spectra and two processes: the serial run finds z = 0.50 without a warning for target 1; every run with two processes that
   ends (and there are such runs) finds 0.75 and 0.25 for it, flagged, and gives target 2 the redshift of target 1 *)
Theorem C151_wrong_table_refuted : exists tab,
  (erun [ga5] [gA; gB; gC] = Ok tab /\ rowz tab = [(1%Z, 2757161877 # 5498108392, 2%N); (2%Z, 0%Q, 1058%N); (2%Z, 1%Q, 1058%N); (3%Z, 299609787 # 597354392, 2%N)]) /\
  (exists tab', mp_run 2 [ga5] [tt gA; tt gB; tt gC] tab') /\
  forall tab', mp_run 2 [ga5] [tt gA; tt gB; tt gC] tab' -> rowz tab' = [(1%Z, 3 # 4, 1058%N); (1%Z, 1 # 4, 1058%N); (2%Z, 191900631 # 382796408, 1026%N); (3%Z, 299609787 # 597354392, 2%N)].
Proof.
  destruct (showz_ok _ _ _ serial_z) as (tab & E & Z1). exists tab. split; [split; [exact E|exact Z1]|]. clear tab E Z1.
  destruct mp_lists as [Em Es]. destruct abc_ok as [Sd N]. assert (Hid : Forall (fun t => t_id t = g_id (t_data t)) [tt gA; tt gB; tt gC]) by (eapply Forall_impl; [|exact Sd]; intros t [H _]; exact H).
  assert (P : Permutation (concat [[3]; [2; 1]]%Z) (map t_id [tt gA; tt gB; tt gC])) by (cbn; apply Permutation_sym; apply (Permutation_trans (l' := [1; 3; 2]%Z)); [apply perm_skip, perm_swap|]; apply (Permutation_trans (l' := [3; 1; 2]%Z)); [apply perm_swap|apply perm_skip, perm_swap]).
  pose proof (fun tab => run_mp_as demo argsort0 lagrange3 (fun x => x) no_igm 2 3 2 [tt gA; tt gB; tt gC] _ N Hid Em P [ga5] tab ltac:(discriminate)) as H. rewrite Es in H. cbn [map t_data tt] in H.
  destruct (showz_ok _ _ _ swapped_z) as (tab' & E' & Z'). split.
  - exists tab'. now apply H.
  - intros tab2 H2. apply H in H2. rewrite E' in H2. assert (tab2 = tab') by congruence. subst. exact Z'.
Qed.
Print Assumptions C151_wrong_table_refuted.
(* the hypotheses of C151_same_table_partial: the same targets in the other order *)
Example C151_nonvacuous : Forall sound [tt gC; tt gB; tt gA] /\ NoDup (map t_id [tt gC; tt gB; tt gA]) /\ StronglySorted (fun a b => length (g_spectra (t_data b)) <= length (g_spectra (t_data a))) [tt gC; tt gB; tt gA] /\
  exists tab, mp_run 2 [ga5] [tt gC; tt gB; tt gA] tab.
Proof.
  assert (S1 : Forall sound [tt gC; tt gB; tt gA]) by (repeat constructor). assert (N1 : NoDup (map t_id [tt gC; tt gB; tt gA])) by (cbn; repeat constructor; cbn; intuition discriminate).
  assert (So : StronglySorted (fun a b => length (g_spectra (t_data b)) <= length (g_spectra (t_data a))) [tt gC; tt gB; tt gA]) by (repeat constructor; cbn; lia).
  split; [exact S1|]. split; [exact N1|]. split; [exact So|].
  assert (Hne : [tt gC; tt gB; tt gA] <> []) by discriminate.
  pose proof (C151_same_table_partial demo argsort0 lagrange3 (fun x => x) no_igm 2 3 2 _ (Nat.lt_0_succ 1) Hne S1 N1 So [ga5]) as H.
  assert (X : err (run demo argsort0 lagrange3 (fun x => x) no_igm 2 3 [ga5] (map t_data [tt gC; tt gB; tt gA])) = None) by (vm_compute; reflexivity). destruct (run demo argsort0 lagrange3 (fun x => x) no_igm 2 3 [ga5] (map t_data [tt gC; tt gB; tt gA])) as [tab|] eqn:E; [|discriminate X]. clear X.
  exists tab. exact (proj2 (H tab) eq_refl).
Qed.
