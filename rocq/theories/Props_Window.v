(* Splitting a run of rrdesi into windows (--mintarget, -n): C175. *)
From Verif Require Import Prelude PreludeFacts NumX Facts2 Model_Fitz Proof_Fitz Model_Rebin Model_Dist Spec_Dist Proof_Dist3 Proof_Table Model_Zscan Proof_Zscan3 Model_Piece Model_IO Model_Zfind Model_Targets Model_Desi Spec_Desi Proof_Desi Proof_Desi2 Proof_Desi4 Props_Desi
  Model_Run Proof_Run Spec_Run Proof_Run2 Proof_Run3 Proof_Run5 Proof_Run6 Proof_Run7 Model_RunMPI Proof_RunMPI2 Proof_RunMPI3 Model_RunDesi Spec_RunDesi Proof_RunDesi Props_GPU Props_Zscan2 Props_Fitz Props_Run Props_Run2 Props_RunDesi.
Open Scope nat_scope.

(* the same run with --mintarget first -n n *)
Definition with_window (o : dopts) (w : nat * nat) : dopts :=
  {| o_ids := None; o_first := Some (Z.of_nat (fst w)); o_n := Some (Z.of_nat (snd w)); o_allspec := o_allspec o; o_cosmics := o_cosmics o; o_negflux := o_negflux o; o_skymask := o_skymask o |}.
(* the part of a list that a window stands for *)
Definition part {A} (l : list A) (w : nat * nat) : list A := firstn (snd w) (skipn (fst w) l).
(* windows, none empty and none reaching over the end, that together list everything once and in order *)
Definition cover {A} (l : list A) (ws : list (nat * nat)) : Prop :=
  (forall w, In w ws -> 0 < snd w /\ fst w + snd w <= length l) /\ concat (map (part l) ws) = l.

Lemma groups_rows : forall (ids : list Z) (ls : list (list frow)), NoDup ids -> Forall2 (fun t l => forall r, In r l -> f_tid r = t) ids ls ->
  concat ls = concat (map (fun t => rows_of t (concat ls)) ids).
Proof.
  intros ids ls N F. assert (G : forall pre, (forall r, In r pre -> ~ In (f_tid r) ids) -> map (fun t => rows_of t (pre ++ concat ls)) ids = ls); [|pose proof (G [] ltac:(intros r [])) as G0; cbn [app] in G0; now rewrite G0].
  induction F as [|t l ids ls Hl F IH]; intros pre Hp; [reflexivity|]. inversion N as [|? ? N1 N2]; subst. cbn [map concat]. f_equal.
  - unfold rows_of. rewrite !filter_app. rewrite filter_none by (intros r Hr; apply Z.eqb_neq; intros E; apply (Hp r Hr); left; congruence). cbn [app].
    rewrite (filter_none _ (concat ls)). 2:{ intros r Hr. apply Z.eqb_neq. intro E. apply N1. apply in_concat in Hr as (x & Ix & Hr). destruct (Forall2_in_r _ _ _ _ F Ix) as (t' & It & Hx). rewrite <- E, (Hx r Hr). exact It. }
    rewrite app_nil_r. clear -Hl. induction l as [|r l IH]; [reflexivity|]. cbn [filter]. rewrite (Hl r (or_introl eq_refl)), Z.eqb_refl. f_equal. apply IH. intros; apply Hl; now right.
  - specialize (IH N2 (pre ++ l)). rewrite <- app_assoc in IH. apply IH. intros r Hr I. apply in_app_iff in Hr as [Hr|Hr]; [apply (Hp r Hr); now right|]. rewrite (Hl r Hr) in I. contradiction.
Qed.
Lemma F2_app {A B} (P : A -> B -> Prop) a b c d : Forall2 P a b -> Forall2 P c d -> Forall2 P (a ++ c) (b ++ d).
Proof. intros H H'. induction H; cbn; [exact H'|now constructor]. Qed.
Lemma zbest_same a b : Forall2 same_row a b -> Forall2 same_row (zbest a) (zbest b).
Proof. intro H. induction H as [|x y a b Hxy _ IH]; [constructor|]. unfold zbest. cbn [filter]. assert (E : f_znum x = f_znum y) by (now destruct Hxy as (_ & _ & _ & _ & _ & _ & _ & _ & _ & _ & E & _)). rewrite E. destruct (f_znum y =? 0); [constructor; assumption|exact IH]. Qed.
Lemma zbest_concat l : zbest (concat l) = concat (map zbest l).
Proof. induction l as [|a l IH]; [reflexivity|]. cbn [concat map]. now rewrite zbest_app, IH. Qed.

Section Props.
Variables (slv : solvers) (argsort : list xq -> list nat) (polyfit : list Q -> list Q -> option (Q * Q * Q)) (isqrt : Q -> Q).
Variable trans : option string -> Q -> Q -> Q.
Variables (nminima nz : nat).
Variables (hashf : hash_arg -> Z) (tocsr : dia -> csr) (fb : fbits).
Notation run := (run slv argsort polyfit isqrt trans nminima nz).
Notation rrdesi := (rrdesi slv argsort polyfit isqrt trans nminima nz hashf tocsr fb).

Lemma run_groups ps tgs tab : argsort_ok argsort -> NoDup (map g_id tgs) -> run ps tgs = Ok tab -> exists ls, tab = concat ls /\ Forall2 (fun t l => forall r, In r l -> f_tid r = t) (map g_id tgs) ls.
Proof.
  intros A N H. destruct (run_parts _ _ _ _ _ _ _ A _ _ _ N H) as (tds & bss & ts & cut & _ & P & F & G & -> & _).
  exists (map (map (finalised (list_max_nat (map nbasis ps)) cut)) ts). split; [reflexivity|]. clear -F G.
  assert (L : length bss = length tgs) by (symmetry; exact (Forall2_len _ _ _ F)). clear F. revert bss ts L G. induction tgs as [|g tgs IH]; intros bss ts L G.
  - cbn in G. inversion G. constructor.
  - destruct bss as [|bs bss]; [discriminate|]. cbn [combine] in G. inversion G as [|? t ? ts' Ha G']; subst. cbn [map]. constructor; [|apply (IH bss ts' ltac:(cbn in L; lia) G')].
    intros r Hr. apply in_map_iff in Hr as (r0 & <- & Hr). cbn [fst snd] in Ha. destruct (out_row _ _ _ _ _ Ha r0 Hr) as (b & r1 & _ & _ & E & _). unfold finalised. destruct cut; exact E.
Qed.
(* the table is the rows of the first target, then those of the second, ... *)
Lemma by_target o ps ds fs tab : argsort_ok argsort -> open_files o ds = Ok fs -> in_order fs -> rrdesi o ps ds = Ok tab -> tab = concat (map (fun t => rows_of t tab) (all_ids fs)).
Proof.
  intros A E Or H. apply (rrdesi_run _ _ _ _ _ _ _ _ _ _ _ _ _ _ _ E Or) in H as (tgs & tab0 & Ei & R & Hr & ->). assert (N : NoDup (map g_id tgs)) by (rewrite Ei; apply ids_nodup).
  destruct (run_groups ps tgs tab0 A N Hr) as (ls & -> & F). rewrite concat_map. rewrite <- Ei. apply groups_rows; [exact N|].
  clear -F. induction F as [|t l ids ls Hl F IH]; cbn [map]; constructor; [|exact IH]. intros r Hr. apply in_map_iff in Hr as (r0 & <- & Hr). rewrite reflag_tid. now apply Hl.
Qed.
(* a window is a list of target ids *)
Lemma window_is_list o ps d w : fst w + snd w <= length (df_fm d) ->
  rrdesi (with_window o w) ps [d] = rrdesi (with_ids o (part (map fm_id (df_fm d)) w)) ps [d] /\ open_files (with_window o w) [d] = open_files (with_ids o (part (map fm_id (df_fm d)) w)) [d].
Proof.
  intro H. assert (K : kept (with_window o w) d = kept (with_ids o (part (map fm_id (df_fm d)) w)) d).
  { unfold kept. cbn [o_ids o_first o_n with_window with_ids]. transitivity (Ok (part (map fm_id (df_fm d)) w)); [|symmetry; exact (C69_no_options _)].
    pose proof (C69_window_partial (map fm_id (df_fm d)) (Z.of_nat (fst w)) (Z.of_nat (snd w)) ltac:(lia) ltac:(lia) ltac:(rewrite map_length; lia)) as X. cbn [cli_window fst snd] in X. rewrite !Nat2Z.id in X. exact X. }
  assert (Op : open_files (with_window o w) [d] = open_files (with_ids o (part (map fm_id (df_fm d)) w)) [d]) by (unfold open_files; cbn [mapM]; unfold open_file; now rewrite K).
  split; [|exact Op]. unfold Model_RunDesi.rrdesi. rewrite Op. reflexivity.
Qed.

(* Full statement: for any input files, runs over windows that cover the targets give together the table of one run.  Missing: several input files (refuted below).
   For one file: each of the runs ends, with the rows of exactly its targets, and their tables one after the other are the table of one run, row by row;
   the tables of the best fits likewise. *)
Theorem C175_one_file_partial : forall o ps d fs tab ws, argsort_ok argsort -> whole o -> open_files o [d] = Ok fs -> in_order fs -> mapped d -> NoDup (map fm_id (df_fm d)) ->
  rrdesi o ps [d] = Ok tab -> cover (map fm_id (df_fm d)) ws ->
  exists tabs, Forall2 (fun w tab' => rrdesi (with_window o w) ps [d] = Ok tab' /\ map f_tid (zbest tab') = part (map fm_id (df_fm d)) w) ws tabs /\
    Forall2 same_row tab (concat tabs) /\ Forall2 same_row (zbest tab) (concat (map zbest tabs)).
Proof.
  intros o ps d fs tab ws A W E Or Mp N H (Cw & Cc). set (ids := map fm_id (df_fm d)) in *.
  assert (Nw : forall w, In w ws -> NoDup (part ids w)).
  { intros w _. unfold part. rewrite <- (firstn_skipn (fst w) ids) in N. apply NoDup_app_r in N. rewrite <- (firstn_skipn (snd w) (skipn (fst w) ids)) in N. now apply NoDup_app_l in N. }
  assert (All : all_ids fs = ids). { pose proof (open_len _ _ _ E) as Fo. inversion Fo as [|? f ? fs' (k & Hk & ->) Fo']; subst. inversion Fo'; subst. unfold all_ids. cbn [map concat sf_keep]. rewrite app_nil_r. destruct W as (O1 & O2 & O3). unfold kept in Hk. rewrite O1, O2, O3 in Hk. pose proof (C69_no_options (map fm_id (df_fm d))) as X. cbn [cli_window fst snd] in X. fold ids in X, Hk. assert (k = ids) by congruence. subst k. rewrite unique_targets_ok. now apply first_occ_id. }
  assert (One : forall w, In w ws -> exists tab', rrdesi (with_window o w) ps [d] = Ok tab' /\ map f_tid (zbest tab') = part ids w /\ Forall2 same_row (concat (map (fun t => rows_of t tab) (part ids w))) tab').
  { intros w Iw. destruct (Cw w Iw) as [W0 W1]. unfold ids in W1. rewrite map_length in W1. destruct (window_is_list o ps d w W1) as [Er Eo]. fold ids in Er, Eo.
    assert (Ne : part ids w <> []). { unfold part. intro Z0. apply (f_equal (@length _)) in Z0. rewrite firstn_length, skipn_length in Z0. unfold ids in Z0. rewrite map_length in Z0. cbn [length] in Z0. lia. }
    assert (Inc : forall t, In t (part ids w) -> In t ids). { intros t Ht. unfold part in Ht. rewrite <- (firstn_skipn (fst w) ids). apply in_app_iff. right. rewrite <- (firstn_skipn (snd w) (skipn (fst w) ids)). apply in_app_iff. now left. }
    destruct (C152_targetids slv argsort polyfit isqrt trans nminima nz hashf tocsr fb o ps [d] fs tab (part ids w) A W E Or) as (tab' & H' & Same); [intros d' [<-|[]]; exact Mp|exact H|exact Ne|intros t Ht; exists d; split; [now left|now apply Inc]|].
    assert (Op' : exists fs', open_files (with_ids o (part ids w)) [d] = Ok fs' /\ all_ids fs' = part ids w).
    { unfold open_files. cbn [mapM]. unfold open_file, kept. cbn [o_ids o_first o_n with_ids]. pose proof (C69_no_options (part ids w)) as X. cbn [cli_window fst snd] in X. rewrite X. cbn [rbind]. eexists. split; [reflexivity|]. unfold all_ids. cbn [map concat sf_keep]. rewrite app_nil_r, unique_targets_ok. now apply first_occ_id, Nw. }
    destruct Op' as (fs' & E' & All'). pose proof (in_order_other _ _ _ _ _ E E' Or) as Or'. exists tab'. split; [now rewrite Er|]. split.
    - rewrite (proj1 (C153_one_row slv argsort polyfit isqrt trans nminima nz hashf tocsr fb _ ps [d] fs' tab' A E' Or' H')). rewrite <- unique_targets_ok. exact All'.
    - rewrite (by_target _ ps [d] fs' tab' A E' Or' H'), All'. clear -Same. induction (part ids w) as [|t l IH]; [constructor|]. cbn [map concat]. apply F2_app; [apply Same; now left|apply IH; intros; apply Same; now right]. }
  assert (Tabs : exists tabs, Forall2 (fun w tab' => rrdesi (with_window o w) ps [d] = Ok tab' /\ map f_tid (zbest tab') = part ids w) ws tabs /\ Forall2 same_row (concat (map (fun t => rows_of t tab) (concat (map (part ids) ws)))) (concat tabs)).
  { clear -One. induction ws as [|w ws IH]; [exists []; split; constructor|]. destruct IH as (tabs & F & S); [intros; apply One; now right|]. destruct (One w (or_introl eq_refl)) as (tab' & R & I & S'). exists (tab' :: tabs). split; [constructor; [now split|exact F]|]. cbn [map concat]. rewrite map_app, concat_app. now apply F2_app. }
  destruct Tabs as (tabs & F & S). rewrite Cc in S. rewrite <- All, <- (by_target o ps [d] fs tab A E Or H) in S.
  exists tabs. split; [exact F|]. split; [exact S|]. rewrite <- zbest_concat. now apply zbest_same.
Qed.
End Props.

(* ---------------- concrete runs ---------------- *)
Local Notation drun := (rrdesi demo argsort0 lagrange3 (fun x => x) no_igm 2 3 (fun _ => 3%Z) (fun r => idcsr (d_n r)) dbits).
Example ex_windows : tell (drun (with_window oall (0, 1)) [ga; st] [fA]) = [(5%Z, "GALAXY"%string, 34%N); (5%Z, "STAR"%string, 1058%N)] /\
  tell (drun (with_window oall (1, 1)) [ga; st] [fA]) = [(7%Z, "GALAXY"%string, 2082%N); (7%Z, "STAR"%string, 3106%N)] /\ tell (drun oall [ga; st] [fA]) <> [].
Proof. split; [|split]; [vm_compute; reflexivity|vm_compute; reflexivity|vm_compute; discriminate]. Qed.
Example C175_nonvacuous : argsort_ok argsort0 /\ whole oall /\ mapped fA /\ NoDup (map fm_id (df_fm fA)) /\ cover (map fm_id (df_fm fA)) [(0, 1); (1, 1)] /\
  exists fs, open_files oall [fA] = Ok fs /\ in_order fs /\ exists tab, drun oall [ga; st] [fA] = Ok tab.
Proof.
  split; [exact argsort0_ok|]. split; [now repeat split|]. split; [intros t Ht; cbn in *; tauto|]. split; [cbn; repeat constructor; cbn; intuition discriminate|].
  split; [split; [intros w [<-|[<-|[]]]; cbn; lia|reflexivity]|]. destruct (ex_order oall ltac:(now repeat split) [fA] ltac:(intros x [<-|[]]; now left)) as (fs & E & Or). exists fs. split; [exact E|]. split; [exact Or|].
  assert (T : tell (drun oall [ga; st] [fA]) = [(5%Z, "GALAXY"%string, 34%N); (5%Z, "STAR"%string, 1058%N); (7%Z, "GALAXY"%string, 2082%N); (7%Z, "STAR"%string, 3106%N)]) by (vm_compute; reflexivity).
  destruct (tell_ok _ _ _ T) as (tab & Et & _). now exists tab.
Qed.
(* With two input files the window is cut in each of them.  Here the files list the same two targets in different order: the run of the first window reads target 5
   from the first file only and target 7 from the second only, the run of the second window the other way round.  Both runs list both targets, each with the data of
   one file alone, so the two tables disagree with each other and with the run of all. *)
Definition fC := df [5; 7]%Z [5; 7]%Z [[5; 2]; [2; 1]]%Q.
Definition fD := df [7; 5]%Z [7; 5]%Z [[3; 1]; [1; 6]]%Q.
Definition best_chi2 (t : Z) (r : res (list frow)) : list xq := match r with Ok tab => map f_chi2 (rows_of t (zbest tab)) | Err _ => [] end.
Theorem C175_several_files_refuted : exists o ds, whole o /\ (forall d, In d ds -> mapped d /\ NoDup (map fm_id (df_fm d)) /\ cover (map fm_id (df_fm d)) [(0, 1); (1, 1)]) /\
  (exists fs, open_files o ds = Ok fs /\ in_order fs) /\
  best_ids (drun o [ga; st] ds) = [5; 7]%Z /\ best_ids (drun (with_window o (0, 1)) [ga; st] ds) = [5; 7]%Z /\ best_ids (drun (with_window o (1, 1)) [ga; st] ds) = [7; 5]%Z /\
  (exists a b c, best_chi2 5 (drun o [ga; st] ds) = [a] /\ best_chi2 5 (drun (with_window o (0, 1)) [ga; st] ds) = [b] /\ best_chi2 5 (drun (with_window o (1, 1)) [ga; st] ds) = [c] /\ a <> b /\ a <> c /\ b <> c).
Proof.
  exists oall, [fC; fD]. split; [now repeat split|]. split.
  { intros d [<-|[<-|[]]]; (split; [intros t Ht; cbn in *; tauto|]; split; [cbn; repeat constructor; cbn; intuition discriminate|]; split; [intros w [<-|[<-|[]]]; cbn; lia|reflexivity]). }
  split.
  { destruct (open_files oall [fC; fD]) as [fs|] eqn:E; [|exfalso; revert E; vm_compute; discriminate]. exists fs. split; [reflexivity|].
    pose proof (open_len _ _ _ E) as F. assert (K : forall f, In f fs -> exists d k, In d [fC; fD] /\ f = {| sf_ids := input_ids d; sf_keep := k; sf_bands := df_bands d; sf_wave := df_wave d; sf_flux := df_flux d; sf_ivar := df_ivar d; sf_mask := df_mask d; sf_res := df_res d |}) by (intros f I; destruct (Forall2_in_r _ _ _ _ F I) as (d & Id & k & _ & ->); exists d, k; now split).
    split; [|split].
    - intros f I. destruct (K f I) as (d & k & Hd & ->). intros b _. cbn [sf_bands sf_flux sf_ids sf_ivar sf_res sf_mask]. destruct Hd as [<-|[<-|[]]]; cbn; repeat split; try discriminate; intro j; repeat (destruct j as [|j]; [reflexivity|]); reflexivity.
    - exists false. intros f b I _. destruct (K f I) as (d & k & [<-|[<-|[]]] & ->); cbn; split; congruence.
    - intros f f' b I I' _ _. destruct (K f I) as (d & k & Hd & ->). destruct (K f' I') as (d' & k' & Hd' & ->). cbn [sf_wave]. destruct Hd as [<-|[<-|[]]]; destruct Hd' as [<-|[<-|[]]]; reflexivity. }
  split; [vm_compute; reflexivity|]. split; [vm_compute; reflexivity|]. split; [vm_compute; reflexivity|].
  eexists _, _, _. split; [vm_compute; reflexivity|]. split; [vm_compute; reflexivity|]. split; [vm_compute; reflexivity|]. repeat split; discriminate.
Qed.
(* A window must not reach over the end: the last window of a division into equal windows raises RuntimeError if the number of targets is no multiple *)
Theorem C175_last_window_refuted : forall slv argsort polyfit isqrt trans nminima nz hashf tocsr fb o ps d w, length (df_fm d) < fst w + snd w ->
  rrdesi slv argsort polyfit isqrt trans nminima nz hashf tocsr fb (with_window o w) ps [d] = Err RuntimeError.
Proof.
  intros slv argsort polyfit isqrt trans nminima nz hashf tocsr fb o ps d w H. unfold rrdesi, open_files. cbn [mapM]. unfold open_file, kept. cbn [o_ids o_first o_n with_window].
  pose proof (C69_outside (map fm_id (df_fm d)) (Z.of_nat (fst w)) (Z.of_nat (snd w)) ltac:(lia) ltac:(rewrite map_length; lia)) as X. cbn [cli_window fst snd] in X. rewrite X. reflexivity.
Qed.
Example C175_last_nonvacuous : length (df_fm fA) < fst (1, 2) + snd (1, 2). Proof. cbn. lia. Qed.
Print Assumptions C175_one_file_partial. Print Assumptions C175_several_files_refuted. Print Assumptions C175_last_window_refuted.
