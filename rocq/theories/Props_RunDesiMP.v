(* rrdesi with worker processes: C180. *)
From Verif Require Import Prelude PreludeFacts NumX Facts2 Model_Fitz Spec_Fitz Model_Rebin Model_Dist Spec_Dist Proof_Dist3 Model_MP Model_Zscan Spec_Zscan Model_Piece Model_IO Model_Zfind Model_Targets Model_Desi Spec_Desi Proof_Desi Proof_Desi2 Props_Desi
  Model_Run Spec_Run Proof_Run Model_RunMPI Model_RunMP Spec_RunMP Proof_RunMP Proof_RunMP2 Model_RunDesi Spec_RunDesi Proof_RunDesi Model_RunDesiMP Spec_RunDesiMP Proof_RunDesiMP Props_GPU Props_Zscan2 Props_Fitz Props_Run Props_RunDesi Props_RunMP.
Open Scope nat_scope.

Section Props.
Variables (slv : solvers) (argsort : list xq -> list nat) (polyfit : list Q -> list Q -> option (Q * Q * Q)) (isqrt : Q -> Q).
Variable trans : option string -> Q -> Q -> Q.
Variables (nminima nz : nat).
Variables (hashf : hash_arg -> Z) (tocsr : dia -> csr) (fb : fbits).
Notation rrdesi := (rrdesi slv argsort polyfit isqrt trans nminima nz hashf tocsr fb).
Notation rrdesi_mp := (fun nproc => rrdesi_mp slv argsort polyfit isqrt trans nminima nz nproc hashf tocsr fb).

Lemma present_rows (fs : list (sfile dia)) f t b : (forall f, In f fs -> table_ok f) -> In f fs -> In t (sf_keep f) -> In t (sf_ids f) -> In b (sf_bands f) -> exists r, In r (target_rows fs t) /\ r_band r = b.
Proof.
  intros T If Ik Ii Ib. assert (L : 0 < length (Spec_Desi.rows_of (sf_ids f) t (full_rows f b))). { rewrite rows_count by (now apply full_rows_length; [apply T|]). now apply (count_occ_In Z.eq_dec). }
  destruct (Spec_Desi.rows_of (sf_ids f) t (full_rows f b)) as [|r l] eqn:E; [cbn in L; lia|]. exists r. split.
  - unfold target_rows. apply in_concat. exists (concat (map (fun b => Spec_Desi.rows_of (sf_ids f) t (full_rows f b)) (sf_bands f))). split.
    + apply in_map_iff. exists f. split; [reflexivity|]. apply filter_In. split; [exact If|]. unfold zmem. apply existsb_exists. exists t. split; [exact Ik|apply Z.eqb_refl].
    + apply in_concat. exists (r :: l). split; [|now left]. apply in_map_iff. exists b. now split.
  - assert (I : In r (Spec_Desi.rows_of (sf_ids f) t (full_rows f b))) by (rewrite E; now left). unfold Spec_Desi.rows_of in I. apply in_map_iff in I as ([i r'] & E' & I). cbn in E'. subst r'. apply filter_In in I as [I _]. apply in_combine_r in I. unfold full_rows in I. apply in_map_iff in I as ([[[fl iv] i'] rr] & <- & _). reflexivity.
Qed.
(* the order of the targets of the process is that of their numbers of spectra *)
Lemma read_sorted o fs tgs : in_order fs -> same_bands o fs -> all_there fs -> read_targets hashf tocsr o fs = Ok tgs -> StronglySorted (fun a b => length (g_spectra b) <= length (g_spectra a)) tgs.
Proof.
  intros Or Sb At H. destruct (read_order hashf tocsr o fs tgs Or H) as (my & Em & Ei & R). pose proof Or as (T & _). destruct (o_allspec o) eqn:A.
  - assert (Hn : exists n, forall f, In f fs -> length (sf_bands f) = n). { destruct fs as [|f0 l]; [exists 0; intros f []|]. exists (length (sf_bands f0)). intros f If. pose proof (Sb f f0 If (or_introl eq_refl)) as X. rewrite A in X. exact X. }
    destruct Hn as [n Hn]. pose proof (my_sorted o fs my (target_weight fs) Em A (fun t => eq_refl)) as So. rewrite <- Ei in So. clear -So R T Hn A.
    assert (L : forall g, In g tgs -> length (g_spectra g) = n * target_weight fs (g_id g)) by (intros g Ig; rewrite (nspec_all hashf tocsr o fs g A (R g Ig)); now apply rows_weight).
    clear R. induction tgs as [|a l IH]; [constructor|]. cbn [map] in So. inversion So as [|? ? S1 F]; subst. constructor; [apply IH; [exact S1|intros; apply L; now right]|].
    apply Forall_forall. intros b Hb. rewrite Forall_forall in F. specialize (F (g_id b) (in_map g_id l b Hb)). rewrite (L a (or_introl eq_refl)), (L b (or_intror Hb)). now apply Nat.mul_le_mono_l.
  - assert (Ke : forall g, In g tgs -> exists ks, NoDup ks /\ length (g_spectra g) = length ks /\ forall k, In k ks <-> exists f b, In f fs /\ In b (sf_bands f) /\ k = KBand b).
    { intros g Ig. destruct (nspec_coadd hashf tocsr o fs g A (R g Ig)) as (ks & N1 & N2 & N3). exists ks. split; [exact N1|]. split; [exact N2|]. intro k. rewrite N3. split.
      - intros (r & Ir & ->). destruct (row_bands fs (g_id g) r Ir) as (f & If & Ib & _). now exists f, (r_band r).
      - intros (f & b & If & Ib & ->). assert (It : In (g_id g) (all_ids fs)). { destruct (my_ok o fs) as (my' & Em' & P). assert (my' = my) by congruence. subst my'. eapply Permutation_in; [exact P|]. rewrite <- Ei. now apply in_map. }
        destruct (At _ It) as (f0 & I0 & K0 & D0). pose proof (Sb f f0 If I0) as X. rewrite A in X. destruct (present_rows fs f0 (g_id g) b T I0 K0 D0 (X b Ib)) as (r & Ir & Eb). exists r. split; [exact Ir|now rewrite Eb]. }
    assert (Eq : forall a b, In a tgs -> In b tgs -> length (g_spectra a) = length (g_spectra b)).
    { intros a b Ia Ib. destruct (Ke a Ia) as (ka & N1 & L1 & M1), (Ke b Ib) as (kb & N2 & L2 & M2). rewrite L1, L2. apply Permutation_length, NoDup_Permutation; [exact N1|exact N2|]. intro k. now rewrite M1, M2. }
    clear -Eq. induction tgs as [|a l IH]; [constructor|]. constructor; [apply IH; intros; apply Eq; now right|]. apply Forall_forall. intros b Hb. rewrite (Eq a b (or_introl eq_refl) (or_intror Hb)). apply Nat.le_refl.
Qed.
(* When all files have the same bands (--allspec: the same number of bands), worker processes change nothing: every run that ends writes the table of the
   run with one process, and if that one gives a table, runs that end exist. *)
Theorem C180_same_table_partial : forall nproc o ps ds fs, open_files o ds = Ok fs -> in_order fs -> same_bands o fs -> all_there fs -> all_ids fs <> [] -> 0 < nproc ->
  forall tab, rrdesi_mp nproc o ps ds tab <-> rrdesi o ps ds = Ok tab.
Proof.
  intros nproc o ps ds fs E Or Sb At Ne Hn tab. unfold Model_RunDesiMP.rrdesi_mp, Model_RunDesi.rrdesi. rewrite E. cbn [rbind].
  assert (K : forall tgs, read_targets hashf tocsr o fs = Ok tgs -> forall tab0, local_mp slv argsort polyfit isqrt trans nminima nz nproc ps (map as_tgt tgs) (all_ids fs) tab0 <-> run_local slv argsort polyfit isqrt trans nminima nz ps tgs (all_ids fs) = Ok tab0).
  { intros tgs Et tab0. destruct (read_order hashf tocsr o fs tgs Or Et) as (my & Em & Ei & _). destruct (my_ok o fs) as (my' & Em' & P). assert (my' = my) by congruence. subst my'.
    apply local_mp_sorted; [exact Hn| | |].
    - intros ->. cbn in Ei. subst my. apply Permutation_nil in P. congruence.
    - rewrite Ei. eapply Permutation_NoDup; [symmetry; exact P|apply ids_nodup].
    - now apply (read_sorted o fs). }
  split.
  - intros (fs' & tgs & tab0 & E' & Et & Hl & ->). assert (fs' = fs) by congruence. subst fs'. rewrite Et. cbn [rbind]. apply K in Hl; [|exact Et]. rewrite Hl. reflexivity.
  - destruct (read_targets hashf tocsr o fs) as [tgs|] eqn:Et; cbn [rbind]; [|discriminate]. destruct (run_local _ _ _ _ _ _ _ ps tgs (all_ids fs)) as [tab0|] eqn:El; cbn [rbind]; [|discriminate]. intro H. exists fs, tgs, tab0. split; [reflexivity|]. split; [exact Et|]. split; [now apply (K tgs eq_refl)|congruence].
Qed.
(* without these conditions: what every run with processes gives is the table in which the chi2 scans of targets are those of others *)
Theorem C180_outcome : forall nproc o ps ds fs, open_files o ds = Ok fs -> in_order fs -> all_ids fs <> [] -> 0 < nproc ->
  forall tgs, read_targets hashf tocsr o fs = Ok tgs ->
  exists swapped, Forall2 (fun g s => exists u, In u tgs /\ (forall v, scanned_for (map as_tgt tgs) nproc (as_tgt g) (as_tgt v) -> v = u) /\ scanned_for (map as_tgt tgs) nproc (as_tgt g) (as_tgt u) /\ s = renamed g u) tgs swapped /\
    forall tab, rrdesi_mp nproc o ps ds tab <-> exists tab0, local_as slv argsort polyfit isqrt trans nminima nz ps tgs swapped (all_ids fs) = Ok tab0 /\ tab = map (reflag fb (fibermap ds fs)) tab0.
Proof.
  intros nproc o ps ds fs E Or Ne Hn tgs Et. destruct (read_order hashf tocsr o fs tgs Or Et) as (my & Em & Ei & _). destruct (my_ok o fs) as (my' & Em' & Pm). assert (my' = my) by congruence. subst my'. clear Em'.
  set (ts := map as_tgt tgs). assert (Nt : NoDup (map t_id ts)) by (unfold ts; rewrite as_tgt_ids, Ei; eapply Permutation_NoDup; [symmetry; exact Pm|apply ids_nodup]).
  assert (Hid : Forall (fun t => t_id t = g_id (t_data t)) ts) by (unfold ts; apply Forall_forall; intros t Ht; apply in_map_iff in Ht as (g & <- & _); reflexivity).
  assert (Hne : ts <> []) by (unfold ts; intro X; apply map_eq_nil in X; subst tgs; cbn in Ei; subst my; apply Permutation_nil in Pm; congruence).
  destruct (distribute_targets_ok ts nproc Hn) as (ml & El & _ & P). exists (scanned ts ml). split.
  - assert (G : forall l, incl l tgs -> Forall2 (fun g s => exists u, In u tgs /\ (forall v, scanned_for ts nproc (as_tgt g) (as_tgt v) -> v = u) /\ scanned_for ts nproc (as_tgt g) (as_tgt u) /\ s = renamed g u) l (map (fun t => renamed (t_data t) (t_data (source ts ml t))) (map as_tgt l))).
    { induction l as [|g l IH]; intro I; [constructor|]. cbn [map]. constructor; [|apply IH; intros x Hx; apply I; now right]. assert (Ht : In (as_tgt g) ts) by (apply in_map, I; now left).
      pose proof (source_spec ts nproc ml (as_tgt g) Nt El P Ht) as S1. destruct (pairs_get ts ml (as_tgt g) Nt P Ht) as [_ Iu]. unfold ts in Iu at 2. apply in_map_iff in Iu as (u & Eu & Iu). exists u. split; [exact Iu|]. split; [|split].
      - intros v Hv. apply S1 in Hv. rewrite <- Eu in Hv. exact (f_equal t_data Hv).
      - apply S1. exact Eu.
      - rewrite <- Eu. reflexivity. }
    exact (G tgs (incl_refl _)).
  - intro tab. unfold Model_RunDesiMP.rrdesi_mp. pose proof (fun tab0 => local_mp_as slv argsort polyfit isqrt trans nminima nz nproc ts ml Nt Hid El P ps (all_ids fs) tab0 Hne) as K.
    assert (Ed : map t_data ts = tgs) by apply as_tgt_data. rewrite Ed in K. split.
    + intros (fs' & tgs' & tab0 & E' & Et' & Hl & ->). assert (fs' = fs) by congruence. subst fs'. assert (tgs' = tgs) by congruence. subst tgs'. exists tab0. split; [now apply K|reflexivity].
    + intros (tab0 & Hl & ->). exists fs, tgs, tab0. split; [exact E|]. split; [exact Et|]. split; [now apply K|reflexivity].
Qed.
End Props.

(* ---------------- concrete runs ---------------- *)
Local Notation drun := (rrdesi demo argsort0 lagrange3 (fun x => x) no_igm 2 3 (fun _ => 3%Z) (fun r => idcsr (d_n r)) dbits).
Local Notation dmp := (rrdesi_mp demo argsort0 lagrange3 (fun x => x) no_igm 2 3 2 (fun _ => 3%Z) (fun r => idcsr (d_n r)) dbits).
Local Notation dread := (read_targets (fun _ => 3%Z) (fun r => idcsr (d_n r))).
(* one target, observed with some of the cameras *)
Definition dfb (bands : list string) (t : Z) (fl : list Q) : dfile :=
  {| df_coadded := true; df_fm := [{| fm_id := t; fm_status := 0; fm_objtype := "TGT" |}]; df_exp := [t]; df_bands := bands; df_wave := fun _ => [20; 30]%Q;
     df_flux := fun _ => [map Fin fl]; df_ivar := fun _ => [map (fun _ => Fin 1%Q) fl]; df_mask := fun _ => None; df_res := fun _ => [rid] |}.
Definition some_cameras : list dfile := [dfb ["b"] 1 [5; 2]; dfb ["b"; "r"] 2 [1; 2]; dfb ["b"; "r"; "z"] 3 [4; 2]]%string%Q.
Lemma some_order : exists fs, open_files oall some_cameras = Ok fs /\ in_order fs /\ all_there fs /\ all_ids fs = [1; 2; 3]%Z.
Proof.
  eexists. split; [reflexivity|]. split; [|split].
  - split; [|split].
    + intros f [<-|[<-|[<-|[]]]] b _; cbn; repeat split; try discriminate; intro j; repeat (destruct j as [|j]; [reflexivity|]); reflexivity.
    + exists false. intros f b [<-|[<-|[<-|[]]]] _; cbn; split; congruence.
    + intros f f' b I I' _ _. destruct I as [<-|[<-|[<-|[]]]]; destruct I' as [<-|[<-|[<-|[]]]]; reflexivity.
  - intros t Ht. vm_compute in Ht. destruct Ht as [<-|[<-|[<-|[]]]]; [eexists; split; [left; reflexivity|]|eexists; split; [right; left; reflexivity|]|eexists; split; [right; right; left; reflexivity|]]; vm_compute; tauto.
  - reflexivity.
Qed.
Definition mine : list targ := match dread oall (opened oall some_cameras) with Ok l => l | Err _ => [] end.
Local Notation swapped := [renamed (nth 0 mine gA) (nth 1 mine gA); renamed (nth 1 mine gA) (nth 0 mine gA); nth 2 mine gA].
Lemma mine_lists : dread oall (opened oall some_cameras) = Ok mine /\ map g_id mine = [1; 2; 3]%Z /\ distribute_targets (map as_tgt mine) 2 = Ok [[3]; [2; 1]]%Z /\ scanned (map as_tgt mine) [[3]; [2; 1]]%Z = swapped.
Proof. split; [|split; [|split]]; vm_compute; reflexivity. Qed.
Lemma serial_desi : showz (drun oall [ga5] some_cameras) = [(1%Z, 2757161877 # 5498108392, 2%N); (2%Z, 0%Q, 1058%N); (2%Z, 1%Q, 1058%N); (3%Z, 299609787 # 597354392, 2%N)].
Proof. vm_compute. reflexivity. Qed.
Local Notation alocal := (local_as demo argsort0 lagrange3 (fun x => x) no_igm 2 3).
Lemma swapped_desi : showz (match alocal [ga5] mine swapped [1; 2; 3]%Z with Ok t => Ok (map (reflag dbits (fibermap some_cameras (opened oall some_cameras))) t) | Err e => Err e end) =
  [(1%Z, 3 # 4, 1058%N); (1%Z, 1 # 4, 1058%N); (2%Z, 191900631 # 382796408, 1026%N); (3%Z, 299609787 # 597354392, 2%N)].
Proof. vm_compute. reflexivity. Qed.
Global Opaque local_as mine.
Lemma as_tgt_all l : Forall (fun t => t_id t = g_id (t_data t)) (map as_tgt l).
Proof. induction l; constructor; [reflexivity|assumption]. Qed.
(* three files with one, two and three cameras, default options, two processes: the run with one process finds z = 0.50 without a warning for the first target; every run
   with two that ends, and there are such, finds 0.75 and 0.25 for it, flagged, and gives the second target the redshift of the first *)
Theorem C180_wrong_table_refuted : exists tab,
  (drun oall [ga5] some_cameras = Ok tab /\ rowz tab = [(1%Z, 2757161877 # 5498108392, 2%N); (2%Z, 0%Q, 1058%N); (2%Z, 1%Q, 1058%N); (3%Z, 299609787 # 597354392, 2%N)]) /\
  (exists tab', dmp oall [ga5] some_cameras tab') /\
  forall tab', dmp oall [ga5] some_cameras tab' -> rowz tab' = [(1%Z, 3 # 4, 1058%N); (1%Z, 1 # 4, 1058%N); (2%Z, 191900631 # 382796408, 1026%N); (3%Z, 299609787 # 597354392, 2%N)].
Proof.
  destruct (showz_ok _ _ _ serial_desi) as (tab & E & Z1). exists tab. split; [split; [exact E|exact Z1]|]. clear tab E Z1.
  destruct some_order as (fs & Eo & Or & _ & Ids). assert (Ef : opened oall some_cameras = fs) by (unfold opened; now rewrite Eo). destruct mine_lists as (Er & Ei & Em & Es). pose proof swapped_desi as Hs. rewrite Ef in Er, Hs.
  assert (Nt : NoDup (map t_id (map as_tgt mine))) by (rewrite as_tgt_ids, Ei; repeat constructor; cbn; intuition discriminate).
  assert (Hid : Forall (fun t => t_id t = g_id (t_data t)) (map as_tgt mine)) by (apply as_tgt_all).
  assert (P : Permutation (concat [[3]; [2; 1]]%Z) (map t_id (map as_tgt mine))) by (rewrite as_tgt_ids, Ei; cbn; apply Permutation_sym; apply (Permutation_trans (l' := [1; 3; 2]%Z)); [apply perm_skip, perm_swap|]; apply (Permutation_trans (l' := [3; 1; 2]%Z)); [apply perm_swap|apply perm_skip, perm_swap]).
  assert (Ne : map as_tgt mine <> []) by (intro X; apply map_eq_nil in X; rewrite X in Ei; discriminate Ei).
  pose proof (fun t => local_mp_as demo argsort0 lagrange3 (fun x => x) no_igm 2 3 2 (map as_tgt mine) _ Nt Hid Em P [ga5] (all_ids fs) t Ne) as K. rewrite Es, as_tgt_data, Ids in K.
  destruct (alocal [ga5] mine swapped [1; 2; 3]%Z) as [t0|] eqn:E0; [|discriminate Hs]. cbn [showz] in Hs. split.
  - exists (map (reflag dbits (fibermap some_cameras fs)) t0), fs, mine, t0. split; [exact Eo|]. split; [exact Er|]. split; [|reflexivity]. rewrite Ids. now apply K.
  - intros tab' (fs' & tgs & tab0 & E1 & E2 & Hl & ->). assert (fs' = fs) by congruence. subst fs'. assert (tgs = mine) by congruence. subst tgs. rewrite Ids in Hl. apply K in Hl. assert (tab0 = t0) by congruence. subst tab0. exact Hs.
Qed.
(* the hypotheses of C180_same_table_partial hold for the files of Props_RunDesi.v, with coadds and with --allspec, and there are runs that end *)
Example C180_nonvacuous : exists fs, open_files oall [fA; fB] = Ok fs /\ in_order fs /\ same_bands oall fs /\ all_there fs /\ all_ids fs <> [] /\ exists tab, dmp oall [ga; st] [fA; fB] tab.
Proof.
  destruct (ex_order oall ltac:(now repeat split) [fA; fB] (incl_refl _)) as (fs & E & Or). exists fs. split; [exact E|]. split; [exact Or|].
  assert (Ef : fs = opened oall [fA; fB]) by (unfold opened; now rewrite E).
  assert (Sb : same_bands oall fs) by (rewrite Ef; intros f f' I I'; vm_compute in I, I'; destruct I as [<-|[<-|[]]]; destruct I' as [<-|[<-|[]]]; cbn; auto).
  assert (At : all_there fs). { rewrite Ef. intros t Ht. vm_compute in Ht. destruct Ht as [<-|[<-|[<-|[]]]]; [eexists; split; [left; reflexivity|]|eexists; split; [left; reflexivity|]|eexists; split; [right; left; reflexivity|]]; vm_compute; tauto. }
  assert (Ne : all_ids fs <> []) by (rewrite Ef; vm_compute; discriminate).
  split; [exact Sb|]. split; [exact At|]. split; [exact Ne|]. destruct (tell_ok _ _ _ ex_two) as (tab & Et & _). exists tab. apply (C180_same_table_partial demo argsort0 lagrange3 (fun x => x) no_igm 2 3 (fun _ => 3%Z) (fun r => idcsr (d_n r)) dbits 2 oall [ga; st] [fA; fB] fs E Or Sb At Ne ltac:(lia)). exact Et.
Qed.
Print Assumptions C180_same_table_partial. Print Assumptions C180_outcome. Print Assumptions C180_wrong_table_refuted.
