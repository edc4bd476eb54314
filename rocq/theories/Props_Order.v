(* The order of the spectra of a target, and of the input files of rrdesi: C161. *)
From Verif Require Import Prelude PreludeFacts NumX Facts2 Model_Fitz Proof_Fitz Model_Rebin Spec_Rebin Spec_Fitz Model_Dist Proof_Dist3 Model_Zscan Proof_Zscan3 Model_Piece Model_IO Model_Zfind Model_Targets Spec_Targets Proof_Targets2 Proof_Targets3 Model_Desi Spec_Desi Proof_Desi2 Proof_Desi4 Proof_Table
  Model_Run Spec_Run Proof_Run Proof_Run2 Proof_Run3 Proof_Run5 Proof_Run6 Proof_Run7 Model_RunMPI Proof_RunMPI2 Proof_RunMPI3 Model_RunDesi Spec_RunDesi Proof_RunDesi Props_GPU Props_Zscan2 Props_Fitz Props_Run Props_Run2 Props_RunDesi Spec_Order Proof_Order Proof_Order2.
Open Scope nat_scope.

Lemma sorted_as (l : list targ) ids : Permutation (map g_id l) ids -> exists l', Permutation l l' /\ map g_id l' = ids.
Proof.
  intro P. assert (F : Forall2 (fun (g : targ) i => g_id g = i) l (map g_id l)) by (clear; induction l as [|g l IH]; cbn [map]; [constructor|constructor; [reflexivity|exact IH]]).
  destruct (F2_perm_r _ _ _ _ F P) as (l' & Pl & F'). exists l'. split; [exact Pl|]. clear -F'. induction F' as [|g i l' ids E _ IH]; [reflexivity|]. cbn [map]. now rewrite E, IH.
Qed.
Lemma in_order_mem fs fs' : (forall f, In f fs' -> In f fs) -> in_order fs -> in_order fs'.
Proof. intros I (A & (mk & B) & C). split; [intros f Hf; apply A; auto|]. split; [exists mk; intros f b Hf; apply B; auto|]. intros f f' b Hf Hf'. apply C; auto. Qed.
Lemma sound_mem fs fs' : (forall f, In f fs' -> In f fs) -> sound_files fs -> sound_files fs'.
Proof. intros I [A B]. split; [intros f b Hf; apply A; auto|]. intros f f' b r r' Hf Hf'. apply B; auto. Qed.
Lemma rows_perm {R} (fs fs' : list (sfile R)) t : Permutation fs fs' -> Permutation (target_rows fs t) (target_rows fs' t).
Proof. intro P. unfold target_rows. exact (cm_perm (fun f => concat (map (fun b => Spec_Desi.rows_of (sf_ids f) t (full_rows f b)) (sf_bands f))) _ _ (Permutation_filter' _ _ _ P)). Qed.
Lemma fibermap_in o ds fs r : open_files o ds = Ok fs -> (In r (fibermap ds fs) <-> exists d k, In d ds /\ kept o d = Ok k /\ In r (df_fm d) /\ zmem (fm_id r) k = true).
Proof.
  intro E. apply open_len in E. unfold fibermap. induction E as [|d f ds fs (k & Hk & ->) _ IH]; cbn [combine map concat fst snd sf_keep]; [split; [intros []|intros (d & _ & [] & _)]|].
  rewrite in_app_iff, filter_In, IH. split.
  - intros [[A B]|(d' & k' & A & B)]; [exists d, k; split; [now left|now repeat split]|exists d', k'; split; [now right|exact B]].
  - intros (d' & k' & [<-|A] & B & C & D); [left; split; [exact C|]; congruence|right; exists d', k'; now repeat split].
Qed.

Section Props.
Variables (slv : solvers) (argsort : list xq -> list nat) (polyfit : list Q -> list Q -> option (Q * Q * Q)) (isqrt : Q -> Q).
Variable trans : option string -> Q -> Q -> Q.
Variables (nminima nz : nat).
Variables (hashf : hash_arg -> Z) (tocsr : dia -> csr) (fb : fbits).
Notation run := (run slv argsort polyfit isqrt trans nminima nz).
Notation rrdesi := (rrdesi slv argsort polyfit isqrt trans nminima nz hashf tocsr fb).

(* The spectra of each target in any order: the same table, bit for bit. *)
Theorem C161_spectra : forall ps tgs tgs' tab, Forall sound_template ps -> Forall sound_target tgs -> hashes_tell_grids tgs -> Forall2 reordered tgs tgs' -> (run ps tgs = Ok tab <-> run ps tgs' = Ok tab).
Proof. intros. now apply run_spectra. Qed.

Lemma has_spectra ps tgs tab g : argsort_ok argsort -> NoDup (map g_id tgs) -> hashes_tell_grids tgs -> run ps tgs = Ok tab -> In g tgs -> g_spectra g <> [].
Proof.
  intros A N Tl Hr Ig E. destruct (run_alone slv argsort polyfit isqrt trans nminima nz A _ _ _ _ N Tl Hr Ig) as (t1 & Ht1 & F1). pose proof (C145_every_target slv argsort polyfit isqrt trans nminima nz ps tgs tab g A N Tl Hr Ig) as Nr.
  destruct t1 as [|r t1]; [inversion F1; congruence|]. destruct (row_source slv argsort polyfit isqrt trans nminima nz A ps [g] (r :: t1) r (one_nodup g) Ht1 (or_introl eq_refl)) as (g' & p & td & row & fl & x & ty & [<-|[]] & _ & _ & _ & _ & _ & Hsc & _).
  unfold scan_of in Hsc. cbn [fst snd] in Hsc. unfold data_of in Hsc. rewrite E in Hsc. unfold zchi2_target in Hsc. cbn in Hsc. discriminate.
Qed.
(* the targets of one run, read from files with the same rows in another order *)
Lemma reread o o' ps fs fs' tgs tab : argsort_ok argsort -> Forall sound_template ps -> keeps_shape tocsr -> same_treatment o o' -> no_rejection o -> in_order fs -> sound_files fs -> NoDup (map g_id tgs) ->
  (forall g, In g tgs -> Permutation (target_rows fs (g_id g)) (target_rows fs' (g_id g))) -> (forall g, In g tgs -> reads hashf tocsr o fs g) -> run ps tgs = Ok tab ->
  exists tgs', Forall2 reordered tgs tgs' /\ (forall g, In g tgs' -> reads hashf tocsr o' fs' g) /\ run ps tgs' = Ok tab.
Proof.
  intros A Sp K St NR Or So N Pm R Hr.
  assert (X : exists tgs', Forall2 reordered tgs tgs' /\ forall g, In g tgs' -> reads hashf tocsr o' fs' g).
  { clear -St NR Or So Pm R. induction tgs as [|g tgs IH]; [exists []; split; [constructor|intros g []]|]. destruct IH as (m & Fm & Rm); [intros; apply Pm; now right|intros; apply R; now right|].
    destruct (reads_perm hashf tocsr o o' fs fs' g St NR Or So (Pm g (or_introl eq_refl)) (R g (or_introl eq_refl))) as (g' & Rg & Og). exists (g' :: m). split; [now constructor|]. intros x [<-|Hx]; auto. }
  destruct X as (tgs' & F & R'). exists tgs'. split; [exact F|]. split; [exact R'|]. assert (Tl : hashes_tell_grids tgs) by (eapply reads_tell; [exact Or|exact R]).
  apply (run_spectra slv argsort polyfit isqrt trans nminima nz ps tgs tgs' tab Sp); [|exact Tl|exact F|exact Hr]. apply Forall_forall. intros g Ig. eapply reads_sound; [exact Or|exact So|exact K|now apply R|]. eapply has_spectra; eassumption.
Qed.
(* Any two runs of rrdesi: a target with the same spectra in any order, the same fibermap entries and the same templates gets the same rows. *)
Theorem C161_own_data_partial : forall o o' ps ds ds' fs fs' tab tab' t, argsort_ok argsort -> Forall sound_template ps -> keeps_shape tocsr -> same_treatment o o' -> no_rejection o ->
  open_files o ds = Ok fs -> open_files o' ds' = Ok fs' -> in_order fs -> in_order fs' -> sound_files fs -> In t (all_ids fs) -> In t (all_ids fs') ->
  Permutation (target_rows fs t) (target_rows fs' t) -> same_fibers t (fibermap ds fs) (fibermap ds' fs') ->
  rrdesi o ps ds = Ok tab -> rrdesi o' ps ds' = Ok tab' -> Forall2 same_row (rows_of t tab) (rows_of t tab').
Proof.
  intros o o' ps ds ds' fs fs' tab tab' t A Sp K S NR E E' Or Or' So I I' Rw Fi H H'. apply (rrdesi_run _ _ _ _ _ _ _ _ _ _ _ _ _ _ _ E Or) in H as (tgs & tab0 & Ei & R & Hr & ->). apply (rrdesi_run _ _ _ _ _ _ _ _ _ _ _ _ _ _ _ E' Or') in H' as (tgs' & tab0' & Ei' & R' & Hr' & ->).
  rewrite <- Ei in I. rewrite <- Ei' in I'. apply in_map_iff in I as (g & Eg & Ig). apply in_map_iff in I' as (g' & Eg' & Ig').
  assert (N : NoDup (map g_id tgs)) by (rewrite Ei; apply ids_nodup). assert (N' : NoDup (map g_id tgs')) by (rewrite Ei'; apply ids_nodup).
  assert (Tl : hashes_tell_grids tgs) by (eapply reads_tell; [exact Or|exact R]). assert (Tl' : hashes_tell_grids tgs') by (eapply reads_tell; [exact Or'|exact R']).
  destruct (run_alone slv argsort polyfit isqrt trans nminima nz A _ _ _ _ N Tl Hr Ig) as (t1 & Ht1 & F1). destruct (run_alone slv argsort polyfit isqrt trans nminima nz A _ _ _ _ N' Tl' Hr' Ig') as (t2 & Ht2 & F2).
  destruct (reread o o' ps fs fs' [g] t1 A Sp K S NR Or So (one_nodup g) ltac:(intros a [<-|[]]; rewrite Eg; exact Rw) ltac:(intros a [<-|[]]; now apply R) Ht1) as (m & Fm & Rm & Hm).
  inversion Fm as [|? g1 ? m' O1 Fm']; subst. inversion Fm'; subst. assert (Eq : g1 = g').
  { eapply (reads_same hashf tocsr o' o' fs' fs'); [repeat split|reflexivity|destruct O1 as [O1 _]; rewrite <- O1; congruence|apply Rm; now left|now apply R']. }
  subst g1. assert (t1 = t2) by congruence. subst t2. rewrite Eg' in F2. apply (F2_sym _ _ _ same_sym) in F2. pose proof (F2_trans _ _ _ _ _ _ same_trans F1 F2) as Nb.
  rewrite !reflag_rows. assert (T : forall r, In r (rows_of (g_id g) tab0) -> f_tid r = g_id g) by (intros r Hin; unfold Spec_Run.rows_of in Hin; apply filter_In in Hin as [_ E0]; now apply Z.eqb_eq).
  revert T Nb. generalize (rows_of (g_id g) tab0) as a. generalize (rows_of (g_id g) tab0') as b. intros b a T Nb. induction Nb as [|x y a b Hxy _ IH]; cbn [map]; constructor; [|apply IH; intros; apply T; now right].
  apply reflag_same; [exact Hxy|]. rewrite (T x (or_introl eq_refl)). exact Fi.
Qed.
(* The input files in any order: the run succeeds just the same, and every target gets the same rows. *)
Theorem C161_files_partial : forall o ps ds ds' fs tab, argsort_ok argsort -> Forall sound_template ps -> keeps_shape tocsr -> no_rejection o ->
  open_files o ds = Ok fs -> in_order fs -> sound_files fs -> Permutation ds ds' -> rrdesi o ps ds = Ok tab ->
  exists tab', rrdesi o ps ds' = Ok tab' /\ forall t, Forall2 same_row (rows_of t tab) (rows_of t tab').
Proof.
  intros o ps ds ds' fs tab A Sp K NR E Or So P H. destruct (mapM_perm_ok (open_file o) ds ds' P fs E) as (fs' & E' & Pf). change (mapM (open_file o) ds') with (open_files o ds') in E'.
  assert (Or' : in_order fs') by (apply (in_order_mem fs); [intros f Hf; eapply Permutation_in; [symmetry; exact Pf|exact Hf]|exact Or]).
  assert (Ia : forall t, In t (all_ids fs) <-> In t (all_ids fs')) by (intro t; rewrite !ids_in; split; intros (f & If & It); exists f; (split; [|exact It]); eapply Permutation_in; [exact Pf|exact If|symmetry; exact Pf|exact If]).
  pose proof H as H0. apply (rrdesi_run _ _ _ _ _ _ _ _ _ _ _ _ _ _ _ E Or) in H0 as (tgs & tab0 & Ei & R & Hr & Et). assert (N : NoDup (map g_id tgs)) by (rewrite Ei; apply ids_nodup).
  destruct (reread o o ps fs fs' tgs tab0 A Sp K ltac:(repeat split) NR Or So N ltac:(intros; now apply rows_perm) R Hr) as (m & Fm & Rm & Hm). assert (Em : map g_id m = map g_id tgs) by (symmetry; now apply reord_ids).
  destruct (sorted_as m (all_ids fs')) as (m2 & P2 & E2); [rewrite Em, Ei; apply NoDup_Permutation; [apply ids_nodup|apply ids_nodup|exact Ia]|].
  assert (R2 : forall g, In g m2 -> reads hashf tocsr o fs' g) by (intros g Hg; apply Rm; eapply Permutation_in; [symmetry; exact P2|exact Hg]). assert (N1 : NoDup (map g_id m)) by (rewrite Em; exact N). assert (N2 : NoDup (map g_id m2)) by (rewrite E2; apply ids_nodup).
  assert (T1 : hashes_tell_grids m) by (eapply reads_tell; [exact Or'|exact Rm]). assert (T2 : hashes_tell_grids m2) by (eapply reads_tell; [exact Or'|exact R2]).
  assert (X : exists tab2, run ps m2 = Ok tab2).
  { destruct m2 as [|g0 m2]; [apply Permutation_sym, Permutation_nil in P2; subst m; now exists tab0|]. apply C138_all_or_none; [exact A|exact N2|exact T2|discriminate|]. intros g Hg. destruct (run_alone slv argsort polyfit isqrt trans nminima nz A ps m tab0 g N1 T1 Hm) as (t & Ht & _); [eapply Permutation_in; [symmetry; exact P2|exact Hg]|now exists t]. }
  destruct X as (tab2 & H2). assert (H' : rrdesi o ps ds' = Ok (map (reflag fb (fibermap ds' fs')) tab2)) by (apply (rrdesi_run _ _ _ _ _ _ _ _ _ _ _ _ _ _ _ E' Or'); exists m2, tab2; repeat split; auto).
  exists (map (reflag fb (fibermap ds' fs')) tab2). split; [exact H'|]. intro t. destruct (in_dec Z.eq_dec t (all_ids fs)) as [It|It].
  - eapply (C161_own_data_partial o o ps ds ds' fs fs'); try eassumption; [repeat split|now apply Ia|now apply rows_perm|].
    intros r _. rewrite (fibermap_in o ds fs r E), (fibermap_in o ds' fs' r E'). split; intros (d & k & Id & B); exists d, k; (split; [|exact B]); eapply Permutation_in; [exact P|exact Id|symmetry; exact P|exact Id].
  - assert (G : forall ts tb, argsort_ok argsort -> NoDup (map g_id ts) -> run ps ts = Ok tb -> ~ In t (map g_id ts) -> rows_of t tb = []).
    { clear. intros ts tb A N H Nt. rewrite (run_order slv argsort polyfit isqrt trans nminima nz A ps ts tb N H). apply filter_none. intros x Hx. apply in_flat_map in Hx as (g & Hg & Hx). unfold Spec_Run.rows_of in Hx. apply filter_In in Hx as [_ Hx]. apply Z.eqb_eq in Hx. apply Z.eqb_neq. intro e. apply Nt. rewrite <- e, Hx. now apply in_map. }
    rewrite Et, !reflag_rows, (G tgs tab0 A N Hr ltac:(rewrite Ei; exact It)), (G m2 tab2 A N2 H2 ltac:(rewrite E2; intro; apply It; now apply Ia)). constructor.
Qed.
End Props.

(* ---------------- concrete runs ---------------- *)
Local Notation drun := (rrdesi demo argsort0 lagrange3 (fun x => x) no_igm 2 3 (fun _ => 3%Z) (fun r => idcsr (d_n r)) dbits).
Definition r4 : dia := {| d_off := [0%Z]; d_data := [[1; 1; 1; 1]%Q]; d_n := 4 |}.
(* one target, one exposure *)
Definition d4 (fl : list Q) : dfile := {| df_coadded := false; df_fm := [{| fm_id := 5; fm_status := 0; fm_objtype := "TGT" |}]; df_exp := [5%Z]; df_bands := ["b"%string]; df_wave := fun _ => [20; 22; 24; 26]%Q;
     df_flux := fun _ => [map Fin fl]; df_ivar := fun _ => [map (fun _ => Fin 1%Q) fl]; df_mask := fun _ => None; df_res := fun _ => [r4] |}.
Definition fP := d4 [1; 11; 1; 11]%Q.
Definition fM := d4 [1; -(9); 1; -(9)]%Q.
Definition o4 (c : Q) : dopts := {| o_ids := None; o_first := None; o_n := None; o_allspec := false; o_cosmics := c; o_negflux := 20; o_skymask := true |}.
(* the chi2 of the best fit *)
Definition best_chi2 (r : res (list frow)) : option xq := match r with Ok t => hd_error (map Model_Zfind.f_chi2 t) | Err _ => None end.

Lemma o4_open c ds : incl ds [fP; fM] -> exists fs, open_files (o4 c) ds = Ok fs /\ in_order fs /\ sound_files fs.
Proof.
  intro Sub. assert (X : exists fs, open_files (o4 c) ds = Ok fs /\ Forall2 (fun d f => exists k, f = {| sf_ids := input_ids d; sf_keep := k; sf_bands := df_bands d; sf_wave := df_wave d; sf_flux := df_flux d; sf_ivar := df_ivar d; sf_mask := df_mask d; sf_res := df_res d |}) ds fs).
  { unfold open_files. apply mapM_choose. intros d _. unfold open_file, kept. cbn [o4 o_ids o_first o_n]. rewrite (Props_Desi.C69_no_options). cbn [rbind]. eexists. split; [reflexivity|]. eexists. reflexivity. }
  destruct X as (fs & E & F). exists fs. split; [exact E|].
  assert (K : forall f, In f fs -> exists fl k, length fl = 4 /\ f = {| sf_ids := [5%Z]; sf_keep := k; sf_bands := ["b"%string]; sf_wave := fun _ => [20; 22; 24; 26]%Q; sf_flux := fun _ => [map Fin fl]; sf_ivar := fun _ => [map (fun _ => Fin 1%Q) fl]; sf_mask := fun _ => None; sf_res := fun _ => [r4] |}).
  { intros f I. destruct (Forall2_in_r _ _ _ _ F I) as (d & Id & k & ->). destruct (Sub d Id) as [<-|[<-|[]]]; [exists [1; 11; 1; 11]%Q, k|exists [1; -(9); 1; -(9)]%Q, k]; split; reflexivity. }
  clear F E Sub. split; [split; [|split]|split].
  - intros f I. destruct (K f I) as (fl & k & L & ->). intros b _. cbn [sf_bands sf_flux sf_ids sf_ivar sf_res sf_mask]. cbn [length]. repeat split; try discriminate. intros [|[|j]]; cbn [nth]; rewrite ?map_length; reflexivity.
  - exists false. intros f b I _. destruct (K f I) as (fl & k & _ & ->); cbn; split; congruence.
  - intros f f' b I I' _ _. destruct (K f I) as (fl & k & _ & ->). destruct (K f' I') as (fl' & k' & _ & ->). reflexivity.
  - intros f b I _. destruct (K f I) as (fl & k & L & ->). cbn [sf_wave sf_flux sf_res length nth]. split; [lia|]. split; [apply inc2; cbn [length]; intros [|[|[|[|i]]]] Hi; cbn [nth]; try lia; reflexivity|]. split; [reflexivity|]. split; [intros x [<-|[]]; now rewrite map_length|].
    intros r [<-|[]]. split; [|reflexivity]. split; [reflexivity|]. split; [repeat constructor; cbn; tauto|repeat constructor].
  - intros f f' b r r' I I' _ _ Hr Hr'. destruct (K f I) as (fl & k & _ & ->). destruct (K f' I') as (fl' & k' & _ & ->). destruct Hr as [<-|[]], Hr' as [<-|[]]. reflexivity.
Qed.
Lemma id_shape : keeps_shape (fun r => idcsr (d_n r)). Proof. intros r _. now split. Qed.
Lemma run_PM : best_chi2 (drun (o4 4) [ga] [fP; fM]) = Some (Fin (6932827 # 55817)) /\ best_chi2 (drun (o4 4) [ga] [fM; fP]) = Some (Fin (7101227 # 55817)). Proof. split; vm_compute; reflexivity. Qed.
Lemma run_PM0 : exists x, best_chi2 (drun (o4 0) [ga] [fP; fM]) = Some x /\ best_chi2 (drun (o4 0) [ga] [fM; fP]) = Some x. Proof. eexists. split; vm_compute; reflexivity. Qed.
Lemma best_ok r x : best_chi2 r = Some x -> exists tab, r = Ok tab /\ hd_error (map Model_Zfind.f_chi2 tab) = Some x.
Proof. destruct r as [t|]; [|discriminate]. intro H. now exists t. Qed.
Local Opaque rrdesi.
(* the hypotheses of C161_files_partial hold for these two files without rejection *)
Example C161_nonvacuous : argsort_ok argsort0 /\ Forall sound_template [ga; st] /\ keeps_shape (fun r => idcsr (d_n r)) /\ no_rejection (o4 0) /\
  exists fs tab, open_files (o4 0) [fP; fM] = Ok fs /\ in_order fs /\ sound_files fs /\ Permutation [fP; fM] [fM; fP] /\ drun (o4 0) [ga] [fP; fM] = Ok tab /\ rows_of 5 tab <> [].
Proof.
  split; [exact argsort0_ok|]. split; [apply Forall_forall; exact ga_sound|]. split; [exact id_shape|]. split; [right; cbn; discriminate|]. destruct (o4_open 0 [fP; fM] (incl_refl _)) as (fs & E & Or & So). destruct run_PM0 as (x & H & _).
  destruct (best_ok _ _ H) as (tab & Et & _). exists fs, tab. split; [exact E|]. split; [exact Or|]. split; [exact So|]. split; [constructor|]. split; [exact Et|].
  apply (C154_complete _ _ _ _ _ _ _ _ _ _ (o4 0) [ga] [fP; fM] fs tab 5%Z argsort0_ok E Or Et). unfold open_files in E. vm_compute in E. injection E as <-. vm_compute. now left.
Qed.
(* With the default rejection of cosmic rays the order of the files decides which exposure is believed, and with it chi2 and redshift. *)
Theorem C161_cosmics_refuted : exists o ps ds ds' fs tab tab' x x', whole o /\ Forall sound_template ps /\ open_files o ds = Ok fs /\ in_order fs /\ sound_files fs /\ Permutation ds ds' /\
  drun o ps ds = Ok tab /\ drun o ps ds' = Ok tab' /\ hd_error (map Model_Zfind.f_chi2 tab) = Some (Fin x) /\ hd_error (map Model_Zfind.f_chi2 tab') = Some (Fin x') /\ ~ (x == x')%Q.
Proof.
  exists (o4 4), [ga], [fP; fM], [fM; fP]. destruct (o4_open 4 [fP; fM] (incl_refl _)) as (fs & E & Or & So). destruct run_PM as [H H'].
  apply best_ok in H as (tab & Ht & H). apply best_ok in H' as (tab' & Ht' & H'). exists fs, tab, tab', (6932827 # 55817)%Q, (7101227 # 55817)%Q.
  split; [now repeat split|]. split; [apply Forall_forall; intros p [<-|[]]; apply ga_sound; now left|]. split; [exact E|]. split; [exact Or|]. split; [exact So|]. split; [constructor|]. split; [exact Ht|]. split; [exact Ht'|]. split; [exact H|]. split; [exact H'|]. discriminate.
Qed.
Print Assumptions C161_spectra. Print Assumptions C161_own_data_partial. Print Assumptions C161_files_partial. Print Assumptions C161_cosmics_refuted.
