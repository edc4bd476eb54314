(* rrdesi from the input files to the table: C152-C154. *)
From Verif Require Import Prelude PreludeFacts NumX Facts2 Model_Fitz Proof_Fitz Model_Rebin Model_Dist Spec_Dist Proof_Dist3 Proof_Table Model_Zscan Proof_Zscan3 Model_Piece Model_IO Model_Zfind Model_Targets Model_Desi Spec_Desi Proof_Desi Proof_Desi2 Proof_Desi4 Props_Desi
  Model_Run Proof_Run Spec_Run Proof_Run2 Proof_Run3 Proof_Run5 Proof_Run6 Proof_Run7 Model_RunMPI Proof_RunMPI2 Proof_RunMPI3 Model_RunDesi Spec_RunDesi Proof_RunDesi Props_GPU Props_Zscan2 Props_Fitz Props_Run Props_Run2.
Open Scope nat_scope.

(* a run of all the targets in the files; the same with --targetids *)
Definition whole (o : dopts) : Prop := o_ids o = None /\ o_first o = None /\ o_n o = None.
Definition with_ids (o : dopts) (l : list Z) : dopts :=
  {| o_ids := Some l; o_first := None; o_n := None; o_allspec := o_allspec o; o_cosmics := o_cosmics o; o_negflux := o_negflux o; o_skymask := o_skymask o |}.
(* every spectrum of a file belongs to a target of its fibermap *)
Definition mapped (d : dfile) : Prop := incl (input_ids d) (map fm_id (df_fm d)).

Lemma open_len o ds fs : open_files o ds = Ok fs -> Forall2 (fun d f => exists k, kept o d = Ok k /\ f = {| sf_ids := input_ids d; sf_keep := k; sf_bands := df_bands d; sf_wave := df_wave d; sf_flux := df_flux d; sf_ivar := df_ivar d; sf_mask := df_mask d; sf_res := df_res d |}) ds fs.
Proof. intro H. apply mapM_Forall2 in H. eapply Forall2_impl; [|exact H]. intros d f E. unfold open_file in E. destruct (kept o d) as [k|]; cbn [rbind] in E; [|discriminate]. exists k. split; [reflexivity|congruence]. Qed.
Lemma open_in o ds fs f : open_files o ds = Ok fs -> In f fs -> exists d, In d ds /\ sf_ids f = input_ids d /\ sf_bands f = df_bands d /\ sf_wave f = df_wave d /\ sf_flux f = df_flux d /\ sf_ivar f = df_ivar d /\ sf_mask f = df_mask d /\ sf_res f = df_res d.
Proof. intros H I. apply open_len in H. destruct (Forall2_in_r _ _ _ _ H I) as (d & Id & k & _ & ->). exists d. now repeat split. Qed.
Lemma open_in' o ds fs d : open_files o ds = Ok fs -> In d ds -> exists f, In f fs /\ sf_ids f = input_ids d /\ sf_bands f = df_bands d /\ sf_wave f = df_wave d /\ sf_flux f = df_flux d /\ sf_ivar f = df_ivar d /\ sf_mask f = df_mask d /\ sf_res f = df_res d.
Proof. intros H I. apply open_len in H. destruct (F2_left _ _ _ H d I) as (f & If & k & _ & ->). eexists. split; [exact If|]. now repeat split. Qed.
Lemma in_order_other o o' ds fs fs' : open_files o ds = Ok fs -> open_files o' ds = Ok fs' -> in_order fs -> in_order fs'.
Proof.
  intros H H' (T & (mk & M) & W).
  assert (X : forall f', In f' fs' -> exists f, In f fs /\ sf_ids f = sf_ids f' /\ sf_bands f = sf_bands f' /\ sf_wave f = sf_wave f' /\ sf_flux f = sf_flux f' /\ sf_ivar f = sf_ivar f' /\ sf_mask f = sf_mask f' /\ sf_res f = sf_res f').
  { intros f' I. destruct (open_in _ _ _ _ H' I) as (d & Id & E1 & E2 & E3 & E4 & E5 & E6 & E7). destruct (open_in' _ _ _ _ H Id) as (f & If & F1 & F2 & F3 & F4 & F5 & F6 & F7). exists f. rewrite E1, E2, E3, E4, E5, E6, E7. now repeat split. }
  split; [|split].
  - intros f' I. destruct (X f' I) as (f & If & E1 & E2 & E3 & E4 & E5 & E6 & E7). specialize (T f If). unfold table_ok in *. now rewrite E1, E2, E4, E5, E6, E7 in T.
  - exists mk. intros f' b I Hb. destruct (X f' I) as (f & If & E1 & E2 & E3 & E4 & E5 & E6 & E7). rewrite <- E6. apply M; [exact If|now rewrite E2].
  - intros f f' b I I' Hb Hb'. destruct (X f I) as (g & Ig & _ & E2 & E3 & _). destruct (X f' I') as (g' & Ig' & _ & E2' & E3' & _). rewrite <- E3, <- E3'. apply W; auto; [now rewrite E2|now rewrite E2'].
Qed.

(* the first row of every target, in order *)
Lemma filter_none {A} (p : A -> bool) l : (forall x, In x l -> p x = false) -> filter p l = [].
Proof. induction l as [|x l IH]; intro H; [reflexivity|]. cbn. rewrite (H x (or_introl eq_refl)). apply IH. intros; apply H; now right. Qed.
Lemma zbest_app a b : zbest (a ++ b) = zbest a ++ zbest b. Proof. apply filter_app. Qed.

Lemma first_occ_id : forall l, NoDup l -> first_occurrences l [] = l.
Proof.
  assert (G : forall l seen, NoDup l -> (forall x, In x l -> ~ In x seen) -> first_occurrences l seen = l); [|intros l N; apply G; [exact N|intros x _ []]].
  induction l as [|x l IH]; intros seen N D; [reflexivity|]. inversion N as [|? ? N1 N2]; subst. cbn [first_occurrences]. destruct (in_dec Z.eq_dec x seen) as [I|_]; [exfalso; exact (D x (or_introl eq_refl) I)|]. f_equal. apply IH; [exact N2|]. intros y Hy [->|Hs]; [contradiction|exact (D y (or_intror Hy) Hs)].
Qed.
Section Props.
Variables (slv : solvers) (argsort : list xq -> list nat) (polyfit : list Q -> list Q -> option (Q * Q * Q)) (isqrt : Q -> Q).
Variable trans : option string -> Q -> Q -> Q.
Variables (nminima nz : nat).
Variables (hashf : hash_arg -> Z) (tocsr : dia -> csr) (fb : fbits).
Notation run := (run slv argsort polyfit isqrt trans nminima nz).
Notation rrdesi := (rrdesi slv argsort polyfit isqrt trans nminima nz hashf tocsr fb).

Lemma run_best ps tgs tab : argsort_ok argsort -> NoDup (map g_id tgs) -> run ps tgs = Ok tab -> map f_tid (zbest tab) = map g_id tgs.
Proof.
  intros A N H. destruct (run_parts _ _ _ _ _ _ _ A _ _ _ N H) as (tds & bss & ts & cut & _ & P & F & G & -> & _). clear -P F G.
  assert (L : length bss = length tgs) by (symmetry; exact (Forall2_len _ _ _ F)). clear F. revert bss ts L G. induction tgs as [|g tgs IH]; intros bss ts L G.
  - cbn in G. inversion G. reflexivity.
  - destruct bss as [|bs bss]; [discriminate|]. cbn [combine] in G. inversion G as [|? t ? ts' Ha G']; subst. cbn [map concat]. rewrite zbest_app, map_app, (IH bss ts' ltac:(cbn in L; lia) G'). cbn [fst snd] in Ha.
    change (g_id g :: map g_id tgs) with ([g_id g] ++ map g_id tgs). f_equal. pose proof (out_nonempty _ _ _ _ _ Ha P) as Ne.
    assert (Zn : forall i o, nth_error t i = Some o -> f_znum o = i) by (intros i o; eapply out_znum; exact Ha).
    assert (Ti : forall o, In o t -> f_tid o = g_id g). { intros o Ho. destruct (out_row _ _ _ _ _ Ha o Ho) as (b & r & _ & _ & E & _). exact E. }
    assert (K : forall r, f_znum (finalised (list_max_nat (map nbasis ps)) cut r) = f_znum r /\ f_tid (finalised (list_max_nat (map nbasis ps)) cut r) = f_tid r) by (intro r; unfold finalised; destruct cut; split; reflexivity).
    destruct t as [|o t]; [congruence|]. unfold zbest. cbn [map filter]. rewrite (proj1 (K o)), (Zn 0 o eq_refl). cbn [Nat.eqb map]. rewrite (proj2 (K o)), (Ti o (or_introl eq_refl)). f_equal.
    rewrite filter_none; [reflexivity|]. intros x Hx. apply in_map_iff in Hx as (r & <- & Hr). rewrite (proj1 (K r)). apply In_nth_error in Hr as [i Hi]. rewrite (Zn (S i) r Hi). reflexivity.
Qed.

(* ---------------- C152 ---------------- *)
(* Any two runs, on any files, with any selections: a target with the same spectra, the same fibermap entries and the same templates gets the same rows. *)
Theorem C152_own_data : forall o o' ps ds ds' fs fs' tab tab' t, argsort_ok argsort -> same_treatment o o' ->
  open_files o ds = Ok fs -> open_files o' ds' = Ok fs' -> in_order fs -> in_order fs' -> In t (all_ids fs) -> In t (all_ids fs') ->
  target_rows fs t = target_rows fs' t -> same_fibers t (fibermap ds fs) (fibermap ds' fs') ->
  rrdesi o ps ds = Ok tab -> rrdesi o' ps ds' = Ok tab' -> Forall2 same_row (rows_of t tab) (rows_of t tab').
Proof.
  intros o o' ps ds ds' fs fs' tab tab' t A S E E' Or Or' I I' Rw Fi H H'. apply (rrdesi_run _ _ _ _ _ _ _ _ _ _ _ _ _ _ _ E Or) in H as (tgs & tab0 & Ei & R & Hr & ->). apply (rrdesi_run _ _ _ _ _ _ _ _ _ _ _ _ _ _ _ E' Or') in H' as (tgs' & tab0' & Ei' & R' & Hr' & ->).
  rewrite <- Ei in I. rewrite <- Ei' in I'. apply in_map_iff in I as (g & Eg & Ig). apply in_map_iff in I' as (g' & Eg' & Ig').
  assert (X : g = g') by (eapply reads_same; [exact S|rewrite Eg; exact Rw|congruence|now apply R|now apply R']). subst g'.
  pose proof (neighbours slv argsort polyfit isqrt trans nminima nz A ps tgs tgs' tab0 tab0' g) as Nb. specialize (Nb ltac:(rewrite Ei; apply ids_nodup) ltac:(rewrite Ei'; apply ids_nodup) ltac:(eapply reads_tell; [exact Or|exact R]) ltac:(eapply reads_tell; [exact Or'|exact R']) Hr Hr' Ig Ig').
  rewrite Eg in Nb. rewrite !reflag_rows. assert (T : forall r, In r (rows_of t tab0) -> f_tid r = t) by (intros r Hin; unfold Spec_Run.rows_of in Hin; apply filter_In in Hin as [_ E0]; now apply Z.eqb_eq).
  revert T Nb. generalize (rows_of t tab0) as a. generalize (rows_of t tab0') as b. intros b a T Nb. induction Nb as [|x y a b Hxy _ IH]; cbn [map]; constructor; [|apply IH; intros; apply T; now right].
  apply reflag_same; [exact Hxy|]. rewrite (T x (or_introl eq_refl)). exact Fi.
Qed.
(* --targetids: a run of some of the targets succeeds when the run of all does, and gives their rows. *)
Theorem C152_targetids : forall o ps ds fs tab l, argsort_ok argsort -> whole o -> open_files o ds = Ok fs -> in_order fs -> (forall d, In d ds -> mapped d) ->
  rrdesi o ps ds = Ok tab -> l <> [] -> (forall t, In t l -> exists d, In d ds /\ In t (map fm_id (df_fm d))) ->
  exists tab', rrdesi (with_ids o l) ps ds = Ok tab' /\ forall t, In t l -> Forall2 same_row (rows_of t tab) (rows_of t tab').
Proof.
  intros o ps ds fs tab l A (O1 & O2 & O3) E Or Mp H Ne Il. set (o' := with_ids o l).
  assert (Wn : forall x, window x None None = Ok x) by (intro x; exact (C69_no_options x)).
  assert (X : exists fs', open_files o' ds = Ok fs' /\ Forall2 (fun d f => sf_keep f = l /\ sf_ids f = input_ids d) ds fs').
  { unfold open_files. apply mapM_choose. intros d _. unfold open_file, kept, o'. cbn [o_ids o_first o_n with_ids]. rewrite Wn. cbn [rbind]. eexists. split; [reflexivity|]. now split. }
  destruct X as (fs' & E' & K'). pose proof (in_order_other _ _ _ _ _ E E' Or) as Or'. assert (S : same_treatment o o') by (now repeat split).
  assert (Nds : ds <> []). { destruct l as [|t l]; [congruence|]. destruct (Il t (or_introl eq_refl)) as (d & Id & _). intros ->. destruct Id. }
  assert (Nd' : fs' <> []) by (intros ->; inversion K'; congruence).
  assert (Ids : forall t, In t (all_ids fs') <-> In t l). { intro t. rewrite ids_in. split; [intros (f & If & Ht); destruct (Forall2_in_r _ _ _ _ K' If) as (d & _ & Ek & _); now rewrite <- Ek|]. intro Ht. destruct fs' as [|f fs']; [congruence|]. exists f. split; [now left|]. destruct (Forall2_in_r _ _ _ f K' (or_introl eq_refl)) as (d & _ & Ek & _). now rewrite Ek. }
  assert (Keep : Forall2 (fun d f => sf_keep f = map fm_id (df_fm d)) ds fs). { pose proof (open_len _ _ _ E) as Fo. eapply Forall2_impl; [|exact Fo]. intros d f (k & Hk & ->). cbn [sf_keep]. unfold kept in Hk. rewrite O1, O2, O3, Wn in Hk. congruence. }
  assert (Idw : forall t, In t l -> In t (all_ids fs)). { intros t Ht. apply ids_in. destruct (Il t Ht) as (d & Id & Hd). destruct (F2_left _ _ _ Keep d Id) as (f & If & Ek). exists f. split; [exact If|now rewrite Ek]. }
  assert (Rw : forall t, In t l -> target_rows fs t = target_rows fs' t).
  { intros t Ht. pose proof (open_len _ _ _ E) as Fo. pose proof (open_len _ _ _ E') as Fo'. clear -Fo Fo' Mp Ht O1 O2 O3 Wn. unfold target_rows. revert fs' Fo'. induction Fo as [|d f ds fs (k & Hk & Ef) Fo IH]; intros fs' Fo'; inversion Fo' as [|? f' ? fs'' (k' & Hk' & Ef') Fo'']; subst fs'; [reflexivity|].
    specialize (IH (fun d0 I => Mp d0 (or_intror I)) fs'' Fo''). cbn [filter]. unfold kept in Hk, Hk'. rewrite O1, O2, O3, Wn in Hk. unfold o' in Hk'. cbn [o_ids o_first o_n with_ids] in Hk'. rewrite Wn in Hk'. subst f f'. cbn [sf_keep].
    assert (M' : zmem t k' = true) by (unfold zmem; apply existsb_exists; exists t; split; [congruence|apply Z.eqb_refl]). rewrite M'. cbn [map concat sf_ids sf_bands]. rewrite <- IH.
    destruct (zmem t k) eqn:Mk; [reflexivity|]. set (tail := concat (map _ (filter _ fs))). enough (Z0 : concat (map (fun b => Spec_Desi.rows_of (input_ids d) t (full_rows {| sf_ids := input_ids d; sf_keep := k'; sf_bands := df_bands d; sf_wave := df_wave d; sf_flux := df_flux d; sf_ivar := df_ivar d; sf_mask := df_mask d; sf_res := df_res d |} b)) (df_bands d)) = []) by (rewrite Z0; reflexivity).
    assert (Nt : ~ In t (input_ids d)). { intro I. apply (Mp d (or_introl eq_refl)) in I. assert (Ek : k = map fm_id (df_fm d)) by congruence. rewrite <- Ek in I. unfold zmem in Mk. assert (existsb (Z.eqb t) k = true) by (apply existsb_exists; exists t; split; [exact I|apply Z.eqb_refl]). congruence. }
    match goal with |- context [full_rows ?f] => generalize (full_rows f) as rows end. intro rows. generalize (df_bands d) as bs. induction bs as [|b bs IHb]; [reflexivity|]. cbn [map concat]. rewrite IHb, app_nil_r. unfold Spec_Desi.rows_of. rewrite filter_none; [reflexivity|]. intros [i r] Hin. cbn [fst]. apply in_combine_l in Hin. apply Z.eqb_neq. intros ->. contradiction. }
  assert (Fi : forall t, In t l -> same_fibers t (fibermap ds fs) (fibermap ds fs')).
  { intros t Ht r Er. unfold fibermap. clear -Ht Er Keep K'. revert fs' K'. induction Keep as [|d f ds fs Ek _ IH]; intros fs' K'; inversion K' as [|? f' ? fs'' [Ek' _] K'']; subst fs'; [reflexivity|]. cbn [combine map concat fst snd]. rewrite !in_app_iff, (IH fs'' K''), !filter_In, Ek, Ek', Er.
    assert (M' : zmem t l = true) by (unfold zmem; apply existsb_exists; exists t; split; [exact Ht|apply Z.eqb_refl]). rewrite M'. assert (Z0 : In r (df_fm d) -> zmem t (map fm_id (df_fm d)) = true) by (intro I; unfold zmem; apply existsb_exists; exists t; split; [apply in_map_iff; now exists r|apply Z.eqb_refl]). tauto. }
  pose proof H as H0. apply (rrdesi_run _ _ _ _ _ _ _ _ _ _ _ _ _ _ _ E Or) in H0 as (tgs & tab0 & Ei & R & Hr & Et).
  assert (N : NoDup (map g_id tgs)) by (rewrite Ei; apply ids_nodup). assert (Tl : hashes_tell_grids tgs) by (eapply reads_tell; [exact Or|exact R]).
  assert (Y : exists tgs', map g_id tgs' = all_ids fs' /\ (forall g, In g tgs' -> In g tgs)).
  { assert (Q : forall t, In t (all_ids fs') -> exists g, In g tgs /\ g_id g = t) by (intros t Ht; apply Ids, Idw in Ht; rewrite <- Ei in Ht; apply in_map_iff in Ht as (g & Eg & Ig); now exists g). clear -Q. induction (all_ids fs') as [|t ts IH]; [exists []; split; [reflexivity|intros g []]|]. destruct IH as (m & Em & Im); [intros; apply Q; now right|]. destruct (Q t (or_introl eq_refl)) as (g & Ig & Eg). exists (g :: m). cbn. rewrite Em, Eg. split; [reflexivity|]. intros g' [<-|Hg]; auto. }
  destruct Y as (tgs' & Ei' & Sub). assert (R' : forall g, In g tgs' -> reads hashf tocsr o' fs' g). { intros g Hg. eapply reads_other; [exact S|apply Rw, Ids; rewrite <- Ei'; now apply in_map|apply R, Sub, Hg]. }
  destruct (run_all slv argsort polyfit isqrt trans nminima nz A ps tgs') as [tab1 H1].
  - rewrite Ei'. apply ids_nodup.
  - eapply reads_tell; [exact Or'|exact R'].
  - intros ->. cbn in Ei'. destruct l as [|t l]; [congruence|]. apply (proj2 (Ids t) (or_introl eq_refl)) || (pose proof (proj2 (Ids t) (or_introl eq_refl)) as X; rewrite <- Ei' in X; destruct X).
  - intros g Hg. destruct (run_alone slv argsort polyfit isqrt trans nminima nz A _ _ _ _ N Tl Hr (Sub g Hg)) as (t1 & Ht1 & _). now exists t1.
  - assert (H' : rrdesi o' ps ds = Ok (map (reflag fb (fibermap ds fs')) tab1)) by (apply (rrdesi_run _ _ _ _ _ _ _ _ _ _ _ _ _ _ _ E' Or'); exists tgs', tab1; now repeat split).
    eexists. split; [exact H'|]. intros t Ht. eapply C152_own_data; [exact A|exact S|exact E|exact E'|exact Or|exact Or'|now apply Idw|now apply Ids|now apply Rw|now apply Fi|exact H|exact H'].
Qed.

(* ---------------- C153 ---------------- *)
(* One row per target in the table of best fits, in the order of the targets. *)
Theorem C153_one_row : forall o ps ds fs tab, argsort_ok argsort -> open_files o ds = Ok fs -> in_order fs -> rrdesi o ps ds = Ok tab ->
  map f_tid (zbest tab) = first_occurrences (concat (map sf_keep fs)) [] /\ NoDup (map f_tid (zbest tab)).
Proof.
  intros o ps ds fs tab A E Or H. apply (rrdesi_run _ _ _ _ _ _ _ _ _ _ _ _ _ _ _ E Or) in H as (tgs & tab0 & Ei & R & Hr & ->). assert (N : NoDup (map g_id tgs)) by (rewrite Ei; apply ids_nodup).
  assert (Z0 : map f_tid (zbest (map (reflag fb (fibermap ds fs)) tab0)) = map f_tid (zbest tab0)). { unfold zbest. clear. induction tab0 as [|r l IH]; [reflexivity|]. cbn [map filter]. rewrite reflag_znum. destruct (f_znum r =? 0); cbn [map]; rewrite ?reflag_tid, IH; reflexivity. }
  rewrite Z0, (run_best ps tgs tab0 A N Hr), Ei. split; [apply C68_target_list|apply ids_nodup].
Qed.
(* The rows of the tables REDSHIFTS and FIBERMAP belong together: for one file with distinct targets, without --targetids.  Missing: several files, --targetids
   (below). *)
Theorem C153_fibermap_partial : forall o ps d fs tab, argsort_ok argsort -> o_ids o = None -> NoDup (map fm_id (df_fm d)) -> open_files o [d] = Ok fs -> in_order fs -> rrdesi o ps [d] = Ok tab ->
  map f_tid (zbest tab) = map fm_id (fibermap [d] fs).
Proof.
  intros o ps d fs tab A O1 N E Or H. rewrite (proj1 (C153_one_row o ps [d] fs tab A E Or H)). pose proof (open_len _ _ _ E) as Fo. inversion Fo as [|? f ? fs' (k & Hk & Ef) Fo']; subst fs. inversion Fo'; subst fs'. clear Fo Fo'.
  unfold fibermap. cbn [map concat combine fst snd]. rewrite !app_nil_r, <- unique_targets_ok. subst f. cbn [sf_keep]. unfold kept in Hk. rewrite O1 in Hk. unfold window in Hk.
  destruct (_ <? _)%Z; [discriminate|]. destruct (_ <? _)%Z; [discriminate|]. unfold pyslice in Hk. injection Hk as Hk.
  assert (Sl : forall (l : list Z) a c, NoDup l -> filter (fun t => zmem t (firstn c (skipn a l))) l = firstn c (skipn a l)).
  { clear. intros l a c N. assert (G0 : forall x y z, NoDup (x ++ y ++ z) -> filter (fun t => zmem t y) (x ++ y ++ z) = y); [|specialize (G0 (firstn a l) (firstn c (skipn a l)) (skipn c (skipn a l))); rewrite !firstn_skipn in G0; exact (G0 N)]. clear. intros x y z N.
    assert (M : forall t, zmem t y = true <-> In t y). { intro t. unfold zmem. rewrite existsb_exists. split; [intros (u & I & Eu); apply Z.eqb_eq in Eu; now subst|intro I; exists t; split; [exact I|apply Z.eqb_refl]]. }
    rewrite !filter_app. rewrite filter_none; [rewrite (filter_none _ z)|].
    - cbn. rewrite app_nil_r. clear N. assert (G : forall m, incl m y -> filter (fun t => zmem t y) m = m); [|now apply G]. induction m as [|t m IH]; intro I; [reflexivity|]. cbn. rewrite (proj2 (M t) (I t (or_introl eq_refl))). f_equal. apply IH. intros u Hu. apply I. now right.
    - intros t Ht. destruct (zmem t y) eqn:Em; [|reflexivity]. apply M in Em. apply NoDup_app_r in N. exfalso. eapply NoDup_app_disj; [exact N|exact Em|exact Ht].
    - intros t Ht. destruct (zmem t y) eqn:Em; [|reflexivity]. apply M in Em. exfalso. eapply NoDup_app_disj; [exact N|exact Ht|]. apply in_app_iff. now left. }
  assert (Fm : forall k' l, map fm_id (filter (fun r => zmem (fm_id r) k') l) = filter (fun t => zmem t k') (map fm_id l)). { clear. intros k' l. induction l as [|r l IH]; [reflexivity|]. cbn [map filter]. destruct (zmem (fm_id r) k'); cbn [map]; now rewrite IH. }
  rewrite Fm, <- Hk, Sl by exact N. rewrite unique_targets_ok. apply first_occ_id. rewrite <- (firstn_skipn (clampi (length (map fm_id (df_fm d))) match o_first o with Some f => f | None => 0%Z end) (map fm_id (df_fm d))) in N. apply NoDup_app_r in N. eapply NoDup_app_l. rewrite firstn_skipn. exact N.
Qed.

(* ---------------- C154 ---------------- *)
(* A run that ends has spectra and rows for every target on its list ... *)
Theorem C154_complete : forall o ps ds fs tab t, argsort_ok argsort -> open_files o ds = Ok fs -> in_order fs -> rrdesi o ps ds = Ok tab -> In t (all_ids fs) ->
  target_rows fs t <> [] /\ rows_of t tab <> [].
Proof.
  intros o ps ds fs tab t A E Or H It. apply (rrdesi_run _ _ _ _ _ _ _ _ _ _ _ _ _ _ _ E Or) in H as (tgs & tab0 & Ei & R & Hr & ->). assert (N : NoDup (map g_id tgs)) by (rewrite Ei; apply ids_nodup).
  assert (Tl : hashes_tell_grids tgs) by (eapply reads_tell; [exact Or|exact R]). rewrite <- Ei in It. apply in_map_iff in It as (g & Eg & Ig).
  destruct (run_alone slv argsort polyfit isqrt trans nminima nz A _ _ _ _ N Tl Hr Ig) as (t1 & Ht1 & F1). pose proof (C145_every_target slv argsort polyfit isqrt trans nminima nz ps tgs tab0 g A N Tl Hr Ig) as Nr. rewrite Eg in Nr, F1. split.
  - intro Z0. destruct t1 as [|r t1]; [inversion F1; congruence|]. destruct (row_source slv argsort polyfit isqrt trans nminima nz A ps [g] (r :: t1) r (one_nodup g) Ht1 (or_introl eq_refl)) as (g' & p & td & row & fl & x & ty & [<-|[]] & _ & _ & _ & _ & _ & Hsc & _).
    destruct (R g Ig) as (sl & Fs & Hp). rewrite Eg, Z0 in Fs. inversion Fs. subst sl. assert (D : data_of g = []). { unfold prepare in Hp. cbn [mapM rbind] in Hp. destruct (o_allspec o); cbn in Hp; unfold data_of; injection Hp as <-; reflexivity. }
    unfold scan_of in Hsc. cbn [fst snd] in Hsc. rewrite D in Hsc. unfold zchi2_target in Hsc. cbn in Hsc. discriminate.
  - rewrite reflag_rows. intro Z0. apply Nr. destruct (rows_of t tab0); [reflexivity|discriminate].
Qed.
(* ... so that one id of --targetids that is in none of the files stops the run of all the others. *)
Theorem C154_absent_refuted : forall o ps ds fs tab t, argsort_ok argsort -> open_files o ds = Ok fs -> in_order fs -> In t (all_ids fs) -> (forall d, In d ds -> ~ In t (input_ids d)) -> rrdesi o ps ds <> Ok tab.
Proof.
  intros o ps ds fs tab t A E Or It Nt H. apply (proj1 (C154_complete o ps ds fs tab t A E Or H It)). unfold target_rows. pose proof (open_len _ _ _ E) as Fo. clear -Fo Nt. induction Fo as [|d f ds fs (k & _ & ->) Fo IH]; [reflexivity|]. cbn [filter]. specialize (IH (fun d0 I => Nt d0 (or_intror I))).
  match goal with |- context [zmem t ?x] => destruct (zmem t x) end; [|exact IH]. cbn [map concat sf_ids sf_bands]. rewrite IH, app_nil_r. match goal with |- context [full_rows ?f] => generalize (full_rows f) as rows end. intro rows. generalize (df_bands d) as bs. induction bs as [|b bs IHb]; [reflexivity|]. cbn [map concat]. rewrite IHb, app_nil_r. unfold Spec_Desi.rows_of. rewrite filter_none; [reflexivity|]. intros [i r] Hin. cbn [fst]. apply in_combine_l in Hin. apply Z.eqb_neq. intros ->. exact (Nt d (or_introl eq_refl) Hin).
Qed.
End Props.

(* ---------------- concrete runs ---------------- *)
Definition rid : dia := {| d_off := [0%Z]; d_data := [[1; 1]%Q]; d_n := 2 |}.
Definition df (fm : list Z) (ex : list Z) (fl : list (list Q)) : dfile :=
  {| df_coadded := false; df_fm := map (fun t => {| fm_id := t; fm_status := if (t =? 7)%Z then 2%Z else 0%Z; fm_objtype := "TGT" |}) fm; df_exp := ex; df_bands := ["b"%string]; df_wave := fun _ => [20; 30]%Q;
     df_flux := fun _ => map (map Fin) fl; df_ivar := fun _ => map (map (fun _ => Fin 1%Q)) fl; df_mask := fun _ => None; df_res := fun _ => map (fun _ => rid) fl |}.
Definition fA := df [5; 7]%Z [5; 7; 5]%Z [[5; 2]; [2; 1]; [4; 2]]%Q.
Definition fB := df [7; 8]%Z [7; 8]%Z [[3; 1]; [6; 3]]%Q.
Definition oall : dopts := {| o_ids := None; o_first := None; o_n := None; o_allspec := false; o_cosmics := 4; o_negflux := 5; o_skymask := true |}.
Definition dbits : fbits := {| b_poorpos := 2; b_badpos := 4; b_broken := 8; b_unassigned := 16; b_cover := [] |}.
Local Notation drun := (rrdesi demo argsort0 lagrange3 (fun x => x) no_igm 2 3 (fun _ => 3%Z) (fun r => idcsr (d_n r)) dbits).
Definition opened (o : dopts) (ds : list dfile) : list (sfile dia) := match open_files o ds with Ok fs => fs | Err _ => [] end.

Example ex_two : tell (drun oall [ga; st] [fA; fB]) = [(5%Z, "GALAXY"%string, 34%N); (5%Z, "STAR"%string, 1058%N); (7%Z, "GALAXY"%string, 2082%N); (7%Z, "STAR"%string, 3106%N); (8%Z, "GALAXY"%string, 34%N); (8%Z, "STAR"%string, 1058%N)].
Proof. vm_compute. reflexivity. Qed.
Definition best_ids (r : res (list frow)) : list Z := match r with Ok t => map f_tid (zbest t) | Err _ => [] end.
Lemma ex_order : forall o, whole o -> forall ds, incl ds [fA; fB] -> exists fs, open_files o ds = Ok fs /\ in_order fs.
Proof.
  intros o (O1 & O2 & O3) ds Sub. assert (X : exists fs, open_files o ds = Ok fs /\ Forall2 (fun d f => exists k, f = {| sf_ids := input_ids d; sf_keep := k; sf_bands := df_bands d; sf_wave := df_wave d; sf_flux := df_flux d; sf_ivar := df_ivar d; sf_mask := df_mask d; sf_res := df_res d |}) ds fs).
  { unfold open_files. apply mapM_choose. intros d _. unfold open_file, kept. rewrite O1, O2, O3. rewrite (C69_no_options). cbn [rbind]. eexists. split; [reflexivity|]. eexists. reflexivity. }
  destruct X as (fs & E & F). exists fs. split; [exact E|].
  assert (K : forall f, In f fs -> exists d k, In d [fA; fB] /\ f = {| sf_ids := input_ids d; sf_keep := k; sf_bands := df_bands d; sf_wave := df_wave d; sf_flux := df_flux d; sf_ivar := df_ivar d; sf_mask := df_mask d; sf_res := df_res d |}) by (intros f I; destruct (Forall2_in_r _ _ _ _ F I) as (d & Id & k & ->); exists d, k; split; [now apply Sub|reflexivity]).
  split; [|split].
  - intros f I. destruct (K f I) as (d & k & Hd & ->). intros b _. cbn [sf_bands sf_flux sf_ids sf_ivar sf_res sf_mask]. destruct Hd as [<-|[<-|[]]]; cbn; repeat split; try discriminate; intro j; repeat (destruct j as [|j]; [reflexivity|]); reflexivity.
  - exists false. intros f b I _. destruct (K f I) as (d & k & [<-|[<-|[]]] & ->); cbn; split; congruence.
  - intros f f' b I I' _ _. destruct (K f I) as (d & k & Hd & ->). destruct (K f' I') as (d' & k' & Hd' & ->). cbn [sf_wave]. destruct Hd as [<-|[<-|[]]]; destruct Hd' as [<-|[<-|[]]]; reflexivity.
Qed.
(* all the hypotheses of C152-C154 hold for these files *)
Example C152_nonvacuous : argsort_ok argsort0 /\ whole oall /\ (forall d, In d [fA; fB] -> mapped d) /\ (forall t, In t [8; 5]%Z -> exists d, In d [fA; fB] /\ In t (map fm_id (df_fm d))) /\
  exists fs, open_files oall [fA; fB] = Ok fs /\ in_order fs /\ exists tab, drun oall [ga; st] [fA; fB] = Ok tab.
Proof.
  split; [exact argsort0_ok|]. split; [now repeat split|]. split; [intros d [<-|[<-|[]]] t Ht; cbn in *; tauto|].
  split; [intros t [<-|[<-|[]]]; [exists fB|exists fA]; cbn; tauto|]. destruct (ex_order oall ltac:(now repeat split) [fA; fB] (incl_refl _)) as (fs & E & Or). exists fs. split; [exact E|]. split; [exact Or|]. destruct (tell_ok _ _ _ ex_two) as (tab & Et & _). now exists tab.
Qed.
(* --targetids 8,5: the same rows, in the order of the list *)
Example ex_some : tell (drun (with_ids oall [8; 5]%Z) [ga; st] [fA; fB]) = [(8%Z, "GALAXY"%string, 34%N); (8%Z, "STAR"%string, 1058%N); (5%Z, "GALAXY"%string, 34%N); (5%Z, "STAR"%string, 1058%N)].
Proof. vm_compute. reflexivity. Qed.
(* REDSHIFTS and FIBERMAP are not parallel: with --targetids in another order than the file, and for a target with spectra in two files. *)
Theorem C153_targetids_refuted : exists o d, NoDup (map fm_id (df_fm d)) /\ best_ids (drun o [ga; st] [d]) = [7; 5]%Z /\ map fm_id (fibermap [d] (opened o [d])) = [5; 7]%Z.
Proof. exists (with_ids oall [7; 5]%Z), fA. split; [cbn; repeat constructor; cbn; intuition discriminate|]. vm_compute. now split. Qed.
Theorem C153_two_files_refuted : exists o ds, whole o /\ (forall d, In d ds -> NoDup (map fm_id (df_fm d))) /\ best_ids (drun o [ga; st] ds) = [5; 7; 8]%Z /\ map fm_id (fibermap ds (opened o ds)) = [5; 7; 7; 8]%Z.
Proof. exists oall, [fA; fB]. split; [now repeat split|]. split; [intros d [<-|[<-|[]]]; cbn; repeat constructor; cbn; intuition discriminate|]. vm_compute. now split. Qed.
(* an id that is in no file *)
Example C154_nonvacuous : In 6%Z (all_ids (opened (with_ids oall [5; 6]%Z) [fA; fB])) /\ (forall d, In d [fA; fB] -> ~ In 6%Z (input_ids d)) /\ err (drun (with_ids oall [5; 6]%Z) [ga; st] [fA; fB]) = Some ValueError.
Proof. split; [vm_compute; tauto|]. split; [intros d [<-|[<-|[]]]; cbn; intuition discriminate|]. vm_compute. reflexivity. Qed.

Print Assumptions C152_own_data. Print Assumptions C152_targetids. Print Assumptions C153_one_row. Print Assumptions C153_fibermap_partial. Print Assumptions C153_targetids_refuted. Print Assumptions C153_two_files_refuted. Print Assumptions C154_complete. Print Assumptions C154_absent_refuted.
