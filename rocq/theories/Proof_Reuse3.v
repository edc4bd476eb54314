(* A scan used again gives the fits of the run that made it. *)
From Verif Require Import Prelude PreludeFacts NumX Facts2 Model_Fitz Model_Rebin Model_Dist Proof_Dist3 Proof_Table Model_Zscan Proof_Zscan2 Proof_Zscan3 Proof_Zscan4
  Model_Piece Model_IO Proof_IO2 Model_Zfind Proof_Zfind Model_Run Proof_Run Proof_Run2 Spec_Run Proof_Run3 Proof_Run6 Proof_RunMPI2 Model_Reuse Spec_Reuse Proof_Reuse Proof_Rank Proof_Reuse2.
Open Scope nat_scope.
Local Notation dget := Model_Dist.dget.
Local Notation dset := Model_Dist.dset.
Local Notation entry := Model_IO.entry.

Section S.
Variables (slv : solvers) (argsort : list xq -> list nat) (polyfit : list Q -> list Q -> option (Q * Q * Q)) (isqrt : Q -> Q).
Variable trans : option string -> Q -> Q -> Q.
Variables (nminima nz : nat).
Notation tdata := (tdata trans).
Notation zfind := (zfind slv argsort polyfit isqrt trans nminima nz).
Notation run := (run slv argsort polyfit isqrt trans nminima nz).
Notation one_scan := (one_scan slv trans).
Notation fits_of := (fits_of slv argsort polyfit isqrt trans nminima nz).

(* zfind that scans *)
Lemma zfind_scan pr ps tgs zs tab : NoDup (map g_id tgs) -> NoDup (map full_type ps) -> hashes_tell_grids tgs ->
  (zfind None pr ps tgs = Ok (zs, tab) <-> exists tds dss bss, mapM (fun p => tdata p (grids tgs) (p_zs p)) ps = Ok tds /\ Forall2 (fun g ds => mapM (one_scan g) ps = Ok ds) tgs dss /\
     zs = add_prior pr (combine (map g_id tgs) dss) /\ Forall2 (fits_of ps zs) tgs bss /\ zfind_table nminima None (list_max_nat (map nbasis ps)) (map g_id tgs) (combine (map g_id tgs) bss) = Ok tab).
Proof.
  intros N Nt C. rewrite zfind_ok by exact N. split.
  - intros (tds & z0 & bss & Et & Ez & -> & F & T). apply (proj1 (calc_scan_alone slv trans ps tds tgs z0 N Nt C Et)) in Ez as (dss & Fd & ->). exists tds, dss, bss. repeat (split; [assumption || reflexivity|]). exact T.
  - intros (tds & dss & bss & Et & Fd & -> & F & T). exists tds, (combine (map g_id tgs) dss), bss. split; [exact Et|]. split; [|now repeat split]. apply (proj2 (calc_scan_alone slv trans ps tds tgs _ N Nt C Et)). now exists dss.
Qed.
Lemma zs_entry pr ps tgs dss g : NoDup (map g_id tgs) -> In g tgs -> Forall2 (fun g ds => mapM (one_scan g) ps = Ok ds) tgs dss -> exists ds, mapM (one_scan g) ps = Ok ds /\ dget (add_prior pr (combine (map g_id tgs) dss)) (g_id g) = Some (map (priored pr (g_id g)) ds).
Proof.
  intros N I F.
  assert (X : exists ds, In (g_id g, ds) (combine (map g_id tgs) dss) /\ mapM (one_scan g) ps = Ok ds). { clear N. induction F as [|a d tgs dss H F IH]; [destruct I|]. destruct I as [->|I]; [exists d; split; [now left|exact H]|]. destruct (IH I) as (ds & A & B). exists ds. split; [now right|exact B]. }
  destruct X as (ds & A & B). exists ds. split; [exact B|]. rewrite prior_get. now rewrite (combine_get _ _ _ _ N A).
Qed.
Lemma prior_entry_ok f32 zs t ft s : kept_exactly f32 zs -> entry zs t ft = Ok s -> forall z c, ent {| sc_z := z; sc_chi2 := map f32 (sc_chi2 s); sc_pen := map f32 (sc_pen s); sc_coeff := c |} = ent s.
Proof.
  intros K E z c. destruct (K t ft s E) as [K1 K2]. unfold ent. cbn [sc_chi2 sc_pen].
  assert (G : forall l, (forall v, In v l -> f32 v = v) -> map f32 l = l). { induction l as [|a l IH]; intro H; [reflexivity|]. cbn [map]. rewrite (H a) by now left. f_equal. apply IH. intros; apply H; now right. }
  now rewrite (G _ K1), (G _ K2).
Qed.
Lemma mapM_perm_in {A B} (f : A -> res B) l l' m m' : Permutation l l' -> mapM f l = Ok m -> mapM f l' = Ok m' -> forall b, In b m -> In b m'.
Proof.
  intros P E E' b I. apply mapM_Forall2 in E, E'. destruct (Forall2_in_r _ _ _ b E I) as (a & Ia & Ha). apply (Permutation_in _ P) in Ia. destruct (Forall2_in_l _ _ _ E' a Ia) as (b' & Ib & Hb). assert (b = b') by congruence. now subst.
Qed.

Lemma reuse_same {P} f32 (cast : P -> P) pr ps qs ps' tgs tgs' zs tab zfit h :
  NoDup (map g_id tgs) -> NoDup (map full_type ps) -> hashes_tell_grids tgs -> zfind None pr ps tgs = Ok (zs, tab) -> kept_exactly f32 zs -> write_zscan f32 cast zs zfit = Ok h ->
  Permutation ps qs -> alphabetical qs -> Permutation ps ps' -> NoDup (map g_id tgs') -> incl tgs' tgs -> (forall g, In g tgs' -> In (g_id g) (h_ids h)) ->
  exists zs', read_zscan_redrock h = Ok zs' /\ forall tab', (exists z, zfind (Some zs') None ps' tgs' = Ok (z, tab')) <-> (exists z, zfind None pr qs tgs' = Ok (z, tab')).
Proof.
  intros N Nt C Z K W Pq Sq P' N' Inc Hid. apply zfind_scan in Z as (tds & dss & bss0 & Et & Fd & Ezs & _ & _); [|assumption..].
  destruct (file_scan f32 cast zs zfit h W) as (zs' & d0 & t0 & Rd & Kz & Nh & It0 & Ed0 & _ & V). exists zs'. split; [exact Rd|].
  assert (Ntq : NoDup (map full_type qs)) by (eapply Permutation_NoDup; [apply Permutation_map; exact Pq|exact Nt]).
  assert (Nt' : NoDup (map full_type ps')) by (eapply Permutation_NoDup; [apply Permutation_map; exact P'|exact Nt]).
  assert (Eq : by_type ps = qs). { apply sorted_perm_eq; [eapply Permutation_NoDup; [apply Permutation_map, Permutation_sym, by_type_perm|exact Nt]|transitivity ps; [apply by_type_perm|exact Pq]|apply by_type_sorted|exact Sq]. }
  assert (Bq : by_type qs = by_type ps') by (apply by_type_unique; [exact Ntq|]; transitivity ps; [now apply Permutation_sym|exact P']).
  assert (C' : hashes_tell_grids tgs') by (eapply hashes_incl; [exact Inc|exact C]).
  assert (K0 : map fst d0 = map full_type ps). { rewrite Ezs, prior_get in Ed0. destruct (dget (combine (map g_id tgs) dss) t0) as [d|] eqn:Ed; [|discriminate]. cbn [option_map] in Ed0. assert (d0 = map (priored pr t0) d) by congruence. subst d0. rewrite prior_keys.
    apply combine_inv in Ed. destruct (in_target _ _ _ _ Ed _ Fd) as (g & _ & _ & Hg). now apply (scans_keys slv trans) in Hg. }
  (* the dictionary of a target in the file and in the scan *)
  assert (D : forall g, In g tgs' -> exists d ds, dget zs' (g_id g) = Some d /\ mapM (one_scan g) qs = Ok ds /\ ents d = ents (map (priored pr (g_id g)) ds)).
  { intros g I. destruct (V (g_id g) (Hid g I)) as (d & Ed & Kd & Vd). destruct (zs_entry pr ps tgs dss g N (Inc g I) Fd) as (dp & Edp & Eg). destruct (mapM_perm _ _ _ _ Pq Edp) as [ds Eds]. exists d, ds. split; [exact Ed|]. split; [exact Eds|].
    assert (Ks : map fst (ents d) = map fst d) by (unfold ents; rewrite map_map; reflexivity).
    assert (Kk : map fst (ents (map (priored pr (g_id g)) ds)) = map full_type qs) by (unfold ents; rewrite map_map; cbn [fst]; rewrite <- (scans_keys slv trans g qs ds Eds); apply prior_keys).
    apply keyed_eq.
    - rewrite Ks, Kd, K0, Kk, <- by_type_fst. now rewrite Eq.
    - rewrite Ks, Kd, K0, <- by_type_fst, Eq. exact Ntq.
    - intros ft v Iv. unfold ents in Iv. apply in_map_iff in Iv as ([ft' s'] & Ev & Is). cbn [fst snd] in Ev. assert (ft' = ft /\ ent s' = v) as [-> <-] by (split; congruence).
      destruct (Vd ft s' Is) as (s & s0 & Es & _ & ->). rewrite (prior_entry_ok f32 zs (g_id g) ft s K Es). unfold entry in Es. rewrite Ezs, Eg in Es. destruct (sget _ ft) as [s2|] eqn:Eget; [|discriminate]. assert (s2 = s) by congruence. subst s2.
      apply sget_some_in in Eget. apply in_map_iff in Eget as (x & Ex & Ix). apply in_map_iff. exists (ft, s). split; [reflexivity|]. rewrite <- Ex. apply in_map. now apply (mapM_perm_in _ _ _ _ _ Pq Edp Eds). }
  assert (Ml : list_max_nat (map nbasis ps') = list_max_nat (map nbasis qs)) by (apply list_max_perm, Permutation_map; transitivity ps; [now apply Permutation_sym|exact Pq]).
  assert (Pp : Permutation ps' qs) by (transitivity ps; [now apply Permutation_sym|exact Pq]).
  intro tab'. split; intros [z H].
  - apply zfind_ok in H as (tds' & z0 & bss & Et' & -> & -> & F & T); [|exact N']. cbn [add_prior] in F.
    destruct (mapM_perm _ _ _ _ Pp Et') as [tq Etq].
    assert (X : exists dq, Forall2 (fun g ds => mapM (one_scan g) qs = Ok ds) tgs' dq). { clear -D. induction tgs' as [|g l IH]; [exists []; constructor|]. destruct IH as [m Hm]; [intros; apply D; now right|]. destruct (D g (or_introl eq_refl)) as (d & ds & _ & E & _). exists (ds :: m). now constructor. }
    destruct X as [dq Fq]. exists (add_prior pr (combine (map g_id tgs') dq)). apply zfind_scan; [assumption..|]. exists tq, dq, bss. split; [exact Etq|]. split; [exact Fq|]. split; [reflexivity|]. rewrite <- Ml. split; [|exact T].
    eapply Forall2_in_impl; [|exact F]. intros g bs I (d & d' & E1 & E2 & E3). destruct (D g I) as (dd & ds & E4 & E5 & E6). destruct (zs_entry pr qs tgs' dq g N' I Fq) as (ds' & E7 & E8). assert (ds' = ds) by congruence. subst ds'. assert (dd = d) by congruence. subst dd.
    exists (map (priored pr (g_id g)) ds), d'. split; [exact E8|]. split; [|exact E3]. rewrite <- E6, Bq. exact E2.
  - apply zfind_scan in H as (tq & dq & bss & Etq & Fq & -> & F & T); [|assumption..]. destruct (mapM_perm _ _ _ _ (Permutation_sym Pp) Etq) as [tds' Et']. exists zs'. apply zfind_ok; [exact N'|]. exists tds', zs', bss. split; [exact Et'|]. split; [reflexivity|]. split; [reflexivity|]. rewrite Ml. split; [|exact T].
    eapply Forall2_in_impl; [|exact F]. intros g bs I (d & d' & E1 & E2 & E3). destruct (D g I) as (dd & ds & E4 & E5 & E6). destruct (zs_entry pr qs tgs' dq g N' I Fq) as (ds' & E7 & E8). assert (ds' = ds) by congruence. subst ds'.
    exists dd, d'. split; [exact E4|]. split; [|exact E3]. rewrite E6, <- Bq. assert (d = map (priored pr (g_id g)) ds) by congruence. now subst d.
Qed.

(* ---------- without options ---------- *)
Lemma ents_app a b : ents (a ++ b) = ents a ++ ents b. Proof. unfold ents. apply map_app. Qed.
Lemma tscan_rows g l : forall d, NoDup (map fst d ++ map (fun pt => full_type (fst pt)) l) -> foldM (tscan slv g) (ents d) l = do rows <- mapM (srow slv g) l; Ok (ents (d ++ rows)).
Proof.
  induction l as [|pt l IH]; intros d N; cbn [foldM mapM]; [cbn [rbind]; now rewrite app_nil_r|]. unfold tscan at 1, srow at 1, scan_of. destruct (zchi2_target _ _ _ _ (data_of g)) as [row|]; cbn [rbind]; [|reflexivity].
  cbn [map] in N. assert (Ni : ~ In (full_type (fst pt)) (map fst d)). { intro I. apply NoDup_remove_2 in N. apply N. apply in_app_iff. now left. }
  assert (E : sset (ents d) (full_type (fst pt)) {| e_zchi2 := fst (fst row); e_penalty := snd row; e_fits := None |} = ents (d ++ [mkscan pt row])).
  { rewrite ents_app. apply sset_fresh. unfold keys, ents. rewrite map_map. exact Ni. }
  rewrite E, IH by (rewrite map_app, <- app_assoc; exact N). destruct (mapM (srow slv g) l) as [rows|]; cbn [rbind]; [|reflexivity]. now rewrite <- app_assoc.
Qed.
Lemma tscan_rows0 g l : NoDup (map (fun pt => full_type (fst pt)) l) -> foldM (tscan slv g) [] l = do rows <- mapM (srow slv g) l; Ok (ents rows).
Proof. exact (tscan_rows g l []). Qed.
Lemma zfind_run ps tgs tab : NoDup (map g_id tgs) -> NoDup (map full_type ps) -> ((exists zs, zfind None None ps tgs = Ok (zs, tab)) <-> run ps tgs = Ok tab).
Proof.
  intros N Nt. rewrite run_ok by exact N.
  assert (Nc : forall tds : list tdict, length tds = length ps -> NoDup (map (fun pt : tmpl * tdict => full_type (fst pt)) (combine ps tds))).
  { intros tds L. replace (map (fun pt : tmpl * tdict => full_type (fst pt)) (combine ps tds)) with (map full_type ps); [exact Nt|]. clear -L. revert tds L. induction ps as [|p ps IH]; intros [|t tds] L; cbn in *; try discriminate; [reflexivity|]. f_equal. apply IH. lia. }
  split.
  - intros [zs H]. apply zfind_ok in H as (tds & z0 & bss & Et & Ez & Ezs & F & T); [|exact N]. assert (L : length tds = length ps) by (apply mapM_Forall2 in Et; now apply Forall2_len in Et).
    exists tds, bss. split; [exact Et|]. split; [|exact T]. apply calc_scan_ok in Ez as (dss & Fd & ->); [|assumption..]. cbn [add_prior] in Ezs. subst zs.
    eapply Forall2_in_impl; [|exact F]. intros g bs I (d & d' & E1 & E2 & E3). unfold solo. rewrite (tscan_rows0 g (combine ps tds) (Nc tds L)).
    apply combine_inv in E1. destruct (in_target _ _ _ _ E1 _ Fd) as (g' & I' & Eg & Hg). assert (g' = g) by (eapply target_unique; eassumption). subst g'. rewrite Hg. cbn [rbind app]. rewrite E2. exact E3.
  - intros (tds & bss & Et & F & T). assert (L : length tds = length ps) by (apply mapM_Forall2 in Et; now apply Forall2_len in Et).
    assert (X : exists dss, Forall2 (fun g ds => mapM (srow slv g) (combine ps tds) = Ok ds) tgs dss). { clear -F Nc L. induction F as [|g bs l m H F IH]; [exists []; constructor|]. destruct IH as [dss Hd]. unfold solo in H. rewrite (tscan_rows0 g (combine ps tds) (Nc tds L)) in H. destruct (mapM (srow slv g) (combine ps tds)) as [ds|] eqn:E; [|discriminate]. exists (ds :: dss). now constructor. }
    destruct X as [dss Fd]. exists (combine (map g_id tgs) dss). apply zfind_ok; [exact N|]. exists tds, (combine (map g_id tgs) dss), bss. split; [exact Et|]. split; [apply calc_scan_ok; [assumption..|]; now exists dss|]. split; [reflexivity|]. split; [|exact T].
    eapply Forall2_in_impl; [|exact F]. intros g bs I H. destruct (Forall2_in_l _ _ _ Fd g I) as (ds & _ & Hd). unfold solo in H. rewrite (tscan_rows0 g (combine ps tds) (Nc tds L)), Hd in H. cbn [rbind app] in H. destruct (foldM _ (ents ds) (by_type ps)) as [d'|] eqn:Ef; cbn [rbind] in H; [|discriminate].
    exists ds, d'. split; [|now split]. apply combine_get; [exact N|]. clear -Fd I Hd N. induction Fd as [|a x l m E Fd IH]; [destruct I|]. cbn [map combine]. destruct I as [->|I]; [left; congruence|right]. inversion N; subst. now apply IH.
Qed.
End S.
