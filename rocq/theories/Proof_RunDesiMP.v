(* Proofs about rrdesi with worker processes. *)
From Verif Require Import Prelude PreludeFacts NumX Facts2 Model_Fitz Model_Rebin Model_Dist Spec_Dist Proof_Dist Proof_Dist2 Proof_Dist3 Props_Dist Model_MP Proof_MP Proof_MP2 Proof_Table Model_Zscan Proof_Zscan4 Model_Piece Model_IO Model_Zfind Model_Targets Spec_Targets Proof_Targets Proof_Targets3
  Model_Desi Spec_Desi Proof_Desi Proof_Desi2 Props_Desi Model_Run Spec_Run Proof_Run Model_RunMPI Proof_RunMPI3 Model_RunMP Spec_RunMP Proof_RunMP Proof_RunMP2 Props_RunMP Model_RunDesi Spec_RunDesi Proof_RunDesi Model_RunDesiMP.
Open Scope nat_scope.
Local Notation dget := Model_Dist.dget. Local Notation dset := Model_Dist.dset. Local Notation dict := Model_Dist.dict.

(* ---------- the processes ---------- *)
Section R.
Variables (slv : solvers) (argsort : list xq -> list nat) (polyfit : list Q -> list Q -> option (Q * Q * Q)) (isqrt : Q -> Q).
Variable trans : option string -> Q -> Q -> Q.
Variables (nminima nz nproc : nat).
Notation mp_scan := (mp_scan slv nproc). Notation mp_fit := (mp_fit slv argsort polyfit isqrt trans nminima nz nproc).
Definition local_as (ps : list tmpl) (tgs scanned : list targ) (ids : list Z) : res (list frow) :=
  do tds <- mapM (fun p => tdata trans p (grids tgs) (p_zs p)) ps;
  do r <- scan_all slv scanned (empty_scans tgs) (combine ps tds);
  do r <- fit_all slv argsort polyfit isqrt trans nminima nz tgs r ps;
  Model_RunMPI.table nminima ps ids r.
Lemma local_as_self ps tgs ids : local_as ps tgs tgs ids = run_local slv argsort polyfit isqrt trans nminima nz ps tgs ids. Proof. reflexivity. Qed.

Section T.
Variables (ts : list (tgt targ)) (ml : list (list Z)).
Hypothesis N : NoDup (map t_id ts).
Hypothesis Hid : Forall (fun t => t_id t = g_id (t_data t)) ts.
Hypothesis Eml : distribute_targets ts nproc = Ok ml.
Hypothesis P : Permutation (concat ml) (map t_id ts).
Lemma local_mp_as ps ids tab : ts <> [] ->
  (local_mp slv argsort polyfit isqrt trans nminima nz nproc ps ts ids tab <-> local_as ps (map t_data ts) (scanned ts ml) ids = Ok tab).
Proof.
  intro Hne. assert (Km : map g_id (map t_data ts) = map t_id ts) by (rewrite map_map; apply map_ext_in; intros t Ht; symmetry; exact (proj1 (Forall_forall _ _) Hid t Ht)).
  pose proof (scanned_ids ts ml Hid) as Sid.
  assert (Ke : map fst (empty_scans (map t_data ts)) = map t_id ts). { rewrite empty_enc by (rewrite Km; exact N). unfold enc. rewrite !map_map. rewrite <- Km, map_map. reflexivity. }
  assert (ES : forall l r1, each (mp_scan ts) (empty_scans (map t_data ts)) l r1 <-> scan_all slv (scanned ts ml) (empty_scans (map t_data ts)) l = Ok r1).
  { intros l r1. rewrite scan_all_foldM. apply (each_foldM _ (fun r pt => scan_template slv (scanned ts ml) r (fst pt) (snd pt)) (map t_id ts)); [| |exact Ke].
    - intros r b r' K. rewrite scan_serial by (rewrite Sid; assumption). now apply scan_mp.
    - intros r b r' K H. apply scan_serial in H; [|rewrite Sid; assumption|rewrite Sid; assumption]. destruct H as [K' _]. congruence. }
  assert (EF : forall l r r1, map fst r = map t_id ts -> (each (mp_fit ts) r l r1 <-> foldM (fit_template slv argsort polyfit isqrt trans nminima nz (map t_data ts)) r l = Ok r1)).
  { intros l r r1 K0. apply (each_foldM _ _ (map t_id ts)); [| |exact K0].
    - intros a b a' K. rewrite fit_serial by (rewrite Km; assumption). now apply (fit_mp slv argsort polyfit isqrt trans nminima nz nproc ts ml).
    - intros a b a' K H. apply fit_serial in H; [|rewrite Km; assumption|rewrite Km; assumption]. destruct H as [K' _]. congruence. }
  assert (K1 : forall l r1, scan_all slv (scanned ts ml) (empty_scans (map t_data ts)) l = Ok r1 -> map fst r1 = map t_id ts).
  { intros l r1. rewrite scan_all_foldM. revert Ke. generalize (empty_scans (map t_data ts)) as r. induction l as [|b l IH]; intros r Kr H; cbn [foldM] in H; [congruence|]. destruct (scan_template _ _ r (fst b) (snd b)) as [a|] eqn:E; cbn [rbind] in H; [|discriminate].
    apply (IH a); [|exact H]. apply scan_serial in E; [|rewrite Sid; assumption|rewrite Sid; assumption]. destruct E as [K' _]. congruence. }
  unfold local_mp, local_as. split.
  - intros (tds & r1 & r2 & E1 & E2 & E3 & E4). rewrite E1. cbn [rbind]. apply ES in E2. rewrite E2. cbn [rbind]. apply EF in E3; [|eapply K1; exact E2]. unfold fit_all. rewrite fold_foldM, E3. cbn [rbind]. exact E4.
  - destruct (mapM _ ps) as [tds|] eqn:E1; cbn [rbind]; [|discriminate]. destruct (scan_all _ _ _ _) as [r1|] eqn:E2; cbn [rbind]; [|discriminate]. unfold fit_all. rewrite fold_foldM. destruct (foldM _ r1 _) as [r2|] eqn:E3; cbn [rbind]; [|discriminate].
    intro E4. exists tds, r1, r2. split; [reflexivity|]. split; [now apply ES|]. split; [apply EF; [eapply K1; exact E2|exact E3]|exact E4].
Qed.
End T.

Lemma as_tgt_data tgs : map t_data (map as_tgt tgs) = tgs.
Proof. rewrite map_map. cbn [t_data as_tgt]. apply map_id. Qed.
Lemma as_tgt_ids tgs : map t_id (map as_tgt tgs) = map g_id tgs.
Proof. now rewrite map_map. Qed.
Lemma local_mp_sorted ps tgs ids tab : 0 < nproc -> tgs <> [] -> NoDup (map g_id tgs) -> StronglySorted (fun a b => length (g_spectra b) <= length (g_spectra a)) tgs ->
  (local_mp slv argsort polyfit isqrt trans nminima nz nproc ps (map as_tgt tgs) ids tab <-> run_local slv argsort polyfit isqrt trans nminima nz ps tgs ids = Ok tab).
Proof.
  intros Hn Hne Nd So. set (ts := map as_tgt tgs).
  assert (Nt : NoDup (map t_id ts)) by (unfold ts; now rewrite as_tgt_ids).
  assert (Hid : Forall (fun t => t_id t = g_id (t_data t)) ts) by (unfold ts; apply Forall_forall; intros t Ht; apply in_map_iff in Ht as (g & <- & _); reflexivity).
  assert (So' : StronglySorted (fun a b => t_nspec b <= t_nspec a) ts).
  { unfold ts. clear -So. induction So as [|a l S1 IH F]; cbn [map]; constructor; [exact IH|]. apply Forall_forall. intros t Ht. apply in_map_iff in Ht as (g & <- & Hg). rewrite Forall_forall in F. exact (F g Hg). }
  destruct (greedy_local ts nproc Hn Nt So') as (ml & E & P & K).
  rewrite (local_mp_as ts ml Nt Hid E P ps ids tab) by (unfold ts; now destruct tgs).
  assert (Sc : scanned ts ml = map t_data ts).
  { unfold scanned. apply map_ext_in. intros t Ht. unfold source, pairs. rewrite K at 1. rewrite (fit_pairs ts ml Nt P t Ht). destruct (t_data t); reflexivity. }
  rewrite Sc. unfold ts. rewrite as_tgt_data, local_as_self. reflexivity.
Qed.
End R.

(* ---------- the numbers of spectra ---------- *)
Lemma full_rows_length {R} (f : sfile R) b : table_ok f -> In b (sf_bands f) -> length (full_rows f b) = length (sf_ids f).
Proof. intros T Hb. destruct (T b Hb) as (H1 & H2 & H3 & _). unfold full_rows. rewrite map_length, !combine_length, seq_length, H1, H2, H3. lia. Qed.
Lemma rows_count {X} (ids : list Z) t (data : list X) : length data = length ids -> length (Spec_Desi.rows_of ids t data) = count_occ Z.eq_dec ids t.
Proof.
  unfold Spec_Desi.rows_of. rewrite map_length. revert data. induction ids as [|a ids IH]; intros [|x data] L; try discriminate; [reflexivity|]. cbn [combine filter count_occ fst]. cbn in L.
  destruct (Z.eqb_spec a t), (Z.eq_dec a t); try contradiction; cbn [length]; rewrite IH by lia; reflexivity.
Qed.
Lemma target_rows_length {R} (fs : list (sfile R)) t : (forall f, In f fs -> table_ok f) ->
  length (target_rows fs t) = list_sum (map (fun f => length (sf_bands f) * count_occ Z.eq_dec (sf_ids f) t) (filter (fun f => zmem t (sf_keep f)) fs)).
Proof.
  intro T. unfold target_rows. induction fs as [|f fs IH]; [reflexivity|]. cbn [filter]. destruct (zmem t (sf_keep f)); [|apply IH; intros; apply T; now right].
  cbn [map concat list_sum fold_right]. rewrite app_length, IH by (intros; apply T; now right). change (fold_right Nat.add 0) with list_sum. f_equal.
  assert (G : forall l, incl l (sf_bands f) -> length (concat (map (fun b => Spec_Desi.rows_of (sf_ids f) t (full_rows f b)) l)) = length l * count_occ Z.eq_dec (sf_ids f) t).
  { induction l as [|b l IHl]; intro I; [reflexivity|]. cbn [map concat length]. rewrite app_length, IHl by (intros x Hx; apply I; now right). rewrite rows_count; [cbn; reflexivity|]. apply full_rows_length; [apply T; now left|apply I; now left]. }
  apply G, incl_refl.
Qed.
Lemma list_sum_scale {A} n (g h : A -> nat) l : (forall x, In x l -> g x = n * h x) -> list_sum (map g l) = n * list_sum (map h l).
Proof. induction l as [|a l IH]; intro H; [cbn; lia|]. cbn [map list_sum fold_right]. rewrite (H a (or_introl eq_refl)). change (fold_right Nat.add 0) with list_sum. rewrite IH by (intros; apply H; now right). lia. Qed.
Lemma rows_weight {R} (fs : list (sfile R)) t n : (forall f, In f fs -> table_ok f) -> (forall f, In f fs -> length (sf_bands f) = n) -> length (target_rows fs t) = n * target_weight fs t.
Proof.
  intros T B. rewrite (target_rows_length fs t T), C68_weights. apply list_sum_scale. intros f Hf. apply filter_In in Hf as [Hf _]. now rewrite (B f Hf).
Qed.
(* one process gets everything, the heaviest first *)
Lemma greedy_one wt items d : greedy wt [1%Q] items d -> d = [items].
Proof.
  induction 1 as [|items d x i d' G IH Hi _ L E O]; [reflexivity|]. subst d. cbn in Hi, L. assert (i = 0) by lia. subst i. destruct d' as [|a [|]]; cbn in L; try discriminate. cbn [nth] in E. now subst.
Qed.
Lemma my_sorted o fs my wt : my_targets o fs = Ok my -> o_allspec o = true -> (forall t, wt t = target_weight fs t) -> StronglySorted (fun a b => wt b <= wt a) my.
Proof.
  unfold my_targets. intros H A W. rewrite A in H.
  destruct (C17_heaviest_first_greedy 1 (all_ids fs) (Some (fun t => Some (inject_Z (Z.of_nat (target_weight fs t))))) None (fun t => inject_Z (Z.of_nat (target_weight fs t)))) as (dist & items & E & _ & So & _ & G); [reflexivity|lia|reflexivity|repeat constructor|].
  rewrite E in H. cbn [rbind] in H. apply greedy_one in G. subst dist. cbn [nth] in H. assert (items = my) by congruence. subst items. clear -So W.
  induction So as [|a l _ IH F]; constructor; [exact IH|]. rewrite Forall_forall in *. intros b Hb. specialize (F b Hb). cbv beta in F. rewrite <- Zle_Qle in F. rewrite !W. lia.
Qed.
Section P.
Variables (hashf : hash_arg -> Z) (tocsr : dia -> csr).
(* what the process reads, in its order *)
Lemma read_order o fs tgs : in_order fs -> Model_RunDesi.read_targets hashf tocsr o fs = Ok tgs ->
  exists my, my_targets o fs = Ok my /\ map g_id tgs = my /\ forall g, In g tgs -> reads hashf tocsr o fs g.
Proof.
  intros (T & (mk & M) & _) H. unfold Model_RunDesi.read_targets in H. destruct (my_ok o fs) as (my & E & P). rewrite E in H. cbn [rbind] in H.
  destruct (C66_target_rows (Build_dia [] [] 0) (o_negflux o) fs my mk T M) as (out & E2 & F). rewrite E2 in H. cbn [rbind] in H.
  pose proof (mapM_F2 _ _ _ _ _ F H) as G. cbv beta in G. exists my. split; [exact E|]. split.
  - clear -G. induction G as [|t g l l' (p & [Hp _] & Hg) _ IH]; [reflexivity|]. cbn [map]. rewrite IH. f_equal. now rewrite (prepare_id _ _ _ _ _ _ Hg).
  - intros g Hg. clear -G Hg. induction G as [|t g' l l' (p & [Hp Hr] & Hg') _ IH]; [destruct Hg|]. destruct Hg as [->|Hg]; [|now apply IH]. exists (t_slots (snd p)). pose proof (prepare_id _ _ _ _ _ _ Hg') as Ei. rewrite Ei, Hp. split; [exact Hr|]. rewrite Hp in Hg'. exact Hg'.
Qed.
(* --allspec: one spectrum for each row *)
Lemma nspec_all o fs g : o_allspec o = true -> reads hashf tocsr o fs g -> length (g_spectra g) = length (target_rows fs (g_id g)).
Proof.
  intros A (sl & F & P). rewrite <- (Forall2_len _ _ _ F). unfold prepare in P. destruct (mapM (spec_of o) sl) as [l1|] eqn:E1; cbn [rbind] in P; [|discriminate]. rewrite A in P. cbn [rbind] in P. destruct (mapM (seen tocsr o) l1) as [l3|] eqn:E3; cbn [rbind] in P; [|discriminate].
  injection P as <-. cbn [g_spectra]. apply mapM_Forall2 in E1. apply mapM_Forall2 in E3. rewrite <- (Forall2_len _ _ _ E3). symmetry. exact (Forall2_len _ _ _ E1).
Qed.
(* coadds: one for each band *)
Lemma nspec_coadd o fs g : o_allspec o = false -> reads hashf tocsr o fs g ->
  exists ks, NoDup ks /\ length (g_spectra g) = length ks /\ forall k, In k ks <-> exists r, In r (target_rows fs (g_id g)) /\ k = KBand (r_band r).
Proof.
  intros A (sl & F & P). unfold prepare in P. destruct (mapM (spec_of o) sl) as [l1|] eqn:E1; cbn [rbind] in P; [|discriminate]. rewrite A in P. destruct (compute_coadd hashf true (o_cosmics o) l1) as [l2|] eqn:E2; cbn [rbind] in P; [|discriminate]. destruct (mapM (seen tocsr o) l2) as [l3|] eqn:E3; cbn [rbind] in P; [|discriminate].
  injection P as <-. cbn [g_spectra]. unfold compute_coadd in E2. apply mapM_Forall2 in E1. apply mapM_Forall2 in E2. apply mapM_Forall2 in E3. exists (first_seen (map sp_hash l1)).
  destruct (first_seen_ok (map sp_hash l1)) as (N1 & N2 & _). split; [exact N1|]. split; [rewrite <- (Forall2_len _ _ _ E3); symmetry; exact (Forall2_len _ _ _ E2)|].
  assert (G : forall s sp, spec_of o s = Ok sp -> sp_hash sp = KBand (s_band s)) by (intros s sp; unfold spec_of; destruct (Model_Desi.s_flux s), (Model_Desi.s_ivar s), (s_res s); try discriminate; intro H; injection H as <-; reflexivity).
  intro k. rewrite N2, in_map_iff. cbn [g_id] in *. split.
  - intros (sp & <- & I). destruct (Forall2_in_r _ _ _ _ E1 I) as (s & Is & Es). destruct (F2_left _ _ _ F s Is) as (r & Ir & (_ & B & _)). exists r. split; [exact Ir|]. rewrite (G _ _ Es). congruence.
  - intros (r & Ir & ->). destruct (Forall2_in_r _ _ _ _ F Ir) as (s & Is & (_ & B & _)). destruct (F2_left _ _ _ E1 s Is) as (sp & Isp & Es). exists sp. split; [|exact Isp]. rewrite (G _ _ Es). congruence.
Qed.
End P.
