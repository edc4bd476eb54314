(* A scan that is used again, and priors: C146-C148. *)
From Verif Require Import Prelude PreludeFacts NumX Facts2 Model_Fitz Spec_Fitz Props_Fitz Model_Rebin Model_Dist Proof_Dist3 Proof_Table Model_MPI Props_Par Model_Zscan Spec_Zscan Proof_Zscan2 Proof_Zscan3 Proof_Zscan4 Props_Zscan2 Props_GPU
  Model_Piece Model_IO Proof_IO2 Model_Zfind Proof_Zfind Model_Run Spec_Run Proof_Run Proof_Run2 Proof_Run3 Proof_Run6 Proof_RunMPI2 Props_Run Model_Reuse Spec_Reuse Proof_Reuse Proof_Rank Proof_Reuse2 Proof_Reuse3.
Open Scope nat_scope.
Local Notation dget := Model_Dist.dget.
Local Notation dset := Model_Dist.dset.
Local Notation dupdate := Model_Dist.dupdate.
Local Notation dict := Model_Dist.dict.
Local Notation entry := Model_IO.entry.

(* ---------- the dictionaries of the ranks ---------- *)
Lemma dset_same_keys {V} (d : dict V) k v : dget d k <> None -> map fst (dset d k v) = map fst d.
Proof. induction d as [|[a x] d IH]; cbn [Model_Dist.dget Model_Dist.dset]; [congruence|]. destruct (Z.eqb_spec a k) as [->|_]; intro H; [reflexivity|]. cbn [map fst]. now rewrite IH. Qed.
Lemma last_wins {V} (ress : list (dict V)) (d0 last : dict V) k v : NoDup (map fst last) -> dget last k = Some v -> dget (fold_left dupdate (ress ++ [last]) d0) k = Some v.
Proof. intros N H. rewrite fold_left_app. cbn [fold_left]. rewrite dupdate_get by exact N. now rewrite H. Qed.
Lemma as_scans_keys zs : map fst (as_scans zs) = map fst zs. Proof. unfold as_scans. rewrite map_map. reflexivity. Qed.
Lemma add_prior_keys pr zs : map fst (add_prior pr zs) = map fst zs. Proof. destruct pr; cbn [add_prior]; [|reflexivity]. now rewrite map_map. Qed.
Lemma same_as zs zs' : same_chi2 zs zs' -> as_scans zs = as_scans zs'.
Proof.
  intro F. unfold as_scans. induction F as [|[k d] [k' d'] zs zs' [E F'] F IH]; [reflexivity|]. cbn [map fst snd] in *. rewrite IH. f_equal. f_equal; [exact E|]. clear -F'. unfold ents. induction F' as [|x y l m (A & B & C) F IH]; [reflexivity|]. cbn [map]. rewrite IH. f_equal. unfold ent. now rewrite A, B, C.
Qed.

Section Props.
Variables (slv : solvers) (argsort : list xq -> list nat) (polyfit : list Q -> list Q -> option (Q * Q * Q)) (isqrt : Q -> Q).
Variable trans : option string -> Q -> Q -> Q.
Variables (nminima nz : nat).
Notation run := (run slv argsort polyfit isqrt trans nminima nz).
Notation zfind := (zfind slv argsort polyfit isqrt trans nminima nz).
Notation fit_all := (fit_all slv argsort polyfit isqrt trans nminima nz).
Notation fit_one := (fit_one slv argsort polyfit isqrt trans nminima nz).
Notation tfit := (tfit slv argsort polyfit isqrt trans nminima nz).
Notation ranks_reuse := (ranks_reuse slv argsort polyfit isqrt trans nminima nz).
Notation table_at := (table_at nminima).

(* ---------------- C146: a scan used again ---------------- *)
(* without the two options zfind is the run of C138-C145 *)
Theorem C146_no_options : forall ps tgs tab, NoDup (map g_id tgs) -> NoDup (map full_type ps) -> ((exists zs, zfind None None ps tgs = Ok (zs, tab)) <-> run ps tgs = Ok tab).
Proof. intros. now apply zfind_run. Qed.
(* A run with prior pr writes its scan; any selection tgs' of its targets, in any order, with its templates in any order ps',
   started from that file, has the table of the run that scans again with the templates in the order of their names *)
Theorem C146_reuse_partial : forall P f32 (cast : P -> P) pr ps qs ps' tgs tgs' zs tab zfit h,
  NoDup (map g_id tgs) -> NoDup (map full_type ps) -> hashes_tell_grids tgs -> zfind None pr ps tgs = Ok (zs, tab) -> kept_exactly f32 zs -> write_zscan f32 cast zs zfit = Ok h ->
  Permutation ps qs -> alphabetical qs -> Permutation ps ps' -> NoDup (map g_id tgs') -> incl tgs' tgs ->
  (forall g, In g tgs' -> exists r, In r zfit /\ Model_IO.f_tid r = g_id g /\ Model_IO.f_znum r = 0%Z) ->
  exists zs', read_zscan_redrock h = Ok zs' /\ forall tab', (exists z, zfind (Some zs') None ps' tgs' = Ok (z, tab')) <-> (exists z, zfind None pr qs tgs' = Ok (z, tab')).
Proof.
  intros P f32 cast pr ps qs ps' tgs tgs' zs tab zfit h N Nt C Z K W Pq Sq P' N' Inc Hz. apply (reuse_same slv argsort polyfit isqrt trans nminima nz f32 cast pr ps qs ps' tgs tgs' zs tab zfit h); try assumption.
  intros g I. destruct (Hz g I) as (r & Ir & Et & En). destruct (file_scan f32 cast zs zfit h W) as (_ & _ & _ & _ & _ & _ & _ & _ & E & _). rewrite E. apply in_map_iff. exists (cast_row cast r). split; [exact Et|]. apply filter_In. split; [now apply in_map|]. cbn [Model_IO.f_znum cast_row]. now rewrite En.
Qed.
(* with the templates in the order of their names from the beginning: the same table *)
Theorem C146_same_table_partial : forall P f32 (cast : P -> P) pr ps tgs zs tab zfit h,
  NoDup (map g_id tgs) -> NoDup (map full_type ps) -> hashes_tell_grids tgs -> zfind None pr ps tgs = Ok (zs, tab) -> kept_exactly f32 zs -> write_zscan f32 cast zs zfit = Ok h -> alphabetical ps ->
  (forall g, In g tgs -> exists r, In r zfit /\ Model_IO.f_tid r = g_id g /\ Model_IO.f_znum r = 0%Z) ->
  exists zs' z, read_zscan_redrock h = Ok zs' /\ zfind (Some zs') None ps tgs = Ok (z, tab).
Proof.
  intros P f32 cast pr ps tgs zs tab zfit h N Nt C Z K W Sq Hz. destruct (C146_reuse_partial P f32 cast pr ps ps ps tgs tgs zs tab zfit h) as (zs' & R & H); auto; try apply Permutation_refl; try apply incl_refl.
  destruct (proj2 (H tab)) as [z E]; [now exists zs|]. now exists zs', z.
Qed.
(* in another order, without ties between fits of different templates: the same rows *)
Theorem C146_same_rows_partial : forall P f32 (cast : P -> P) ps ps' tgs zs tab zfit h, argsort_ok argsort ->
  NoDup (map g_id tgs) -> NoDup (map full_type ps) -> hashes_tell_grids tgs -> (forall p, In p ps -> full_type p <> "meta"%string) -> zfind None None ps tgs = Ok (zs, tab) -> kept_exactly f32 zs -> write_zscan f32 cast zs zfit = Ok h -> Permutation ps ps' ->
  (forall g, In g tgs -> exists r, In r zfit /\ Model_IO.f_tid r = g_id g /\ Model_IO.f_znum r = 0%Z) ->
  (forall g p p' t t' o o', In g tgs -> In p ps -> In p' ps -> full_type p <> full_type p' -> run [p] [g] = Ok t -> run [p'] [g] = Ok t' -> In o t -> In o' t' -> ~ ties o o') ->
  exists zs' z tab', read_zscan_redrock h = Ok zs' /\ zfind (Some zs') None ps' tgs = Ok (z, tab') /\ Forall2 same_row tab tab'.
Proof.
  intros P f32 cast ps ps' tgs zs tab zfit h A N Nt C M Z K W P' Hz T. set (qs := by_type ps).
  assert (Pq : Permutation ps qs) by apply Permutation_sym, by_type_perm. assert (Ntq : NoDup (map full_type qs)) by (eapply Permutation_NoDup; [apply Permutation_map; exact Pq|exact Nt]).
  destruct (C146_reuse_partial P f32 cast None ps qs ps' tgs tgs zs tab zfit h) as (zs' & R & H); auto; try apply incl_refl; [apply by_type_sorted|].
  assert (E : run ps tgs = Ok tab) by (apply zfind_run; [assumption..|now exists zs]).
  destruct (C140_template_order_partial slv argsort polyfit isqrt trans nminima nz ps qs tgs tab A N C Nt M Pq E T) as (tab' & E' & F). apply zfind_run in E' as [z' E']; [|assumption..].
  destruct (proj2 (H tab')) as [z Ez]; [now exists z'|]. now exists zs', z, tab'.
Qed.
(* the redshifts in the file are not compared with those of the templates, nor are its coefficients looked at *)
Theorem C146_grid_not_checked_refuted : forall zs zs' ps tgs tab, same_chi2 zs zs' -> ((exists z, zfind (Some zs) None ps tgs = Ok (z, tab)) <-> (exists z, zfind (Some zs') None ps tgs = Ok (z, tab))).
Proof.
  intros zs zs' ps tgs tab S. unfold Model_Reuse.zfind. destruct (mapM _ ps) as [tds|]; cbn [rbind]; [|split; intros [z H]; discriminate]. cbn [add_prior]. rewrite (same_as _ _ S).
  destruct (fit_all tgs _ ps) as [r|]; cbn [rbind]; [|split; intros [z H]; discriminate]. destruct (table_at ps _ r) as [t|]; cbn [rbind]; [|split; intros [z H]; discriminate].
  split; intros [z H]; [exists zs'|exists zs]; congruence.
Qed.
(* the file must hold every target and exactly the templates of the run *)
Theorem C146_same_templates : forall zs pr ps tgs z tab g, NoDup (map g_id tgs) -> zfind (Some zs) pr ps tgs = Ok (z, tab) -> In g tgs ->
  exists d, dget zs (g_id g) = Some d /\ (forall p, In p ps -> In (full_type p) (map fst d)) /\ (forall ft, In ft (map fst d) -> ft = "meta"%string \/ In ft (map full_type ps)).
Proof.
  intros zs pr ps tgs z tab g N H I. apply zfind_ok in H as (tds & z0 & bss & _ & -> & -> & F & _); [|exact N].
  destruct (Forall2_in_l _ _ _ F g I) as (bs & _ & d1 & d' & E1 & E2 & E3). rewrite prior_get in E1. destruct (dget zs (g_id g)) as [d|]; [|discriminate]. cbn [option_map] in E1. exists d. split; [reflexivity|].
  assert (K1 : map fst d1 = map fst d) by (assert (d1 = map (priored pr (g_id g)) d) by congruence; subst d1; apply prior_keys).
  destruct (fit_inv slv argsort polyfit isqrt trans nminima nz g (by_type ps) (ents d1) d' E2) as [Kd V]. assert (Ke : keys (ents d1) = map fst d) by (unfold keys, ents; rewrite map_map; exact K1).
  split.
  - intros p Ip. assert (Ib : In p (by_type ps)) by (eapply Permutation_in; [apply Permutation_sym, by_type_perm|exact Ip]).
    rewrite <- Ke. clear -E2 Ib. revert E2. generalize (ents d1) as e. induction (by_type ps) as [|q l IH]; intros e E2; [destruct Ib|]. cbn [foldM] in E2. destruct (tfit g e q) as [e1|] eqn:Eq; cbn [rbind] in E2; [|discriminate].
    unfold Proof_Run.tfit in Eq. destruct (sget e (full_type q)) as [x|] eqn:Eg; [|discriminate]. assert (Iq : In (full_type q) (keys e)) by (destruct (in_dec string_dec (full_type q) (keys e)) as [|Ni]; [assumption|]; rewrite (Proof_Zscan4.sget_none _ _ Ni) in Eg; discriminate).
    destruct Ib as [->|Ib]; [exact Iq|]. specialize (IH Ib _ E2). destruct (fit_target _ _ _ _ _ _ _ q g _) as [fs|]; cbn [rbind] in Eq; [|discriminate]. set (y := {| e_zchi2 := _; e_penalty := _; e_fits := _ |}) in Eq. assert (e1 = sset e (full_type q) y) by congruence. subst e1. rewrite keys_sset in IH. unfold addk in IH. destruct (in_dec string_dec (full_type q) (keys e)); [exact IH|contradiction].
  - intros ft If. destruct (string_dec ft "meta") as [|Nm]; [now left|right]. destruct (in_dec string_dec ft (map full_type ps)) as [|Ni]; [assumption|exfalso].
    specialize (V ft). rewrite pick_by_type in V. rewrite (proj2 (pick_none ft ps) Ni) in V. rewrite <- Ke in If.
    destruct (sget (ents d1) ft) as [e|] eqn:Es; [|apply Proof_IO2.sget_none in Es; contradiction].
    assert (En : e_fits e = None). { clear -Es. unfold ents in Es. induction d1 as [|[k s] d1 IH]; [discriminate|]. cbn [map fst snd sget] in Es. destruct (String.eqb k ft); [|auto]. assert (e = ent s) by congruence. subst e. reflexivity. }
    unfold blocks_of in E3. apply mapM_Forall2 in E3. assert (Il : In (ft, e) (filter (fun x => negb (String.eqb (fst x) "meta")) d')).
    { apply filter_In. split; [now apply Proof_IO2.sget_some_in|]. cbn [fst]. destruct (String.eqb_spec ft "meta"); [contradiction|reflexivity]. }
    destruct (Forall2_in_l _ _ _ E3 _ Il) as (b & _ & Hb). cbn [fst snd] in Hb. unfold block_of in Hb. rewrite En in Hb. discriminate Hb.
Qed.
(* a target given twice: no table, with or without a file *)
Theorem C146_distinct_targets : forall file pr ps tgs z tab, zfind file pr ps tgs = Ok (z, tab) -> NoDup (map g_id tgs).
Proof.
  intros file pr ps tgs z tab H. unfold Model_Reuse.zfind in H. destruct (mapM _ ps) as [tds|]; cbn [rbind] in H; [|discriminate]. destruct (match file with None => _ | Some f => _ end) as [zs|]; cbn [rbind] in H; [|discriminate]. destruct (fit_all tgs _ ps) as [r|]; cbn [rbind] in H; [|discriminate].
  unfold Model_Reuse.table_at in H. destruct (results_at _ r) as [d|]; cbn [rbind] in H; [|discriminate]. unfold distinct_ids in H. destruct (list_eq_dec Z.eq_dec (nodup Z.eq_dec (map g_id tgs)) (map g_id tgs)) as [E|_]; [|discriminate]. rewrite <- E. apply NoDup_nodup.
Qed.

(* ---------------- C147: a scan used again, with MPI ---------------- *)
Lemma fold_keys p l : forall r r', foldM (fit_one p) r l = Ok r' -> map fst r' = map fst r.
Proof.
  induction l as [|g l IH]; intros r r' H; cbn [foldM] in H; [congruence|]. rewrite fit_one_eq in H. destruct (dget r (g_id g)) as [d|] eqn:Ed; [|discriminate]. destruct (tfit g d p) as [d'|]; cbn [rbind] in H; [|discriminate].
  rewrite (IH _ _ H). apply dset_same_keys. rewrite Ed. discriminate.
Qed.
Lemma fit_all_keys tgs r ps r' : fit_all tgs r ps = Ok r' -> map fst r' = map fst r.
Proof.
  rewrite fit_all_fold. generalize (by_type ps) as l. intro l. revert r. induction l as [|p l IH]; intros r H; cbn [foldM] in H; [congruence|]. destruct (foldM (fit_one p) r tgs) as [r1|] eqn:E; cbn [rbind] in H; [|discriminate]. rewrite (IH _ H). now apply (fold_keys p tgs).
Qed.
Lemma ress_last zs pr ps locals ress : ranks_reuse zs pr ps locals = Ok ress -> locals <> [] -> exists front lst, ress = front ++ [lst] /\ fit_all (last locals []) (as_scans (add_prior pr zs)) ps = Ok lst.
Proof.
  intros H NE. destruct (exists_last NE) as (lf & ll & ->). rewrite last_last. apply mapM_Forall2 in H. apply Forall2_app_inv_l in H as (front & l2 & _ & F & ->). inversion F as [|? lst ? ? Hl F0]; subst. inversion F0; subst. exists front, lst. now split.
Qed.
Lemma no_fits ft d : forall e, sget (ents d) ft = Some e -> e_fits e = None.
Proof. intros e H. unfold ents in H. induction d as [|[k s] d IH]; [discriminate|]. cbn [map fst snd sget] in H. destruct (String.eqb k ft); [|auto]. assert (e = ent s) by congruence. subst e. reflexivity. Qed.
(* what rank 0 has for a target of the file: what the last rank has *)
Lemma gathered zs pr ps locals ress maxb cap k s : NoDup (map fst zs) -> 0 < maxb -> locals <> [] -> ranks_reuse zs pr ps locals = Ok ress -> gsteps (length ress) cap k (gather_init maxb ress) s -> gather_finished (length ress) s ->
  exists lst, fit_all (last locals []) (as_scans (add_prior pr zs)) ps = Ok lst /\ forall t d, dget lst t = Some d -> dget (allresults (hd [] ress) s) t = Some d.
Proof.
  intros N M NE R G Fi. destruct (ress_last _ _ _ _ _ R NE) as (front & lst & E & El). exists lst. split; [exact El|]. intros t d Hd.
  assert (Nk : Forall (fun d : dict (list (string * Model_Run.entry)) => NoDup (map fst d)) ress). { apply mapM_Forall2 in R. apply Forall_forall. intros r Ir. destruct (Forall2_in_r _ _ _ r R Ir) as (l & _ & Hl). unfold rank_reuse in Hl. rewrite (fit_all_keys _ _ _ _ Hl), as_scans_keys, add_prior_keys. exact N. }
  assert (L1 : 1 <= length ress) by (rewrite E, app_length; cbn; lia).
  destruct (C14_gather_delivers _ maxb cap ress k s M L1 Nk G Fi) as (D & _ & _). 
  refine (eq_trans (f_equal (fun l => dget (fold_left dupdate l []) t) D) _). refine (eq_trans (f_equal (fun l => dget (fold_left dupdate l []) t) E) _). apply last_wins; [|exact Hd]. rewrite E in Nk. apply Forall_app in Nk as [_ Nk]. now inversion Nk.
Qed.
(* one target that is not with the last rank, and rank 0 finds no fit of it: KeyError, no table *)
Theorem C147_mpi_fails_refuted : forall zs pr ps locals ress ids g maxb cap k s tab,
  NoDup (map fst zs) -> NoDup (map g_id (concat locals)) -> 0 < maxb -> ps <> [] -> (forall p, In p ps -> full_type p <> "meta"%string) ->
  ranks_reuse zs pr ps locals = Ok ress -> gsteps (length ress) cap k (gather_init maxb ress) s -> gather_finished (length ress) s ->
  In g (concat locals) -> ~ In g (last locals []) -> In (g_id g) ids -> table_at ps ids (allresults (hd [] ress) s) <> Ok tab.
Proof.
  intros zs pr ps locals ress ids g maxb cap k s tab N Ng M NP Nm R G Fi I NI Ii T.
  assert (NE : locals <> []) by (intros ->; destruct I). destruct (gathered _ _ _ _ _ _ _ _ _ N M NE R G Fi) as (lst & El & Hall).
  assert (Nid : forall g', In g' (last locals []) -> g_id g' <> g_id g).
  { intros g' I' E. apply NI. destruct (exists_last NE) as (lf & ll & El'). rewrite El', last_last in I'. assert (Ic : In g' (concat locals)) by (rewrite El', concat_app; apply in_app_iff; right; cbn; now rewrite app_nil_r). rewrite El', last_last. now rewrite <- (target_unique _ g' g Ng Ic I E). }
  (* its entry in the file *)
  assert (Dz : exists p d, In p ps /\ dget (add_prior pr zs) (g_id g) = Some d /\ In (full_type p) (map fst d)).
  { apply in_concat in I as (l & Il & Ig). apply mapM_Forall2 in R. destruct (Forall2_in_l _ _ _ R l Il) as (r & _ & Hr). unfold rank_reuse in Hr. rewrite fit_all_fold in Hr.
    destruct (by_type ps) as [|p q] eqn:Eb; [exfalso; apply NP; apply Permutation_nil; rewrite <- Eb; apply by_type_perm|]. exists p.
    assert (Ip : In p ps) by (eapply Permutation_in; [apply by_type_perm|]; rewrite Eb; now left).
    cbn [foldM] in Hr. destruct (foldM (fit_one p) _ l) as [r1|] eqn:Ef; cbn [rbind] in Hr; [|discriminate].
    assert (Nl : NoDup (map g_id l)). { clear -Ng Il. induction locals as [|a ls IH]; [destruct Il|]. cbn [concat] in Ng. rewrite map_app in Ng. destruct Il as [->|Il]; [now apply NoDup_app_l in Ng|]. apply IH; [now apply NoDup_app_r in Ng|exact Il]. }
    destruct (fit_template_get _ _ _ _ _ _ _ p l _ _ Nl Ef) as [A _]. destruct (A g Ig) as (d & d' & E1 & E2 & _). rewrite as_scans_get in E1. destruct (dget (add_prior pr zs) (g_id g)) as [dz|]; [|discriminate]. cbn [option_map] in E1. assert (d = ents dz) by congruence. subst d.
    exists dz. split; [exact Ip|]. split; [reflexivity|]. unfold Proof_Run.tfit in E2. destruct (sget (ents dz) (full_type p)) as [e|] eqn:Es; [|discriminate]. apply Proof_IO2.sget_some_in in Es. apply (in_map fst) in Es. unfold ents in Es. rewrite map_map in Es. exact Es. }
  destruct Dz as (p & d & Ip & Ed & Ik).
  (* the last rank has not touched it *)
  assert (Nll : NoDup (map g_id (last locals []))). { destruct (exists_last NE) as (lf & ll & El'). rewrite El', last_last. rewrite El', concat_app, map_app in Ng. apply NoDup_app_r in Ng. cbn [concat] in Ng. now rewrite app_nil_r in Ng. }
  assert (Eg : dget lst (g_id g) = Some (ents d)). { rewrite fit_all_fold in El. destruct (fold_get _ _ _ _ _ _ _ (last locals []) Nll _ _ _ El) as [_ B]. rewrite B; [rewrite as_scans_get, Ed; reflexivity|]. intro X. apply in_map_iff in X as (g' & E & I'). now apply (Nid g' I'). }
  apply Hall in Eg. unfold Model_Reuse.table_at in T. destruct (results_at ids _) as [rs|] eqn:Er; cbn [rbind] in T; [|discriminate]. apply results_at_ok in Er as (bss & _ & F). destruct (Forall2_in_l _ _ _ F (g_id g) Ii) as (bs & _ & d' & Ed' & Eb).
  assert (d' = ents d) by congruence. subst d'. unfold blocks_of in Eb. apply mapM_Forall2 in Eb.
  assert (Ie : exists e, In (full_type p, e) (ents d) /\ e_fits e = None). { clear -Ik. apply in_map_iff in Ik as ((ft, sc) & E & Hs). cbn [fst] in E. subst ft. exists (ent sc). split; [|reflexivity]. unfold ents. apply in_map_iff. now exists (full_type p, sc). }
  destruct Ie as (e & Ie & En). assert (If : In (full_type p, e) (filter (fun x => negb (String.eqb (fst x) "meta")) (ents d))) by (apply filter_In; split; [exact Ie|]; cbn [fst]; destruct (String.eqb_spec (full_type p) "meta") as [C|_]; [exfalso; exact (Nm p Ip C)|reflexivity]).
  destruct (Forall2_in_l _ _ _ Eb _ If) as (b & _ & Hb). cbn [fst snd] in Hb. unfold block_of in Hb. rewrite En in Hb. discriminate Hb.
Qed.
(* all targets with the last rank (one rank, for instance): the table of one process *)
Theorem C147_last_rank_partial : forall zs pr ps locals ress maxb cap k s z tab,
  NoDup (map fst zs) -> 0 < maxb -> locals <> [] -> NoDup (map g_id (last locals [])) -> zfind (Some zs) pr ps (last locals []) = Ok (z, tab) ->
  ranks_reuse zs pr ps locals = Ok ress -> gsteps (length ress) cap k (gather_init maxb ress) s -> gather_finished (length ress) s ->
  table_at ps (map g_id (last locals [])) (allresults (hd [] ress) s) = Ok tab.
Proof.
  intros zs pr ps locals ress maxb cap k s z tab N M NE Nl Z R G Fi. destruct (gathered _ _ _ _ _ _ _ _ _ N M NE R G Fi) as (lst & El & Hall).
  unfold Model_Reuse.zfind in Z. destruct (mapM _ ps) as [tds|]; cbn [rbind] in Z; [|discriminate]. rewrite El in Z. cbn [rbind] in Z. destruct (table_at ps _ lst) as [tb|] eqn:Et; cbn [rbind] in Z; [|discriminate]. assert (tb = tab) by congruence. subst tb.
  unfold Model_Reuse.table_at in *. destruct (results_at _ lst) as [rs|] eqn:Er; cbn [rbind] in Et; [|discriminate]. apply results_at_ok in Er as (bss & Ers & F).
  assert (Er' : results_at (map g_id (last locals [])) (allresults (hd [] ress) s) = Ok rs). { apply results_at_ok. exists bss. split; [exact Ers|]. eapply Forall2_impl; [|exact F]. intros t bs (d & Ed & Eb). exists d. split; [now apply Hall|exact Eb]. }
  rewrite Er'. exact Et.
Qed.

(* ---------------- C148: a prior counts once ---------------- *)
(* the scan kept (and written) is that without prior, plus the prior at its redshifts *)
Theorem C148_in_the_file : forall f ps tgs zs0 zs tab0 tab t ft s, NoDup (map g_id tgs) -> zfind None None ps tgs = Ok (zs0, tab0) -> zfind None (Some f) ps tgs = Ok (zs, tab) -> entry zs t ft = Ok s ->
  exists s0, entry zs0 t ft = Ok s0 /\ sc_z s = sc_z s0 /\ sc_pen s = sc_pen s0 /\ sc_coeff s = sc_coeff s0 /\ sc_chi2 s = map2 Qplus (sc_chi2 s0) (f t (sc_z s0)).
Proof.
  intros f ps tgs zs0 zs tab0 tab t ft s N Z0 Z E. apply zfind_ok in Z0 as (tds & a & _ & Et & Ea & -> & _); [|exact N]. apply zfind_ok in Z as (tds' & b & _ & Et' & Eb & -> & _); [|exact N].
  assert (tds' = tds) by congruence. subst tds'. assert (b = a) by congruence. subst b. cbn [add_prior]. clear Et Et' Ea Eb.
  unfold Model_IO.entry in *. rewrite prior_get in E. destruct (dget a t) as [d|]; [|discriminate]. cbn [option_map] in E.
  induction d as [|[k sc] d IH]; [discriminate|]. cbn [map priored fst snd sget] in *. destruct (String.eqb k ft); [|exact (IH E)]. exists sc. split; [reflexivity|]. assert (H : s = {| sc_z := sc_z sc; sc_chi2 := map2 Qplus (sc_chi2 sc) (f t (sc_z sc)); sc_pen := sc_pen sc; sc_coeff := sc_coeff sc |}) by congruence. rewrite H. now repeat split.
Qed.
(* with the prior given again together with the file it counts twice *)
Theorem C148_twice_refuted : forall f ps tgs zs0 zs zs2 tab0 tab tab2 t ft s, NoDup (map g_id tgs) -> zfind None None ps tgs = Ok (zs0, tab0) -> zfind None (Some f) ps tgs = Ok (zs, tab) -> zfind (Some zs) (Some f) ps tgs = Ok (zs2, tab2) -> entry zs2 t ft = Ok s ->
  exists s0, entry zs0 t ft = Ok s0 /\ sc_chi2 s = map2 Qplus (map2 Qplus (sc_chi2 s0) (f t (sc_z s0))) (f t (sc_z s0)).
Proof.
  intros f ps tgs zs0 zs zs2 tab0 tab tab2 t ft s N Z0 Z Z2 E. apply zfind_ok in Z2 as (tds & a & _ & _ & -> & -> & _); [|exact N].
  assert (X : exists s1, entry zs t ft = Ok s1 /\ sc_chi2 s = map2 Qplus (sc_chi2 s1) (f t (sc_z s1))).
  { unfold Model_IO.entry in *. rewrite prior_get in E. destruct (dget zs t) as [d|]; [|discriminate]. cbn [option_map] in E. clear -E. induction d as [|[k sc] d IH]; [discriminate|]. cbn [map priored fst snd sget] in *. destruct (String.eqb k ft); [|exact (IH E)]. exists sc. split; [reflexivity|].
    assert (H : s = {| sc_z := sc_z sc; sc_chi2 := map2 Qplus (sc_chi2 sc) (f t (sc_z sc)); sc_pen := sc_pen sc; sc_coeff := sc_coeff sc |}) by congruence. now rewrite H. }
  destruct X as (s1 & E1 & Es). destruct (C148_in_the_file f ps tgs zs0 zs tab0 tab t ft s1 N Z0 Z E1) as (s0 & E0 & H1 & _ & _ & H2). exists s0. split; [exact E0|]. now rewrite Es, H1, H2.
Qed.
End Props.

(* ---------------- concrete runs ---------------- *)
Local Notation ez n := (zfind demo argsort0 lagrange3 (fun x => x) no_igm n 3).
Definition escan (n : nat) (pr : option (Z -> list Q -> list Q)) (ps : list tmpl) (tgs : list targ) : zscan_t := match ez n None pr ps tgs with Ok (zs, _) => zs | Err _ => [] end.
Definition efit (ids : list Z) : list (Model_IO.frow unit) := map (fun i => {| Model_IO.f_tid := i; Model_IO.f_znum := 0; Model_IO.f_type := ""; Model_IO.f_sub := ""; Model_IO.f_pay := tt |}) ids.
Definition is_ok {A} (r : res A) : bool := match r with Ok _ => true | Err _ => false end.
Lemma is_ok_ex {A} (r : res A) : is_ok r = true -> exists a, r = Ok a. Proof. destruct r as [a|]; [now exists a|discriminate]. Qed.
Definition redshifts_of (r : res (zscan_t * list frow)) : list Q := match r with Ok (_, t) => map (fun o => Qred (Model_Zfind.f_z o)) t | Err _ => [] end.
Definition why {A} (r : res A) : option exn := match r with Ok _ => None | Err e => Some e end.
Definition shifted (zs : zscan_t) : zscan_t := map (fun kd => (fst kd, map (fun x => (fst x, {| sc_z := map (Qplus 5) (sc_z (snd x)); sc_chi2 := sc_chi2 (snd x); sc_pen := sc_pen (snd x); sc_coeff := [] |})) (snd kd))) zs.
(* (the prior of priors.py 83-87 with one over the square of its width equal to k, at redshift 1) *)
Definition pri (k : Z) (_ : Z) (zs : list Q) : list Q := map (fun z => inject_Z k * (z - 1) * (z - 1))%Q zs.
Lemma ez_scan n pr ps tgs : is_ok (ez n None pr ps tgs) = true -> exists tab, ez n None pr ps tgs = Ok (escan n pr ps tgs, tab).
Proof. unfold escan. destruct (ez n None pr ps tgs) as [[zs tab]|]; [|discriminate]. intros _. now exists tab. Qed.
Lemma ok_two : is_ok (ez 2 None None [ga; st] [g1; g2]) = true. Proof. vm_compute. reflexivity. Qed.
Lemma ok_pri : is_ok (ez 1 None (Some (pri 4)) [ga] [g1]) = true. Proof. vm_compute. reflexivity. Qed.
Lemma ok_write : is_ok (write_zscan (fun x => x) (fun x => x) (escan 2 None [ga; st] [g1; g2]) (efit [7; 9]%Z)) = true. Proof. vm_compute. reflexivity. Qed.
Lemma err_more : why (ez 2 (Some (escan 2 None [ga; st] [g1; g2])) None [ga] [g1; g2]) = Some KeyError. Proof. vm_compute. reflexivity. Qed.
Lemma err_less : why (ez 2 (Some (escan 2 None [ga; st] [g1])) None [ga; st] [g1; g2]) = Some KeyError. Proof. vm_compute. reflexivity. Qed.
Lemma ok_shift : is_ok (ez 2 (Some (shifted (escan 2 None [ga; st] [g1; g2]))) None [ga; st] [g1; g2]) = true. Proof. vm_compute. reflexivity. Qed.
Lemma z_shift : match entry (shifted (escan 2 None [ga; st] [g1; g2])) 7 "GALAXY" with Ok s => sc_z s = [5; 11 # 2; 6]%Q | Err _ => False end. Proof. vm_compute. reflexivity. Qed.
Lemma ok_ranks : is_ok (ranks_reuse demo argsort0 lagrange3 (fun x => x) no_igm 2 3 (escan 2 None [ga; st] [g1; g2]) None [ga; st] [[g1]; [g2]]) = true. Proof. vm_compute. reflexivity. Qed.
Lemma ok_ranks1 : is_ok (ranks_reuse demo argsort0 lagrange3 (fun x => x) no_igm 2 3 (escan 2 None [ga; st] [g1; g2]) None [ga; st] [[]; [g1; g2]]) = true. Proof. vm_compute. reflexivity. Qed.
Lemma keys_two : map fst (escan 2 None [ga; st] [g1; g2]) = [7; 9]%Z. Proof. vm_compute. reflexivity. Qed.
Lemma once : redshifts_of (ez 1 None (Some (pri 4)) [ga] [g1]) = [243548779 # 450554102]%Q. Proof. vm_compute. reflexivity. Qed.
Lemma again : redshifts_of (ez 1 (Some (escan 1 (Some (pri 4)) [ga] [g1])) None [ga] [g1]) = [243548779 # 450554102]%Q. Proof. vm_compute. reflexivity. Qed.
Lemma twice : redshifts_of (ez 1 (Some (escan 1 (Some (pri 4)) [ga] [g1])) (Some (pri 4)) [ga] [g1]) = [1 # 2]%Q. Proof. vm_compute. reflexivity. Qed.
Local Opaque zfind escan Model_Run.run.

Lemma ids_two : NoDup (map g_id [g1; g2]). Proof. cbn. repeat constructor; cbn; intuition discriminate. Qed.
Lemma types_two : NoDup (map full_type [ga; st]). Proof. cbn. repeat constructor; cbn; intuition discriminate. Qed.
Example C146_nonvacuous : exists zs tab h zs' z, ez 2 None None [ga; st] [g1; g2] = Ok (zs, tab) /\ kept_exactly (fun x => x) zs /\ write_zscan (fun x => x) (fun x => x) zs (efit [7; 9]%Z) = Ok h /\ read_zscan_redrock h = Ok zs' /\ ez 2 (Some zs') None [ga; st] [g1; g2] = Ok (z, tab).
Proof.
  destruct (ez_scan 2 None [ga; st] [g1; g2] ok_two) as [tab E]. destruct (is_ok_ex _ ok_write) as [h W].
  assert (K : kept_exactly (fun x => x) (escan 2 None [ga; st] [g1; g2])) by (intros t ft s _; split; reflexivity).
  destruct (C146_same_table_partial demo argsort0 lagrange3 (fun x => x) no_igm 2 3 unit (fun x => x) (fun x => x) None [ga; st] [g1; g2] (escan 2 None [ga; st] [g1; g2]) tab (efit [7; 9]%Z) h ids_two types_two two_tell E K W) as (zs' & z & R & Z).
  - repeat constructor.
  - intros g [<-|[<-|[]]]; eexists; (split; [|split]); [now left|reflexivity|reflexivity|right; now left|reflexivity|reflexivity].
  - exists (escan 2 None [ga; st] [g1; g2]), tab, h, zs', z. now repeat split.
Qed.
(* the redshifts of the file are far from those of the templates, and the run goes on *)
Theorem C146_other_grid_refuted : exists zs s z tab, same_chi2 (escan 2 None [ga; st] [g1; g2]) zs /\ entry zs 7 "GALAXY" = Ok s /\ (forall v, In v (sc_z s) -> 5 <= v)%Q /\ p_zs ga = [0; 1 # 2; 1]%Q /\ full_type ga = "GALAXY"%string /\ ez 2 (Some zs) None [ga; st] [g1; g2] = Ok (z, tab).
Proof.
  pose proof z_shift as S. destruct (is_ok_ex _ ok_shift) as [[z tab] E]. destruct (entry _ 7 "GALAXY") as [s|] eqn:Es; [|contradiction]. exists (shifted (escan 2 None [ga; st] [g1; g2])), s, z, tab.
  split. { clear. unfold same_chi2, shifted. induction (escan 2 None [ga; st] [g1; g2]) as [|[k d] l IH]; constructor; [|exact IH]. cbn [fst snd]. split; [reflexivity|]. clear. induction d as [|[f s] d IH]; constructor; [|exact IH]. now repeat split. }
  split; [exact Es|]. split; [rewrite S; intros v [<-|[<-|[<-|[]]]]; discriminate|]. split; [reflexivity|]. split; [reflexivity|exact E].
Qed.
(* fewer templates than in the file, or more targets: KeyError *)
Theorem C146_fewer_templates_refuted : exists zs, (exists tab, ez 2 None None [ga; st] [g1; g2] = Ok (zs, tab)) /\ ez 2 (Some zs) None [ga] [g1; g2] = Err KeyError.
Proof. exists (escan 2 None [ga; st] [g1; g2]). split; [exact (ez_scan _ _ _ _ ok_two)|]. pose proof err_more as E. destruct (ez 2 (Some _) None [ga] [g1; g2]); [discriminate|]. cbn in E. congruence. Qed.
Theorem C146_more_targets_refuted : ez 2 (Some (escan 2 None [ga; st] [g1])) None [ga; st] [g1; g2] = Err KeyError.
Proof. pose proof err_less as E. destruct (ez 2 (Some _) None [ga; st] [g1; g2]); [discriminate|]. cbn in E. congruence. Qed.

Example C147_nonvacuous : exists ress, NoDup (map fst (escan 2 None [ga; st] [g1; g2])) /\ NoDup (map g_id (concat [[g1]; [g2]])) /\ (forall p, In p [ga; st] -> full_type p <> "meta"%string) /\
  ranks_reuse demo argsort0 lagrange3 (fun x => x) no_igm 2 3 (escan 2 None [ga; st] [g1; g2]) None [ga; st] [[g1]; [g2]] = Ok ress /\ (exists k s, gsteps (length ress) 1 k (gather_init 5000 ress) s /\ gather_finished (length ress) s) /\ In g1 (concat [[g1]; [g2]]) /\ ~ In g1 [g2].
Proof.
  destruct (is_ok_ex _ ok_ranks) as [ress R]. exists ress. assert (N : NoDup (map fst (escan 2 None [ga; st] [g1; g2]))) by (rewrite keys_two; repeat constructor; cbn; intuition discriminate).
  split; [exact N|]. split; [cbn; repeat constructor; cbn; intuition discriminate|]. split; [intros p [<-|[<-|[]]]; discriminate|]. split; [exact R|]. split; [|split; [now left|intros [H|[]]; discriminate H]].
  apply C14_finished_run_exists; [lia| |].
  - apply mapM_Forall2 in R. apply Forall2_len in R. refine (eq_ind _ (fun n => 1 <= n) _ _ R). cbn. lia.
  - apply mapM_Forall2 in R. apply Forall_forall. intros r Ir. destruct (Forall2_in_r _ _ _ r R Ir) as (l & _ & Hl). unfold rank_reuse in Hl. rewrite (fit_all_keys _ _ _ _ _ _ _ _ _ _ _ Hl), as_scans_keys, add_prior_keys. exact N.
Qed.
Example C147_nonvacuous_last : exists ress z tab, ranks_reuse demo argsort0 lagrange3 (fun x => x) no_igm 2 3 (escan 2 None [ga; st] [g1; g2]) None [ga; st] [[]; [g1; g2]] = Ok ress /\ NoDup (map g_id (last [[]; [g1; g2]] [])) /\ ez 2 (Some (escan 2 None [ga; st] [g1; g2])) None [ga; st] (last [[]; [g1; g2]] []) = Ok (z, tab).
Proof.
  destruct (is_ok_ex _ ok_ranks1) as [ress R]. exists ress. assert (S : same_chi2 (shifted (escan 2 None [ga; st] [g1; g2])) (escan 2 None [ga; st] [g1; g2])).
  { clear. unfold same_chi2, shifted. induction (escan 2 None [ga; st] [g1; g2]) as [|[k d] l IH]; constructor; [|exact IH]. cbn [fst snd]. split; [reflexivity|]. clear. induction d as [|[f s] d IH]; constructor; [|exact IH]. now repeat split. }
  destruct (is_ok_ex _ ok_shift) as [[z tab] E]. destruct (proj1 (C146_grid_not_checked_refuted demo argsort0 lagrange3 (fun x => x) no_igm 2 3 _ _ [ga; st] [g1; g2] tab S)) as [z' E']; [now exists z|]. exists z', tab. split; [exact R|]. split; [exact ids_two|exact E'].
Qed.
(* the prior of the file once more: another redshift; without it: that of the first run *)
Theorem C148_other_redshift_refuted : exists zs tab zs' tab' zs2 tab2, ez 1 None (Some (pri 4)) [ga] [g1] = Ok (zs, tab) /\ ez 1 (Some zs) None [ga] [g1] = Ok (zs', tab') /\ ez 1 (Some zs) (Some (pri 4)) [ga] [g1] = Ok (zs2, tab2) /\
  map (fun o => Qred (Model_Zfind.f_z o)) tab' = map (fun o => Qred (Model_Zfind.f_z o)) tab /\ map (fun o => Qred (Model_Zfind.f_z o)) tab2 <> map (fun o => Qred (Model_Zfind.f_z o)) tab.
Proof.
  destruct (ez_scan 1 (Some (pri 4)) [ga] [g1] ok_pri) as [tab E]. pose proof once as O. pose proof again as A. pose proof twice as T. rewrite E in O.
  destruct (ez 1 (Some _) None [ga] [g1]) as [[zs' tab']|] eqn:EA; [|discriminate A]. destruct (ez 1 (Some _) (Some (pri 4)) [ga] [g1]) as [[zs2 tab2]|] eqn:ET; [|discriminate T].
  cbn [redshifts_of] in O, A, T. exists (escan 1 (Some (pri 4)) [ga] [g1]), tab, zs', tab', zs2, tab2. split; [exact E|]. split; [exact EA|]. split; [exact ET|]. rewrite O, A, T. split; [reflexivity|discriminate].
Qed.
Print Assumptions C146_no_options. Print Assumptions C146_reuse_partial. Print Assumptions C146_same_table_partial. Print Assumptions C146_same_rows_partial. Print Assumptions C146_grid_not_checked_refuted.
Print Assumptions C146_same_templates. Print Assumptions C146_distinct_targets. Print Assumptions C146_other_grid_refuted. Print Assumptions C146_fewer_templates_refuted. Print Assumptions C146_more_targets_refuted.
Print Assumptions C147_mpi_fails_refuted. Print Assumptions C147_last_rank_partial. Print Assumptions C148_in_the_file. Print Assumptions C148_twice_refuted. Print Assumptions C148_other_redshift_refuted.
