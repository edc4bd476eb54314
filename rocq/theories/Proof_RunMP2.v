(* Proofs about the whole run with several processes, continued: one stage. *)
From Verif Require Import Prelude PreludeFacts NumX Facts2 Model_Fitz Model_Rebin Model_Dist Spec_Dist Proof_Dist2 Proof_Dist3 Model_MP Proof_MP Proof_MP2 Proof_Table Model_Zscan Proof_Zscan4
  Model_Piece Model_IO Model_Zfind Model_Run Proof_Run Model_RunMPI Model_RunMP Spec_RunMP Proof_RunMP.
Open Scope nat_scope.
Local Notation dget := Model_Dist.dget. Local Notation dset := Model_Dist.dset. Local Notation dict := Model_Dist.dict.

(* the ids of the processes beside the targets whose spectra they have *)
Definition pairs (ts : list (tgt targ)) (ml : list (list Z)) : dict (tgt targ) := combine (concat ml) (concat (map (worker_data ts) ml)).
Definition source (ts : list (tgt targ)) (ml : list (list Z)) (t : tgt targ) : tgt targ := match dget (pairs ts ml) (t_id t) with Some u => u | None => t end.
Definition scanned (ts : list (tgt targ)) (ml : list (list Z)) : list targ := map (fun t => renamed (t_data t) (t_data (source ts ml t))) ts.

Lemma worker_aligned ts (ml : list (list Z)) : NoDup (map t_id ts) -> Permutation (concat ml) (map t_id ts) -> Forall2 (fun (a : list Z) (b : list (tgt targ)) => length a = length b) ml (map (worker_data ts) ml).
Proof.
  intros N P. assert (Nc : NoDup (concat ml)) by (eapply Permutation_NoDup; [symmetry; exact P|exact N]).
  assert (G : forall l, incl l ml -> Forall2 (fun (a : list Z) (b : list (tgt targ)) => length a = length b) l (map (worker_data ts) l)).
  { induction l as [|a l IH]; intro I; constructor; [|apply IH; intros x Hx; apply I; now right].
    assert (Ha : In a ml) by (apply I; now left). symmetry. rewrite <- (map_length t_id). apply Permutation_length, worker_data_perm; [exact N| |].
    - apply In_nth with (d := []) in Ha as (i & Hi & <-). now apply nodup_concat_nth.
    - intros x Hx. eapply Permutation_in; [exact P|]. apply in_concat. now exists a. }
  apply G, incl_refl.
Qed.
Lemma pairs_nodup ts ml : NoDup (map t_id ts) -> Permutation (concat ml) (map t_id ts) -> NoDup (map fst (pairs ts ml)).
Proof.
  intros N P. unfold pairs. rewrite map_fst_combine by (apply aligned_length, worker_aligned; assumption). eapply Permutation_NoDup; [symmetry; exact P|exact N].
Qed.
Lemma pairs_get ts ml t : NoDup (map t_id ts) -> Permutation (concat ml) (map t_id ts) -> In t ts -> dget (pairs ts ml) (t_id t) = Some (source ts ml t) /\ In (source ts ml t) ts.
Proof.
  intros N P Ht. unfold source. destruct (dget (pairs ts ml) (t_id t)) as [u|] eqn:E.
  - split; [reflexivity|]. apply (dget_in _ _ _ (pairs_nodup ts ml N P)) in E. unfold pairs in E. apply in_combine_r in E. eapply worker_in; exact E.
  - exfalso. apply dget_none in E. unfold pairs in E. rewrite map_fst_combine in E by (apply aligned_length, worker_aligned; assumption). apply E. eapply Permutation_in; [symmetry; exact P|]. now apply in_map.
Qed.
Lemma pairs_none ts ml k : NoDup (map t_id ts) -> Permutation (concat ml) (map t_id ts) -> ~ In k (map t_id ts) -> dget (pairs ts ml) k = None.
Proof.
  intros N P H. apply dget_none. unfold pairs. rewrite map_fst_combine by (apply aligned_length, worker_aligned; assumption). intro I. apply H. eapply Permutation_in; [exact P|exact I].
Qed.
(* in terms of the specification *)
Lemma source_spec ts nproc ml t : NoDup (map t_id ts) -> distribute_targets ts nproc = Ok ml -> Permutation (concat ml) (map t_id ts) -> In t ts ->
  forall u, scanned_for ts nproc t u <-> u = source ts ml t.
Proof.
  intros N E P Ht u. destruct (pairs_get ts ml t N P Ht) as [G _]. pose proof (worker_aligned ts ml N P) as L. split.
  - intros (ml' & ids & j & E' & Hi & Hj & Hu). assert (ml' = ml) by congruence. subst ml'. apply In_nth with (d := []) in Hi as (i & Hi & Ei).
    assert (Hin : In (t_id t, u) (pairs ts ml)).
    { unfold pairs. clear -L Hi Ei Hj Hu. change (filter _ ts) with (worker_data ts ids) in Hu. revert i Hi Ei. induction ml as [|a ml IH]; intros i Hi Ei; [cbn in Hi; lia|]. cbn [map concat] in *. inversion L as [|? ? ? ? L1 L2]; subst.
      assert (C : combine (a ++ concat ml) (worker_data ts a ++ concat (map (worker_data ts) ml)) = combine a (worker_data ts a) ++ combine (concat ml) (concat (map (worker_data ts) ml))).
      { clear -L1. generalize dependent (worker_data ts a). induction a as [|x a IH]; intros [|y b] L; cbn in *; try discriminate; [reflexivity|]. f_equal. apply IH. lia. }
      rewrite C. apply in_app_iff. destruct i as [|i]; cbn [nth] in *; [left|right; apply (IH L2 i); [cbn in Hi; lia|reflexivity]].
      clear -Hj Hu. revert j Hj Hu. generalize (worker_data ts a) as b. induction a as [|x a IH]; intros [|y b] [|j] Hj Hu; cbn in *; try discriminate; [left; congruence|right; eapply IH; eassumption]. }
    apply (dget_in _ _ _ (pairs_nodup ts ml N P)) in Hin. congruence.
  - intros ->. apply (dget_in _ _ _ (pairs_nodup ts ml N P)) in G. unfold pairs in G. destruct (in_aligned _ _ _ _ L G) as (i & j & Hi & H1 & H2). rewrite map_length in Hi.
    exists ml, (nth i ml []), j. split; [exact E|]. split; [now apply nth_In|]. split; [exact H1|]. rewrite nth_map_worker in H2 by exact Hi. exact H2.
Qed.

Section R.
Variables (slv : solvers) (argsort : list xq -> list nat) (polyfit : list Q -> list Q -> option (Q * Q * Q)) (isqrt : Q -> Q).
Variable trans : option string -> Q -> Q -> Q.
Variables (nminima nz nproc : nat).
Notation edict := (list (string * entry)).
Notation tscan := (tscan slv). Notation tfit := (tfit slv argsort polyfit isqrt trans nminima nz).
Notation mp_scan := (mp_scan slv nproc). Notation mp_fit := (mp_fit slv argsort polyfit isqrt trans nminima nz nproc).

Variables (ts : list (tgt targ)) (ml : list (list Z)).
Hypothesis N : NoDup (map t_id ts).
Hypothesis Hid : Forall (fun t => t_id t = g_id (t_data t)) ts.
Hypothesis Eml : distribute_targets ts nproc = Ok ml.
Hypothesis P : Permutation (concat ml) (map t_id ts).

Lemma ids_data t : In t ts -> t_id t = g_id (t_data t).
Proof. exact (proj1 (Forall_forall _ _) Hid t). Qed.
Lemma scanned_ids : map g_id (scanned ts ml) = map t_id ts.
Proof. unfold scanned. rewrite map_map. apply map_ext_in. intros t Ht. cbn. symmetry. now apply ids_data. Qed.
Lemma in_concat_data t : In t ts <-> In t (concat (map (worker_data ts) ml)).
Proof.
  split; [|apply worker_in]. intro Ht. destruct (worker_has ts ml t N P Ht) as (i & j & Hi & Hj). apply in_concat. exists (worker_data ts (nth i ml [])). split; [|eapply nth_error_In; exact Hj].
  rewrite <- nth_map_worker by exact Hi. apply nth_In. now rewrite map_length.
Qed.

Definition uscan (ft : string) (d : edict) (v : vec * vec) : res edict := Ok (sset d ft {| e_zchi2 := fst v; e_penalty := snd v; e_fits := None |}).
Definition ufit (p : tmpl) (d : edict) (v : BinNums.N * list (fit Q (list Q))) : res edict :=
  match sget d (full_type p) with None => Err KeyError | Some e => Ok (sset d (full_type p) {| e_zchi2 := e_zchi2 e; e_penalty := e_penalty e; e_fits := Some v |}) end.
Lemma foldM_ext {A B} (f g : A -> B -> res A) l : (forall a b, f a b = g a b) -> forall a, foldM f a l = foldM g a l.
Proof. intro H. induction l as [|b l IH]; intro a; [reflexivity|]. cbn [foldM]. rewrite H. destruct (g a b); cbn [rbind]; [apply IH|reflexivity]. Qed.
Lemma foldM_map {A B C} (f : A -> C -> res A) (h : B -> C) l : forall a, foldM f a (map h l) = foldM (fun a b => f a (h b)) a l.
Proof. induction l as [|b l IH]; intro a; [reflexivity|]. cbn [foldM map]. destruct (f a (h b)); cbn [rbind]; [apply IH|reflexivity]. Qed.

Lemma put_all_upd ft (d : dict (vec * vec)) r :
  put_all r (map (fun x => (fst x, (ft, {| e_zchi2 := fst (snd x); e_penalty := snd (snd x); e_fits := None |}))) d) = foldM (ustep (uscan ft)) r d.
Proof.
  unfold put_all. rewrite (fold_foldM (fun r x => put r (fst x) (fst (snd x)) (snd (snd x)))). rewrite foldM_map. apply foldM_ext. intros a [k [zc pen]]. unfold put, ustep, uscan. cbn [fst snd]. destruct (dget a k); reflexivity.
Qed.
Lemma store_fit_upd p d r : fold_left (fun acc x => do r <- acc; store_fit p r x) d (Ok r) = foldM (ustep (ufit p)) r d.
Proof.
  rewrite (fold_foldM (store_fit p)). apply foldM_ext. intros a [k v]. unfold store_fit, ustep, ufit, put. cbn [fst snd]. destruct (dget a k) as [e|] eqn:E; [|reflexivity]. destruct (sget e (full_type p)); reflexivity.
Qed.
Lemma sort_perm {V} (d : dict V) : Permutation (isort (fun a b => Z.leb (fst a) (fst b)) d) d.
Proof. symmetry. apply isort_perm. Qed.

Lemma scan_mp pt r r' : ts <> [] -> map fst r = map t_id ts -> (mp_scan ts r pt r' <-> stepped (fun g d => tscan g d pt) (scanned ts ml) r r').
Proof.
  intros Hne K. pose proof (worker_aligned ts ml N P) as L. assert (Nc : NoDup (concat ml)) by (eapply Permutation_NoDup; [symmetry; exact P|exact N]).
  assert (Ec : scan_config ts nproc = Ok (map (worker_data ts) ml, ml)) by (unfold scan_config; rewrite Eml; reflexivity).
  assert (Pg : exists inc, progincr nproc (length ts) = Ok inc). { unfold progincr. destruct (length ts <? nproc); [|eauto]. destruct ts; [congruence|]. cbn. eauto. }
  assert (TS : forall t d, In t ts -> tscan (renamed (t_data t) (t_data (source ts ml t))) d pt = do v <- scan_value slv (fst pt) (snd pt) (source ts ml t); uscan (full_type (fst pt)) d v).
  { intros t d _. unfold Proof_Run.tscan, scan_value, uscan. cbn [g_spectra renamed data_of]. change (data_of (renamed (t_data t) (t_data (source ts ml t)))) with (data_of (t_data (source ts ml t))). destruct (zchi2_target _ _ _ _ _) as [row|]; reflexivity. }
  split.
  - intros (data & keys & inc & d & E1 & _ & Hc & Hp). rewrite Ec in E1. assert (data = map (worker_data ts) ml) by congruence. assert (keys = ml) by congruence. subst data keys. clear E1.
    destruct (collects_inv _ _ _ _ _ Nc L Hc) as [Nd G]. change (combine (concat ml) (concat (map (worker_data ts) ml))) with (pairs ts ml) in G.
    rewrite put_all_upd in Hp. set (sd := isort (fun a b => Z.leb (fst a) (fst b)) d) in *. assert (Ps : Permutation sd d) by apply sort_perm.
    assert (Ns : NoDup (map fst sd)) by (eapply Permutation_NoDup; [apply Permutation_map; symmetry; exact Ps|exact Nd]).
    destruct (upd_fold _ _ _ _ Ns Hp) as [K' G']. split; [exact K'|]. intros g Hg. unfold scanned in Hg. apply in_map_iff in Hg as (t & <- & Ht). cbn [g_id renamed]. rewrite <- (ids_data t Ht).
    destruct (pairs_get ts ml t N P Ht) as [Gt _]. specialize (G (t_id t)). rewrite Gt in G. destruct G as (v & Hv & Hdv). specialize (G' (t_id t)). rewrite (dget_perm sd d (t_id t) Ns Ps), Hdv in G'.
    destruct G' as (d0 & d1 & H1 & H2 & H3). exists d0, d1. split; [exact H1|]. split; [|exact H3]. rewrite (TS t d0 Ht), Hv. exact H2.
  - intros [K' G]. assert (Hok : forall t, In t (concat (map (worker_data ts) ml)) -> exists v, scan_value slv (fst pt) (snd pt) t = Ok v).
    { intros u Hu. (* u is the source of some target *)
      assert (X : exists t, In t ts /\ source ts ml t = u).
      { assert (Hp : exists k, In (k, u) (pairs ts ml)). { unfold pairs. pose proof (aligned_length _ _ L) as Lc. destruct (In_nth_error _ _ Hu) as [i Hi]. destruct (nth_error_lt_ex (concat ml) i) as [k Hk]; [apply nth_error_Some_lt in Hi; lia|]. exists k. clear -Hi Hk. revert i Hi Hk. generalize (concat ml) as a, (concat (map (worker_data ts) ml)) as b. induction a as [|x a IH]; intros [|y b] [|i] Hi Hk; cbn in *; try discriminate; [left; congruence|right; eapply IH; eassumption]. }
        destruct Hp as [k Hk]. assert (Ik : In k (map t_id ts)) by (eapply Permutation_in; [exact P|]; unfold pairs in Hk; apply in_combine_l in Hk; exact Hk).
        apply in_map_iff in Ik as (t & <- & Ht). exists t. split; [exact Ht|]. apply (dget_in _ _ _ (pairs_nodup ts ml N P)) in Hk. unfold source. now rewrite Hk. }
      destruct X as (t & Ht & <-). destruct (G (renamed (t_data t) (t_data (source ts ml t)))) as (d0 & d1 & H1 & H2 & H3); [apply in_map_iff; now exists t|]. rewrite (TS t d0 Ht) in H2. destruct (scan_value _ _ _ _) as [v|]; cbn [rbind] in H2; [now exists v|discriminate]. }
    destruct (collects_ex _ _ ml true Hok) as [d Hc]. destruct Pg as [inc Pg]. destruct (collects_inv _ _ _ _ _ Nc L Hc) as [Nd Gd]. change (combine (concat ml) (concat (map (worker_data ts) ml))) with (pairs ts ml) in Gd.
    set (sd := isort (fun a b => Z.leb (fst a) (fst b)) d). assert (Ps : Permutation sd d) by apply sort_perm. assert (Ns : NoDup (map fst sd)) by (eapply Permutation_NoDup; [apply Permutation_map; symmetry; exact Ps|exact Nd]).
    destruct (upd_fold_ok (uscan (full_type (fst pt))) sd r Ns) as [r1 H1].
    { intros k w Hk. rewrite (dget_perm sd d k Ns Ps) in Hk. assert (Ik : In k (map fst r)). { rewrite K. destruct (in_dec Z.eq_dec k (map t_id ts)) as [I|O]; [exact I|]. specialize (Gd k). rewrite (pairs_none ts ml k N P O) in Gd. congruence. }
      destruct (dget r k) as [d0|] eqn:Ed; [|apply dget_none in Ed; contradiction]. exists d0, (sset d0 (full_type (fst pt)) {| e_zchi2 := fst w; e_penalty := snd w; e_fits := None |}). split; reflexivity. }
    assert (Hm : mp_scan ts r pt r1). { exists (map (worker_data ts) ml), ml, inc, d. split; [exact Ec|]. split; [exact Pg|]. split; [exact Hc|]. rewrite put_all_upd. exact H1. }
    replace r' with r1; [exact Hm|]. apply (stepped_det (fun g d => tscan g d pt) (scanned ts ml) r); [rewrite K; exact N|rewrite scanned_ids; exact K| |split; assumption].
    destruct (upd_fold _ _ _ _ Ns H1) as [K1 G1]. split; [exact K1|]. intros g Hg. unfold scanned in Hg. apply in_map_iff in Hg as (t & <- & Ht). cbn [g_id renamed]. rewrite <- (ids_data t Ht).
    destruct (pairs_get ts ml t N P Ht) as [Gt _]. specialize (Gd (t_id t)). rewrite Gt in Gd. destruct Gd as (v & Hv & Hdv). specialize (G1 (t_id t)). rewrite (dget_perm sd d (t_id t) Ns Ps), Hdv in G1.
    destruct G1 as (d0 & d1 & H2 & H3 & H4). exists d0, d1. split; [exact H2|]. split; [|exact H4]. rewrite (TS t d0 Ht), Hv. exact H3.
Qed.

Lemma fit_pairs t : In t ts -> dget (combine (concat (map (fun l => map t_id (worker_data ts l)) ml)) (concat (map (worker_data ts) ml))) (t_id t) = Some t.
Proof.
  intro Ht. assert (E : concat (map (fun l => map t_id (worker_data ts l)) ml) = map t_id (concat (map (worker_data ts) ml))). { clear. induction ml as [|a l IH]; [reflexivity|]. cbn [map concat]. now rewrite IH, map_app. }
  pose proof (fit_keys_nodup ts ml N P) as Nk. apply dget_in.
  - rewrite map_fst_combine; [exact Nk|]. rewrite E, map_length. reflexivity.
  - rewrite E. apply in_concat_data in Ht. clear -Ht. generalize dependent (concat (map (worker_data ts) ml)). induction l as [|a l IH]; intro H0; [destruct H0|]. destruct H0 as [<-|H]; [now left|right; now apply IH].
Qed.
Lemma fit_mp p r r' : map fst r = map t_id ts -> (mp_fit ts r p r' <-> stepped (fun g d => tfit g d p) (map t_data ts) r r').
Proof.
  intro K. set (keys := map (fun l => map t_id (worker_data ts l)) ml). set (data := map (worker_data ts) ml).
  assert (L : Forall2 (fun (a : list Z) (b : list (tgt targ)) => length a = length b) keys data). { unfold keys, data. clear. induction ml as [|a l IH]; constructor; [apply map_length|exact IH]. }
  assert (Nk : NoDup (concat keys)) by exact (fit_keys_nodup ts ml N P).
  assert (Ec : fit_config ts nproc = Ok (data, keys)) by (unfold fit_config; rewrite Eml; reflexivity).
  assert (In_id : forall g, In g (map t_data ts) -> exists t, In t ts /\ t_data t = g /\ t_id t = g_id g). { intros g Hg. apply in_map_iff in Hg as (t & <- & Ht). exists t. split; [exact Ht|]. split; [reflexivity|now apply ids_data]. }
  assert (TF : forall t d, In t ts -> dget r (t_id t) = Some d -> tfit (t_data t) d p = do v <- fit_value slv argsort polyfit isqrt trans nminima nz r p t; ufit p d v).
  { intros t d Ht Hd. unfold Proof_Run.tfit, fit_value, ufit. rewrite Hd. destruct (sget d (full_type p)) as [e|]; [|reflexivity]. destruct (fit_target _ _ _ _ _ _ _ _ _ _) as [fs|]; reflexivity. }
  assert (Keys : forall d, collects (fit_value slv argsort polyfit isqrt trans nminima nz r p) data keys false d -> forall r1, foldM (ustep (ufit p)) r d = Ok r1 -> stepped (fun g d => tfit g d p) (map t_data ts) r r1).
  { intros d Hc r1 H1. destruct (collects_inv _ _ _ _ _ Nk L Hc) as [Nd G]. destruct (upd_fold _ _ _ _ Nd H1) as [K1 G1]. split; [exact K1|]. intros g Hg. destruct (In_id g Hg) as (t & Ht & <- & Eid). rewrite <- Eid.
    specialize (G (t_id t)). unfold keys, data in G. rewrite (fit_pairs t Ht) in G. destruct G as (v & Hv & Hdv). specialize (G1 (t_id t)). rewrite Hdv in G1. destruct G1 as (d0 & d1 & H2 & H3 & H4). exists d0, d1. split; [exact H2|]. split; [|exact H4]. rewrite (TF t d0 Ht H2), Hv. exact H3. }
  split.
  - intros (data' & keys' & d & E1 & Hc & Hp). rewrite Ec in E1. assert (data' = data) by congruence. assert (keys' = keys) by congruence. subst data' keys'. rewrite store_fit_upd in Hp. now apply (Keys d).
  - intros [K' G]. assert (GT : forall t, In t ts -> exists d0 d1, dget r (t_id t) = Some d0 /\ tfit (t_data t) d0 p = Ok d1 /\ dget r' (t_id t) = Some d1). { intros t Ht. rewrite (ids_data t Ht). apply G. now apply in_map. }
    destruct (collects_ex (fit_value slv argsort polyfit isqrt trans nminima nz r p) data keys false) as [d Hc].
    { intros t Ht. apply in_concat_data in Ht. destruct (GT t Ht) as (d0 & d1 & H1 & H2 & _). rewrite (TF t d0 Ht H1) in H2. destruct (fit_value _ _ _ _ _ _ _ _ _ t) as [v|]; [now exists v|discriminate]. }
    destruct (collects_inv _ _ _ _ _ Nk L Hc) as [Nd Gd].
    destruct (upd_fold_ok (ufit p) d r Nd) as [r1 H1].
    { intros k w Hk. assert (Ik : In k (map t_id ts)). { pose proof (Gd k) as X. destruct (dget (combine (concat keys) (concat data)) k) as [u|] eqn:Eu; [|congruence]. apply dget_in in Eu; [|exact (eq_ind_r (fun l => NoDup l) Nk (map_fst_combine _ _ (aligned_length _ _ L)))]. apply in_combine_l in Eu. apply in_concat in Eu as (l & Hl & Hk'). apply in_map_iff in Hl as (ids & <- & _). apply in_map_iff in Hk' as (t & <- & Ht). apply filter_In in Ht as [Ht _]. now apply in_map. }
      apply in_map_iff in Ik as (t & <- & Ht). destruct (GT t Ht) as (d0 & d1 & H2 & H3 & _). specialize (Gd (t_id t)). unfold keys, data in Gd. rewrite (fit_pairs t Ht) in Gd. destruct Gd as (v & Hv & Hdv). assert (v = w) by congruence. subst v. exists d0, d1. split; [exact H2|]. rewrite (TF t d0 Ht H2), Hv in H3. exact H3. }
    replace r' with r1.
    + exists data, keys, d. split; [exact Ec|]. split; [exact Hc|]. rewrite store_fit_upd. exact H1.
    + assert (Km : map g_id (map t_data ts) = map t_id ts) by (rewrite map_map; apply map_ext_in; intros t Ht; symmetry; now apply ids_data).
      apply (stepped_det (fun g d => tfit g d p) (map t_data ts) r); [rewrite K; exact N|rewrite K; now symmetry|now apply (Keys d)|split; assumption].
Qed.

(* all templates *)
Lemma each_foldM {B} (stepM : scans -> B -> scans -> Prop) (stepF : scans -> B -> res scans) (ids : list Z) :
  (forall r b r', map fst r = ids -> (stepM r b r' <-> stepF r b = Ok r')) -> (forall r b r', map fst r = ids -> stepF r b = Ok r' -> map fst r' = ids) ->
  forall l r r', map fst r = ids -> (each stepM r l r' <-> foldM stepF r l = Ok r').
Proof.
  intros H1 H2. induction l as [|b l IH]; intros r r' K; cbn [foldM].
  - split; [intro H; inversion H; reflexivity|intro H; assert (r = r') by congruence; subst; constructor].
  - split.
    + intro H. inversion H as [|a0 b0 l0 a1 a2 Hs He]. apply H1 in Hs; [|exact K]. rewrite Hs. cbn [rbind]. apply IH; [eapply H2; eassumption|exact He].
    + destruct (stepF r b) as [a1|] eqn:E; cbn [rbind]; [|discriminate]. intro H. econstructor; [apply H1; [exact K|exact E]|]. apply IH; [eapply H2; eassumption|exact H].
Qed.
Lemma run_mp_as ps tab : ts <> [] ->
  (run_mp slv argsort polyfit isqrt trans nminima nz nproc ps ts tab <-> run_as slv argsort polyfit isqrt trans nminima nz ps (map t_data ts) (scanned ts ml) = Ok tab).
Proof.
  intro Hne. assert (Km : map g_id (map t_data ts) = map t_id ts) by (rewrite map_map; apply map_ext_in; intros t Ht; symmetry; now apply ids_data).
  assert (Ke : map fst (empty_scans (map t_data ts)) = map t_id ts). { rewrite empty_enc by (rewrite Km; exact N). unfold enc. rewrite !map_map. rewrite <- Km, map_map. reflexivity. }
  assert (ES : forall l r1, each (mp_scan ts) (empty_scans (map t_data ts)) l r1 <-> scan_all slv (scanned ts ml) (empty_scans (map t_data ts)) l = Ok r1).
  { intros l r1. rewrite scan_all_foldM. apply (each_foldM _ (fun r pt => scan_template slv (scanned ts ml) r (fst pt) (snd pt)) (map t_id ts)); [| |exact Ke].
    - intros r b r' K. rewrite scan_serial by (rewrite scanned_ids; assumption). now apply scan_mp.
    - intros r b r' K H. apply scan_serial in H; [|rewrite scanned_ids; assumption|rewrite scanned_ids; assumption]. destruct H as [K' _]. congruence. }
  assert (EF : forall l r r1, map fst r = map t_id ts -> (each (mp_fit ts) r l r1 <-> foldM (fit_template slv argsort polyfit isqrt trans nminima nz (map t_data ts)) r l = Ok r1)).
  { intros l r r1 K0. apply (each_foldM _ _ (map t_id ts)); [| |exact K0].
    - intros a b a' K. rewrite fit_serial by (rewrite Km; assumption). now apply fit_mp.
    - intros a b a' K H. apply fit_serial in H; [|rewrite Km; assumption|rewrite Km; assumption]. destruct H as [K' _]. congruence. }
  assert (K1 : forall l r1, scan_all slv (scanned ts ml) (empty_scans (map t_data ts)) l = Ok r1 -> map fst r1 = map t_id ts).
  { intros l r1. rewrite scan_all_foldM. revert Ke. generalize (empty_scans (map t_data ts)) as r. induction l as [|b l IH]; intros r Kr H; cbn [foldM] in H; [congruence|]. destruct (scan_template _ _ r (fst b) (snd b)) as [a|] eqn:E; cbn [rbind] in H; [|discriminate].
    apply (IH a); [|exact H]. apply scan_serial in E; [|rewrite scanned_ids; assumption|rewrite scanned_ids; assumption]. destruct E as [K' _]. congruence. }
  unfold run_mp, run_as. cbv zeta. split.
  - intros (tds & r1 & r2 & E1 & E2 & E3 & E4). rewrite E1. cbn [rbind]. apply ES in E2. rewrite E2. cbn [rbind]. apply EF in E3; [|eapply K1; exact E2]. unfold fit_all. rewrite fold_foldM, E3. cbn [rbind]. exact E4.
  - destruct (mapM _ ps) as [tds|] eqn:E1; cbn [rbind]; [|discriminate]. destruct (scan_all _ _ _ _) as [r1|] eqn:E2; cbn [rbind]; [|discriminate]. unfold fit_all. rewrite fold_foldM. destruct (foldM _ r1 _) as [r2|] eqn:E3; cbn [rbind]; [|discriminate].
    intro E4. exists tds, r1, r2. split; [reflexivity|]. split; [now apply ES|]. split; [apply EF; [eapply K1; exact E2|exact E3]|exact E4].
Qed.
End R.
