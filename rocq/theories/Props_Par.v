(* Property theorems C14, C15, C20-C23, C26: message passing and worker processes. *)
From Verif Require Import Prelude PreludeFacts Model_Dist Spec_Dist Model_MPI Model_MP
  Proof_Dist Proof_Dist2 Proof_Dist3 Proof_Ring Proof_Gather Proof_MP Proof_MP2 Proof_Zfind Props_Dist.

(* ---------------- C14 ---------------- *)
(* maxb is the batch size (5000 in the code), cap the buffering of the MPI
   library (0 = every send waits for its receive); one dict per rank. *)
Theorem C14_gather_terminates : forall V (maxb cap : nat) (ress : list (dict V)),
  0 < maxb -> 1 <= length ress -> Forall (fun d => NoDup (map fst d)) ress ->
  exists bound, forall k s, gsteps (length ress) cap k (gather_init maxb ress) s ->
    k <= bound /\ (gather_finished (length ress) s \/ exists s', gstep (length ress) cap s s').
Proof.
  intros V maxb cap ress Hm Hp Hk. exists (ntot (length ress) (gather_init maxb ress)). intros k s Hs. split.
  - pose proof (gsteps_measure (length ress) cap maxb ress eq_refl Hm Hk k s Hs). lia.
  - eapply (ginv_progress _ _ maxb ress); auto. eapply ginv_steps; eauto.
Qed.
Print Assumptions C14_gather_terminates.

Theorem C14_gather_delivers : forall V (maxb cap : nat) (ress : list (dict V)) k s,
  0 < maxb -> 1 <= length ress -> Forall (fun d => NoDup (map fst d)) ress ->
  gsteps (length ress) cap k (gather_init maxb ress) s -> gather_finished (length ress) s ->
  hd [] ress :: x_out (s_rx s) = ress /\
  (forall r, r < length ress -> s_chan s r = [] \/ r = 0) /\
  (NoDup (map fst (concat ress)) -> allresults (hd [] ress) s = concat ress).
Proof.
  intros V maxb cap ress k s Hm Hp Hk Hs Hf.
  assert (HI : Ginv (length ress) maxb ress s) by (eapply ginv_steps; eauto).
  assert (Ho : x_out (s_rx s) = tl ress) by (eapply (ginv_final (length ress) maxb ress); auto).
  destruct ress as [|d ds]; [cbn in Hp; lia|]. cbn [hd]. split; [rewrite Ho; reflexivity|]. split.
  - intros r Hr. destruct (Nat.eq_dec r 0) as [|Hr0]; [auto|left].
    destruct HI as (_ & _ & _ & I4 & _). destruct Hf as [Hf1 Hf2].
    specialize (I4 r ltac:(lia) ltac:(lia)). unfold stream in I4. apply app_eq_nil in I4. tauto.
  - intros Hn. unfold allresults. rewrite Ho. apply (update_all_fresh (d :: ds) []). exact Hn.
Qed.
Print Assumptions C14_gather_delivers.

Fixpoint exd (b : Z) (n : nat) : dict Z := match n with 0 => [] | S n => (b, b)%Z :: exd (b + 1) n end.
(* counts 0, below, exact multiple, above *)
Example C14_ex_messages :
  sender_msgs 3 (exd 0 0) = [MCount 1; MDict []] /\
  sender_msgs 3 (exd 0 2) = [MCount 1; MDict (exd 0 2)] /\
  sender_msgs 3 (exd 0 6) = [MCount 2; MDict (exd 0 3); MDict (exd 3 3)] /\
  sender_msgs 3 (exd 0 7) = [MCount 3; MDict (exd 0 3); MDict (exd 3 3); MDict (exd 6 1)].
Proof. vm_compute. repeat split. Qed.
Example C14_ex_run : exists k s, gsteps 2 0 k (gather_init 1 [exd 0 1; exd 5 1]) s /\ gather_finished 2 s.
Proof.
  eexists 2, _. split.
  - eapply GS_S; [eapply GS_S; [apply GS_0|]|].
    + eapply G_rendezvous; cbn; try reflexivity; lia.
    + eapply G_rendezvous; cbn; try reflexivity; lia.
  - split; cbn; [lia|]. intros r H1 H2. assert (r = 1) as -> by lia. reflexivity.
Qed.

(* ---------------- C20 ---------------- *)
(* P ranks, T templates, buffered or synchronous sends. *)
Theorem C20_ring_terminates : forall P T eager k s, 0 < P ->
  ring_steps P T eager k (ring_init T) s ->
  k <= 3 * (T * P) * P /\ (ring_finished P s \/ exists s', ring_step P T eager s s').
Proof.
  intros P T eager k s HP Hs.
  assert (HI : Inv P T k s) by (eapply inv_steps; eauto). split.
  - eapply inv_bound; eauto.
  - eapply inv_progress; eauto.
Qed.
Print Assumptions C20_ring_terminates.

Theorem C20_ring_each_slice_once : forall P T eager k s r, 0 < P ->
  ring_steps P T eager k (ring_init T) s -> ring_finished P s -> r < P ->
  (forall t, t < T -> Permutation (idxs_of t (k_log (g_rk s r))) (seq 0 P)) /\
  length (k_log (g_rk s r)) = T * P /\
  (0 < T -> k_hold (g_rk s r) = (T - 1, r)) /\
  g_chan s r = [].
Proof.
  intros P T eager k s r HP Hs Hf Hr.
  assert (HI : Inv P T k s) by (eapply inv_steps; eauto).
  destruct (inv_final P T HP k s r HI Hf Hr) as (Hl & Hh & Hc). split; [|split; [|split; assumption]].
  - intros t Ht. rewrite Hl, (hist_idxs P T) by assumption. apply ring_idxs_perm; assumption.
  - rewrite Hl. unfold hist. rewrite map_length, seq_length. reflexivity.
Qed.
Print Assumptions C20_ring_each_slice_once.

(* in every intermediate state no rank has processed a slice twice *)
Theorem C20_ring_never_repeats : forall P T eager k s r, 0 < P ->
  ring_steps P T eager k (ring_init T) s -> r < P -> NoDup (k_log (g_rk s r)).
Proof.
  intros P T eager k s r HP Hs Hr.
  assert (HI : Inv P T k s) by (eapply inv_steps; eauto).
  destruct HI as (n & Hrk & _). specialize (Hrk r Hr). unfold rank_ok in Hrk.
  assert (Hd : forall m, NoDup (hist P r m)).
  { intros m. unfold hist. apply NoDup_nth_error. rewrite map_length, seq_length.
    intros i j Hi E. rewrite nth_error_map in E. destruct (nth_error (seq 0 m) i) as [a|] eqn:Ea.
    2:{ apply nth_error_None in Ea. rewrite seq_length in Ea. lia. }
    rewrite nth_error_map in E. destruct (nth_error (seq 0 m) j) as [b|] eqn:Eb; [|discriminate].
    cbn in E. injection E as E1 E2.
    assert (a = i) by (apply nth_error_nth with (d := 0) in Ea; rewrite seq_nth in Ea; lia).
    assert (Hj : j < m) by (apply nth_error_Some_lt in Eb; rewrite seq_length in Eb; exact Eb).
    assert (b = j) by (apply nth_error_nth with (d := 0) in Eb; rewrite seq_nth in Eb; lia).
    subst a b.
    assert (Ha : i mod P < P) by (apply Nat.mod_upper_bound; lia).
    assert (Hb : j mod P < P) by (apply Nat.mod_upper_bound; lia).
    rewrite !idx_eq in E2 by assumption.
    assert (i mod P = j mod P).
    { destruct (Nat.leb_spec (i mod P) r), (Nat.leb_spec (j mod P) r); lia. }
    rewrite (Nat.div_mod i P), (Nat.div_mod j P) by lia. congruence. }
  revert Hrk. destruct (k_phase (g_rk s r)); intros Hrk;
    repeat match goal with H : _ /\ _ |- _ => destruct H end;
    match goal with H : k_log _ = _ |- _ => rewrite H; apply Hd end.
Qed.
Print Assumptions C20_ring_never_repeats.

(* the hypotheses above are met: from every start a finished state is reached *)
Lemma run_exists {A} (steps : nat -> A -> A -> Prop) (step : A -> A -> Prop) (fin : A -> Prop) (init : A) bound :
  steps 0 init init -> (forall k s s', steps k init s -> step s s' -> steps (S k) init s') ->
  (forall k s, steps k init s -> k <= bound /\ (fin s \/ exists s', step s s')) ->
  exists k s, steps k init s /\ fin s.
Proof.
  intros H0 HS HB.
  assert (G : forall n k s, steps k init s -> bound <= n + k -> exists k s, steps k init s /\ fin s).
  { induction n as [|n IH]; intros k s Hs Hn; destruct (HB k s Hs) as [Hk [Hf|[s' Hs']]]; eauto.
    - destruct (HB (S k) s' (HS _ _ _ Hs Hs')) as [Hk' _]. lia.
    - apply (IH (S k) s'); [eauto|lia]. }
  apply (G bound 0 init H0). lia.
Qed.
Theorem C20_finished_run_exists : forall P T eager, 0 < P ->
  exists k s, ring_steps P T eager k (ring_init T) s /\ ring_finished P s.
Proof.
  intros P T eager HP. apply (run_exists (ring_steps P T eager) (ring_step P T eager) _ _ (3 * (T * P) * P)).
  - constructor.
  - intros; econstructor; eassumption.
  - intros. apply C20_ring_terminates; assumption.
Qed.
Theorem C14_finished_run_exists : forall V (maxb cap : nat) (ress : list (dict V)),
  0 < maxb -> 1 <= length ress -> Forall (fun d => NoDup (map fst d)) ress ->
  exists k s, gsteps (length ress) cap k (gather_init maxb ress) s /\ gather_finished (length ress) s.
Proof.
  intros V maxb cap ress Hm Hp Hk. destruct (C14_gather_terminates V maxb cap ress Hm Hp Hk) as (b & Hb).
  apply (run_exists (gsteps (length ress) cap) (gstep (length ress) cap) _ _ b).
  - constructor.
  - intros; econstructor; eassumption.
  - exact Hb.
Qed.

(* ---------------- C21 ---------------- *)
Theorem C21_distributed_scan_equals_serial : forall A C (f : A -> C) (zs : list A) P T eager k s r t sl,
  0 < P -> ring_steps P T eager k (ring_init T) s -> ring_finished P s -> r < P -> t < T ->
  array_split zs P = Ok sl ->
  assemble (scan_dict f sl (idxs_of t (k_log (g_rk s r)))) = map f zs.
Proof.
  intros A C f zs P T eager k s r t sl HP Hs Hf Hr Ht Hsl.
  destruct (array_split_spec zs P HP) as (d & Ed & Hl & Hc & _). rewrite Hsl in Ed; injection Ed as <-.
  destruct (C20_ring_each_slice_once P T eager k s r HP Hs Hf Hr) as [Hp _].
  rewrite assemble_ok; [rewrite Hc; reflexivity|]. rewrite Hl. apply Hp, Ht.
Qed.
Print Assumptions C21_distributed_scan_equals_serial.

(* ---------------- C15 ---------------- *)
Lemma fst_map_pair {A V} (g : A -> Z) (h : A -> V) l : map fst (map (fun x => (g x, h x)) l) = map g l.
Proof. rewrite map_map. apply map_ext. reflexivity. Qed.

Lemma concat_map_map {A B} (g : A -> B) ls : concat (map (map g) ls) = map g (concat ls).
Proof. symmetry. apply concat_map. Qed.

(* locals: which targets each rank has; any partition. *)
Theorem C15_results_independent_of_distribution :
  forall D Z' C V (T : nat) (zs : nat -> list Z') (chi2 : tgt D -> nat -> Z' -> C)
    (fit : tgt D -> list (list C) -> V) (targets : list (tgt D)) (locals : list (list (tgt D)))
    eager cap maxb kr sr ress kg sg,
  let P := length locals in
  0 < P -> 0 < maxb ->
  NoDup (map t_id targets) -> Permutation (concat locals) targets ->
  ring_steps P T eager kr (ring_init T) sr -> ring_finished P sr ->
  mapM (fun r => rank_results T P zs chi2 fit (nth r locals []) (k_log (g_rk sr r))) (seq 0 P) = Ok ress ->
  gsteps P cap kg (gather_init maxb ress) sg -> gather_finished P sg ->
  let out := allresults (hd [] ress) sg in
  let ref := serial_results T zs chi2 fit targets in
  Permutation out ref /\ (forall i, dget out i = dget ref i).
Proof.
  intros D Z' C V T zs chi2 fit targets locals eager cap maxb kr sr ress kg sg P HP Hm Hn Hperm Hr Hrf Hres Hg Hgf out ref.
  assert (E : ress = map (serial_results T zs chi2 fit) locals).
  { assert (G : mapM (fun r => rank_results T P zs chi2 fit (nth r locals []) (k_log (g_rk sr r))) (seq 0 P)
                = Ok (map (fun r => serial_results T zs chi2 fit (nth r locals [])) (seq 0 P))).
    { assert (Hin : forall r, In r (seq 0 P) -> r < P) by (intros r Hr'; apply in_seq in Hr'; lia).
      revert Hin. generalize (seq 0 P) as l. induction l as [|r l IH]; intros Hin; [reflexivity|].
      cbn [mapM map]. rewrite IH by (intros; apply Hin; right; assumption). clear IH.
      assert (Hrk : rank_results T P zs chi2 fit (nth r locals []) (k_log (g_rk sr r)) = Ok (serial_results T zs chi2 fit (nth r locals []))).
      { unfold rank_results, serial_results.
        assert (Hsl : exists sl, mapM (fun t => array_split (zs t) P) (seq 0 T) = Ok sl /\
            forall t, t < T -> array_split (zs t) P = Ok (nth t sl [])).
        { destruct (mapM_ok (fun t => array_split (zs t) P) (fun t d => array_split (zs t) P = Ok d) (seq 0 T)) as (sl & Esl & HF).
          - intros t _. destruct (array_split_spec (zs t) P HP) as (d & Ed & _). exists d; split; assumption.
          - exists sl. split; [exact Esl|]. intros t Ht.
            destruct (Forall2_nth _ _ _ t t HF) as (b & Hb & Hb').
            + rewrite (nth_error_nth' _ 0) by (rewrite seq_length; exact Ht). rewrite seq_nth by exact Ht. reflexivity.
            + rewrite (nth_error_nth _ _ _ Hb). exact Hb'. }
        destruct Hsl as (sl & Esl & Hsl). rewrite Esl. cbn [rbind]. f_equal. apply map_ext. intros x. f_equal. f_equal.
        apply map_ext_in. intros t Ht. apply in_seq in Ht.
        eapply (C21_distributed_scan_equals_serial _ _ _ _ P T eager kr); [exact HP|exact Hr|exact Hrf|apply Hin; left; reflexivity|lia|apply Hsl; lia]. }
      rewrite Hrk. reflexivity. }
    rewrite G in Hres. injection Hres as <-. unfold P.
    rewrite <- (map_map (fun r => nth r locals []) (serial_results T zs chi2 fit)), map_nth_seq. reflexivity. }
  assert (Hlen : length ress = P) by (rewrite E, map_length; reflexivity).
  assert (Hc : concat ress = serial_results T zs chi2 fit (concat locals)).
  { rewrite E. unfold serial_results. apply concat_map_map. }
  assert (Hk : forall l, map fst (serial_results T zs chi2 fit l) = map t_id l) by (intros l; unfold serial_results; apply fst_map_pair).
  assert (Hnc : NoDup (map t_id (concat locals))) by (eapply Permutation_NoDup; [apply Permutation_map; symmetry; exact Hperm|exact Hn]).
  assert (Ho : out = concat ress).
  { unfold out. rewrite <- Hlen in Hg, Hgf.
    eapply (C14_gather_delivers V maxb cap ress kg sg); try eassumption; [lia| |].
    - rewrite E. apply Forall_forall. intros d Hd. apply in_map_iff in Hd as (l & <- & Hl). rewrite Hk.
      apply In_nth_error in Hl as [q Hq]. rewrite (in_concat_nth _ _ _ Hq), !map_app in Hnc.
      apply NoDup_app_r in Hnc. apply NoDup_app_l in Hnc. exact Hnc.
    - rewrite Hc, Hk. exact Hnc. }
  assert (Hpm : Permutation out ref) by (rewrite Ho, Hc; apply Permutation_map; exact Hperm).
  split; [exact Hpm|]. intros i.
  assert (N1 : NoDup (map fst out)) by (rewrite Ho, Hc, Hk; exact Hnc).
  assert (N2 : NoDup (map fst ref)) by (unfold ref; rewrite Hk; exact Hn).
  destruct (dget out i) as [v|] eqn:Ev.
  - symmetry. apply dget_in; [exact N2|]. eapply Permutation_in; [exact Hpm|]. apply dget_in; assumption.
  - destruct (dget ref i) as [v|] eqn:Er; [|reflexivity].
    apply dget_in in Er; [|exact N2]. eapply Permutation_in in Er; [|symmetry; exact Hpm].
    apply dget_in in Er; [congruence|exact N1].
Qed.
Print Assumptions C15_results_independent_of_distribution.

(* ---------------- worker processes ---------------- *)
(* generic: results are stored under the ids of the data that produced them *)
Lemma own_keys_final {D V} (f : tgt D -> res V) (ts : list (tgt D)) (ml : list (list Z)) keys wp k s d :
  NoDup (map t_id ts) -> Permutation (concat ml) (map t_id ts) ->
  keys = map (fun l => map t_id (worker_data ts l)) ml ->
  (forall t, In t ts -> exists v, f t = Ok v) ->
  mp_steps f (map (worker_data ts) ml) keys wp k (mp_init (map (worker_data ts) ml) wp) s -> m_par s = PEnd d ->
  (forall t v, In t ts -> f t = Ok v -> dget d (t_id t) = Some v) /\
  (forall i, dget d i <> None -> In i (map t_id ts)).
Proof.
  intros Hn Hp -> Hok Hs Hd.
  assert (HI : MInv f (map (worker_data ts) ml) (map (fun l => map t_id (worker_data ts l)) ml) wp s) by (eapply minv_steps; eauto).
  assert (Hk : NoDup (concat (map (fun l => map t_id (worker_data ts l)) ml))) by (apply fit_keys_nodup; assumption).
  split.
  - intros t v Ht Hv. destruct (worker_has ts ml t Hn Hp Ht) as (i & j & Hi & Hj).
    eapply (minv_final f (map (worker_data ts) ml)); [|exact HI|exact Hd|exact Hk| |].
    + intros u Hu. apply Hok. eapply worker_in; exact Hu.
    + rewrite map_length. exact Hi.
    + exists t. rewrite nth_map_worker by exact Hi. rewrite (nth_map_any (fun l => map t_id (worker_data ts l))) by exact Hi.
      rewrite nth_error_map, Hj. auto.
  - intros i Hi. pose proof HI as (_ & C & _ & Hp'). rewrite Hd in Hp'. destruct Hp' as (_ & -> & _).
    apply collected_keys in Hi. apply in_concat_iff in Hi as (l & Hl & Hin). apply in_map_iff in Hl as (ids & <- & _).
    apply in_map_iff in Hin as (t & <- & Ht). apply filter_In in Ht as [Ht _]. apply in_map, Ht.
Qed.

Lemma mp_live {D V} (f : tgt D -> res V) (ts : list (tgt D)) ml keys wp k s :
  (forall t, In t ts -> exists v, f t = Ok v) ->
  mp_steps f (map (worker_data ts) ml) keys wp k (mp_init (map (worker_data ts) ml) wp) s ->
  k <= mm (map (worker_data ts) ml) (mp_init (V:=V) (map (worker_data ts) ml) wp) /\
  ((exists d, m_par s = PEnd d) \/ exists s', mp_step f (map (worker_data ts) ml) keys wp s s').
Proof.
  intros Hok Hs. split.
  - pose proof (mm_steps _ _ _ _ _ _ Hs). lia.
  - eapply minv_progress; [|eapply minv_steps; exact Hs]. intros u Hu. apply Hok. eapply worker_in; exact Hu.
Qed.

(* ---------------- C23 ---------------- *)
(* f t = Ok v: fitting target t serially gives v *)
Theorem C23_fit_schedule_independent : forall D V (f : tgt D -> res V) (local : list (tgt D)) nproc,
  0 < nproc -> NoDup (map t_id local) -> (forall t, In t local -> exists v, f t = Ok v) ->
  exists data keys bound, fit_config local nproc = Ok (data, keys) /\
      forall k s, mp_steps f data keys false k (mp_init data false) s ->
      k <= bound /\
      ((exists d, m_par s = PEnd d) \/ exists s', mp_step f data keys false s s') /\
      (forall d, m_par s = PEnd d ->
         (forall t v, In t local -> f t = Ok v -> dget d (t_id t) = Some v) /\
         (forall i, dget d i <> None -> In i (map t_id local))).
Proof.
  intros D V f local nproc Hn Hnd Hok.
  destruct (distribute_targets_ok local nproc Hn) as (ml & E & Hl & Hp).
  unfold fit_config. rewrite E. cbn [rbind].
  eexists _, _, _. split; [reflexivity|]. intros k s Hs.
  destruct (mp_live f local ml _ false k s Hok Hs) as [H1 H2]. split; [exact H1|]. split; [exact H2|].
  intros d Hd. eapply own_keys_final; eauto.
Qed.
Print Assumptions C23_fit_schedule_independent.

(* ---------------- C22 ---------------- *)
Definition scanval (t : tgt Z) : res Z := Ok (t_data t).
Definition tA := Build_tgt 1%Z 1 100%Z.   (* id, number of spectra, data *)
Definition tB := Build_tgt 2%Z 3 200%Z.
Definition tC := Build_tgt 3%Z 5 300%Z.

(* three targets, two processes: every complete run gives target 1 the chi2 of
   target 2 and target 2 that of target 1; and a complete run exists. *)
Theorem C22_scan_swaps_targets_refuted :
  exists (local : list (tgt Z)) nproc data keys,
    NoDup (map t_id local) /\ scan_config local nproc = Ok (data, keys) /\
    (exists k s d, mp_steps scanval data keys true k (mp_init data true) s /\ m_par s = PEnd d) /\
    (forall k s d, mp_steps scanval data keys true k (mp_init data true) s -> m_par s = PEnd d ->
       dget d 1%Z = Some 200%Z /\ dget d 2%Z = Some 100%Z) /\
    In tA local /\ t_id tA = 1%Z /\ scanval tA = Ok 100%Z.
Proof.
  exists [tA; tB; tC], 2, [[tC]; [tA; tB]], [[3]; [2; 1]]%Z.
  split; [repeat constructor; cbn; intuition discriminate|]. split; [vm_compute; reflexivity|].
  assert (Hok : forall t, In t (concat [[tC]; [tA; tB]]) -> exists v, scanval t = Ok v) by (intros t _; exists (t_data t); reflexivity).
  split; [|split; [|split; [left; reflexivity|split; reflexivity]]].
  - destruct (maximal_run scanval [[tC]; [tA; tB]] [[3]; [2; 1]]%Z true) as (k & s & Hs & Hno).
    exists k, s. destruct (minv_progress scanval [[tC]; [tA; tB]] [[3]; [2; 1]]%Z true Hok s) as [[d Hd]|Hst].
    + eapply minv_steps; exact Hs.
    + exists d. split; assumption.
    + contradiction.
  - intros k s d Hs Hd.
    assert (HI : MInv scanval [[tC]; [tA; tB]] [[3]; [2; 1]]%Z true s) by (eapply minv_steps; exact Hs).
    assert (Hn : NoDup (concat [[3]; [2; 1]]%Z)) by (cbn; repeat constructor; cbn; intuition discriminate).
    split.
    + eapply (minv_final scanval _ _ _ Hok s d HI Hd Hn 1 1); [cbn; lia|]. exists tB. repeat split.
    + eapply (minv_final scanval _ _ _ Hok s d HI Hd Hn 1 0); [cbn; lia|]. exists tA. repeat split.
Qed.
Print Assumptions C22_scan_swaps_targets_refuted.

Lemma tw_in {D} (ts : list (tgt D)) t : NoDup (map t_id ts) -> In t ts -> tw ts (t_id t) = inject_Z (Z.of_nat (t_nspec t)).
Proof.
  intros Hn Ht. unfold tw, tweights.
  destruct (find (fun t0 => Z.eqb (t_id t0) (t_id t)) (rev ts)) as [u|] eqn:E.
  - apply find_some in E as [Hu E]. apply Z.eqb_eq in E. apply in_rev in Hu.
    assert (u = t) as ->; [|reflexivity]. revert E. clear - Hn Ht Hu.
    induction ts as [|a ts IH]; [destruct Ht|]. cbn [map] in Hn. inversion Hn as [|? ? Hx Hm]; subst. intros E.
    destruct Ht as [->|Ht], Hu as [->|Hu]; auto.
    + exfalso; apply Hx. rewrite <- E. apply in_map, Hu.
    + exfalso; apply Hx. rewrite E. apply in_map, Ht.
  - eapply find_none in E; [|apply in_rev; rewrite rev_involutive; exact Ht]. rewrite Z.eqb_refl in E; discriminate.
Qed.

(* what holds: if the local targets are in order of decreasing number of
   spectra, every target gets its own result in every schedule *)
Theorem C22_scan_sorted_targets_partial : forall D V (f : tgt D -> res V) (local : list (tgt D)) nproc,
  0 < nproc -> NoDup (map t_id local) ->
  StronglySorted (fun a b => t_nspec b <= t_nspec a) local ->
  (forall t, In t local -> exists v, f t = Ok v) ->
  exists data keys bound, scan_config local nproc = Ok (data, keys) /\
    forall k s, mp_steps f data keys true k (mp_init data true) s ->
      k <= bound /\
      ((exists d, m_par s = PEnd d) \/ exists s', mp_step f data keys true s s') /\
      (forall d, m_par s = PEnd d ->
         (forall t v, In t local -> f t = Ok v -> dget d (t_id t) = Some v) /\
         (forall i, dget d i <> None -> In i (map t_id local))).
Proof.
  intros D V f local nproc Hn Hnd Hso Hok.
  destruct (distribute_work_greedy nproc (map t_id local) (Some (tweights local)) None (tw local))
    as (ml & E & Hl & Hp & wt' & Hwt & Hg); [intros x Hx; apply tweights_tot, Hx|exact Hn|apply repeat_length|apply Forall_pos_repeat|].
  assert (Hid : by_weight wt' (map t_id local) = map t_id local).
  { unfold by_weight. apply isort_id.
    assert (Hw : forall t, In t local -> wt' (t_id t) = inject_Z (Z.of_nat (t_nspec t))).
    { intros t Ht. rewrite Hwt by (apply in_map, Ht). apply tw_in; assumption. }
    clear - Hso Hw. induction Hso as [|a l Hs IH Hall]; cbn [map]; constructor.
    - apply IH. intros; apply Hw; right; assumption.
    - apply Forall_forall. intros x Hx. apply in_map_iff in Hx as (b & <- & Hb). apply Qle_bool_iff.
      rewrite !Hw by (try (left; reflexivity); right; exact Hb). rewrite <- Zle_Qle.
      rewrite Forall_forall in Hall. specialize (Hall b Hb). lia. }
  rewrite Hid in Hg.
  assert (Hk : ml = map (fun l => map t_id (worker_data local l)) ml).
  { rewrite <- (map_id ml) at 1. apply map_ext_in. intros l Hin.
    apply In_nth with (d := []) in Hin as (i & Hi & <-). symmetry.
    apply worker_data_subseq; [exact Hnd|]. eapply greedy_subseq; exact Hg. }
  unfold scan_config, distribute_targets. rewrite E. cbn [rbind].
  eexists _, _, _. split; [reflexivity|]. intros k s Hs.
  destruct (mp_live f local ml _ true k s Hok Hs) as [H1 H2]. split; [exact H1|]. split; [exact H2|].
  intros d Hd. eapply own_keys_final; eauto.
Qed.
Print Assumptions C22_scan_sorted_targets_partial.
Example C22_ex : scan_config [tC; tB; tA] 2 = Ok ([[tC]; [tB; tA]], [[3]; [2; 1]]%Z).
Proof. vm_compute. reflexivity. Qed.

(* ---------------- C26 ---------------- *)
(* whatever the schedule, if one target's computation raises the parent never
   gets past the loop: no run ends, and a state with nothing left to do is reached *)
Theorem C26_failing_worker_hangs_refuted : forall D V (f : tgt D -> res V) (local : list (tgt D)) nproc t e cfg wp data keys,
  0 < nproc -> NoDup (map t_id local) -> In t local -> f t = Err e ->
  (cfg = scan_config local nproc /\ wp = true) \/ (cfg = fit_config local nproc /\ wp = false) ->
  cfg = Ok (data, keys) ->
  (forall k s d, mp_steps f data keys wp k (mp_init data wp) s -> m_par s <> PEnd d) /\
  (exists k s, mp_steps f data keys wp k (mp_init data wp) s /\ ~ exists s', mp_step f data keys wp s s').
Proof.
  intros D V f local nproc t e cfg wp data keys Hn Hnd Ht He Hcfg Ec.
  destruct (distribute_targets_ok local nproc Hn) as (ml & E & Hl & Hp).
  assert (Hdata : data = map (worker_data local) ml).
  { destruct Hcfg as [[-> _]|[-> _]]; unfold scan_config, fit_config in Ec; rewrite E in Ec; cbn [rbind] in Ec; congruence. }
  split; [|apply maximal_run].
  intros k s d Hs. eapply never_ends; [eapply minv_steps; exact Hs| |exact He].
  rewrite Hdata. destruct (worker_has local ml t Hnd Hp Ht) as (i & j & Hi & Hj).
  apply in_concat_iff. exists (worker_data local (nth i ml [])). split; [|eapply nth_error_In; exact Hj].
  apply in_map, nth_In, Hi.
Qed.
Print Assumptions C26_failing_worker_hangs_refuted.

Theorem C26_no_failure_terminates_partial : forall D V (f : tgt D -> res V) (local : list (tgt D)) nproc cfg wp data keys,
  0 < nproc -> (forall t, In t local -> exists v, f t = Ok v) ->
  (cfg = scan_config local nproc /\ wp = true) \/ (cfg = fit_config local nproc /\ wp = false) ->
  cfg = Ok (data, keys) ->
  exists bound, forall k s, mp_steps f data keys wp k (mp_init data wp) s ->
    k <= bound /\ ((exists d, m_par s = PEnd d) \/ exists s', mp_step f data keys wp s s').
Proof.
  intros D V f local nproc cfg wp data keys Hn Hok Hcfg Ec.
  destruct (distribute_targets_ok local nproc Hn) as (ml & E & Hl & Hp).
  assert (Hdata : data = map (worker_data local) ml).
  { destruct Hcfg as [[-> _]|[-> _]]; unfold scan_config, fit_config in Ec; rewrite E in Ec; cbn [rbind] in Ec; congruence. }
  subst data. eexists. intros k s Hs. eapply mp_live; eassumption.
Qed.
Print Assumptions C26_no_failure_terminates_partial.
