From Verif Require Import Prelude PreludeFacts Model_Dist Spec_Dist Model_MP Proof_Dist Proof_Dist2 Proof_Dist3 Proof_Ring.

Section MPProof.
Context {D V : Type}.
Variables (f : tgt D -> res V) (data : list (list (tgt D))) (keys : list (list Z)) (wp : bool).
Notation step := (mp_step f data keys wp).
Notation init := (mp_init (V:=V) data wp).
Let n := length data.

Lemma wupd_same (w : nat -> wstate D V) i x : wupd w i x i = x.
Proof. unfold wupd; rewrite Nat.eqb_refl; reflexivity. Qed.
Lemma wupd_other (w : nat -> wstate D V) i x k : k <> i -> wupd w i x k = w k.
Proof. intros H; unfold wupd; destruct (Nat.eqb_spec k i); [congruence|reflexivity]. Qed.

Definition did (w : wstate D V) : nat :=
  match w with WRun _ acc | WEnd acc | WFail acc => length acc | WNone => 0 end.
Definition wok (i : nat) (w : wstate D V) : Prop :=
  let l := nth i data [] in
  match w with
  | WNone => l = []
  | WRun todo acc => l <> [] /\ exists done, l = done ++ todo /\ Forall2 (fun t v => f t = Ok v) done acc
  | WEnd acc => l <> [] /\ Forall2 (fun t v => f t = Ok v) l acc
  | WFail acc => exists done t ts e, l = done ++ t :: ts /\ f t = Err e /\ Forall2 (fun t v => f t = Ok v) done acc
  end.
Definition ended1 (w : nat -> wstate D V) i : list (nat * list V) := match w i with WEnd acc => [(i, acc)] | _ => [] end.
Definition ended (w : nat -> wstate D V) (m : nat) := concat (map (ended1 w) (seq 0 m)).

Lemma ended_S w m : ended w (S m) = ended w m ++ ended1 w m.
Proof. unfold ended. rewrite seq_S, map_app, concat_app. cbn [map concat Nat.add]. rewrite app_nil_r. reflexivity. Qed.
Lemma ended_ext w w' m : (forall i, i < m -> w i = w' i) -> ended w m = ended w' m.
Proof.
  induction m as [|m IH]; intros H; [reflexivity|]. rewrite !ended_S, IH by (intros; apply H; lia).
  unfold ended1. rewrite H by lia. reflexivity.
Qed.
Lemma ended_upd_same w i x m : ended1 w i = [] -> match x with WEnd _ => False | _ => True end ->
  ended (wupd w i x) m = ended w m.
Proof.
  intros H1 H2. induction m as [|m IH]; [reflexivity|]. rewrite !ended_S, IH. f_equal.
  unfold ended1 in *. destruct (Nat.eq_dec m i) as [->|Hne]; [|rewrite wupd_other by exact Hne; reflexivity].
  rewrite wupd_same, H1. destruct x; tauto.
Qed.
Lemma ended_upd_end w i acc m : ended1 w i = [] -> i < m ->
  Permutation ((i, acc) :: ended w m) (ended (wupd w i (WEnd acc)) m).
Proof.
  intros H1. induction m as [|m IH]; intros Hi; [lia|]. rewrite !ended_S.
  destruct (Nat.eq_dec m i) as [->|Hne].
  - rewrite (ended_ext (wupd w i (WEnd acc)) w) by (intros; apply wupd_other; lia).
    unfold ended1 at 2. rewrite wupd_same. rewrite H1, app_nil_r. apply Permutation_cons_append.
  - rewrite <- (IH ltac:(lia)). unfold ended1 at 2. rewrite wupd_other by exact Hne. fold (ended1 w m). reflexivity.
Qed.
Lemma ended_in w m i vals : In (i, vals) (ended w m) -> w i = WEnd vals /\ i < m.
Proof.
  induction m as [|m IH]; [intros []|]. rewrite ended_S. intros H. apply in_app_or in H as [H|H].
  - destruct (IH H); split; [assumption|lia].
  - unfold ended1 in H. destruct (w m) as [| |acc|] eqn:E; [destruct H|destruct H| |destruct H].
    destruct H as [H|[]]. injection H as -> ->. auto.
Qed.
Lemma ended_nodup w m : NoDup (map fst (ended w m)).
Proof.
  induction m as [|m IH]; [constructor|]. rewrite ended_S, map_app. unfold ended1.
  destruct (w m) as [|? ?|acc|] eqn:E; cbn [map]; rewrite ?app_nil_r; try exact IH.
  cbn [fst]. apply (Permutation_NoDup (l := m :: map fst (ended w m))).
  - apply Permutation_cons_append.
  - constructor; [|exact IH]. intros Hc. apply in_map_iff in Hc as ([i v] & Hi & Hin). cbn in Hi; subst i.
    apply ended_in in Hin as [_ H]. lia.
Qed.

Definition collected (C : list (nat * list V)) : dict V :=
  fold_left (fun d iv => store (nth (fst iv) keys []) (snd iv) d) C [].

Definition MInv (s : mpst D V) : Prop :=
  (forall i, i < n -> wok i (m_w s i)) /\
  exists C, Permutation (C ++ m_out s) (ended (m_w s) n) /\
  match m_par s with
  | PProg tot => wp = true /\ C = [] /\ tot <= ntarget data /\
      m_prog s + tot = sumf (fun i => did (m_w s i)) n
  | POut k d => k + length C = nprocs data /\ d = collected C /\
      (wp = true -> ntarget data <= sumf (fun i => did (m_w s i)) n)
  | PEnd d => length C = nprocs data /\ d = collected C /\
      (wp = true -> ntarget data <= sumf (fun i => did (m_w s i)) n)
  end.

Lemma ended_init m : ended (m_w init) m = [].
Proof.
  induction m as [|m IH]; [reflexivity|]. rewrite ended_S, IH. unfold ended1; cbn.
  destruct (nth m data []); reflexivity.
Qed.

Lemma minv_init : MInv init.
Proof.
  split.
  - intros i Hi. cbn. unfold wok. destruct (nth i data []) eqn:E; [reflexivity|]. split; [discriminate|].
    exists []; split; [reflexivity|constructor].
  - exists []. rewrite ended_init. split; [constructor|]. cbn. destruct wp.
    + repeat split; [lia|]. cbn. clear. induction n as [|m IH]; cbn; [reflexivity|].
      rewrite <- IH. destruct (nth m data []); cbn; lia.
    + split; [cbn; lia|]. split; [reflexivity|discriminate].
Qed.

Lemma sum_did_upd w i x v :
  i < n -> did x = did (w i) + v ->
  sumf (fun k => did (wupd w i x k)) n = sumf (fun k => did (w k)) n + v.
Proof.
  intros Hi H. pose proof (sumf_upd (fun k => did (w k)) (fun k => did (wupd w i x k)) n i Hi) as E.
  cbv beta in E. rewrite wupd_same, H in E.
  assert (E' := E ltac:(intros k _ Hk; rewrite wupd_other by exact Hk; reflexivity)). lia.
Qed.

Lemma collected_snoc C iv : collected (C ++ [iv]) = store (nth (fst iv) keys []) (snd iv) (collected C).
Proof. unfold collected. rewrite fold_left_app. reflexivity. Qed.

Lemma minv_step s s' : MInv s -> step s s' -> MInv s'.
Proof.
  intros (Hw & C & HC & Hp) Hst.
  destruct Hst as [i t ts acc v Hi Hs Hf|i t ts acc e Hi Hs Hf|i acc Hi Hs|tot p Hpar Ht Hq|tot Hpar Ht|k d i vals q1 q2 Hpar Hq|d Hpar Hall].
  - pose proof (Hw i Hi) as Hok. rewrite Hs in Hok. destruct Hok as (Hne & done & Hl & HF).
    split; cbn [m_w].
    + intros k Hk. destruct (Nat.eq_dec k i) as [->|Hne']; [rewrite wupd_same|rewrite wupd_other by exact Hne'; apply Hw, Hk].
      split; [exact Hne|]. exists (done ++ [t]). split; [rewrite Hl, <- app_assoc; reflexivity|].
      apply Forall2_app; [exact HF|constructor; [exact Hf|constructor]].
    + exists C. cbn [m_out m_par m_prog m_w].
      rewrite ended_upd_same; [|unfold ended1; rewrite Hs; reflexivity|exact I]. split; [exact HC|].
      assert (Hsd : sumf (fun k => did (wupd (m_w s) i (WRun ts (acc ++ [v])) k)) n = sumf (fun k => did (m_w s k)) n + 1).
      { apply sum_did_upd; [exact Hi|]. rewrite Hs. cbn [did]. rewrite app_length. reflexivity. }
      rewrite Hsd. destruct (m_par s).
      * destruct Hp as (-> & HC0 & Hle & Hsum). repeat split; auto. lia.
      * destruct Hp as (H1 & H2 & H3). repeat split; auto. intros Hc; specialize (H3 Hc); lia.
      * destruct Hp as (H1 & H2 & H3). repeat split; auto. intros Hc; specialize (H3 Hc); lia.
  - pose proof (Hw i Hi) as Hok. rewrite Hs in Hok. destruct Hok as (Hne & done & Hl & HF).
    split; cbn [m_w].
    + intros k Hk. destruct (Nat.eq_dec k i) as [->|Hne']; [rewrite wupd_same|rewrite wupd_other by exact Hne'; apply Hw, Hk].
      exists done, t, ts, e. auto.
    + exists C. cbn [m_out m_par m_prog m_w].
      rewrite ended_upd_same; [|unfold ended1; rewrite Hs; reflexivity|exact I]. split; [exact HC|].
      assert (Hsd : sumf (fun k => did (wupd (m_w s) i (WFail acc) k)) n = sumf (fun k => did (m_w s k)) n + 0).
      { apply sum_did_upd; [exact Hi|]. rewrite Hs. cbn [did]. lia. }
      rewrite Hsd, Nat.add_0_r. exact Hp.
  - pose proof (Hw i Hi) as Hok. rewrite Hs in Hok. destruct Hok as (Hne & done & Hl & HF). rewrite app_nil_r in Hl.
    split; cbn [m_w].
    + intros k Hk. destruct (Nat.eq_dec k i) as [->|Hne']; [rewrite wupd_same|rewrite wupd_other by exact Hne'; apply Hw, Hk].
      split; [exact Hne|]. rewrite Hl. exact HF.
    + exists C. cbn [m_out m_par m_prog m_w].
      split.
      * rewrite <- (ended_upd_end (m_w s) i acc n); [|unfold ended1; rewrite Hs; reflexivity|exact Hi].
        rewrite <- HC. symmetry; apply Permutation_middle.
      * assert (Hsd : sumf (fun k => did (wupd (m_w s) i (WEnd acc) k)) n = sumf (fun k => did (m_w s k)) n + 0).
        { apply sum_did_upd; [exact Hi|]. rewrite Hs. cbn [did]. lia. }
        rewrite Hsd, Nat.add_0_r. exact Hp.
  - rewrite Hpar in Hp. destruct Hp as (Hwp & HC0 & Hle & Hsum).
    split; [exact Hw|]. exists C. cbn [m_out m_par m_prog m_w]. repeat split; auto. lia.
  - rewrite Hpar in Hp. destruct Hp as (Hwp & HC0 & Hle & Hsum).
    split; [exact Hw|]. exists C. cbn [m_out m_par m_prog m_w]. subst C. repeat split; auto. intros _; lia.
  - rewrite Hpar in Hp. destruct Hp as (Hk & Hd & Hsum).
    split; [exact Hw|]. exists (C ++ [(i, vals)]). cbn [m_out m_par m_prog m_w]. split.
    + rewrite <- HC, Hq, <- app_assoc. apply Permutation_app_head. cbn [app]. apply Permutation_middle.
    + split; [rewrite app_length; cbn [length]; lia|]. split; [rewrite collected_snoc, Hd; reflexivity|exact Hsum].
  - rewrite Hpar in Hp. split; [exact Hw|]. exists C. cbn [m_out m_par m_prog m_w]. auto.
Qed.

Lemma minv_steps k s : mp_steps f data keys wp k init s -> MInv s.
Proof.
  remember init as s0 eqn:E0. induction 1 as [s|k s s' s'' Hs IH Hst]; subst.
  - apply minv_init.
  - eapply minv_step; [apply IH; reflexivity|exact Hst].
Qed.

(* ---------- termination ---------- *)
Definition wm (w : wstate D V) := match w with WRun todo _ => 3 * length todo + 3 | _ => 0 end.
Definition pm (p : pstate V) := match p with PProg _ => 2 | POut _ _ => 1 | PEnd _ => 0 end.
Definition mm (s : mpst D V) := sumf (fun i => wm (m_w s i)) n + m_prog s + length (m_out s) + pm (m_par s).
Lemma sum_wm_upd w i x : i < n -> 
  sumf (fun k => wm (wupd w i x k)) n + wm (w i) = sumf (fun k => wm (w k)) n + wm x.
Proof.
  intros Hi. pose proof (sumf_upd (fun k => wm (w k)) (fun k => wm (wupd w i x k)) n i Hi) as E.
  cbv beta in E. rewrite wupd_same in E.
  assert (E' := E ltac:(intros k _ Hk; rewrite wupd_other by exact Hk; reflexivity)). lia.
Qed.
Lemma mm_step s s' : step s s' -> mm s' < mm s.
Proof.
  intros Hst. unfold mm.
  destruct Hst as [i t ts acc v Hi Hs Hf|i t ts acc e Hi Hs Hf|i acc Hi Hs|tot p Hpar Ht Hq|tot Hpar Ht|k d i vals q1 q2 Hpar Hq|d Hpar Hall];
    cbn [m_w m_prog m_out m_par].
  - pose proof (sum_wm_upd (m_w s) i (WRun ts (acc ++ [v])) Hi) as E. rewrite Hs in E. cbn [wm length] in E. destruct wp; lia.
  - pose proof (sum_wm_upd (m_w s) i (WFail acc) Hi) as E. rewrite Hs in E. cbn [wm length] in E. lia.
  - pose proof (sum_wm_upd (m_w s) i (WEnd acc) Hi) as E. rewrite Hs in E. cbn [wm length] in E |- *. lia.
  - rewrite Hpar, Hq. cbn [pm]. lia.
  - rewrite Hpar. cbn [pm]. lia.
  - rewrite Hpar, Hq. cbn [pm]. rewrite !app_length. cbn [length]. lia.
  - rewrite Hpar. cbn [pm]. lia.
Qed.
Lemma mm_steps k s : mp_steps f data keys wp k init s -> k + mm s <= mm init.
Proof.
  remember init as s0 eqn:E0. induction 1 as [s|k s s' s'' Hs IH Hst]; subst; [lia|].
  specialize (IH eq_refl). pose proof (mm_step _ _ Hst). lia.
Qed.

(* ---------- counting ---------- *)
Lemma sum_len_data : sumf (fun i => length (nth i data [])) n = ntarget data.
Proof.
  unfold ntarget, n. clear. induction data as [|l d IH] using rev_ind; [reflexivity|].
  rewrite app_length, concat_app, app_length. cbn [length concat]. rewrite Nat.add_1_r. cbn [sumf].
  rewrite app_nth2 by lia. rewrite Nat.sub_diag. cbn [nth]. rewrite app_nil_r.
  rewrite <- IH. rewrite (sumf_ext _ (fun i => length (nth i d [])));
    [lia|]. intros i Hi. rewrite app_nth1 by exact Hi. reflexivity.
Qed.
Lemma sumf_mono g h m : (forall i, i < m -> g i <= h i) -> sumf g m <= sumf h m.
Proof. induction m; intros H; cbn; [lia|]. pose proof (H m ltac:(lia)). specialize (IHm ltac:(auto)). lia. Qed.
Lemma sumf_strict g h m k : (forall i, i < m -> g i <= h i) -> k < m -> g k < h k -> sumf g m < sumf h m.
Proof.
  induction m as [|m IH]; intros H Hk Hlt; [lia|]. cbn. pose proof (H m ltac:(lia)).
  destruct (Nat.eq_dec k m) as [->|Hne].
  - pose proof (sumf_mono g h m ltac:(auto)). lia.
  - specialize (IH ltac:(auto) ltac:(lia) Hlt). lia.
Qed.
Lemma wok_did i w : wok i w -> did w <= length (nth i data []).
Proof.
  unfold wok. destruct w as [|todo acc|acc|acc]; cbn [did]; [lia| | |].
  - intros (_ & done & -> & HF). apply Forall2_len in HF. rewrite app_length. lia.
  - intros (_ & HF). apply Forall2_len in HF. lia.
  - intros (done & t & ts & e & -> & _ & HF). apply Forall2_len in HF. rewrite app_length. cbn [length]. lia.
Qed.

(* a failing target: the parent never leaves the progress loop *)
Lemma never_finishes s t e : wp = true -> MInv s -> In t (concat data) -> f t = Err e ->
  (exists tot, m_par s = PProg tot /\ tot < ntarget data).
Proof.
  intros Hwp (Hw & C & HC & Hp) Ht He.
  apply in_concat_iff in Ht as (l & Hl & Ht). apply In_nth with (d := []) in Hl as (i & Hi & Hl).
  assert (Hlt : did (m_w s i) < length (nth i data [])).
  { pose proof (Hw i Hi) as Hok. unfold wok in Hok. rewrite Hl in *.
    destruct (m_w s i) as [|todo acc|acc|acc]; cbn [did].
    - rewrite Hok in Ht; destruct Ht.
    - destruct Hok as (_ & done & Hd & HF). pose proof (Forall2_len _ _ _ HF).
      destruct todo as [|t0 todo]; [|rewrite Hd, app_length; cbn [length]; lia].
      rewrite app_nil_r in Hd; subst done. apply In_nth_error in Ht as [j Hj].
      destruct (Forall2_nth _ _ _ _ _ HF Hj) as (v & _ & Hv). congruence.
    - destruct Hok as (_ & HF). apply In_nth_error in Ht as [j Hj].
      destruct (Forall2_nth _ _ _ _ _ HF Hj) as (v & _ & Hv). congruence.
    - destruct Hok as (done & t0 & ts & e0 & Hd & _ & HF). apply Forall2_len in HF.
      rewrite Hd, app_length. cbn [length]. lia. }
  pose proof (sumf_strict (fun i => did (m_w s i)) (fun i => length (nth i data [])) n i
    (fun k Hk => wok_did k _ (Hw k Hk)) Hi Hlt) as Hsum. rewrite sum_len_data in Hsum.
  destruct (m_par s) as [tot|k d|d].
  - destruct Hp as (_ & _ & _ & Hp). exists tot. split; [reflexivity|lia].
  - destruct Hp as (_ & _ & Hp). specialize (Hp Hwp). lia.
  - destruct Hp as (_ & _ & Hp). specialize (Hp Hwp). lia.
Qed.

(* ---------- no failing target ---------- *)
Definition running (w : wstate D V) : bool := match w with WRun _ _ => true | _ => false end.
Lemma find_running (w : nat -> wstate D V) m : (exists i, i < m /\ running (w i) = true) \/ (forall i, i < m -> running (w i) = false).
Proof.
  induction m as [|m [(i & Hi & H)|IH]]; [right; lia|left; exists i; split; [lia|exact H]|].
  destruct (running (w m)) eqn:E; [left; exists m; auto|right]. intros i Hi.
  destruct (Nat.eq_dec i m) as [->|]; [exact E|apply IH; lia].
Qed.
Lemma ended_length w m : (forall i, i < m -> wok i (w i)) -> (forall i, i < m -> running (w i) = false) ->
  (forall i, i < m -> match w i with WFail _ => False | _ => True end) -> m <= n ->
  length (ended w m) = length (filter (fun l : list (tgt D) => match l with [] => false | _ => true end) (firstn m data)).
Proof.
  induction m as [|m IH]; intros Hok Hr Hf Hm; [reflexivity|].
  rewrite ended_S, app_length.
  rewrite IH; [|intros; apply Hok; lia|intros; apply Hr; lia|intros; apply Hf; lia|lia].
  assert (Hm' : m < length data) by (unfold n in Hm; lia).
  assert (E : firstn (S m) data = firstn m data ++ [nth m data []]).
  { clear - Hm'. revert m Hm'. induction data as [|a d IHd]; intros [|m] H; cbn [length] in H; try lia; [reflexivity|].
    cbn [firstn nth app]. f_equal. apply IHd. lia. }
  rewrite E, filter_app, app_length. f_equal. cbn [filter].
  specialize (Hok m ltac:(lia)). specialize (Hr m ltac:(lia)). specialize (Hf m ltac:(lia)).
  unfold ended1, wok in *. destruct (w m); cbn [running] in Hr; try discriminate; try contradiction.
  - rewrite Hok; reflexivity.
  - destruct Hok as [Hne _]. destruct (nth m data []); [congruence|reflexivity].
Qed.

Hypothesis Hok : forall t, In t (concat data) -> exists v, f t = Ok v.

Lemma in_data i t : In t (nth i data []) -> In t (concat data).
Proof.
  intros H. destruct (nth_in_or_default i data []) as [Hi|E]; [|rewrite E in H; destruct H].
  apply in_concat_iff; eauto.
Qed.

Lemma no_fail s i : MInv s -> i < n -> match m_w s i with WFail _ => False | _ => True end.
Proof.
  intros (Hw & _) Hi. specialize (Hw i Hi). unfold wok in Hw. destruct (m_w s i) as [| | |acc]; auto.
  destruct Hw as (done & t & ts & e & Hl & He & _).
  destruct (Hok t) as [v Hv]; [|congruence]. apply (in_data i). rewrite Hl. apply in_or_app; right; left; reflexivity.
Qed.

Lemma minv_progress s : MInv s -> (exists d, m_par s = PEnd d) \/ exists s', step s s'.
Proof.
  intros HI. pose proof HI as (Hw & C & HC & Hp).
  destruct (find_running (m_w s) n) as [(i & Hi & Hr)|Hnr].
  - right. pose proof (Hw i Hi) as Hwi. unfold wok in Hwi. destruct (m_w s i) as [|[|t ts] acc| |] eqn:E; try discriminate.
    + eexists; eapply M_put; eassumption.
    + destruct Hwi as (_ & done & Hl & _).
      destruct (Hok t) as [v Hv]; [apply (in_data i); rewrite Hl; apply in_or_app; right; left; reflexivity|].
      eexists; eapply M_work; eassumption.
  - assert (Hend : length (ended (m_w s) n) = nprocs data).
    { rewrite ended_length; auto; [unfold n; rewrite firstn_all; reflexivity|]. intros i Hi; apply no_fail; assumption. }
    assert (Hlen := Permutation_length HC). rewrite app_length, Hend in Hlen.
    destruct (m_par s) as [tot|k d|d] eqn:Epar.
    + right. destruct Hp as (_ & _ & Hle & Hsum).
      destruct (Nat.lt_ge_cases tot (ntarget data)) as [Hlt|Hge]; [|eexists; eapply M_progdone; eassumption].
      assert (Hall : sumf (fun i => did (m_w s i)) n = ntarget data).
      { rewrite <- sum_len_data. apply sumf_ext. intros i Hi. pose proof (Hw i Hi) as Hwi. pose proof (no_fail s i HI Hi) as Hnf.
        specialize (Hnr i Hi). unfold wok in Hwi. destruct (m_w s i) as [|? ?|acc|]; cbn [did running] in *; try discriminate; try contradiction.
        - rewrite Hwi; reflexivity.
        - destruct Hwi as [_ HF]. apply Forall2_len in HF. congruence. }
      destruct (m_prog s) as [|p] eqn:Eq; [lia|]. eexists; eapply M_getprog; eassumption.
    + right. destruct Hp as (Hk & Hd & _). destruct k as [|k].
      * eexists. eapply M_join; [eassumption|]. intros i Hi. specialize (Hnr i Hi). destruct (m_w s i); cbn in *; try discriminate; exact I.
      * destruct (m_out s) as [|[i vals] q] eqn:Eq; [cbn [length] in Hlen; lia|].
        eexists. eapply M_getout with (q1 := []); [exact Epar|exact Eq].
    + left; eauto.
Qed.

(* ---------- the collected dict ---------- *)
Definition assigned (i j : nat) (k : Z) (v : V) : Prop :=
  exists t, nth_error (nth i keys []) j = Some k /\ nth_error (nth i data []) j = Some t /\ f t = Ok v.

Lemma store_get ks : forall (vs : list V) d k, NoDup ks ->
  dget (store ks vs d) k = match dget (combine ks vs) k with Some v => Some v | None => dget d k end.
Proof.
  intros vs d k Hn. unfold store. change (dget (dupdate d (combine ks vs)) k = match dget (combine ks vs) k with Some v => Some v | None => dget d k end).
  apply dupdate_get. clear - Hn. revert vs; induction ks as [|a ks IH]; intros [|v vs]; cbn; try constructor.
  - inversion Hn as [|? ? Ha Hr]; subst. intros Hc; apply Ha. apply in_map_iff in Hc as ([x y] & <- & Hin).
    apply in_combine_l in Hin; exact Hin.
  - inversion Hn; subst. apply IH; assumption.
Qed.
Lemma combine_get ks : forall (vs : list V) j k v, NoDup ks ->
  nth_error ks j = Some k -> nth_error vs j = Some v -> dget (combine ks vs) k = Some v.
Proof.
  induction ks as [|a ks IH]; intros [|w vs] [|j] k v Hn Hk Hv; cbn in *; try discriminate.
  - injection Hk as ->; injection Hv as ->. rewrite Z.eqb_refl; reflexivity.
  - inversion Hn as [|? ? Ha Hr]; subst. destruct (Z.eqb_spec a k) as [->|].
    + exfalso; apply Ha. eapply nth_error_In; exact Hk.
    + eapply IH; eassumption.
Qed.
Lemma combine_none ks (vs : list V) k : ~ In k ks -> dget (combine ks vs) k = None.
Proof.
  intros H. apply dget_none. intros Hc. apply H. apply in_map_iff in Hc as ([x y] & <- & Hin).
  apply in_combine_l in Hin; exact Hin.
Qed.

Lemma collected_get (C : list (nat * list V)) i vals j k v :
  NoDup (concat keys) -> NoDup (map fst C) -> In (i, vals) C ->
  nth_error (nth i keys []) j = Some k -> nth_error vals j = Some v ->
  dget (collected C) k = Some v.
Proof.
  intros Hn. induction C as [|[i' vals'] C IH] using rev_ind; intros HC Hin Hk Hv; [destruct Hin|].
  rewrite collected_snoc. cbn [fst snd].
  assert (Hki : forall i, NoDup (nth i keys [])).
  { intros i0. destruct (nth_in_or_default i0 keys []) as [H|E]; [|rewrite E; constructor].
    apply In_nth_error in H as [q Hq]. rewrite (in_concat_nth _ _ _ Hq) in Hn.
    apply NoDup_app_r in Hn. apply NoDup_app_l in Hn. exact Hn. }
  rewrite store_get by apply Hki.
  rewrite map_app in HC. cbn [map fst] in HC.
  apply in_app_or in Hin as [Hin|[Hin|[]]].
  - assert (Hne : i' <> i).
    { intros ->. apply NoDup_remove_2 in HC. rewrite app_nil_r in HC. apply HC. apply (in_map fst) in Hin; exact Hin. }
    assert (Hnk : ~ In k (nth i' keys [])).
    { intros Hc. apply nth_error_In in Hk. clear - Hn Hc Hk Hne. revert i i' Hne Hc Hk.
      induction keys as [|a ks IHk]; intros i i' Hne Hc Hk; [destruct i; destruct Hk|].
      cbn [concat] in Hn. destruct i as [|i], i' as [|i']; cbn [nth] in *; try congruence.
      - eapply NoDup_app_disj; [exact Hn|exact Hk|]. destruct (nth_in_or_default i' ks []) as [H|E]; [|rewrite E in Hc; destruct Hc].
        apply in_concat_iff; eauto.
      - eapply NoDup_app_disj; [exact Hn|exact Hc|]. destruct (nth_in_or_default i ks []) as [H|E]; [|rewrite E in Hk; destruct Hk].
        apply in_concat_iff; eauto.
      - apply NoDup_app_r in Hn. eapply IHk; [exact Hn| |exact Hc|exact Hk]. congruence. }
    rewrite (combine_none _ _ _ Hnk). apply IH; auto.
    apply NoDup_app_l in HC. exact HC.
  - injection Hin as -> ->. rewrite (combine_get _ _ j k v); auto.
Qed.

Lemma collected_keys (C : list (nat * list V)) k :
  dget (collected C) k <> None -> In k (concat keys).
Proof.
  induction C as [|[i vals] C IH] using rev_ind; [intros H; exfalso; apply H; reflexivity|].
  rewrite collected_snoc. cbn [fst snd]. unfold store. intros H.
  assert (G : forall l (d : dict V), (forall kv, In kv l -> In (fst kv) (concat keys)) ->
    (dget d k <> None -> In k (concat keys)) ->
    dget (fold_left (fun acc kv => dset acc (fst kv) (snd kv)) l d) k <> None -> In k (concat keys)).
  { induction l as [|[a b] l IHl]; intros d Hl Hd; cbn [fold_left fst snd]; [exact Hd|].
    apply IHl; [intros; apply Hl; right; assumption|]. rewrite dget_dset.
    destruct (Z.eqb_spec a k) as [->|]; [|exact Hd]. intros _. apply (Hl (k, b)); left; reflexivity. }
  refine (G _ _ _ IH H). intros kv Hkv. destruct kv as [a b]. apply in_combine_l in Hkv. cbn [fst].
  destruct (nth_in_or_default i keys []) as [Hi|E]; [|rewrite E in Hkv; destruct Hkv].
  apply in_concat_iff; eauto.
Qed.

Lemma minv_final s d : MInv s -> m_par s = PEnd d -> NoDup (concat keys) ->
  forall i j k v, i < n -> assigned i j k v -> dget d k = Some v.
Proof.
  intros HI Epar Hn i j k v Hi (t & Hk & Ht & Hv). pose proof HI as (Hw & C & HC & Hp).
  rewrite Epar in Hp. destruct Hp as (Hlen & -> & _).
  (* all workers have ended: as many messages were consumed as workers exist *)
  pose proof (Permutation_length HC) as HL. rewrite app_length in HL.
  assert (Hub : length (ended (m_w s) n) <= nprocs data).
  { assert (G : forall m, m <= n -> length (ended (m_w s) m) <= length (filter (fun l : list (tgt D) => match l with [] => false | _ => true end) (firstn m data))).
    { induction m as [|m IH]; intros Hm; [reflexivity|]. rewrite ended_S, app_length. specialize (IH ltac:(lia)).
      assert (Hm' : m < length data) by (unfold n in Hm; lia).
      assert (E : firstn (S m) data = firstn m data ++ [nth m data []]).
      { clear - Hm'. revert m Hm'. induction data as [|a dd IHd]; intros [|m] H; cbn [length] in H; try lia; [reflexivity|].
        cbn [firstn nth app]. f_equal. apply IHd. lia. }
      rewrite E, filter_app, app_length. cbn [filter]. specialize (Hw m ltac:(lia)). unfold ended1, wok in *.
      destruct (m_w s m); cbn [length]; try lia. destruct Hw as [Hne _]. destruct (nth m data []); [congruence|]. cbn [length]. lia. }
    specialize (G n (Nat.le_refl n)). unfold n in G at 2. rewrite firstn_all in G. exact G. }
  assert (Hall : Permutation C (ended (m_w s) n)).
  { assert (m_out s = []) by (destruct (m_out s); [reflexivity|cbn [length] in HL; lia]). rewrite H, app_nil_r in HC. exact HC. }
  assert (Hwi : exists acc, m_w s i = WEnd acc /\ Forall2 (fun t v => f t = Ok v) (nth i data []) acc).
  { (* the count of ended equals nprocs, so worker i, which has work, must be ended *)
    destruct (m_w s i) as [|todo acc|acc|acc] eqn:E.
    - pose proof (Hw i Hi) as H. rewrite E in H. cbn in H. rewrite H in Ht. destruct j; discriminate.
    - exfalso. assert (Hc : length (ended (m_w s) n) < nprocs data); [|apply Permutation_length in Hall; lia].
      shelve.
    - exists acc. split; [reflexivity|]. pose proof (Hw i Hi) as H. rewrite E in H. apply H.
    - pose proof (no_fail s i HI Hi) as H. rewrite E in H. destruct H. }
  destruct Hwi as (acc & E & HF).
  destruct (Forall2_nth _ _ _ _ _ HF Ht) as (v' & Hv' & Hfv). assert (v' = v) by congruence; subst v'.
  eapply collected_get; [exact Hn| | |exact Hk|exact Hv'].
  - eapply Permutation_NoDup; [apply Permutation_map; symmetry; exact Hall|apply ended_nodup].
  - eapply Permutation_in; [symmetry; exact Hall|]. clear - E Hi. revert Hi. generalize n as m. induction m as [|m IH]; intros Hi; [lia|].
    rewrite ended_S. apply in_or_app. destruct (Nat.eq_dec i m) as [->|]; [right; unfold ended1; rewrite E; left; reflexivity|left; apply IH; lia].
  Unshelve.
  assert (G : forall m, m <= n -> i < m -> length (ended (m_w s) m) < length (filter (fun l : list (tgt D) => match l with [] => false | _ => true end) (firstn m data))).
  { assert (G0 : forall m, m <= n -> length (ended (m_w s) m) <= length (filter (fun l : list (tgt D) => match l with [] => false | _ => true end) (firstn m data))
       /\ (i < m -> length (ended (m_w s) m) < length (filter (fun l : list (tgt D) => match l with [] => false | _ => true end) (firstn m data)))).
    { induction m as [|m IH]; intros Hm; [split; [reflexivity|lia]|]. rewrite ended_S, app_length. specialize (IH ltac:(lia)).
      assert (Hm' : m < length data) by (unfold n in Hm; lia).
      assert (E' : firstn (S m) data = firstn m data ++ [nth m data []]).
      { clear - Hm'. revert m Hm'. induction data as [|a dd IHd]; intros [|m] H; cbn [length] in H; try lia; [reflexivity|].
        cbn [firstn nth app]. f_equal. apply IHd. lia. }
      rewrite E', filter_app, app_length. cbn [filter]. pose proof (Hw m ltac:(lia)) as Hwm. unfold ended1.
      destruct (Nat.eq_dec i m) as [->|Hne].
      - rewrite E in *. destruct Hwm as [Hne0 _]. cbn [length]. destruct (nth m data []); [congruence|]. cbn [length]. lia.
      - destruct (m_w s m) as [| |a|] eqn:Em; cbn [wok] in Hwm; cbn [length]; try (split; intros; lia).
        destruct Hwm as [Hne0 _]. destruct (nth m data []); [congruence|]. cbn [length]. split; intros; lia. }
    intros m Hm Him. apply G0; assumption. }
  specialize (G n (Nat.le_refl n) Hi). unfold n in G at 2. rewrite firstn_all in G. exact G.
Qed.
End MPProof.
