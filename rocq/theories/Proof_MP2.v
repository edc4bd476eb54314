From Verif Require Import Prelude PreludeFacts Model_Dist Spec_Dist Model_MP Proof_Dist Proof_Dist2 Proof_Dist3 Proof_Ring Proof_MP.
Import List.

Section A.
Context {D V : Type}.
Variables (f : tgt D -> res V) (data : list (list (tgt D))) (keys : list (list Z)) (wp : bool).
Notation init := (mp_init (V:=V) data wp).

Lemma firstn_S_nth {A} (l : list (list A)) m : m < length l -> firstn (S m) l = firstn m l ++ [nth m l []].
Proof.
  revert m; induction l as [|a dd IHd]; intros [|m] H; cbn [length] in H; try lia; [reflexivity|].
  cbn [firstn nth app]. f_equal. apply IHd. lia.
Qed.

Lemma ended_lt s i : MInv f data keys wp s -> i < length data -> nth i data [] <> [] ->
  (forall acc, m_w s i <> WEnd acc) -> length (ended (m_w s) (length data)) < nprocs data.
Proof.
  intros (Hw & _) Hi Hne Hnot.
  assert (G0 : forall m, m <= length data -> length (ended (m_w s) m) <= length (filter (fun l : list (tgt D) => match l with [] => false | _ => true end) (firstn m data))
       /\ (i < m -> length (ended (m_w s) m) < length (filter (fun l : list (tgt D) => match l with [] => false | _ => true end) (firstn m data)))).
  { induction m as [|m IH]; intros Hm; [split; [reflexivity|lia]|]. rewrite ended_S, app_length. specialize (IH ltac:(lia)).
    rewrite firstn_S_nth, filter_app, app_length by lia. cbn [filter]. pose proof (Hw m ltac:(lia)) as Hwm. unfold ended1.
    destruct (Nat.eq_dec i m) as [->|Hne'].
    - destruct (nth m data []) eqn:En; [congruence|]. destruct (m_w s m) as [| |a|] eqn:Em; cbn [length]; try lia.
      exfalso; eapply Hnot; reflexivity.
    - destruct (m_w s m) as [| |a|] eqn:Em; cbn [wok] in Hwm; cbn [length]; try (split; intros; lia).
      destruct Hwm as [Hne0 _]. destruct (nth m data []); [congruence|]. cbn [length]. split; intros; lia. }
  destruct (G0 (length data) (Nat.le_refl _)) as [_ G]. rewrite firstn_all in G. apply G, Hi.
Qed.

Lemma never_ends s t e : MInv f data keys wp s -> In t (concat data) -> f t = Err e ->
  forall d, m_par s <> PEnd d.
Proof.
  intros HI Ht He d Hpar. pose proof HI as (Hw & C & HC & Hp). rewrite Hpar in Hp. destruct Hp as (Hl & _).
  apply in_concat_iff in Ht as (l & Hl' & Ht). apply In_nth with (d := []) in Hl' as (i & Hi & Hl').
  assert (Hlt : length (ended (m_w s) (length data)) < nprocs data).
  { apply (ended_lt s i HI Hi).
    - rewrite Hl'. intros ->; destruct Ht.
    - intros acc Hc. pose proof (Hw i Hi) as Hok. rewrite Hc in Hok. cbn in Hok. destruct Hok as [_ HF]. rewrite Hl' in HF.
      apply In_nth_error in Ht as [j Hj]. destruct (Forall2_nth _ _ _ _ _ HF Hj) as (v & _ & Hv). congruence. }
  apply Permutation_length in HC. rewrite app_length in HC. lia.
Qed.

(* ---------- every start has a maximal run ---------- *)
Lemma step_dec s : (exists s', mp_step f data keys wp s s') \/ ~ (exists s', mp_step f data keys wp s s').
Proof.
  destruct (find_running data (m_w s) (length data)) as [(i & Hi & Hr)|Hnr].
  - left. destruct (m_w s i) as [|[|t ts] acc| |] eqn:E; try discriminate.
    + eexists; eapply M_put; eassumption.
    + destruct (f t) eqn:Ef; eexists; [eapply M_work|eapply M_fail]; eassumption.
  - assert (Hno : forall i todo acc, i < length data -> m_w s i <> WRun todo acc).
    { intros i todo acc Hi Hc. specialize (Hnr i Hi). rewrite Hc in Hnr. discriminate. }
    destruct (m_par s) as [tot|[|k] d|d] eqn:Ep.
    + destruct (Nat.lt_ge_cases tot (ntarget data)) as [Hlt|Hge]; [|left; eexists; eapply M_progdone; eassumption].
      destruct (m_prog s) as [|p] eqn:Eq; [|left; eexists; eapply M_getprog; eassumption].
      right. intros (s' & Hst). inversion Hst; try congruence; try (eapply Hno; eassumption).
      assert (tot0 = tot) by congruence. lia.
    + left. eexists. eapply M_join; [exact Ep|]. intros i Hi. specialize (Hno i).
      destruct (m_w s i); auto. eapply Hno; [exact Hi|reflexivity].
    + destruct (m_out s) as [|[i vals] q] eqn:Eq; [|left; eexists; eapply M_getout with (q1 := []); [exact Ep|exact Eq]].
      right. intros (s' & Hst). inversion Hst; try congruence; try (eapply Hno; eassumption).
      match goal with H : m_out s = ?q ++ _ |- _ => rewrite Eq in H; destruct q; discriminate end.
    + right. intros (s' & Hst). inversion Hst; try congruence; try (eapply Hno; eassumption).
Qed.

Lemma maximal_run : exists k s, mp_steps f data keys wp k init s /\ ~ exists s', mp_step f data keys wp s s'.
Proof.
  assert (G : forall b k s, mp_steps f data keys wp k init s -> mm data s <= b ->
    exists k s, mp_steps f data keys wp k init s /\ ~ exists s', mp_step f data keys wp s s').
  { induction b as [|b IH]; intros k s Hs Hb; (destruct (step_dec s) as [[s' Hs']|Hn]; [|eauto]);
      pose proof (mm_step f data keys wp _ _ Hs'); [lia|].
    eapply (IH (S k) s'); [econstructor; eassumption|lia]. }
  eapply G; [constructor|reflexivity].
Qed.
End A.

(* ---------- configurations built from target lists ---------- *)
Lemma filter_true {A} (g : A -> bool) l : (forall x, In x l -> g x = true) -> filter g l = l.
Proof. induction l as [|a l IH]; intros H; cbn; [reflexivity|]. rewrite (H a), IH; auto; [intros; apply H; right; assumption|left; reflexivity]. Qed.

Lemma subseq_in {A} (l m : list A) x : subseq l m -> In x l -> In x m.
Proof. induction 1 as [|y l m H IH|y l m H IH]; intros Hx; [destruct Hx|right; auto|destruct Hx as [<-|Hx]; [left; reflexivity|right; auto]]. Qed.

Lemma worker_data_subseq {D} : forall (ts : list (tgt D)) ids, NoDup (map t_id ts) ->
  subseq ids (map t_id ts) -> map t_id (worker_data ts ids) = ids.
Proof.
  intros ts ids Hn Hs. remember (map t_id ts) as l eqn:El. revert ts Hn El.
  induction Hs as [|x l m Hs IH|x l m Hs IH]; intros [|t ts] Hn El; cbn [map] in El; try discriminate; [reflexivity| |].
  - injection El as -> ->. inversion Hn as [|? ? Hx Hm]; subst. unfold worker_data. cbn [filter].
    destruct (existsb (Z.eqb (t_id t)) l) eqn:E.
    + apply existsb_exists in E as (y & Hy & He). apply Z.eqb_eq in He. subst y. exfalso; apply Hx. eapply subseq_in; eassumption.
    + apply (IH ts Hm eq_refl).
  - injection El as -> ->. inversion Hn as [|? ? Hx Hm]; subst. unfold worker_data. cbn [filter existsb]. rewrite Z.eqb_refl. cbn [orb map].
    f_equal. etransitivity; [|exact (IH ts Hm eq_refl)]. unfold worker_data. f_equal. apply filter_ext_in.
    intros u Hu. destruct (Z.eqb_spec (t_id u) (t_id t)) as [E|]; [|reflexivity].
    exfalso; apply Hx. rewrite <- E. apply in_map, Hu.
Qed.

Lemma worker_data_perm {D} (ts : list (tgt D)) ids : NoDup (map t_id ts) -> NoDup ids ->
  (forall x, In x ids -> In x (map t_id ts)) -> Permutation (map t_id (worker_data ts ids)) ids.
Proof.
  intros Hn Hi Hin. apply NoDup_Permutation.
  - unfold worker_data. clear Hin. induction ts as [|t ts IH]; cbn [filter]; [constructor|].
    cbn [map] in Hn. inversion Hn as [|? ? Hx Hm]; subst. destruct (existsb _ ids); [|auto].
    cbn [map]. constructor; [|auto]. intros Hc; apply Hx. apply in_map_iff in Hc as (u & <- & Hu).
    apply filter_In in Hu as [Hu _]. apply in_map, Hu.
  - exact Hi.
  - intros x. split.
    + intros H. apply in_map_iff in H as (t & <- & Ht). apply filter_In in Ht as [_ Ht].
      apply existsb_exists in Ht as (y & Hy & He). apply Z.eqb_eq in He. congruence.
    + intros H. specialize (Hin x H). apply in_map_iff in Hin as (t & <- & Ht). apply in_map.
      apply filter_In. split; [exact Ht|]. apply existsb_exists. exists (t_id t). split; [exact H|apply Z.eqb_refl].
Qed.

Lemma in_concat_pos {A} (ls : list (list A)) x : In x (concat ls) ->
  exists i j, i < length ls /\ nth_error (nth i ls []) j = Some x.
Proof.
  intros H. apply in_concat_iff in H as (l & Hl & Hx). apply In_nth with (d := []) in Hl as (i & Hi & <-).
  apply In_nth_error in Hx as [j Hj]. eauto.
Qed.

Lemma nodup_concat_nth (ls : list (list Z)) i : NoDup (concat ls) -> NoDup (nth i ls []).
Proof.
  intros Hn. destruct (nth_in_or_default i ls []) as [H|E]; [|rewrite E; constructor].
  apply In_nth_error in H as [q Hq]. rewrite (in_concat_nth _ _ _ Hq) in Hn.
  apply NoDup_app_r in Hn. apply NoDup_app_l in Hn. exact Hn.
Qed.

Lemma nth_map_worker {D} (ts : list (tgt D)) ml i : i < length ml ->
  nth i (map (worker_data ts) ml) [] = worker_data ts (nth i ml []).
Proof.
  intros Hi. rewrite (nth_indep _ [] (worker_data ts [])) by (rewrite map_length; exact Hi). apply map_nth.
Qed.
Lemma nth_map_any {A B} (g : list A -> list B) ml i : i < length ml -> nth i (map g ml) [] = g (nth i ml []).
Proof. intros Hi. rewrite (nth_indep _ [] (g [])) by (rewrite map_length; exact Hi). apply map_nth. Qed.

(* every target is handed to exactly the worker whose list has its id *)
Lemma worker_has {D} (ts : list (tgt D)) ml t : NoDup (map t_id ts) -> Permutation (concat ml) (map t_id ts) ->
  In t ts -> exists i j, i < length ml /\ nth_error (worker_data ts (nth i ml [])) j = Some t.
Proof.
  intros Hn Hp Ht. assert (Hid : In (t_id t) (concat ml)) by (eapply Permutation_in; [symmetry; exact Hp|apply in_map, Ht]).
  destruct (in_concat_pos _ _ Hid) as (i & j & Hi & Hj). exists i.
  assert (Hw : In t (worker_data ts (nth i ml []))).
  { apply filter_In; split; [exact Ht|]. apply existsb_exists. exists (t_id t). split; [eapply nth_error_In; exact Hj|apply Z.eqb_refl]. }
  apply In_nth_error in Hw as [j' Hj']. exists j'; auto.
Qed.

Lemma worker_in {D} (ts : list (tgt D)) ml t : In t (concat (map (worker_data ts) ml)) -> In t ts.
Proof.
  intros H. apply in_concat_iff in H as (l & Hl & Ht). apply in_map_iff in Hl as (ids & <- & _).
  apply filter_In in Ht as [Ht _]; exact Ht.
Qed.

Lemma fit_keys_nodup {D} (ts : list (tgt D)) ml : NoDup (map t_id ts) -> Permutation (concat ml) (map t_id ts) ->
  NoDup (concat (map (fun l => map t_id (worker_data ts l)) ml)).
Proof.
  intros Hn Hp. assert (Hc : NoDup (concat ml)) by (eapply Permutation_NoDup; [symmetry; exact Hp|exact Hn]).
  eapply Permutation_NoDup; [|exact Hc].
  assert (Hsub : forall l x, In l ml -> In x l -> In x (map t_id ts)).
  { intros l x Hl Hx. eapply Permutation_in; [exact Hp|]. apply in_concat_iff; eauto. }
  clear Hp. induction ml as [|l ml IH]; cbn [map concat]; [constructor|]. cbn [concat] in Hc.
  apply Permutation_app.
  - symmetry. apply worker_data_perm; [exact Hn|apply NoDup_app_l in Hc; exact Hc|]. intros x Hx. eapply Hsub; [left; reflexivity|exact Hx].
  - apply IH; [apply NoDup_app_r in Hc; exact Hc|]. intros; eapply Hsub; [right; eassumption|eassumption].
Qed.

