(* Dicts, rebalancing, target copies. *)
From Verif Require Import Prelude PreludeFacts Model_Dist Spec_Dist Proof_Dist Proof_Dist2.

Lemma dget_dset {V} (d : dict V) k v k' :
  dget (dset d k v) k' = if Z.eqb k k' then Some v else dget d k'.
Proof.
  induction d as [|[a x] d IH]; cbn; [destruct (Z.eqb k k'); reflexivity|].
  destruct (Z.eqb_spec a k) as [->|Hak]; cbn.
  - destruct (Z.eqb_spec k k'); reflexivity.
  - rewrite IH. destruct (Z.eqb_spec a k') as [->|]; [|reflexivity].
    destruct (Z.eqb_spec k k'); [congruence|reflexivity].
Qed.

Lemma dset_fresh {V} (d : dict V) k v : ~ In k (map fst d) -> dset d k v = d ++ [(k, v)].
Proof.
  induction d as [|[a x] d IH]; cbn; intros H; [reflexivity|].
  destruct (Z.eqb_spec a k) as [->|Hak]; [exfalso; auto|rewrite IH; auto].
Qed.

Lemma dget_none {V} (d : dict V) k : dget d k = None <-> ~ In k (map fst d).
Proof.
  induction d as [|[a x] d IH]; cbn; [tauto|].
  destruct (Z.eqb_spec a k) as [->|Hak].
  - split; [discriminate|intros H; exfalso; auto].
  - rewrite IH; split; intros H; [intros [?|?]; auto|auto].
Qed.

Lemma dget_in {V} (d : dict V) k v : NoDup (map fst d) -> (dget d k = Some v <-> In (k, v) d).
Proof.
  induction d as [|[a x] d IH]; cbn; intros Hn; [split; [discriminate|tauto]|].
  inversion Hn as [|? ? Ha Hd]; subst.
  destruct (Z.eqb_spec a k) as [->|Hak].
  - split; [intros H; injection H as ->; auto|].
    intros [H|H]; [congruence|]. exfalso; apply Ha. apply (in_map fst) in H; exact H.
  - rewrite (IH Hd); split; intros H; [auto|destruct H as [H|H]; [congruence|exact H]].
Qed.

Lemma dget_app {V} (d e : dict V) k :
  dget (d ++ e) k = match dget d k with Some v => Some v | None => dget e k end.
Proof. induction d as [|[a x] d IH]; cbn; [reflexivity|destruct (Z.eqb a k); auto]. Qed.

Lemma dupdate_fresh {V} : forall (e d : dict V), NoDup (map fst (d ++ e)) -> dupdate d e = d ++ e.
Proof.
  unfold dupdate; induction e as [|[k v] e IH]; intros d H; cbn [fold_left fst snd].
  - rewrite app_nil_r; reflexivity.
  - rewrite map_app in H; cbn [map fst] in H.
    rewrite dset_fresh.
    + rewrite IH; rewrite <- app_assoc; [reflexivity|]. cbn [app]. rewrite map_app; exact H.
    + intros Hin. apply NoDup_remove_2 in H. apply H, in_or_app; left; exact Hin.
Qed.

Lemma dupdate_get {V} : forall (e d : dict V) k, NoDup (map fst e) ->
  dget (dupdate d e) k = match dget e k with Some v => Some v | None => dget d k end.
Proof.
  unfold dupdate; induction e as [|[a v] e IH]; intros d k H; cbn [fold_left fst snd dget]; [reflexivity|].
  inversion H as [|? ? Ha He]; subst. rewrite IH by exact He. rewrite dget_dset.
  destruct (Z.eqb_spec a k) as [->|]; [|reflexivity].
  destruct (dget e k) eqn:E; [|reflexivity].
  exfalso; apply Ha. apply (dget_in e k v0 He) in E. apply (in_map fst) in E; exact E.
Qed.

(* allresults.update over ranks (zfind.py 459-461) *)
Lemma NoDup_app_l {A} (a b : list A) : NoDup (a ++ b) -> NoDup a.
Proof. induction a as [|x a IH]; cbn; intros H; [constructor|]. inversion H; subst.
  constructor; [intros Hc; auto using in_or_app|auto]. Qed.
Lemma NoDup_app_r {A} (a b : list A) : NoDup (a ++ b) -> NoDup b.
Proof. induction a as [|x a IH]; cbn; intros H; [exact H|inversion H; auto]. Qed.
Lemma NoDup_app_disj {A} (a b : list A) : NoDup (a ++ b) -> forall x, In x a -> In x b -> False.
Proof.
  induction a as [|y a IH]; cbn; intros H x Hx Hb; [exact Hx|].
  inversion H as [|? ? Hy Ha]; subst. destruct Hx as [<-|Hx]; [|eauto].
  apply Hy, in_or_app; auto.
Qed.
Lemma update_all_fresh {V} : forall (ds : list (dict V)) (acc : dict V),
  NoDup (map fst (acc ++ concat ds)) -> fold_left dupdate ds acc = acc ++ concat ds.
Proof.
  induction ds as [|d ds IH]; intros acc H; cbn [fold_left concat]; [rewrite app_nil_r; reflexivity|].
  rewrite dupdate_fresh.
  - rewrite IH; rewrite <- app_assoc; [reflexivity|exact H].
  - cbn [concat] in H. rewrite app_assoc, map_app in H. eapply NoDup_app_l; exact H.
Qed.

(* ---------- rebalance ---------- *)
Lemma fold_collect {D V} (m : dict V) : forall (s : list (tgt D)) acc,
  (forall t, In t s -> In (t_id t) (map fst m)) -> NoDup (map fst acc ++ map t_id s) ->
  exists r, fold_left (fun acc t => do a <- acc;
                   match dget m (t_id t) with
                   | Some v => Ok (dset a (t_id t) v) | None => Err KeyError end) s (Ok acc) = Ok (acc ++ r)
    /\ Forall2 (fun t kv => fst kv = t_id t /\ dget m (t_id t) = Some (snd kv)) s r.
Proof.
  induction s as [|t s IH]; intros acc Hin Hn; cbn [fold_left].
  - exists []; rewrite app_nil_r; split; [reflexivity|constructor].
  - destruct (dget m (t_id t)) as [v|] eqn:E.
    2:{ exfalso. apply dget_none in E. apply E, Hin; left; reflexivity. }
    cbn [rbind]. cbn [map] in Hn.
    rewrite dset_fresh.
    2:{ apply NoDup_remove_2 in Hn. intros Hc; apply Hn, in_or_app; auto. }
    destruct (IH (acc ++ [(t_id t, v)])) as (r & Hr & HF).
    + intros t' Ht'; apply Hin; right; exact Ht'.
    + rewrite map_app; cbn [map fst]. rewrite <- app_assoc; exact Hn.
    + exists ((t_id t, v) :: r). rewrite <- app_assoc in Hr. split; [exact Hr|].
      constructor; [cbn; auto|exact HF].
Qed.

Lemma seq_split_slices {A} (flat : list A) k ix d :
  array_split (seq 0 (length flat)) k = Ok ix ->
  array_split flat k = Ok d ->
  map (fun i => match i with [] => [] | i0 :: _ => firstn (length i) (skipn i0 flat) end) ix = d.
Proof.
  unfold array_split. destruct (Nat.eqb_spec k 0) as [|Hk]; [discriminate|].
  rewrite seq_length. intros H1 H2; injection H1 as <-; injection H2 as <-.
  pose proof (section_sizes_sum (length flat) k ltac:(lia)) as Hs.
  assert (G : forall sizes st, st + sumN sizes <= length flat ->
    map (fun i => match i with [] => [] | i0 :: _ => firstn (length i) (skipn i0 flat) end)
      (slices (seq 0 (length flat)) (div_points st sizes)) = slices flat (div_points st sizes)).
  { induction sizes as [|s ss IH]; intros st Hst; [reflexivity|].
    assert (Hsl : forall {B} (l : list B), slices l (st :: div_points (st + s) ss) =
      firstn s (skipn st l) :: slices l (div_points (st + s) ss)).
    { intros B l. destruct ss; cbn [div_points slices]; replace (st + s - st) with s by lia; reflexivity. }
    cbn [div_points]. rewrite !Hsl. cbn [map sumN] in *. rewrite IH by lia. f_equal.
    assert (Hseq : firstn s (skipn st (seq 0 (length flat))) = seq st s).
    { clear IH Hsl. replace (length flat) with (st + (s + (length flat - st - s))) by lia.
      rewrite seq_app, skipn_app, seq_length, Nat.sub_diag.
      rewrite skipn_all2 by (rewrite seq_length; lia). cbn [app skipn Nat.add].
      rewrite seq_app, firstn_app, seq_length, Nat.sub_diag.
      rewrite firstn_all2 by (rewrite seq_length; lia). rewrite app_nil_r. reflexivity. }
    rewrite Hseq. destruct s as [|s]; [reflexivity|].
    cbn [seq]. cbn [length]. rewrite seq_length. reflexivity. }
  apply G. lia.
Qed.

Lemma mapM_ok {A B} (f : A -> res B) (P : A -> B -> Prop) l :
  (forall x, In x l -> exists y, f x = Ok y /\ P x y) ->
  exists m, mapM f l = Ok m /\ Forall2 P l m.
Proof.
  induction l as [|x l IH]; intros H; cbn; [exists []; split; [reflexivity|constructor]|].
  destruct (H x (or_introl eq_refl)) as (y & E & HP). rewrite E; cbn.
  destruct (IH (fun z Hz => H z (or_intror Hz))) as (m & Em & HF). rewrite Em; cbn.
  exists (y :: m); split; [reflexivity|constructor; assumption].
Qed.

Lemma Forall2_combine {A B} (P : A -> B -> Prop) l m : Forall2 P l m ->
  map fst (combine l m) = l /\ Forall (fun ab => P (fst ab) (snd ab)) (combine l m).
Proof. induction 1 as [|a b l m Hab H [IH1 IH2]]; cbn; split; auto. rewrite IH1; reflexivity. Qed.

Lemma concat_keys {D V} (lt : list (list (tgt D))) (lr : list (dict V)) :
  Forall2 (fun ts rs => Permutation (map fst rs) (map t_id ts)) lt lr ->
  Permutation (map fst (concat lr)) (map t_id (concat lt)).
Proof.
  induction 1 as [|a b l m Hab H IH]; cbn; [constructor|].
  rewrite !map_app. apply Permutation_app; assumption.
Qed.

Lemma nth_concat_find {V} : forall (lr : list (dict V)) r rs k v, NoDup (map fst (concat lr)) ->
  nth_error lr r = Some rs -> dget rs k = Some v -> dget (concat lr) k = Some v.
Proof.
  intros lr r rs k v Hn Hr Hk. apply dget_in; [exact Hn|].
  rewrite (in_concat_nth _ _ _ Hr). apply in_or_app; right; apply in_or_app; left.
  apply dget_in; [|exact Hk].
  rewrite (in_concat_nth _ _ _ Hr), !map_app in Hn.
  apply NoDup_app_r in Hn. apply NoDup_app_l in Hn. exact Hn.
Qed.

Lemma in_concat_iff {A} (x : A) ls : In x (concat ls) <-> exists l, In l ls /\ In x l.
Proof. apply in_concat. Qed.

Lemma rebalance_ok {D V} (lt : list (list (tgt D))) (lr : list (dict V)) :
  0 < length lt ->
  NoDup (map t_id (concat lt)) ->
  Forall2 (fun ts rs => Permutation (map fst rs) (map t_id ts)) lt lr ->
  exists out, rebalance lt lr = Ok out /\ length out = length lt /\
    concat (map fst out) = concat lt /\ near_equal (map fst out) /\
    Forall (fun tr => map fst (snd tr) = map t_id (fst tr)) out /\
    (forall ts rs t r ts0 rs0 v, In (ts, rs) out -> In t ts ->
       nth_error lt r = Some ts0 -> nth_error lr r = Some rs0 -> In t ts0 ->
       dget rs0 (t_id t) = Some v -> dget rs (t_id t) = Some v).
Proof.
  intros Hlen Hnd HF.
  pose proof (concat_keys _ _ HF) as Hkeys.
  assert (Hndr : NoDup (map fst (concat lr))) by (eapply Permutation_NoDup; [symmetry; exact Hkeys|exact Hnd]).
  unfold rebalance.
  destruct (array_split_spec (seq 0 (length (concat lt))) (length lt) Hlen) as (ix & Eix & _).
  destruct (array_split_spec (concat lt) (length lt) Hlen) as (d & Ed & Hdl & Hdc & _).
  rewrite Eix; cbn [rbind]. rewrite (seq_split_slices _ _ _ _ Eix Ed).
  rewrite (update_all_fresh lr []) by exact Hndr. cbn [app].
  destruct (mapM_ok (fun s : list (tgt D) =>
       fold_left (fun acc t => do a <- acc;
                   match dget (concat lr) (t_id t) with
                   | Some v => Ok (dset a (t_id t) v) | None => Err KeyError end) s (Ok []))
     (fun s r => Forall2 (fun t kv => fst kv = t_id t /\ dget (concat lr) (t_id t) = Some (snd kv)) s r) d)
    as (m & Em & HFm).
  { intros s Hs. apply In_nth_error in Hs as [n Hn].
    destruct (fold_collect (concat lr) s []) as (r & Hr & HFr).
    - intros t Ht. eapply Permutation_in; [symmetry; exact Hkeys|]. apply in_map.
      rewrite <- Hdc. apply in_concat_iff. exists s; split; [eapply nth_error_In; eassumption|exact Ht].
    - cbn [map app]. rewrite <- Hdc, (in_concat_nth _ _ _ Hn), !map_app in Hnd.
      apply NoDup_app_r in Hnd. apply NoDup_app_l in Hnd. exact Hnd.
    - exists r; auto. }
  rewrite Em; cbn [rbind]. exists (combine d m). split; [reflexivity|].
  destruct (Forall2_combine _ _ _ HFm) as [Hfst HFa].
  split; [rewrite combine_length, <- (Forall2_len _ _ _ HFm); lia|].
  rewrite Hfst. split; [exact Hdc|]. split; [eapply array_split_near; eassumption|].
  split.
  - eapply Forall_impl; [|exact HFa]. intros [ts rs] H; cbn in *.
    induction H as [|t kv ts rs [H1 H2] H IH]; cbn; [reflexivity|rewrite H1, IH; reflexivity].
  - intros ts rs t r ts0 rs0 v Hin Ht Hlt Hlr Ht0 Hv.
    rewrite Forall_forall in HFa. specialize (HFa _ Hin). cbn in HFa.
    assert (Hnk : NoDup (map t_id ts)).
    { assert (Hts : In ts d) by (rewrite <- Hfst; apply (in_map fst) in Hin; exact Hin).
      apply In_nth_error in Hts as [n Hn]. rewrite <- Hdc, (in_concat_nth _ _ _ Hn), !map_app in Hnd.
      apply NoDup_app_r in Hnd. apply NoDup_app_l in Hnd. exact Hnd. }
    pose proof (nth_concat_find lr r rs0 (t_id t) v Hndr Hlr Hv) as Hc.
    clear - HFa Ht Hnk Hc.
    induction HFa as [|t' [k' v'] ts rs [H1 H2] H IH]; [destruct Ht|].
    cbn in H1, H2 |- *. subst k'. cbn [map] in Hnk. inversion Hnk as [|? ? Ha Hd]; subst.
    destruct Ht as [<-|Ht].
    + rewrite Z.eqb_refl; congruence.
    + destruct (Z.eqb_spec (t_id t') (t_id t)) as [E|].
      * exfalso; apply Ha. rewrite E. apply in_map, Ht.
      * apply IH; assumption.
Qed.

(* ---------- DistTargetsCopy ---------- *)
Lemma find_tgt_in {D} (ts : list (tgt D)) t : NoDup (map t_id ts) -> In t ts ->
  find_tgt ts (t_id t) = Some t.
Proof.
  intros Hn Ht. unfold find_tgt.
  destruct (find _ (rev ts)) as [u|] eqn:E.
  - apply find_some in E as [Hu He]. apply Z.eqb_eq in He. apply in_rev in Hu. f_equal.
    clear - Hn Ht Hu He. induction ts as [|a ts IH]; [destruct Ht|].
    cbn in Hn; inversion Hn as [|? ? Ha Hd]; subst.
    destruct Ht as [<-|Ht], Hu as [<-|Hu]; auto.
    + exfalso; apply Ha. rewrite <- He. apply in_map, Hu.
    + exfalso; apply Ha. rewrite He. apply in_map, Ht.
  - exfalso. eapply find_none in E; [|apply in_rev; rewrite rev_involutive; exact Ht].
    rewrite Z.eqb_refl in E; discriminate.
Qed.

Definition tw {D} (ts : list (tgt D)) (i : Z) : Q :=
  match tweights ts i with Some w => w | None => 0%Q end.
Lemma tweights_tot {D} (ts : list (tgt D)) x : In x (map t_id ts) -> tweights ts x = Some (tw ts x).
Proof.
  intros H. unfold tw, tweights. destruct (find _ _) eqn:E; [reflexivity|].
  apply in_map_iff in H as (t & <- & Ht). exfalso.
  eapply find_none in E; [|apply in_rev; rewrite rev_involutive; exact Ht].
  rewrite Z.eqb_refl in E; discriminate.
Qed.

Lemma Forall_pos_repeat n : Forall (fun c : Q => (0 < c)%Q) (repeat 1%Q n).
Proof. apply Forall_forall; intros c Hc; apply repeat_spec in Hc; subst c; reflexivity. Qed.

Lemma distribute_targets_ok {D} (ts : list (tgt D)) n : 0 < n ->
  exists d, distribute_targets ts n = Ok d /\ length d = n /\ Permutation (concat d) (map t_id ts).
Proof.
  intros Hn. destruct (distribute_work_greedy n (map t_id ts) (Some (tweights ts)) None (tw ts))
    as (d & H1 & H2 & H3 & _).
  - intros x Hx; apply tweights_tot, Hx.
  - exact Hn.
  - apply repeat_length.
  - apply Forall_pos_repeat.
  - exists d; auto.
Qed.

Lemma dist_targets_copy_mpi {D} (ts : list (tgt D)) size rank :
  rank < size -> NoDup (map t_id ts) ->
  exists ids data, dist_targets_copy ts (Some (size, rank)) = Ok (ids, data) /\
    map t_id data = ids /\ (forall t, In t data -> In t ts).
Proof.
  intros Hr Hn. unfold dist_targets_copy.
  destruct (distribute_targets_ok ts size ltac:(lia)) as (d & E & Hl & Hp). rewrite E; cbn [rbind].
  destruct (nth_error_lt_ex d rank ltac:(lia)) as [mine Hm]. rewrite Hm.
  destruct (mapM_ok (fun x => match find_tgt ts x with Some t => Ok t | None => Err KeyError end)
    (fun x t => t_id t = x /\ In t ts) mine) as (data & Em & HF).
  { intros x Hx. assert (Hx' : In x (map t_id ts)).
    { eapply Permutation_in; [exact Hp|]. apply in_concat_iff. exists mine; split; [eapply nth_error_In; eassumption|exact Hx]. }
    apply in_map_iff in Hx' as (t & <- & Ht). exists t. rewrite find_tgt_in by assumption. auto. }
  rewrite Em; cbn [rbind]. exists mine, data. split; [reflexivity|].
  split.
  - clear - HF. induction HF as [|x t xs ts' [H1 _] _ IH]; cbn; [reflexivity|rewrite H1, IH; reflexivity].
  - intros t Ht. destruct (Forall2_in_r _ _ _ _ HF Ht) as (x & _ & _ & H); exact H.
Qed.
