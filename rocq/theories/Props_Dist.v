(* Property theorems C16-C19, C24, C25, C79: distribution of work over processes. *)
From Verif Require Import Prelude PreludeFacts Model_Dist Spec_Dist Proof_Dist Proof_Dist2 Proof_Dist3 Proof_Zfind.

(* ---------------- C16 ---------------- *)
(* weight_of: 1 when no weights are given, else the dict lookup.
   caps_of: all 1 when no capacities are given. *)
Theorem C16_distribute_work_partition : forall nproc ids weights capacities,
  0 < nproc ->
  (forall x, In x ids -> weight_of weights x <> None) ->
  length (caps_of nproc capacities) = nproc ->
  Forall (fun c => 0 < c)%Q (caps_of nproc capacities) ->
  exists dist, distribute_work nproc ids weights capacities = Ok dist /\
    length dist = nproc /\ Permutation (concat dist) ids.
Proof.
  intros nproc ids weights capacities Hn Hw Hl Hp.
  destruct (distribute_work_greedy nproc ids weights capacities
    (fun x => match weight_of weights x with Some w => w | None => 0%Q end)) as (d & H1 & H2 & H3 & _); auto.
  - intros x Hx. specialize (Hw x Hx). destruct (weight_of weights x); [reflexivity|congruence].
  - exists d; auto.
Qed.
Print Assumptions C16_distribute_work_partition.

(* outside these conditions it raises rather than losing an item *)
Theorem C16_distribute_work_errors : forall nproc ids weights capacities,
  (exists x, In x ids /\ weight_of weights x = None) ->
  distribute_work nproc ids weights capacities = Err KeyError.
Proof.
  intros nproc ids weights capacities (x & Hx & Hw). unfold distribute_work.
  assert (Hf : forallb (fun x => match (match weights with None => (fun _ => Some 1%Q) | Some f => f end) x
                                 with Some _ => true | None => false end) ids = false).
  { destruct (forallb _ ids) eqn:E; [|reflexivity]. rewrite forallb_forall in E. specialize (E x Hx).
    destruct weights; cbn in *; [rewrite Hw in E; discriminate|discriminate]. }
  rewrite Hf; reflexivity.
Qed.
Print Assumptions C16_distribute_work_errors.

Definition ex_w (x : Z) : option Q := Some (inject_Z (x mod 4 + 1)).
Example C16_ex : distribute_work 3 [10;11;12;13;14;15;16]%Z (Some ex_w) (Some [1; 2; (1#2)])%Q
  = Ok [[10; 12; 16]; [11; 15; 14]; [13]]%Z.
Proof. vm_compute. reflexivity. Qed.

(* ---------------- C17 ---------------- *)
Lemma load_ext wt wt' l : (forall x, In x l -> wt x = wt' x) -> load wt l = load wt' l.
Proof. intros H; unfold load. f_equal. apply map_ext_in, H. Qed.

Lemma greedy_ext wt wt' caps it d : greedy wt caps it d ->
  (forall x, In x it -> wt x = wt' x) -> greedy wt' caps it d.
Proof.
  induction 1 as [|it d x i d' Hg IH Hi Hpref Hl Hn Ho]; intros He; [constructor|].
  assert (He' : forall y, In y it -> wt y = wt' y) by (intros; apply He, in_or_app; auto).
  apply greedy_snoc with (d := d) (i := i); auto.
  intros j Hj Hne. specialize (Hpref j Hj Hne). unfold prefers in *.
  rewrite <- !(load_ext wt wt') by (intros y Hy; apply He'; eapply greedy_in; eassumption).
  rewrite <- (He x) by (apply in_or_app; right; left; reflexivity). exact Hpref.
Qed.

Lemma wle_total wt : total_b (fun a b : Z => Qle_bool (wt b) (wt a)).
Proof.
  intros a b. destruct (Qle_bool (wt b) (wt a)) eqn:E; [auto|]. rewrite Qle_bool_false in E.
  right; apply Qle_bool_iff; lra.
Qed.
Lemma wle_trans wt : trans_b (fun a b : Z => Qle_bool (wt b) (wt a)).
Proof. intros a b c. rewrite !Qle_bool_iff; intros; lra. Qed.

Lemma by_weight_sorted wt ids :
  Permutation ids (by_weight wt ids) /\
  StronglySorted (fun a b => wt b <= wt a)%Q (by_weight wt ids) /\
  (forall w, filter (fun x => Qeq_bool (wt x) w) (by_weight wt ids) = filter (fun x => Qeq_bool (wt x) w) ids).
Proof.
  split; [apply isort_perm|]. split.
  - eapply StronglySorted_impl; [|apply isort_sorted; [apply wle_total|apply wle_trans]].
    cbn; intros a b _ _ H; apply Qle_bool_iff, H.
  - intros w. unfold by_weight. rewrite filter_isort; [|apply wle_total|apply wle_trans].
    apply isort_id; try (apply wle_total); try (apply wle_trans).
    set (l := filter _ ids). assert (Hl : forall x, In x l -> (wt x == w)%Q).
    { intros x Hx. apply filter_In in Hx as [_ Hx]. apply Qeq_bool_iff, Hx. }
    clearbody l. induction l as [|a l IH]; constructor.
    + apply IH; intros x Hx; apply Hl; right; exact Hx.
    + apply Forall_forall; intros y Hy. apply Qle_bool_iff.
      rewrite (Hl y (or_intror Hy)), (Hl a (or_introl eq_refl)). lra.
Qed.

(* Items are handed out heaviest first (equal weights in the caller's order),
   each to the worker [prefers]-best at that moment. *)
Theorem C17_heaviest_first_greedy : forall nproc ids weights capacities wt,
  (forall x, In x ids -> weight_of weights x = Some (wt x)) ->
  0 < nproc -> length (caps_of nproc capacities) = nproc ->
  Forall (fun c => 0 < c)%Q (caps_of nproc capacities) ->
  exists dist items,
    distribute_work nproc ids weights capacities = Ok dist /\
    Permutation items ids /\
    StronglySorted (fun a b => wt b <= wt a)%Q items /\
    (forall w, filter (fun x => Qeq_bool (wt x) w) items = filter (fun x => Qeq_bool (wt x) w) ids) /\
    greedy wt (caps_of nproc capacities) items dist.
Proof.
  intros nproc ids weights capacities wt Hw Hn Hl Hp.
  destruct (distribute_work_greedy nproc ids weights capacities wt Hw Hn Hl Hp)
    as (d & H1 & H2 & H3 & wt' & He & Hg).
  destruct (by_weight_sorted wt' ids) as (B1 & B2 & B3).
  assert (Hin : forall x, In x (by_weight wt' ids) -> In x ids) by (intros x Hx; eapply Permutation_in; [symmetry; exact B1|exact Hx]).
  exists d, (by_weight wt' ids). split; [exact H1|]. split; [symmetry; exact B1|]. split; [|split].
  - eapply StronglySorted_impl; [|exact B2]. cbn; intros a b Ha Hb H. rewrite <- !He by auto. exact H.
  - intros w. specialize (B3 w).
    rewrite (filter_ext_in _ (fun x => Qeq_bool (wt' x) w)) by (intros a Ha; rewrite He; auto).
    rewrite B3. apply filter_ext_in. intros a Ha; rewrite He; auto.
  - eapply greedy_ext; [exact Hg|]. auto.
Qed.
Print Assumptions C17_heaviest_first_greedy.

(* uniform capacities: nobody carries more than the average plus one item, and
   the gap between any two workers is at most one item of the heavier one *)
Theorem C17_balance : forall nproc ids weights wt wmax,
  (forall x, In x ids -> weight_of weights x = Some (wt x)) ->
  (forall x, In x ids -> 0 <= wt x /\ wt x <= wmax)%Q -> (0 <= wmax)%Q ->
  0 < nproc ->
  exists dist, distribute_work nproc ids weights None = Ok dist /\
    (forall i, i < nproc ->
       (load wt (nth i dist []) <= load wt ids / inject_Z (Z.of_nat nproc) + wmax)%Q) /\
    (forall i j l x, i < nproc -> j < nproc -> nth i dist [] = l ++ [x] ->
       (load wt (nth i dist []) - wt x <= load wt (nth j dist []))%Q /\
       forall y, In y l -> (wt x <= wt y)%Q).
Proof.
  intros nproc ids weights wt wmax Hw Hb H0 Hn.
  destruct (C17_heaviest_first_greedy nproc ids weights None wt Hw Hn (repeat_length _ _) (Forall_pos_repeat _))
    as (d & items & H1 & H2 & H3 & H4 & Hg). cbn [caps_of] in Hg.
  destruct (C16_distribute_work_partition nproc ids weights None Hn) as (d2 & E2 & _ & Hpm).
  { intros x Hx; rewrite (Hw x Hx); discriminate. }
  { apply repeat_length. } { apply Forall_pos_repeat. }
  rewrite H1 in E2; injection E2 as <-.
  exists d. split; [exact H1|]. split.
  - intros i Hi.
    pose proof (greedy_uniform_bound wt items d nproc wmax Hg) as G.
    specialize (G (Permutation_trans Hpm (Permutation_sym H2))).
    assert (Hb' : forall x, In x items -> (0 <= wt x /\ wt x <= wmax)%Q)
      by (intros x Hx; apply Hb; eapply Permutation_in; [exact H2|exact Hx]).
    specialize (G Hb' H0 i Hi). rewrite (load_perm wt _ _ H2) in G.
    set (n := inject_Z (Z.of_nat nproc)) in *.
    assert (Hn0 : (0 < n)%Q) by (unfold n; change 0%Q with (inject_Z 0); rewrite <- Zlt_Qlt; lia).
    assert (Hk : (inject_Z (Z.of_nat (nproc - 1)) * wmax <= n * wmax)%Q).
    { apply Qmult_le_compat_r; [unfold n; rewrite <- Zle_Qle; lia|exact H0]. }
    apply (Qmult_le_l _ _ n Hn0).
    setoid_replace (n * (load wt ids / n + wmax))%Q with (load wt ids + n * wmax)%Q by (field; lra). lra.
  - intros i j l x Hi Hj E. split.
    + eapply greedy_uniform_gap; try eassumption; [reflexivity|].
      intros y Hy; apply Hb; eapply Permutation_in; [exact H2|exact Hy].
    + intros y Hy. pose proof (greedy_subseq wt _ _ _ Hg i) as Hs. rewrite E in Hs.
      assert (Hso : StronglySorted (fun a b => wt b <= wt a)%Q (l ++ [x])).
      { revert H3; clear - Hs. induction Hs; intros H3; [constructor| |].
        - inversion H3; auto.
        - inversion H3 as [|? ? Hs' Hall]; subst. constructor; [auto|].
          apply Forall_forall; intros y Hy. rewrite Forall_forall in Hall. apply Hall.
          clear - Hs Hy. induction Hs; [destruct Hy|right; auto|destruct Hy as [<-|Hy]; [left; reflexivity|right; auto]]. }
      clear - Hso Hy. induction l as [|a l IH]; [destruct Hy|]. cbn in Hso.
      inversion Hso as [|? ? Hs' Hall]; subst. destruct Hy as [<-|Hy]; [|auto].
      rewrite Forall_forall in Hall. apply Hall, in_or_app; right; left; reflexivity.
Qed.
Print Assumptions C17_balance.
Example C17_ex : distribute_work 2 [1;2;3;4;5]%Z (Some (fun x => nth_error [0;5;4;3;3;3]%Q (Z.to_nat x))) None
  = Ok [[1; 4]; [2; 3; 5]]%Z.
Proof. vm_compute. reflexivity. Qed.

(* ---------------- C18 ---------------- *)
(* CPU ranks of a GPU run get nothing until every GPU rank holds 10000 times as
   many targets; in particular nothing for up to 10000 targets per GPU rank. *)
Lemma unit_load l : (load (fun _ => 1%Q) l == inject_Z (Z.of_nat (length l)))%Q.
Proof.
  induction l as [|x l IH]; [reflexivity|].
  change (x :: l) with ([x] ++ l). rewrite load_app, IH, load_one.
  cbn [app length]. rewrite Nat2Z.inj_succ, <- Z.add_1_r, inject_Z_plus. change (inject_Z 1) with 1%Q. lra.
Qed.

Lemma gpu_caps_nth flags caps i : gpu_capacities flags = Some caps ->
  length caps = length flags /\ (i < length flags -> nth i caps 0%Q = if nth i flags false then 1%Q else (1 / 10000)%Q).
Proof.
  unfold gpu_capacities. destruct (_ && _); [|discriminate]. intros H; injection H as <-.
  rewrite map_length. split; [reflexivity|]. intros Hi.
  set (f := fun b : bool => if b then 1%Q else (1 / 10000)%Q).
  rewrite (nth_indep _ 0%Q (f false)) by (rewrite map_length; exact Hi). apply (map_nth f).
Qed.

Theorem C18_gpu_ranks_first : forall flags caps ids,
  gpu_capacities flags = Some caps ->
  exists dist, distribute_work (length flags) ids None (Some caps) = Ok dist /\
    forall c g, nth_error flags c = Some false -> nth_error flags g = Some true ->
      nth c dist [] <> [] ->
      (10000 * Z.of_nat (length (nth c dist [])) <= Z.of_nat (length (nth g dist [])))%Z.
Proof.
  intros flags caps ids Hcap.
  assert (Hn : 0 < length flags).
  { unfold gpu_capacities in Hcap. destruct flags; cbn in *; [discriminate|lia]. }
  destruct (gpu_caps_nth flags caps 0 Hcap) as [Hlen _].
  assert (Hpos : Forall (fun c => 0 < c)%Q caps).
  { unfold gpu_capacities in Hcap. destruct (_ && _); [|discriminate]. injection Hcap as <-.
    apply Forall_forall. intros c Hc. apply in_map_iff in Hc as (b & <- & _). destruct b; reflexivity. }
  destruct (C17_heaviest_first_greedy (length flags) ids None (Some caps) (fun _ => 1%Q))
    as (d & items & H1 & H2 & H3 & H4 & Hg); auto.
  exists d. split; [exact H1|]. intros c g Hc Hgp Hne. cbn [caps_of] in Hg.
  pose proof (nth_error_Some_lt _ _ _ Hc) as Hcl. pose proof (nth_error_Some_lt _ _ _ Hgp) as Hgl.
  destruct (list_snoc_cases (nth c d [])) as [E|(l & x & E)]; [congruence|].
  assert (Hcg : g <> c) by (intros ->; congruence).
  destruct (greedy_last (fun _ => 1%Q) caps items d Hg Hpos ltac:(intros; discriminate) c l x ltac:(lia) E g ltac:(lia) Hcg) as [_ Hlt].
  cbv zeta in Hlt.
  rewrite (proj2 (gpu_caps_nth flags caps c Hcap) Hcl), (proj2 (gpu_caps_nth flags caps g Hcap) Hgl) in Hlt.
  rewrite (nth_error_nth _ _ _ Hc), (nth_error_nth _ _ _ Hgp) in Hlt.
  specialize (Hlt ltac:(reflexivity)).
  rewrite !unit_load in Hlt.
  assert (A : (inject_Z (Z.of_nat (length (nth c d []))) / (1 / 10000) ==
               inject_Z (10000 * Z.of_nat (length (nth c d []))))%Q).
  { rewrite inject_Z_mult. change (inject_Z 10000) with 10000%Q. field. }
  assert (B : ((inject_Z (Z.of_nat (length (nth g d []))) + 1) / 1 ==
               inject_Z (Z.of_nat (length (nth g d [])) + 1))%Q).
  { rewrite inject_Z_plus. change (inject_Z 1) with 1%Q. field. }
  rewrite A, B, <- Zlt_Qlt in Hlt.
  lia.
Qed.
Print Assumptions C18_gpu_ranks_first.

(* consequence: few enough targets leave every CPU rank without scan work *)
Lemma len_concat_lb {A} (k : Z) (b : list bool) : forall (d : list (list A)),
  length d = length b -> (forall i, nth_error b i = Some true -> (k <= Z.of_nat (length (nth i d [])))%Z) ->
  (k * Z.of_nat (length (filter (fun x => x) b)) <= Z.of_nat (length (concat d)))%Z.
Proof.
  induction b as [|x b IH]; intros [|l d] Hl H; cbn in Hl; try discriminate; cbn [filter concat]; [cbn; lia|].
  rewrite app_length. specialize (IH d ltac:(lia) (fun i Hi => H (S i) Hi)).
  destruct x; cbn [length]; [|lia]. specialize (H 0 eq_refl). cbn in H. lia.
Qed.
Lemma len_concat_extra {A} (k : Z) : forall (b : list bool) (d : list (list A)) c,
  length d = length b -> (forall i, nth_error b i = Some true -> (k <= Z.of_nat (length (nth i d [])))%Z) ->
  nth_error b c = Some false -> nth c d [] <> [] ->
  (k * Z.of_nat (length (filter (fun x => x) b)) < Z.of_nat (length (concat d)))%Z.
Proof.
  induction b as [|x b IH]; intros [|l d] c Hl H Hc Hne; cbn in Hl; try discriminate; [destruct c; discriminate|].
  cbn [filter concat]. rewrite app_length. destruct c as [|c]; cbn in Hc, Hne.
  - injection Hc as ->. pose proof (len_concat_lb k b d ltac:(lia) (fun i Hi => H (S i) Hi)).
    destruct l; [congruence|]. cbn [length]. lia.
  - specialize (IH d c ltac:(lia) (fun i Hi => H (S i) Hi) Hc Hne).
    destruct x; cbn [length]; [|lia]. specialize (H 0 eq_refl). cbn in H. lia.
Qed.

Theorem C18_cpu_ranks_idle : forall flags caps ids,
  gpu_capacities flags = Some caps ->
  (Z.of_nat (length ids) <= 10000 * Z.of_nat (length (filter (fun b => b) flags)))%Z ->
  exists dist, distribute_work (length flags) ids None (Some caps) = Ok dist /\
    forall c, nth_error flags c = Some false -> nth c dist [] = [].
Proof.
  intros flags caps ids Hcap Hle.
  destruct (C18_gpu_ranks_first flags caps ids Hcap) as (d & E & H).
  exists d; split; [exact E|]. intros c Hc.
  destruct (nth c d []) as [|x l] eqn:En; [reflexivity|exfalso].
  assert (Hn : 0 < length flags) by (pose proof (nth_error_Some_lt _ _ _ Hc); lia).
  destruct (gpu_caps_nth flags caps 0 Hcap) as [Hlen _].
  destruct (C16_distribute_work_partition (length flags) ids None (Some caps)) as (d2 & E2 & Hl & Hp); auto.
  { discriminate. }
  { unfold gpu_capacities in Hcap. destruct (_ && _); [|discriminate]. injection Hcap as <-.
    apply Forall_forall. intros q Hq. apply in_map_iff in Hq as (b & <- & _). destruct b; reflexivity. }
  rewrite E in E2; injection E2 as <-.
  pose proof (len_concat_extra 10000 flags d c Hl) as G.
  rewrite (Permutation_length Hp) in G.
  enough (10000 * Z.of_nat (length (filter (fun x => x) flags)) < Z.of_nat (length ids))%Z by lia.
  apply G; [|exact Hc|rewrite En; discriminate].
  intros g Hg. specialize (H c g Hc Hg). rewrite En in H. specialize (H ltac:(discriminate)). cbn [length] in H. lia.
Qed.
Print Assumptions C18_cpu_ranks_idle.
Example C18_ex : exists caps, gpu_capacities [false; true; false; true] = Some caps /\
  distribute_work 4 [1;2;3;4;5]%Z None (Some caps) = Ok [[]; [1;3;5]; []; [2;4]]%Z.
Proof. eexists; split; [reflexivity|]. vm_compute. reflexivity. Qed.

(* ---------------- C19 ---------------- *)
Theorem C19_array_split_covers : forall {A} (l : list A) k,
  0 < k ->
  exists d, array_split l k = Ok d /\ length d = k /\ concat d = l /\ near_equal d /\
    (forall i j a b, i <= j -> nth_error d i = Some a -> nth_error d j = Some b -> length b <= length a).
Proof.
  intros A l k Hk. destruct (array_split_spec l k Hk) as (d & E & H1 & H2 & H3).
  exists d. split; [exact E|]. split; [exact H1|]. split; [exact H2|]. split; [eapply array_split_near; exact E|].
  intros i j a b Hij Ha Hb.
  assert (Hd : forall i a, nth_error d i = Some a -> nth_error (section_sizes (length l) k) i = Some (length a)).
  { intros i0 a0 H0. rewrite <- H3, nth_error_map, H0. reflexivity. }
  apply Hd in Ha, Hb. unfold section_sizes in Ha, Hb.
  assert (Hrep : forall (x : nat) n i y, nth_error (repeat x n) i = Some y -> y = x).
  { intros x n i0 y Hy. apply nth_error_In in Hy. eapply repeat_spec; exact Hy. }
  destruct (Nat.lt_ge_cases i (length l mod k)) as [Hi|Hi].
  - rewrite nth_error_app1 in Ha by (rewrite repeat_length; exact Hi). apply Hrep in Ha.
    assert (Hb' : length b = length l / k \/ length b = S (length l / k)).
    { apply (section_sizes_val _ _ _ (nth_error_In _ _ Hb)). }
    lia.
  - rewrite nth_error_app2 in Ha by (rewrite repeat_length; exact Hi).
    rewrite nth_error_app2 in Hb by (rewrite repeat_length; lia). apply Hrep in Ha, Hb. lia.
Qed.
Print Assumptions C19_array_split_covers.
Example C19_ex : array_split [1;2;3;4;5;6;7;8]%Z 3 = Ok [[1;2;3];[4;5;6];[7;8]]%Z.
Proof. reflexivity. Qed.

(* ---------------- C24 ---------------- *)
(* True for up to as many ranks as redshifts ... *)
Theorem C24_enough_redshifts_partial : forall {A} (zs : list A) size rank,
  rank < size -> size <= length zs ->
  exists myz, rank_redshifts zs size rank = Ok myz /\ myz <> [].
Proof.
  intros A zs size rank Hr Hs. unfold rank_redshifts.
  destruct (array_split_spec zs size ltac:(lia)) as (d & E & H1 & H2 & H3). rewrite E; cbn [rbind].
  destruct (nth_error_lt_ex d rank ltac:(lia)) as [m Hm]. rewrite Hm.
  assert (Hl : length m = length zs / size \/ length m = S (length zs / size)).
  { apply section_sizes_val with (k := size). rewrite <- H3. apply in_map. eapply nth_error_In; exact Hm. }
  pose proof (Nat.div_le_mono size (length zs) size ltac:(lia) Hs) as Hd. rewrite Nat.div_same in Hd by lia.
  destruct m; [cbn in Hl; lia|]. eexists; split; [reflexivity|discriminate].
Qed.
Print Assumptions C24_enough_redshifts_partial.
(* ... and false for every larger number of ranks: the last rank raises. *)
Theorem C24_more_ranks_than_redshifts_refuted : forall {A} (zs : list A) size,
  length zs < size -> rank_redshifts zs size (size - 1) = Err ValueError.
Proof.
  intros A zs size Hs. unfold rank_redshifts.
  destruct (array_split_spec zs size ltac:(lia)) as (d & E & H1 & H2 & H3). rewrite E; cbn [rbind].
  destruct (nth_error_lt_ex d (size - 1) ltac:(lia)) as [m Hm]. rewrite Hm.
  assert (Hl : nth_error (section_sizes (length zs) size) (size - 1) = Some (length m)).
  { rewrite <- H3, nth_error_map, Hm. reflexivity. }
  unfold section_sizes in Hl. rewrite Nat.mod_small, Nat.div_small in Hl by exact Hs.
  rewrite nth_error_app2 in Hl by (rewrite repeat_length; lia).
  apply nth_error_In, repeat_spec in Hl. destruct m; [reflexivity|discriminate].
Qed.
Print Assumptions C24_more_ranks_than_redshifts_refuted.

(* ---------------- C25 ---------------- *)
Theorem C25_rebalance : forall {D V} (lt : list (list (tgt D))) (lr : list (dict V)),
  0 < length lt ->
  NoDup (map t_id (concat lt)) ->
  Forall2 (fun ts rs => Permutation (map fst rs) (map t_id ts)) lt lr ->
  exists out, rebalance lt lr = Ok out /\ length out = length lt /\
    concat (map fst out) = concat lt /\ near_equal (map fst out) /\
    Forall (fun tr => map fst (snd tr) = map t_id (fst tr)) out /\
    (forall ts rs t r ts0 rs0 v, In (ts, rs) out -> In t ts ->
       nth_error lt r = Some ts0 -> nth_error lr r = Some rs0 -> In t ts0 ->
       dget rs0 (t_id t) = Some v -> dget rs (t_id t) = Some v).
Proof. intros D V. exact rebalance_ok. Qed.
Print Assumptions C25_rebalance.
Definition T (i : Z) (n : nat) : tgt Z := {| t_id := i; t_nspec := n; t_data := (i * 100)%Z |}.
Example C25_ex :
  rebalance [[T 1 1; T 2 1; T 3 1]; []; [T 4 2]] [[(2, 20); (1, 10); (3, 30)]; []; [(4, 40)]]%Z
  = Ok [([T 1 1; T 2 1], [(1, 10); (2, 20)]); ([T 3 1], [(3, 30)]); ([T 4 2], [(4, 40)])]%Z.
Proof. reflexivity. Qed.

(* ---------------- C79 ---------------- *)
(* local_target_ids()[i] is the id of local()[i].  Under MPI this holds for
   every rank; without MPI it holds only if the input is already ordered by
   descending number of spectra. *)
Theorem C79_copy_ids_match_data_mpi_partial : forall {D} (ts : list (tgt D)) size rank,
  rank < size -> NoDup (map t_id ts) ->
  exists ids data, dist_targets_copy ts (Some (size, rank)) = Ok (ids, data) /\
    map t_id data = ids /\ (forall t, In t data -> In t ts).
Proof. intros D. exact dist_targets_copy_mpi. Qed.
Print Assumptions C79_copy_ids_match_data_mpi_partial.

Theorem C79_copy_ids_match_data_serial_refuted :
  exists ts : list (tgt Z), NoDup (map t_id ts) /\
  exists ids data, dist_targets_copy ts None = Ok (ids, data) /\ map t_id data <> ids.
Proof.
  exists [T 1 1; T 2 3]. split; [repeat constructor; cbn; intuition discriminate|].
  do 2 eexists; split; [vm_compute; reflexivity|discriminate].
Qed.
Print Assumptions C79_copy_ids_match_data_serial_refuted.

Lemma weight_unique {D} (ts : list (tgt D)) t : NoDup (map t_id ts) -> In t ts ->
  tw ts (t_id t) = inject_Z (Z.of_nat (t_nspec t)).
Proof.
  intros Hn Ht. unfold tw, tweights. pose proof (find_tgt_in ts t Hn Ht) as H. unfold find_tgt in H.
  rewrite H; reflexivity.
Qed.
Lemma one_proc_order wt caps it d : greedy wt caps it d -> length caps = 1 -> d = [it].
Proof.
  induction 1 as [|it d x i d' Hg IH Hi Hpref Hl Hn Ho]; intros H1.
  - rewrite H1; reflexivity.
  - rewrite (IH H1) in *. assert (i = 0) by lia; subst i. cbn in Hn, Hl.
    destruct d' as [|a [|b r]]; cbn in Hl; try lia. cbn in Hn. rewrite Hn; reflexivity.
Qed.
Theorem C79_copy_ids_match_data_serial_partial : forall {D} (ts : list (tgt D)),
  NoDup (map t_id ts) ->
  StronglySorted (fun a b => t_nspec b <= t_nspec a) ts ->
  dist_targets_copy ts None = Ok (map t_id ts, ts).
Proof.
  intros D ts Hn Hs. unfold dist_targets_copy, distribute_targets.
  destruct (C17_heaviest_first_greedy 1 (map t_id ts) (Some (tweights ts)) None (tw ts)) as (d & items & H1 & H2 & H3 & H4 & Hg).
  - intros x Hx; apply tweights_tot, Hx.
  - lia.
  - reflexivity.
  - apply Forall_pos_repeat.
  - rewrite H1; cbn [rbind]. apply one_proc_order in Hg; [|reflexivity]. subst d. cbn [nth_error].
    (* the sorted order of already sorted ids is the ids *)
    unfold distribute_work in H1.
    set (wl := fun x => _) in H1 at 1.
    destruct (forallb wl (map t_id ts)); [|discriminate].
    set (wt' := fun x => match tweights ts x with Some w => w | None => 0%Q end) in H1.
    assert (Hb : by_weight wt' (map t_id ts) = map t_id ts).
    { apply isort_id; try (apply wle_total); try (apply wle_trans).
      apply StronglySorted_map. eapply StronglySorted_impl; [|exact Hs]. cbn.
      intros a b Ha Hb Hab. apply Qle_bool_iff. change (wt' (t_id b)) with (tw ts (t_id b)). change (wt' (t_id a)) with (tw ts (t_id a)).
      rewrite !weight_unique by assumption. rewrite <- Zle_Qle. lia. }
    destruct (assign_greedy wt' [1%Q] (Forall_pos_repeat 1) ltac:(cbn; lia) (by_weight wt' (map t_id ts))
      (map (fun ic => {| p_id := fst ic; p_cap := snd ic; p_load := 0%Q |}) (enum [1%Q])) (repeat [] 1) [])
      as (d' & A1 & A2 & A3 & A4); [apply tracks_init; reflexivity|constructor|constructor|].
    change (caps_of 1 None) with [1%Q] in H1. cbn [repeat] in H1, A1. rewrite H1 in A1. injection A1 as <-.
    apply one_proc_order in A2; [|reflexivity]. cbn [app] in A2. injection A2 as ->. rewrite Hb. reflexivity.
Qed.
Print Assumptions C79_copy_ids_match_data_serial_partial.
Example C79_ex : dist_targets_copy [T 5 3; T 4 2; T 9 2; T 1 1] None = Ok ([5;4;9;1]%Z, [T 5 3; T 4 2; T 9 2; T 1 1]).
Proof. vm_compute; reflexivity. Qed.
