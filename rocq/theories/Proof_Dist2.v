(* Balance bound, array_split, rebalancing, target copies. *)
From Verif Require Import Prelude PreludeFacts Model_Dist Spec_Dist Proof_Dist.

Lemma nth_repeat_lt {A} (x d : A) i n : i < n -> nth i (repeat x n) d = x.
Proof. revert n; induction i as [|i IH]; intros [|n] H; cbn; try lia; [reflexivity|apply IH; lia]. Qed.

Lemma load_perm wt l m : Permutation l m -> (load wt l == load wt m)%Q.
Proof. intros H; apply sumQ_perm, Permutation_map, H. Qed.

Lemma load_concat_lb wt (b : Q) : forall d,
  (forall l, In l d -> b <= load wt l)%Q ->
  (inject_Z (Z.of_nat (length d)) * b <= load wt (concat d))%Q.
Proof.
  induction d as [|l d IH]; intros H; cbn [concat length].
  - cbn. unfold load, sumQ; cbn. setoid_replace (inject_Z 0 * b)%Q with 0%Q by (unfold inject_Z; ring). apply Qle_refl.
  - rewrite load_app, Nat2Z.inj_succ, <- Z.add_1_r, inject_Z_plus.
    pose proof (H l (or_introl eq_refl)). pose proof (IH (fun m Hm => H m (or_intror Hm))).
    change (inject_Z 1) with 1%Q. lra.
Qed.

Lemma load_concat_lb1 wt (b : Q) i : forall d, i < length d ->
  (forall j, j < length d -> j <> i -> (b <= load wt (nth j d []))%Q) ->
  (load wt (nth i d []) + inject_Z (Z.of_nat (length d - 1)) * b <= load wt (concat d))%Q.
Proof.
  intros d; revert i; induction d as [|l d IH]; intros i Hi H; cbn in Hi; [lia|].
  cbn [concat length]. rewrite load_app.
  replace (S (length d) - 1) with (length d) by lia.
  destruct i as [|i]; cbn [nth].
  - pose proof (load_concat_lb wt b d). assert (Hd : forall l, In l d -> (b <= load wt l)%Q).
    { intros m Hm. apply (In_nth _ _ (@nil Z)) in Hm as (j & Hj & <-).
      apply (H (S j)); cbn; lia. }
    specialize (H0 Hd). lra.
  - specialize (IH i ltac:(lia)).
    assert (Hl : (b <= load wt l)%Q) by (apply (H 0); cbn; lia).
    assert (Hr : forall j, j < length d -> j <> i -> (b <= load wt (nth j d []))%Q)
      by (intros j Hj Hne; apply (H (S j)); cbn; lia).
    specialize (IH Hr).
    destruct (length d) as [|n] eqn:E; [lia|].
    rewrite Nat2Z.inj_succ, <- Z.add_1_r, inject_Z_plus.
    replace (S n - 1) with n in IH by lia. change (inject_Z 1) with 1%Q. lra.
Qed.

Lemma greedy_uniform_gap wt caps it d n :
  caps = repeat 1%Q n ->
  greedy wt caps it d -> (forall x, In x it -> 0 <= wt x)%Q ->
  forall i j l x, i < n -> j < n -> nth i d [] = l ++ [x] ->
  (load wt (nth i d []) - wt x <= load wt (nth j d []))%Q.
Proof.
  intros -> Hg Hw i j l x Hi Hj E.
  assert (Hlen : length (repeat 1%Q n) = n) by apply repeat_length.
  destruct (Nat.eq_dec j i) as [->|Hne].
  - assert (0 <= wt x)%Q; [|lra]. apply Hw. eapply greedy_in with (i := i); [eassumption|].
    rewrite E; apply in_or_app; right; left; reflexivity.
  - destruct (greedy_last wt _ it d Hg) with (i := i) (l := l) (x := x) (j := j) as [H _]; auto; try lia.
    { apply Forall_forall; intros c Hc; apply repeat_spec in Hc; subst c; reflexivity. }
    cbv zeta in H. rewrite !nth_repeat_lt in H by assumption.
    unfold Qdiv in H. change (/ 1)%Q with 1%Q in H. lra.
Qed.

Lemma list_snoc_cases {A} (l : list A) : l = [] \/ exists m x, l = m ++ [x].
Proof. induction l using rev_ind; eauto. Qed.

Lemma greedy_uniform_bound wt it d n wmax :
  greedy wt (repeat 1%Q n) it d -> Permutation (concat d) it ->
  (forall x, In x it -> 0 <= wt x /\ wt x <= wmax)%Q -> (0 <= wmax)%Q ->
  forall i, i < n ->
  (inject_Z (Z.of_nat n) * load wt (nth i d []) <= load wt it + inject_Z (Z.of_nat (n - 1)) * wmax)%Q.
Proof.
  intros Hg Hp Hw H0 i Hi.
  pose proof (greedy_length _ _ _ _ Hg) as Hd. rewrite repeat_length in Hd.
  assert (Hw0 : forall x, In x it -> (0 <= wt x)%Q) by (intros x Hx; apply Hw, Hx).
  set (L := load wt (nth i d [])) in *.
  assert (Hj : forall j, j < length d -> j <> i -> (L - wmax <= load wt (nth j d []))%Q).
  { intros j Hj Hne. destruct (list_snoc_cases (nth i d [])) as [E|(l & x & E)].
    - unfold L. rewrite E. unfold load at 1; cbn.
      assert (0 <= load wt (nth j d []))%Q; [|lra].
      apply load_nonneg. intros y Hy. apply Hw0. eapply greedy_in; eassumption.
    - pose proof (greedy_uniform_gap wt _ it d n eq_refl Hg Hw0 i j l x Hi ltac:(lia) E).
      assert (wt x <= wmax)%Q.
      { apply Hw. eapply greedy_in with (i := i); [eassumption|]. rewrite E; apply in_or_app; right; left; reflexivity. }
      fold L in H. lra. }
  pose proof (load_concat_lb1 wt (L - wmax) i d ltac:(lia) Hj) as Hs. fold L in Hs.
  rewrite (load_perm wt _ _ Hp), Hd in Hs.
  destruct n as [|n]; [lia|]. replace (S n - 1) with n in * by lia.
  rewrite Nat2Z.inj_succ, <- Z.add_1_r, inject_Z_plus. change (inject_Z 1) with 1%Q.
  set (k := inject_Z (Z.of_nat n)) in *.
  setoid_replace ((k + 1) * L)%Q with (L + k * (L - wmax) + k * wmax)%Q by ring. lra.
Qed.

(* ---------- array_split ---------- *)
Fixpoint sumN (l : list nat) : nat := match l with [] => 0 | x :: r => x + sumN r end.
Lemma sumN_app a b : sumN (a ++ b) = sumN a + sumN b.
Proof. induction a as [|x a IH]; cbn [app sumN]; [|rewrite IH]; lia. Qed.
Lemma sumN_repeat x n : sumN (repeat x n) = n * x.
Proof. induction n as [|n IH]; cbn [repeat sumN]; [|rewrite IH]; lia. Qed.

Lemma slices_lengths {A} (l : list A) : forall sizes st, st + sumN sizes <= length l ->
  map (@List.length A) (slices l (div_points st sizes)) = sizes.
Proof.
  induction sizes as [|s ss IH]; intros st H; cbn [div_points].
  - reflexivity.
  - destruct ss as [|s' ss'].
    + cbn in *. f_equal. rewrite firstn_length, skipn_length. lia.
    + specialize (IH (st + s)). cbn [div_points slices map] in *. rewrite IH by (cbn in *; lia).
      f_equal. rewrite firstn_length, skipn_length. cbn in H. lia.
Qed.

Lemma slices_concat {A} (l : list A) : forall sizes st, st + sumN sizes <= length l ->
  concat (slices l (div_points st sizes)) = firstn (sumN sizes) (skipn st l).
Proof.
  induction sizes as [|s ss IH]; intros st H; cbn [div_points].
  - reflexivity.
  - assert (Hs : slices l (st :: div_points (st + s) ss) =
      firstn s (skipn st l) :: slices l (div_points (st + s) ss)).
    { destruct ss; cbn [div_points slices]; replace (st + s - st) with s by lia; reflexivity. }
    rewrite Hs. cbn [concat]. rewrite IH by (cbn in H; lia).
    change (sumN (s :: ss)) with (s + sumN ss).
    assert (E : skipn (st + s) l = skipn s (skipn st l)).
    { clear. revert l; induction st as [|st IH]; intros l; [reflexivity|].
      destruct l; cbn; [symmetry; apply skipn_nil|apply IH]. }
    rewrite E. generalize (skipn st l); clear. intros m.
    revert m; induction s as [|s IH]; intros m; [reflexivity|].
    destruct m; cbn; [rewrite firstn_nil; reflexivity|rewrite IH; reflexivity].
Qed.

Lemma section_sizes_sum n k : 0 < k -> sumN (section_sizes n k) = n.
Proof.
  intros H. unfold section_sizes. rewrite sumN_app, !sumN_repeat.
  pose proof (Nat.div_mod n k ltac:(lia)). pose proof (Nat.mod_upper_bound n k ltac:(lia)). nia.
Qed.
Lemma section_sizes_len n k : 0 < k -> length (section_sizes n k) = k.
Proof.
  intros H. unfold section_sizes. rewrite app_length, !repeat_length.
  pose proof (Nat.mod_upper_bound n k ltac:(lia)). lia.
Qed.
Lemma section_sizes_val n k s : In s (section_sizes n k) -> s = n / k \/ s = S (n / k).
Proof.
  unfold section_sizes. intros H. apply in_app_or in H as [H|H]; apply repeat_spec in H; auto.
Qed.

Lemma array_split_spec {A} (l : list A) k : 0 < k ->
  exists d, array_split l k = Ok d /\ length d = k /\ concat d = l /\
    map (@List.length A) d = section_sizes (length l) k.
Proof.
  intros Hk. unfold array_split. destruct (Nat.eqb_spec k 0); [lia|].
  eexists; split; [reflexivity|].
  pose proof (section_sizes_sum (length l) k Hk) as Hs.
  pose proof (slices_lengths l (section_sizes (length l) k) 0 ltac:(lia)) as Hl.
  split; [|split; [|exact Hl]].
  - rewrite <- (map_length (@List.length A)), Hl. apply section_sizes_len, Hk.
  - rewrite slices_concat by lia. rewrite Hs. cbn [skipn]. apply firstn_all.
Qed.

Lemma array_split_near {A} (l : list A) k d : array_split l k = Ok d -> near_equal d.
Proof.
  unfold array_split. destruct (Nat.eqb_spec k 0) as [|Hk]; [discriminate|]. intros H.
  destruct (array_split_spec l k ltac:(lia)) as (d' & E & _ & _ & Hl).
  unfold array_split in E. destruct (Nat.eqb_spec k 0); [lia|]. rewrite H in E; injection E as <-.
  intros a b Ha Hb. apply (in_map (@List.length A)) in Ha, Hb. rewrite Hl in Ha, Hb.
  apply section_sizes_val in Ha, Hb. lia.
Qed.

(* k-th slice when each element is its own index *)
Lemma in_concat_nth {A} (d : list (list A)) i l : nth_error d i = Some l ->
  concat d = concat (firstn i d) ++ l ++ concat (skipn (S i) d).
Proof.
  revert i; induction d as [|a d IH]; intros [|i] H; cbn in *; try discriminate.
  - injection H as ->. reflexivity.
  - rewrite (IH i H), app_assoc at 1. rewrite <- app_assoc. reflexivity.
Qed.
