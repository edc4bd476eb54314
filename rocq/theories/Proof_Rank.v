From Verif Require Import Prelude PreludeFacts NumX Model_Rank Spec_Rank.

(* ---- orders --------------------------------------------------------------- *)
Lemma ascii_cmp_trans_lt a b c :
  Ascii.compare a b = Lt -> Ascii.compare b c = Lt -> Ascii.compare a c = Lt.
Proof. unfold Ascii.compare; rewrite !N.compare_lt_iff; lia. Qed.

Lemma ascii_cmp_refl a : Ascii.compare a a = Eq.
Proof. unfold Ascii.compare; apply N.compare_refl. Qed.

Lemma string_leb_trans : trans_b String.leb.
Proof.
  unfold String.leb. intros x; induction x as [|a x IH]; intros [|b y] [|c z]; cbn; auto; try discriminate.
  destruct (Ascii.compare a b) eqn:E1; destruct (Ascii.compare b c) eqn:E2; try discriminate.
  - apply Ascii.compare_eq_iff in E1; apply Ascii.compare_eq_iff in E2; subst.
    rewrite ascii_cmp_refl; apply IH.
  - apply Ascii.compare_eq_iff in E1; subst; rewrite E2; reflexivity.
  - apply Ascii.compare_eq_iff in E2; subst; rewrite E1; reflexivity.
  - rewrite (ascii_cmp_trans_lt _ _ _ E1 E2); reflexivity.
Qed.
Lemma string_leb_total : total_b String.leb.
Proof.
  intros x y; unfold String.leb. rewrite (String.compare_antisym y x).
  destruct (String.compare x y); cbn; auto.
Qed.

Lemma cell_le_total : total_b cell_le.
Proof.
  intros [x|x|x|x|x] [y|y|y|y|y]; cbn; auto.
  - apply nple_total.
  - destruct (N.leb_spec x y), (N.leb_spec y x); auto; lia.
  - destruct x, y; auto.
  - apply string_leb_total.
Qed.
Lemma cell_le_trans : trans_b cell_le.
Proof.
  intros [x|x|x|x|x] [y|y|y|y|y] [z|z|z|z|z]; cbn; auto; try discriminate.
  - apply nple_trans.
  - rewrite !N.leb_le; lia.
  - destruct x, y, z; auto.
  - apply string_leb_trans.
Qed.
Lemma key_le_total key : total_b (key_le key).
Proof. intros i j; apply cell_le_total. Qed.
Lemma key_le_trans key : trans_b (key_le key).
Proof. intros i j k; apply cell_le_trans. Qed.

(* ---- lexsort --------------------------------------------------------------- *)
Fixpoint lexrel (keys : list (list cell)) (R : nat -> nat -> Prop) (i j : nat) : Prop :=
  match keys with
  | [] => R i j
  | k :: ks => key_le k i j = true /\ (key_le k j i = true -> lexrel ks R i j)
  end.

Lemma lexrel_app k1 k2 R i j : lexrel (k1 ++ k2) R i j <-> lexrel k1 (lexrel k2 R) i j.
Proof. revert i j; induction k1 as [|k k1 IH]; intros i j; cbn; [reflexivity|rewrite IH; reflexivity]. Qed.

Lemma fold_sort_perm keys idx :
  Permutation idx (fold_left (fun idx key => isort (key_le key) idx) keys idx).
Proof.
  revert idx; induction keys as [|k ks IH]; intros idx; cbn; [reflexivity|].
  rewrite <- IH; apply isort_perm.
Qed.
Lemma fold_sort_sorted keys : forall R idx,
  StronglySorted R idx ->
  StronglySorted (lexrel (rev keys) R) (fold_left (fun idx key => isort (key_le key) idx) keys idx).
Proof.
  induction keys as [|k ks IH]; intros R idx H; cbn; [exact H|].
  assert (H1 : StronglySorted (lexrel [k] R) (isort (key_le k) idx))
    by (apply (isort_stable (key_le k) R (key_le_total k) (key_le_trans k) idx H)).
  specialize (IH _ _ H1).
  eapply StronglySorted_impl; [|exact IH].
  intros x y _ _ Hxy; rewrite lexrel_app; exact Hxy.
Qed.

Lemma lexsort_ok keys n :
  keys <> [] -> Forall (fun k => length k = n) keys ->
  exists idx, lexsort keys = Ok idx /\ Permutation (seq 0 n) idx /\
              StronglySorted (lexrel (rev keys) lt) idx.
Proof.
  intros Hne Hall. destruct keys as [|k0 ks]; [congruence|].
  assert (Hk0 : length k0 = n) by (inversion Hall; assumption).
  cbn [lexsort].
  assert (E : forallb (fun k => Nat.eqb (length k) (length k0)) (k0 :: ks) = true).
  { apply forallb_forall; intros k Hk. rewrite Forall_forall in Hall.
    apply Nat.eqb_eq. rewrite (Hall k Hk), Hk0; reflexivity. }
  rewrite E. eexists; split; [reflexivity|split].
  - rewrite Hk0; apply fold_sort_perm.
  - apply fold_sort_sorted, StronglySorted_seq.
Qed.

(* ---- reindexing -------------------------------------------------------------- *)
Definition permute (idx : list nat) (l : list cell) : list cell :=
  map (fun i => nth i l (CBool false)) idx.

Lemma take_ok (l : list cell) idx :
  Forall (fun i => i < length l) idx -> take l idx = Some (permute idx l).
Proof.
  induction 1 as [|i is Hi His IH]; cbn; [reflexivity|].
  rewrite IH. destruct (nth_error l i) eqn:E.
  - apply nth_error_nth with (d := CBool false) in E. rewrite E; reflexivity.
  - apply nth_error_None in E; lia.
Qed.

Definition permute_dict (idx : list nat) (d : dict) : dict :=
  map (fun e => (fst e, match snd e with Arr l => Arr (permute idx l) | NotArr => NotArr end)) d.

Definition rect (n : nat) (d : dict) : Prop :=
  Forall (fun e => exists l, snd e = Arr l /\ length l = n) d.

Lemma reindex_ok idx n todo : forall done,
  rect n todo -> Forall (fun i => i < n) idx ->
  reindex done todo idx = (done ++ permute_dict idx todo, None).
Proof.
  intros done Hr Hidx; revert done; induction Hr as [|[k c] todo (l & Hl & Hn) Hr IH]; intros done; cbn.
  - rewrite app_nil_r; reflexivity.
  - cbn in Hl; subst c.
    rewrite take_ok by (rewrite Hn; exact Hidx).
    rewrite IH. cbn [permute_dict map fst snd]. rewrite <- app_assoc; reflexivity.
Qed.

Lemma rect_is_arr n d : rect n d -> forallb (fun e => is_arr (snd e)) d = true.
Proof.
  intros H; apply forallb_forall; intros e He. unfold rect in H; rewrite Forall_forall in H.
  destruct (H e He) as (l & -> & _); reflexivity.
Qed.
Lemma dget_in d k c : dget d k = Some c -> In (k, c) d.
Proof.
  induction d as [|[k' c'] d IH]; cbn; [discriminate|].
  destruct (String.eqb_spec k k') as [->|]; intros H; [injection H as ->; left; reflexivity|right; auto].
Qed.
Lemma rect_dget n d k c : rect n d -> dget d k = Some c -> exists l, c = Arr l /\ length l = n.
Proof.
  intros H Hg; apply dget_in in Hg. unfold rect in H; rewrite Forall_forall in H.
  exact (H _ Hg).
Qed.

Lemma perm_seq_bound n idx : Permutation (seq 0 n) idx -> Forall (fun i => i < n) idx.
Proof.
  intros H; apply Forall_forall; intros i Hi.
  apply (Permutation_in i (Permutation_sym H)) in Hi. apply in_seq in Hi; lia.
Qed.

(* key column c of dict d as a function of the row index *)
Definition keycol (d : dict) (c : string) : list cell := arr_of (dget d c).

Theorem sort_dict_by_cols_ok d cols n :
  rect n d -> cols <> [] -> (forall c, In c cols -> dget d c <> None) ->
  exists idx, sort_dict_by_cols d cols true = (permute_dict idx d, None) /\
    Permutation (seq 0 n) idx /\ StronglySorted (lexrel (map (keycol d) cols) lt) idx.
Proof.
  intros Hr Hne Hc. unfold sort_dict_by_cols.
  assert (E1 : forallb (fun c => match dget d c with Some _ => true | None => false end) cols = true).
  { apply forallb_forall; intros c Hin. specialize (Hc c Hin). destruct (dget d c); congruence. }
  rewrite E1, (rect_is_arr _ _ Hr). cbn [negb].
  fold (keycol d).
  change (map (fun c : string => arr_of (dget d c)) cols) with (map (keycol d) cols).
  destruct (lexsort_ok (rev (map (keycol d) cols)) n) as (idx & -> & Hp & Hs).
  - intros H. apply Hne. apply (f_equal (@rev _)) in H. rewrite rev_involutive in H.
    destruct cols; [reflexivity|discriminate].
  - apply Forall_rev, Forall_map, Forall_forall. intros c Hin. unfold keycol.
    specialize (Hc c Hin). destruct (dget d c) as [col|] eqn:E; [|congruence].
    destruct (rect_dget _ _ _ _ Hr E) as (l & -> & Hl). exact Hl.
  - exists idx. rewrite (reindex_ok idx n) by (try assumption; apply perm_seq_bound; assumption).
    rewrite rev_involutive in Hs. auto.
Qed.

Theorem sort_dict_by_cols_last_ok d cols n :
  rect n d -> cols <> [] -> (forall c, In c cols -> dget d c <> None) ->
  exists idx, sort_dict_by_cols d cols false = (permute_dict idx d, None) /\
    Permutation (seq 0 n) idx /\ StronglySorted (lexrel (map (keycol d) (rev cols)) lt) idx.
Proof.
  intros Hr Hne Hc. unfold sort_dict_by_cols.
  assert (E1 : forallb (fun c => match dget d c with Some _ => true | None => false end) cols = true).
  { apply forallb_forall; intros c Hin. specialize (Hc c Hin). destruct (dget d c); congruence. }
  rewrite E1, (rect_is_arr _ _ Hr). cbn [negb].
  change (map (fun c : string => arr_of (dget d c)) cols) with (map (keycol d) cols).
  destruct (lexsort_ok (map (keycol d) cols) n) as (idx & -> & Hp & Hs).
  - intros H. apply Hne. destruct cols; [reflexivity|discriminate].
  - apply Forall_map, Forall_forall. intros c Hin. unfold keycol.
    specialize (Hc c Hin). destruct (dget d c) as [col|] eqn:E; [|congruence].
    destruct (rect_dget _ _ _ _ Hr E) as (l & -> & Hl). exact Hl.
  - exists idx. rewrite (reindex_ok idx n) by (try assumption; apply perm_seq_bound; assumption).
    rewrite map_rev. auto.
Qed.

(* ---- the badfit bits ---------------------------------------------------------- *)
Lemma badfit_mask_val : badfit_mask = 1144%N.
Proof. reflexivity. Qed.

Lemma N_land_zero_bits a m : N.land a m = 0%N <-> (forall i, N.testbit m i = true -> N.testbit a i = false).
Proof.
  split.
  - intros H i Hm. assert (E : N.testbit (N.land a m) i = false) by (rewrite H; apply N.bits_0).
    rewrite N.land_spec, Hm, andb_true_r in E; exact E.
  - intros H. apply N.bits_inj; intros i. rewrite N.land_spec, N.bits_0.
    destruct (N.testbit m i) eqn:E; [rewrite (H i E); reflexivity|apply andb_false_r].
Qed.

Lemma mask_bits i : N.testbit badfit_mask i = true <-> (i = 3 \/ i = 4 \/ i = 5 \/ i = 6 \/ i = 10)%N.
Proof.
  rewrite badfit_mask_val. split.
  - intros H. destruct (N.lt_ge_cases i 11) as [Hl|Hl].
    + assert (Hi : (i = 0 \/ i = 1 \/ i = 2 \/ i = 3 \/ i = 4 \/ i = 5 \/ i = 6 \/ i = 7 \/ i = 8 \/ i = 9 \/ i = 10)%N) by lia.
      repeat (destruct Hi as [->|Hi]; [try (vm_compute in H; discriminate); tauto|]).
      subst; tauto.
    + exfalso. rewrite N.bits_above_log2 in H; [discriminate|].
      change (N.log2 1144) with 10%N; lia.
  - intros [->|[->|[->|[->| ->]]]]; reflexivity.
Qed.

Lemma land_mask_zero zw : N.land zw badfit_mask = 0%N <-> ~ is_bad zw.
Proof.
  rewrite N_land_zero_bits. unfold is_bad. split.
  - intros H [X|[X|[X|[X|X]]]].
    all: match type of X with N.testbit _ ?i = true =>
           rewrite (H i) in X; [discriminate|apply mask_bits; tauto] end.
  - intros H i Hi; apply mask_bits in Hi.
    destruct (N.testbit zw i) eqn:E; [|reflexivity].
    exfalso; apply H. destruct Hi as [->|[->|[->|[->| ->]]]]; tauto.
Qed.

Lemma badfit_iff zw : badfit zw = true <-> is_bad zw.
Proof.
  unfold badfit. rewrite negb_true_iff, N.eqb_neq, land_mask_zero.
  split; [|intros H Hn; exact (Hn H)].
  intros H. unfold is_bad in *.
  destruct (N.testbit zw 3), (N.testbit zw 4), (N.testbit zw 5), (N.testbit zw 6), (N.testbit zw 10);
    try tauto. exfalso; apply H; intros [X|[X|[X|[X|X]]]]; discriminate.
Qed.
Lemma badfit_false zw : badfit zw = false <-> ~ is_bad zw.
Proof. rewrite <- badfit_iff. destruct (badfit zw); split; congruence. Qed.

Lemma nple_before x y : nple x y = true <-> ~ chi2_before y x.
Proof.
  destruct x as [a| | |], y as [b| | |]; cbn; try (split; [auto; discriminate|tauto]).
  all: try (split; [intros _ []|reflexivity]).
  - rewrite Qle_bool_iff; split; [intros H Hc; lra|intros H; apply Qnot_lt_le; exact H].
Qed.

Lemma chi2_before_irrefl x : ~ chi2_before x x.
Proof. destruct x; cbn; auto. lra. Qed.
Lemma chi2_before_asym x y : chi2_before x y -> ~ chi2_before y x.
Proof. destruct x, y; cbn; auto. lra. Qed.
Lemma chi2_cases x y : chi2_before x y \/ chi2_tied x y \/ chi2_before y x.
Proof.
  unfold chi2_tied; destruct x as [a| | |], y as [b| | |]; cbn; auto; try tauto.
  destruct (Q_dec a b) as [[H|H]|H]; [auto|auto|]. right; left; split; lra.
Qed.

(* ---- sort_zfit_dict -------------------------------------------------------------- *)
Lemma dget_dset_same d k c : dget (dset d k c) k = Some c.
Proof.
  induction d as [|[k' c'] d IH]; cbn; [rewrite String.eqb_refl; reflexivity|].
  destruct (String.eqb k k') eqn:E; cbn; rewrite E; [reflexivity|exact IH].
Qed.
Lemma dget_dset_other d k k2 c : k2 <> k -> dget (dset d k c) k2 = dget d k2.
Proof.
  intros H; induction d as [|[k' c'] d IH]; cbn.
  - destruct (String.eqb_spec k2 k); [contradiction|reflexivity].
  - destruct (String.eqb_spec k k') as [->|]; cbn.
    + destruct (String.eqb_spec k2 k'); [contradiction|reflexivity].
    + destruct (String.eqb k2 k'); [reflexivity|exact IH].
Qed.
Lemma ddel_dset d k c : ddel (dset d k c) k = ddel d k.
Proof.
  induction d as [|[k' c'] d IH]; cbn; [rewrite String.eqb_refl; reflexivity|].
  destruct (String.eqb k k') eqn:E; cbn; rewrite E; cbn; [reflexivity|f_equal; exact IH].
Qed.
Lemma ddel_permute idx d k : ddel (permute_dict idx d) k = permute_dict idx (ddel d k).
Proof.
  induction d as [|[k' c'] d IH]; cbn; [reflexivity|].
  destruct (String.eqb k k'); cbn; [exact IH|f_equal; exact IH].
Qed.
Lemma rect_dset n d k l : rect n d -> length l = n -> rect n (dset d k (Arr l)).
Proof.
  intros H Hl; induction H as [|[k' c'] d He Hd IH]; cbn.
  - constructor; [exists l; auto|constructor].
  - destruct (String.eqb k k'); constructor; auto. exists l; auto.
Qed.
Lemma badfit_column_ok zs :
  badfit_column (Arr (map CInt zs)) = Ok (Arr (map (fun z => CBool (badfit z)) zs)).
Proof.
  cbn. assert (E : mapM (fun x => match x with CInt n => Ok (CBool (badfit n)) | _ => Err TypeError end)
                    (map CInt zs) = Ok (map (fun z => CBool (badfit z)) zs)).
  { induction zs as [|z zs IH]; cbn; [reflexivity|]. rewrite IH; reflexivity. }
  rewrite E; reflexivity.
Qed.

Theorem sort_zfit_dict_ok d n zs xs :
  rect n d -> dget d "zwarn" = Some (Arr (map CInt zs)) -> dget d "chi2" = Some (Arr (map CNum xs)) ->
  exists idx, sort_zfit_dict d = (permute_dict idx (ddel d BADCOL), None) /\
    Permutation (seq 0 n) idx /\
    StronglySorted (ranks_before (fun i => nth i zs 0%N) (fun i => nth i xs NaN)) idx.
Proof.
  intros Hr Hz Hx. unfold sort_zfit_dict. rewrite Hz, badfit_column_ok.
  set (bl := map (fun z => CBool (badfit z)) zs).
  assert (Hlz : length zs = n).
  { destruct (rect_dget _ _ _ _ Hr Hz) as (l & Hl & Hn). injection Hl as <-. rewrite map_length in Hn; exact Hn. }
  assert (Hlx : length xs = n).
  { destruct (rect_dget _ _ _ _ Hr Hx) as (l & Hl & Hn). injection Hl as <-. rewrite map_length in Hn; exact Hn. }
  set (d1 := dset d BADCOL (Arr bl)).
  assert (Hr1 : rect n d1) by (apply rect_dset; [exact Hr|unfold bl; rewrite map_length; exact Hlz]).
  assert (Hg1 : dget d1 BADCOL = Some (Arr bl)) by apply dget_dset_same.
  assert (Hg2 : dget d1 "chi2" = Some (Arr (map CNum xs))).
  { unfold d1; rewrite dget_dset_other; [exact Hx|discriminate]. }
  destruct (sort_dict_by_cols_ok d1 [BADCOL; "chi2"%string] n) as (idx & E & Hp & Hs).
  - exact Hr1.
  - discriminate.
  - intros c [<-|[<-|[]]]; congruence.
  - exists idx. rewrite E. split; [|split; [exact Hp|]].
    + rewrite ddel_permute. unfold d1; rewrite ddel_dset; reflexivity.
    + eapply StronglySorted_impl; [|exact Hs].
      intros i j Hi Hj.
      pose proof (perm_seq_bound _ _ Hp) as Hb. rewrite Forall_forall in Hb.
      apply Hb in Hi; apply Hb in Hj.
      unfold keycol; cbn [map lexrel]. rewrite Hg1, Hg2. cbn [arr_of]. unfold key_le.
      assert (HB : forall k, k < n -> nth k bl (CBool false) = CBool (badfit (nth k zs 0%N))).
      { intros k Hk. unfold bl.
        rewrite (nth_indep _ (CBool false) (CBool (badfit 0%N))) by (rewrite map_length; lia).
        apply (map_nth (fun z => CBool (badfit z))). }
      assert (HX : forall k, k < n -> nth k (map CNum xs) (CBool false) = CNum (nth k xs NaN)).
      { intros k Hk. rewrite (nth_indep _ (CBool false) (CNum NaN)) by (rewrite map_length; lia).
        apply (map_nth CNum). }
      rewrite !HB, !HX by assumption. cbn [cell_le].
      unfold ranks_before. rewrite !nple_before.
      set (bi := badfit (nth i zs 0%N)). set (bj := badfit (nth j zs 0%N)).
      assert (Hbi : bi = true <-> is_bad (nth i zs 0%N)) by apply badfit_iff.
      assert (Hbj : bj = true <-> is_bad (nth j zs 0%N)) by apply badfit_iff.
      destruct bi, bj; cbn [implb].
      * intros [_ H]; specialize (H eq_refl). right; split; [tauto|].
        destruct H as [H1 H2]. unfold chi2_tied.
        destruct (chi2_cases (nth i xs NaN) (nth j xs NaN)) as [C|[C|C]]; [auto| |contradiction].
        right; split; [exact C|apply H2; apply C].
      * intros [H _]; discriminate.
      * intros _. left. rewrite <- Hbi, <- Hbj. split; [discriminate|reflexivity].
      * intros [_ H]; specialize (H eq_refl). right; split; [rewrite <- Hbi, <- Hbj; tauto|].
        destruct H as [H1 H2].
        destruct (chi2_cases (nth i xs NaN) (nth j xs NaN)) as [C|[C|C]]; [auto| |contradiction].
        right; split; [exact C|apply H2; apply C].
Qed.
