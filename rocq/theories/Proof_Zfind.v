From Verif Require Import Prelude PreludeFacts NumX Model_Rank Spec_Rank Proof_Rank Proof_Deltachi2 Model_Zfind.

(* ---- the row order -------------------------------------------------------- *)
Lemma row_le_total : total_b row_le.
Proof.
  intros a b; unfold row_le. destruct (badfit (f_zwarn a)), (badfit (f_zwarn b)); auto; apply nple_total.
Qed.
Lemma row_le_trans : trans_b row_le.
Proof.
  intros a b c; unfold row_le.
  destruct (badfit (f_zwarn a)), (badfit (f_zwarn b)), (badfit (f_zwarn c)); auto; try discriminate;
    apply nple_trans.
Qed.

(* ---- sort and filter --------------------------------------------------------- *)
Section FilterSort.
  Context {A : Type} (leb : A -> A -> bool) (Ht : total_b leb) (Htr : trans_b leb).
  Let le x y := leb x y = true.

  Lemma filter_insert (p : A -> bool) x l :
    StronglySorted le l ->
    filter p (insert leb x l) = if p x then insert leb x (filter p l) else filter p l.
  Proof.
    induction 1 as [|y ys Hs IH Hall]; cbn.
    - destruct (p x); reflexivity.
    - destruct (leb x y) eqn:E; cbn.
      + destruct (p x) eqn:Px; [|reflexivity].
        destruct (p y) eqn:Py; cbn; [rewrite E; reflexivity|].
        (* x is below all of ys *)
        assert (Hx : Forall (fun z => leb x z = true) (filter p ys)).
        { apply Forall_forall; intros z Hz. apply filter_In in Hz as [Hz _].
          rewrite Forall_forall in Hall. exact (Htr _ _ _ E (Hall z Hz)). }
        destruct (filter p ys) as [|z zs]; [reflexivity|].
        inversion Hx as [|? ? Hz]; subst. cbn. rewrite Hz; reflexivity.
      + destruct (p y) eqn:Py.
        * rewrite IH. destruct (p x); cbn; [rewrite E|]; reflexivity.
        * exact IH.
  Qed.
  Lemma filter_isort (p : A -> bool) l : filter p (isort leb l) = isort leb (filter p l).
  Proof.
    induction l as [|x l IH]; cbn; [reflexivity|].
    rewrite filter_insert by (apply isort_sorted; assumption).
    rewrite IH. destruct (p x); reflexivity.
  Qed.
  Lemma isort_id l : StronglySorted le l -> isort leb l = l.
  Proof.
    induction 1 as [|x l Hs IH Hall]; cbn; [reflexivity|].
    rewrite IH. destruct l as [|y ys]; [reflexivity|].
    inversion Hall as [|? ? Hxy]; subst. cbn. unfold le in Hxy; rewrite Hxy; reflexivity.
  Qed.
  Lemma filter_sorted (p : A -> bool) l : StronglySorted le l -> StronglySorted le (filter p l).
  Proof.
    induction 1 as [|x l Hs IH Hall]; cbn; [constructor|].
    destruct (p x); [|exact IH]. constructor; [exact IH|].
    apply Forall_forall; intros z Hz; apply filter_In in Hz as [Hz _].
    exact (proj1 (Forall_forall _ _) Hall z Hz).
  Qed.
  Lemma firstn_sorted n l : StronglySorted le l -> StronglySorted le (firstn n l).
  Proof.
    intros H; revert n; induction H as [|x l Hs IH Hall]; intros [|n]; cbn; constructor; [apply IH|].
    apply Forall_forall; intros z Hz.
    rewrite Forall_forall in Hall; apply Hall. apply in_firstn in Hz as (j & _ & Hj). eapply nth_error_In, Hj.
  Qed.
End FilterSort.

(* ---- trimming -------------------------------------------------------------------- *)
Definition of_type (t : string) (rows : list frow) : list frow :=
  filter (fun r => String.eqb (f_type r) t) rows.

Lemma np_unique_in l t : In t (np_unique l) <-> In t l.
Proof. unfold np_unique; rewrite isort_in; apply nodup_In. Qed.
Lemma np_unique_nodup l : NoDup (np_unique l).
Proof. unfold np_unique. eapply Permutation_NoDup; [apply isort_perm|apply NoDup_nodup]. Qed.

Lemma filter_flat_types n rows types t :
  NoDup types ->
  of_type t (flat_map (fun u => firstn n (of_type u rows)) types) =
  if in_dec string_dec t types then firstn n (of_type t rows) else [].
Proof.
  unfold of_type at 1. induction 1 as [|u types Hnin Hnd IH]; cbn [flat_map]; [reflexivity|].
  rewrite filter_app, IH.
  assert (Hf : filter (fun r => String.eqb (f_type r) t) (firstn n (of_type u rows)) =
               if string_dec u t then firstn n (of_type u rows) else []).
  { assert (Hall : forall r, In r (firstn n (of_type u rows)) -> f_type r = u).
    { intros r Hr. apply in_firstn in Hr as (j & _ & Hj). apply nth_error_In in Hj.
      unfold of_type in Hj; apply filter_In in Hj as [_ Hj]. apply String.eqb_eq, Hj. }
    revert Hall; generalize (firstn n (of_type u rows)); intros l Hall.
    destruct (string_dec u t) as [->|Hne].
    - induction l as [|r l IHl]; cbn; [reflexivity|].
      rewrite (Hall r (or_introl eq_refl)), String.eqb_refl. f_equal; apply IHl; intros; apply Hall; right; assumption.
    - induction l as [|r l IHl]; cbn; [reflexivity|].
      rewrite (Hall r (or_introl eq_refl)).
      destruct (String.eqb_spec u t); [contradiction|]. apply IHl; intros; apply Hall; right; assumption. }
  rewrite Hf. destruct (string_dec u t) as [->|Hne].
  - destruct (in_dec string_dec t types); [contradiction|]. rewrite app_nil_r.
    destruct (in_dec string_dec t (t :: types)) as [|Hn]; [reflexivity|exfalso; apply Hn; left; reflexivity].
  - cbn [app]. destruct (in_dec string_dec t types) as [H|H], (in_dec string_dec t (u :: types)) as [H'|H']; auto.
    + exfalso; apply H'; right; exact H.
    + destruct H' as [->|H']; contradiction.
Qed.

Lemma of_type_notin t rows : ~ In t (map f_type rows) -> of_type t rows = [].
Proof.
  unfold of_type; induction rows as [|r rows IH]; cbn; [reflexivity|].
  intros H. destruct (String.eqb_spec (f_type r) t); [exfalso; apply H; left; assumption|].
  apply IH; intros Hc; apply H; right; exact Hc.
Qed.

Definition kept nminima rows :=
  flat_map (fun t => firstn nminima (of_type t rows)) (np_unique (map f_type rows)).

Lemma kept_of_type n rows t : of_type t (kept n rows) = firstn n (of_type t rows).
Proof.
  unfold kept. rewrite filter_flat_types by apply np_unique_nodup.
  destruct (in_dec string_dec t (np_unique (map f_type rows))) as [H|H]; [reflexivity|].
  rewrite np_unique_in in H. rewrite of_type_notin by exact H. rewrite firstn_nil; reflexivity.
Qed.

(* the grouping of all rows by type has the same length as the rows *)
Lemma group_perm rows : forall types,
  NoDup types -> (forall r, In r rows -> In (f_type r) types) ->
  Permutation (flat_map (fun t => of_type t rows) types) rows.
Proof.
  induction rows as [|r rows IH]; intros types Hnd Hin.
  - unfold of_type; cbn. clear. induction types; cbn; auto.
  - assert (Hr : In (f_type r) types) by (apply Hin; left; reflexivity).
    apply in_split in Hr as (t1 & t2 & ->).
    rewrite flat_map_app. cbn [flat_map].
    assert (Hneq : forall u, In u t1 \/ In u t2 -> of_type u (r :: rows) = of_type u rows).
    { intros u Hu. unfold of_type; cbn. destruct (String.eqb_spec (f_type r) u) as [He|]; [|reflexivity].
      exfalso. apply NoDup_remove_2 in Hnd. apply Hnd. rewrite in_app_iff. rewrite He; tauto. }
    assert (E1 : flat_map (fun t => of_type t (r :: rows)) t1 = flat_map (fun t => of_type t rows) t1).
    { rewrite !flat_map_concat_map. f_equal. apply map_ext_in; intros u Hu. apply Hneq; left; exact Hu. }
    assert (E2 : flat_map (fun t => of_type t (r :: rows)) t2 = flat_map (fun t => of_type t rows) t2).
    { rewrite !flat_map_concat_map. f_equal. apply map_ext_in; intros u Hu. apply Hneq; right; exact Hu. }
    rewrite E1, E2. unfold of_type at 2; cbn [filter]. rewrite String.eqb_refl. fold (of_type (f_type r) rows).
    cbn [app]. rewrite <- Permutation_middle. constructor.
    specialize (IH (t1 ++ f_type r :: t2) Hnd).
    rewrite flat_map_app in IH. cbn [flat_map] in IH. apply IH.
    intros r' Hr'; apply Hin; right; exact Hr'.
Qed.

Lemma kept_length_full n rows : length (kept n rows) >= length rows ->
  forall t, firstn n (of_type t rows) = of_type t rows.
Proof.
  intros H.
  assert (Hp : Permutation (flat_map (fun t => of_type t rows) (np_unique (map f_type rows))) rows).
  { apply group_perm; [apply np_unique_nodup|]. intros r Hr; apply np_unique_in, in_map, Hr. }
  apply Permutation_length in Hp. unfold kept in H. rewrite <- Hp in H. clear Hp.
  assert (G : forall types, length (flat_map (fun t => firstn n (of_type t rows)) types) >=
                length (flat_map (fun t => of_type t rows) types) ->
                forall t, In t types -> firstn n (of_type t rows) = of_type t rows).
  { clear H. assert (Hle : forall types, length (flat_map (fun t => firstn n (of_type t rows)) types) <=
                length (flat_map (fun t => of_type t rows) types)).
    { induction types as [|u types IH]; cbn; [lia|]. rewrite !app_length, firstn_length. lia. }
    induction types as [|u types IH]; cbn; intros H t Ht; [destruct Ht|].
    rewrite !app_length in H. specialize (Hle types). pose proof (firstn_length n (of_type u rows)) as Hf.
    assert (length (firstn n (of_type u rows)) = length (of_type u rows)) by lia.
    destruct Ht as [->|Ht].
    - apply firstn_all2. lia.
    - apply IH; [lia|exact Ht]. }
  intros t. destruct (in_dec string_dec t (np_unique (map f_type rows))) as [Ht|Ht].
  - apply (G _ H t Ht).
  - rewrite np_unique_in in Ht. rewrite of_type_notin by exact Ht. apply firstn_nil.
Qed.

Lemma trim_of_type n rows t :
  StronglySorted (fun a b => row_le a b = true) rows ->
  of_type t (trim n rows) = firstn n (of_type t rows).
Proof.
  intros Hs. unfold trim. fold (of_type) in *.
  change (flat_map _ _) with (kept n rows).
  destruct (Nat.ltb_spec (length (kept n rows)) (length rows)) as [Hl|Hl].
  - unfold sort_rows, of_type. rewrite filter_isort by (apply row_le_total || apply row_le_trans).
    fold (of_type t (kept n rows)). rewrite kept_of_type.
    apply isort_id. apply firstn_sorted, filter_sorted, Hs.
  - symmetry. apply (kept_length_full n rows Hl).
Qed.

Lemma trim_sorted n rows :
  StronglySorted (fun a b => row_le a b = true) rows ->
  StronglySorted (fun a b => row_le a b = true) (trim n rows).
Proof.
  intros Hs; unfold trim. destruct (Nat.ltb _ _); [apply isort_sorted; [apply row_le_total|apply row_le_trans]|exact Hs].
Qed.

Lemma in_of_type r rows : In r rows <-> In r (of_type (f_type r) rows).
Proof. unfold of_type; rewrite filter_In, String.eqb_refl; tauto. Qed.

Lemma trim_incl n rows r :
  StronglySorted (fun a b => row_le a b = true) rows -> In r (trim n rows) -> In r rows.
Proof.
  intros Hs H. apply in_of_type in H. rewrite trim_of_type in H by exact Hs.
  apply in_firstn in H as (j & _ & Hj). apply nth_error_In in Hj. apply in_of_type, Hj.
Qed.

(* the first row is kept and nothing kept ranks before it *)
Lemma trim_best n r rows :
  n >= 1 -> StronglySorted (fun a b => row_le a b = true) (r :: rows) ->
  In r (trim n (r :: rows)) /\ exists r', hd_error (trim n (r :: rows)) = Some r' /\ row_le r' r = true.
Proof.
  intros Hn Hs.
  assert (Hin : In r (trim n (r :: rows))).
  { apply in_of_type. rewrite trim_of_type by exact Hs. unfold of_type; cbn [filter].
    rewrite String.eqb_refl. destruct n; [lia|left; reflexivity]. }
  split; [exact Hin|].
  pose proof (trim_sorted n _ Hs) as Hts.
  destruct (trim n (r :: rows)) as [|r' l]; [destruct Hin|].
  exists r'; split; [reflexivity|].
  destruct Hin as [->|Hin]; [apply total_refl, row_le_total|].
  inversion Hts as [|? ? _ Hall]; subst. exact (proj1 (Forall_forall _ _) Hall r Hin).
Qed.

(* ---- numbering ---------------------------------------------------------------------- *)
Lemma zip3_nth {A B C} (a : list A) : forall (b : list B) (c : list C) i x y z,
  nth_error a i = Some x -> nth_error b i = Some y -> nth_error c i = Some z ->
  nth_error (zip3 a b c) i = Some (x, y, z).
Proof.
  induction a as [|x0 a IH]; intros [|y0 b] [|z0 c] [|i] x y z; cbn; try discriminate.
  - intros; congruence.
  - apply IH.
Qed.
Lemma zip3_length {A B C} (a : list A) : forall (b : list B) (c : list C),
  length b = length a -> length c = length a -> length (zip3 a b c) = length a.
Proof.
  induction a as [|x0 a IH]; intros [|y0 b] [|z0 c]; cbn; intros; try discriminate; auto.
Qed.

Definition numbered (i : nat) (r : frow) (d : xq) (s : bool) : frow :=
  let r1 := set_num r i d in
  if s then set_zwarn r1 (N.lor (f_zwarn r1) ZW_SMALL_DELTA_CHI2) else r1.

Lemma number_rows_length rows : length (number_rows rows) = length rows.
Proof.
  unfold number_rows. destruct (calc_deltachi2 (map to_drow rows)) as [dc sz] eqn:E.
  rewrite map_length. unfold enum; rewrite enum_from_length.
  pose proof (calc_lengths (map to_drow rows)) as [H1 H2]. rewrite E in H1, H2. cbn in H1, H2.
  rewrite map_length in H1, H2. apply zip3_length; assumption.
Qed.
Lemma number_rows_nth rows i r :
  nth_error rows i = Some r ->
  exists d s, nth_error (fst (calc_deltachi2 (map to_drow rows))) i = Some d /\
              nth_error (snd (calc_deltachi2 (map to_drow rows))) i = Some s /\
              nth_error (number_rows rows) i = Some (numbered i r d s).
Proof.
  intros Hr. unfold number_rows. pose proof (calc_lengths (map to_drow rows)) as [H1 H2].
  destruct (calc_deltachi2 (map to_drow rows)) as [dc sz] eqn:E. cbn [fst snd] in *.
  rewrite map_length in H1, H2.
  assert (Hi : i < length rows) by (apply nth_error_Some_lt in Hr; exact Hr).
  destruct (nth_error_lt_ex dc i) as [d Hd]; [lia|].
  destruct (nth_error_lt_ex sz i) as [s Hs]; [lia|].
  exists d, s; repeat split; auto.
  rewrite nth_error_map. unfold enum; rewrite enum_from_nth, (zip3_nth _ _ _ _ _ _ _ Hr Hd Hs). reflexivity.
Qed.

(* ---- rows sort = dictionary sort ------------------------------------------------------ *)
Lemma StronglySorted_unique {A} (R : A -> A -> Prop) :
  (forall x y, R x y -> R y x -> False) -> forall l1 l2,
  StronglySorted R l1 -> StronglySorted R l2 -> Permutation l1 l2 -> l1 = l2.
Proof.
  intros Has l1; induction l1 as [|a l1 IH]; intros l2 H1 H2 Hp.
  - apply Permutation_nil in Hp; auto.
  - destruct l2 as [|b l2]; [apply Permutation_sym, Permutation_nil in Hp; discriminate|].
    inversion H1 as [|? ? Hs1 Ha1]; subst. inversion H2 as [|? ? Hs2 Ha2]; subst.
    rewrite Forall_forall in Ha1, Ha2.
    assert (a = b).
    { assert (Hin1 : In a (b :: l2)) by (eapply Permutation_in; [exact Hp|left; reflexivity]).
      assert (Hin2 : In b (a :: l1)) by (eapply Permutation_in; [apply Permutation_sym, Hp|left; reflexivity]).
      destruct Hin1 as [->|Hin1]; [reflexivity|]. destruct Hin2 as [->|Hin2]; [reflexivity|].
      exfalso. exact (Has _ _ (Ha1 _ Hin2) (Ha2 _ Hin1)). }
    subst b. f_equal. apply IH; [assumption..|]. eapply Permutation_cons_inv, Hp.
Qed.

Lemma ranks_before_asym zw ch i j : ranks_before zw ch i j -> ranks_before zw ch j i -> False.
Proof.
  unfold ranks_before, chi2_tied. intros H1 H2.
  pose proof (chi2_before_asym (ch i) (ch j)).
  destruct H1 as [H1|[H1 [H1'|[H1' H1'']]]], H2 as [H2|[H2 [H2'|[H2' H2'']]]]; try tauto; lia.
Qed.

Lemma map_nth_seq {A} (l : list A) d : map (fun i => nth i l d) (seq 0 (length l)) = l.
Proof.
  apply nth_ext with (d := d) (d' := d).
  - rewrite map_length, seq_length; reflexivity.
  - intros n Hn. rewrite map_length, seq_length in Hn.
    rewrite (nth_indep _ d (nth 0 l d)) by (rewrite map_length, seq_length; exact Hn).
    rewrite (map_nth (fun i => nth i l d) (seq 0 (length l)) 0 n), seq_nth by exact Hn. reflexivity.
Qed.

Definition dummy_row : frow := mk_frow 0 "" "" 0 0 NaN 0 0 0 [] 0 0 NaN.

(* A table whose columns are given by any list of named cell functions,
   including zwarn and chi2 *)
Definition columns_of (cols : list (string * (frow -> cell))) (rows : list frow) : dict :=
  map (fun c => (fst c, Arr (map (snd c) rows))) cols.

Lemma dget_columns cols rows k :
  dget (columns_of cols rows) k =
  match find (fun c => String.eqb k (fst c)) cols with
  | Some c => Some (Arr (map (snd c) rows)) | None => None end.
Proof.
  unfold columns_of; induction cols as [|[k' f] cols IH]; cbn; [reflexivity|].
  destruct (String.eqb k k'); [reflexivity|exact IH].
Qed.
Lemma rect_columns cols rows : rect (length rows) (columns_of cols rows).
Proof.
  unfold rect, columns_of. apply Forall_map, Forall_forall. intros c _. cbn.
  eexists; split; [reflexivity|apply map_length].
Qed.

Lemma row_le_ranks (rows : list frow) i j :
  row_le (nth i rows dummy_row) (nth j rows dummy_row) = true /\
  (row_le (nth j rows dummy_row) (nth i rows dummy_row) = true -> i < j) ->
  ranks_before (fun i => f_zwarn (nth i rows dummy_row)) (fun i => f_chi2 (nth i rows dummy_row)) i j.
Proof.
  unfold ranks_before. cbn beta.
  generalize (nth i rows dummy_row) as a, (nth j rows dummy_row) as b.
  intros a b. unfold row_le.
  pose proof (badfit_iff (f_zwarn a)) as Ba. pose proof (badfit_iff (f_zwarn b)) as Bb.
  destruct (badfit (f_zwarn a)) eqn:Ea, (badfit (f_zwarn b)) eqn:Eb; rewrite ?nple_before.
  - intros [H1 H2]. right; split; [tauto|].
    destruct (chi2_cases (f_chi2 a) (f_chi2 b)) as [C|[C|C]]; [auto| |contradiction].
    right; split; [exact C|apply H2, C].
  - intros [H _]; discriminate.
  - intros _; left. rewrite <- Ba, <- Bb. split; [discriminate|reflexivity].
  - intros [H1 H2]. right; split; [rewrite <- Ba, <- Bb; tauto|].
    destruct (chi2_cases (f_chi2 a) (f_chi2 b)) as [C|[C|C]]; [auto| |contradiction].
    right; split; [exact C|apply H2, C].
Qed.

Theorem rows_sort_is_dict_sort cols rows :
  NoDup (map fst cols) -> ~ In BADCOL (map fst cols) ->
  In ("zwarn"%string, fun r => CInt (f_zwarn r)) cols ->
  In ("chi2"%string, fun r => CNum (f_chi2 r)) cols ->
  sort_zfit_dict (columns_of cols rows) = (columns_of cols (sort_rows rows), None).
Proof.
  intros Hnd Hbad Hz Hx.
  assert (F : forall k f, In (k, f) cols -> dget (columns_of cols rows) k = Some (Arr (map f rows))).
  { intros k f Hin. rewrite dget_columns.
    clear Hbad Hz Hx. induction cols as [|[k' f'] cols IH]; [destruct Hin|].
    inversion Hnd as [|? ? Hn Hnd']; subst. cbn [find fst].
    destruct Hin as [He|Hin].
    - injection He as -> ->. rewrite String.eqb_refl. reflexivity.
    - destruct (String.eqb_spec k k') as [->|]; [|apply IH; assumption].
      exfalso; apply Hn. apply (in_map fst) in Hin; exact Hin. }
  pose proof (F _ _ Hz) as Gz. pose proof (F _ _ Hx) as Gx.
  assert (Ez : map (fun r => CInt (f_zwarn r)) rows = map CInt (map f_zwarn rows)) by (rewrite map_map; reflexivity).
  assert (Ex : map (fun r => CNum (f_chi2 r)) rows = map CNum (map f_chi2 rows)) by (rewrite map_map; reflexivity).
  rewrite Ez in Gz; rewrite Ex in Gx.
  destruct (sort_zfit_dict_ok _ _ _ _ (rect_columns cols rows) Gz Gx) as (idx & E & Hp & Hs).
  rewrite E. f_equal.
  (* the sorted rows through their indices *)
  set (le' := fun i j => row_le (nth i rows dummy_row) (nth j rows dummy_row)).
  set (idx' := isort le' (seq 0 (length rows))).
  assert (Hsr : sort_rows rows = map (fun i => nth i rows dummy_row) idx').
  { unfold idx', sort_rows. rewrite (isort_map (fun i => nth i rows dummy_row) le' row_le) by reflexivity.
    rewrite map_nth_seq; reflexivity. }
  assert (Hp' : Permutation (seq 0 (length rows)) idx') by apply isort_perm.
  assert (Hs' : StronglySorted (ranks_before (fun i => f_zwarn (nth i rows dummy_row)) (fun i => f_chi2 (nth i rows dummy_row))) idx').
  { eapply StronglySorted_impl; [|apply (isort_stable le' lt)].
    - intros x y _ _ H; apply row_le_ranks; exact H.
    - intros x y; apply row_le_total.
    - intros x y z; apply row_le_trans.
    - apply StronglySorted_seq. }
  assert (Hsx : StronglySorted (ranks_before (fun i => f_zwarn (nth i rows dummy_row)) (fun i => f_chi2 (nth i rows dummy_row))) idx).
  { eapply StronglySorted_impl; [|exact Hs]. intros i j _ _.
    assert (A1 : forall i, nth i (map f_zwarn rows) 0%N = f_zwarn (nth i rows dummy_row)) by (intros; apply (map_nth f_zwarn rows dummy_row)).
    assert (A2 : forall i, nth i (map f_chi2 rows) NaN = f_chi2 (nth i rows dummy_row)) by (intros; apply (map_nth f_chi2 rows dummy_row)).
    unfold ranks_before. rewrite !A1, !A2. auto. }
  assert (idx = idx').
  { eapply StronglySorted_unique; [apply ranks_before_asym|exact Hsx|exact Hs'|].
    rewrite <- Hp; exact Hp'. }
  subst idx. rewrite Hsr.
  assert (Hdel : ddel (columns_of cols rows) BADCOL = columns_of cols rows).
  { unfold ddel, columns_of. clear -Hbad. induction cols as [|[k f] cols IH]; cbn [map filter fst snd]; [reflexivity|].
    destruct (String.eqb_spec BADCOL k) as [He|]; [exfalso; apply Hbad; left; symmetry; exact He|].
    cbn [negb]; f_equal; apply IH; intros H; apply Hbad; right; exact H. }
  rewrite Hdel. unfold permute_dict, columns_of. rewrite map_map. apply map_ext_in; intros [k f] _. cbn [fst snd].
  f_equal. f_equal. unfold permute. rewrite map_map. apply map_ext_in. intros i Hi.
  pose proof (perm_seq_bound _ _ Hp') as Hb. rewrite Forall_forall in Hb. specialize (Hb i Hi).
  rewrite (nth_indep _ (CBool false) (f dummy_row)) by (rewrite map_length; exact Hb).
  apply map_nth.
Qed.
