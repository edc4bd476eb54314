From Verif Require Import Prelude PreludeFacts NumX Model_Rank Spec_Rank Proof_Rank Proof_Deltachi2
  Model_Zfind Proof_Zfind Spec_Zfind.

Lemma row_le_no_worse a b : row_le a b = true <-> no_worse (f_zwarn a) (f_chi2 a) (f_zwarn b) (f_chi2 b).
Proof.
  unfold row_le, no_worse.
  pose proof (badfit_iff (f_zwarn a)) as Ba. pose proof (badfit_iff (f_zwarn b)) as Bb.
  destruct (badfit (f_zwarn a)), (badfit (f_zwarn b)); rewrite ?nple_before, <- Ba, <- Bb;
    intuition congruence.
Qed.

Lemma is_bad_lor zw m : (forall i, (i = 3 \/ i = 4 \/ i = 5 \/ i = 6 \/ i = 10)%N -> N.testbit m i = false) ->
  (is_bad (N.lor zw m) <-> is_bad zw).
Proof.
  intros H. unfold is_bad. rewrite !N.lor_spec.
  rewrite (H 3%N), (H 4%N), (H 5%N), (H 6%N), (H 10%N) by tauto. rewrite !orb_false_r. reflexivity.
Qed.

Lemma pow2_bit k i : N.testbit (2 ^ k) i = N.eqb i k.
Proof. rewrite N.pow2_bits_eqb. apply N.eqb_sym. Qed.

Lemma small_not_bad zw : is_bad (N.lor zw ZW_SMALL_DELTA_CHI2) <-> is_bad zw.
Proof. apply is_bad_lor. intros i Hi. unfold ZW_SMALL_DELTA_CHI2. rewrite pow2_bit. apply N.eqb_neq; lia. Qed.
Lemma nodata_not_bad zw : is_bad (N.lor zw ZW_NODATA) <-> is_bad zw.
Proof. apply is_bad_lor. intros i Hi. unfold ZW_NODATA. rewrite pow2_bit. apply N.eqb_neq; lia. Qed.
Lemma little_not_bad zw : is_bad (N.lor zw ZW_LITTLE_COVERAGE) <-> is_bad zw.
Proof. apply is_bad_lor. intros i Hi. unfold ZW_LITTLE_COVERAGE. rewrite pow2_bit. apply N.eqb_neq; lia. Qed.

(* ---- flags -------------------------------------------------------------------- *)
Lemma flag_row_bits arch r k :
  N.testbit (f_zwarn (flag_row arch r)) k =
  (N.testbit (f_zwarn r) k
   || (N.eqb k 3 && match arch with Some a => negative_model a r | None => false end)
   || (N.eqb k 9 && N.eqb (f_npix r) 0)
   || (N.eqb k 1 && N.ltb (f_npix r) (10 * f_ncoeff r)))%bool.
Proof.
  unfold flag_row; cbn [f_zwarn set_zwarn].
  destruct arch as [a|]; [destruct (negative_model a r)|]; destruct (N.eqb (f_npix r) 0);
    destruct (N.ltb (f_npix r) (10 * f_ncoeff r)); rewrite ?N.lor_spec;
    unfold ZW_NEGATIVE_MODEL, ZW_NODATA, ZW_LITTLE_COVERAGE; rewrite ?pow2_bit;
    rewrite ?andb_true_r, ?andb_false_r, ?orb_false_r; reflexivity.
Qed.

Lemma flag_row_bad_none r : is_bad (f_zwarn (flag_row None r)) <-> is_bad (f_zwarn r).
Proof.
  unfold flag_row; cbn [f_zwarn set_zwarn].
  destruct (N.eqb (f_npix r) 0), (N.ltb (f_npix r) (10 * f_ncoeff r));
    rewrite ?little_not_bad, ?nodata_not_bad; reflexivity.
Qed.

(* ---- one target ------------------------------------------------------------------ *)
Lemma sort_rows_in r rows : In r (sort_rows rows) <-> In r rows.
Proof. apply isort_in. Qed.
Lemma sort_rows_sorted rows : StronglySorted (fun a b => row_le a b = true) (sort_rows rows).
Proof. apply isort_sorted; [apply row_le_total|apply row_le_trans]. Qed.

Definition prepared (arch : option archopt) (tid : Z) (maxw : nat) (b : block) (r : frow) : frow :=
  flag_row arch (set_tid (set_coeff (set_prep r (N.of_nat (b_width b)) (block_lim (b_rows b)))
                            (pad maxw (f_coeff r))) tid).

Definition max_width (blocks : list block) : nat := list_max_nat (map b_width (filter nonempty blocks)).

Lemma flagged_rows_in arch tid blocks x :
  In x (flagged_rows arch tid blocks) <->
  exists b r, In b blocks /\ In r (b_rows b) /\ x = prepared arch tid (max_width blocks) b r.
Proof.
  unfold flagged_rows. rewrite !map_map, in_map_iff. split.
  - intros (y & <- & Hy). apply in_flat_map in Hy as (b & Hb & Hy).
    apply filter_In in Hb as [Hb _]. unfold prep_block in Hy. rewrite map_map in Hy.
    apply in_map_iff in Hy as (r & <- & Hr). exists b, r; auto.
  - intros (b & r & Hb & Hr & ->).
    exists (set_coeff (set_prep r (N.of_nat (b_width b)) (block_lim (b_rows b))) (pad (max_width blocks) (f_coeff r))).
    split; [reflexivity|]. apply in_flat_map. exists b; split.
    + apply filter_In; split; [exact Hb|]. unfold nonempty. destruct (b_rows b); [destruct Hr|reflexivity].
    + unfold prep_block. rewrite map_map. apply in_map_iff. exists r; auto.
Qed.

Lemma numbered_fields i r d s :
  f_tid (numbered i r d s) = f_tid r /\ f_type (numbered i r d s) = f_type r /\
  f_sub (numbered i r d s) = f_sub r /\ f_z (numbered i r d s) = f_z r /\
  f_zerr (numbered i r d s) = f_zerr r /\ f_chi2 (numbered i r d s) = f_chi2 r /\
  f_npix (numbered i r d s) = f_npix r /\ f_ncoeff (numbered i r d s) = f_ncoeff r /\
  f_coeff (numbered i r d s) = f_coeff r /\ f_znum (numbered i r d s) = i /\
  f_dchi2 (numbered i r d s) = d /\ f_lim (numbered i r d s) = f_lim r /\
  f_zwarn (numbered i r d s) = if s then N.lor (f_zwarn r) ZW_SMALL_DELTA_CHI2 else f_zwarn r.
Proof. unfold numbered; destruct s; cbn; auto 20. Qed.

Lemma number_rows_in rows o :
  In o (number_rows rows) -> exists i r d s, nth_error rows i = Some r /\ o = numbered i r d s.
Proof.
  intros H. apply In_nth_error in H as [i Hi].
  assert (Hl : i < length rows) by (rewrite <- number_rows_length; apply nth_error_Some_lt in Hi; exact Hi).
  destruct (nth_error_lt_ex _ _ Hl) as [r Hr].
  destruct (number_rows_nth _ _ _ Hr) as (d & s & _ & _ & E).
  exists i, r, d, s; split; [exact Hr|congruence].
Qed.

Section OneTarget.
  Context (nminima : nat) (arch : option archopt) (tid : Z) (blocks : list block) (out : list frow).
  Hypothesis Hok : assemble_target nminima arch tid blocks = Ok out.

  Let ranked_rows := sort_rows (flagged_rows arch tid blocks).
  Let trimmed := trim nminima ranked_rows.

  Lemma out_eq : out = number_rows trimmed.
  Proof. unfold assemble_target in Hok. destruct (filter nonempty blocks); [discriminate|]. injection Hok as <-; reflexivity. Qed.

  Lemma some_block : exists b r, In b blocks /\ In r (b_rows b).
  Proof.
    unfold assemble_target in Hok. destruct (filter nonempty blocks) as [|b bs] eqn:E; [discriminate|].
    assert (Hb : In b (filter nonempty blocks)) by (rewrite E; left; reflexivity).
    apply filter_In in Hb as [Hb Hn]. unfold nonempty in Hn. destruct (b_rows b) as [|r l] eqn:Er; [discriminate|].
    exists b, r; rewrite Er; split; [exact Hb|left; reflexivity].
  Qed.

  Lemma trimmed_in x : In x trimmed -> exists b r, In b blocks /\ In r (b_rows b) /\ x = prepared arch tid (max_width blocks) b r.
  Proof.
    intros H. apply trim_incl in H; [|apply sort_rows_sorted]. unfold ranked_rows in H. rewrite sort_rows_in in H.
    apply flagged_rows_in in H; exact H.
  Qed.

  (* every output row is one of the fits of this target, with only the
     documented fields changed *)
  Lemma out_row o : In o out ->
    exists b r, In b blocks /\ In r (b_rows b) /\ 
      f_tid o = tid /\ f_type o = f_type r /\ f_sub o = f_sub r /\ f_z o = f_z r /\ f_zerr o = f_zerr r /\
      f_chi2 o = f_chi2 r /\ f_npix o = f_npix r /\ f_ncoeff o = N.of_nat (b_width b) /\
      f_coeff o = pad (max_width blocks) (f_coeff r) /\
      exists small : bool, f_zwarn o =
        (let w := f_zwarn (prepared arch tid (max_width blocks) b r) in
         if small then N.lor w ZW_SMALL_DELTA_CHI2 else w).
  Proof.
    rewrite out_eq. intros H. apply number_rows_in in H as (i & x & d & s & Hx & ->).
    apply nth_error_In in Hx. destruct (trimmed_in x Hx) as (b & r & Hb & Hr & ->).
    exists b, r. destruct (numbered_fields i (prepared arch tid (max_width blocks) b r) d s)
      as (-> & -> & -> & -> & -> & -> & -> & -> & -> & _ & _ & _ & Hz).
    repeat split; auto. exists s. exact Hz.
  Qed.

  Lemma out_znum i o : nth_error out i = Some o -> f_znum o = i.
  Proof.
    rewrite out_eq; intros H.
    assert (Hl : i < length trimmed) by (rewrite <- number_rows_length; apply nth_error_Some_lt in H; exact H).
    destruct (nth_error_lt_ex _ _ Hl) as [r Hr].
    destruct (number_rows_nth _ _ _ Hr) as (d & s & _ & _ & E).
    rewrite E in H; injection H as <-. apply numbered_fields.
  Qed.

  Lemma out_types_small t : length (filter (fun o => String.eqb (f_type o) t) out) <= nminima.
  Proof.
    assert (E : length (filter (fun o => String.eqb (f_type o) t) out) =
                length (filter (fun o => String.eqb (f_type o) t) trimmed)).
    { rewrite out_eq.
      assert (Hm : map f_type (number_rows trimmed) = map f_type trimmed).
      { apply nth_error_ext. intros i. rewrite !nth_error_map.
        destruct (nth_error trimmed i) as [r|] eqn:Er.
        - destruct (number_rows_nth _ _ _ Er) as (d & s & _ & _ & ->). cbn. f_equal. apply numbered_fields.
        - apply nth_error_None in Er. rewrite <- number_rows_length in Er. apply nth_error_None in Er.
          rewrite Er; reflexivity. }
      assert (G : forall l : list frow, length (filter (fun o => String.eqb (f_type o) t) l) =
                   length (filter (fun u => String.eqb u t) (map f_type l))).
      { induction l as [|a l IH]; cbn; [reflexivity|]. destruct (String.eqb (f_type a) t); cbn; rewrite IH; reflexivity. }
      rewrite !G, Hm; reflexivity. }
    rewrite E. fold (of_type t trimmed). unfold trimmed. rewrite trim_of_type by apply sort_rows_sorted.
    rewrite firstn_length; lia.
  Qed.

  (* the best fit of each spectype survives *)
  Lemma out_best_of_type b r : nminima >= 1 -> In b blocks -> In r (b_rows b) ->
    exists o, In o out /\ f_type o = f_type r /\
      no_worse (f_zwarn o) (f_chi2 o) (f_zwarn (prepared arch tid (max_width blocks) b r)) (f_chi2 r).
  Proof.
    intros Hn Hb Hr. set (x := prepared arch tid (max_width blocks) b r).
    assert (Hx : In x ranked_rows) by (apply sort_rows_in, flagged_rows_in; exists b, r; auto).
    apply in_of_type in Hx. change (f_type x) with (f_type r) in Hx.
    assert (Hs : StronglySorted (fun a b => row_le a b = true) (of_type (f_type r) ranked_rows))
      by (apply filter_sorted, sort_rows_sorted).
    destruct (of_type (f_type r) ranked_rows) as [|y ys] eqn:Ey; [destruct Hx|].
    assert (Hyx : row_le y x = true).
    { destruct Hx as [->|Hx]; [apply total_refl, row_le_total|].
      inversion Hs as [|? ? _ Hall]; subst. exact (proj1 (Forall_forall _ _) Hall x Hx). }
    assert (Hyt : In y trimmed).
    { assert (Hft : of_type (f_type r) trimmed = firstn nminima (y :: ys)).
      { unfold trimmed. rewrite trim_of_type by apply sort_rows_sorted. rewrite Ey; reflexivity. }
      assert (Hin : In y (of_type (f_type r) trimmed)) by (rewrite Hft; destruct nminima; [lia|left; reflexivity]).
      unfold of_type in Hin; apply filter_In in Hin; tauto. }
    assert (Hty : f_type y = f_type r).
    { assert (Hin : In y (of_type (f_type r) ranked_rows)) by (rewrite Ey; left; reflexivity).
      unfold of_type in Hin; apply filter_In in Hin as [_ Hin]; apply String.eqb_eq, Hin. }
    apply In_nth_error in Hyt as [i Hi].
    destruct (number_rows_nth _ _ _ Hi) as (d & s & _ & _ & E).
    exists (numbered i y d s). split; [rewrite out_eq; eapply nth_error_In, E|].
    destruct (numbered_fields i y d s) as (_ & -> & _ & _ & _ & -> & _ & _ & _ & _ & _ & _ & ->).
    split; [exact Hty|]. apply row_le_no_worse in Hyx. unfold no_worse in *.
    change (f_chi2 x) with (f_chi2 r) in Hyx.
    destruct s; [rewrite small_not_bad|]; exact Hyx.
  Qed.

  (* the first output row is no worse than any fit of the target *)
  Lemma out_first_best : nminima >= 1 ->
    exists o, hd_error out = Some o /\ f_znum o = 0 /\
      forall b r, In b blocks -> In r (b_rows b) ->
        no_worse (f_zwarn o) (f_chi2 o) (f_zwarn (prepared arch tid (max_width blocks) b r)) (f_chi2 r).
  Proof.
    intros Hn.
    assert (Hne : ranked_rows <> []).
    { destruct some_block as (b & r & Hb & Hr). intros E.
      assert (In (prepared arch tid (max_width blocks) b r) ranked_rows) by (apply sort_rows_in, flagged_rows_in; eauto).
      rewrite E in *; contradiction. }
    pose proof (sort_rows_sorted (flagged_rows arch tid blocks)) as Hs. fold ranked_rows in Hs.
    assert (Hy : exists y ys, ranked_rows = y :: ys) by (clear -Hne; destruct ranked_rows as [|y ys]; [congruence|eauto]).
    destruct Hy as (y & ys & Ey). rewrite Ey in Hs.
    assert (Ht : trimmed = trim nminima ranked_rows) by reflexivity. rewrite Ey in Ht.
    destruct (trim_best nminima y ys Hn Hs) as (Hin & y' & Hhd & Hle).
    assert (H0 : nth_error trimmed 0 = Some y').
    { rewrite Ht. destruct (trim nminima (y :: ys)); cbn in *; congruence. }
    destruct (number_rows_nth _ _ _ H0) as (d & s & _ & _ & E).
    exists (numbered 0 y' d s). split; [rewrite out_eq; destruct (number_rows trimmed); cbn in *; congruence|].
    destruct (numbered_fields 0 y' d s) as (_ & _ & _ & _ & _ & -> & _ & _ & _ & -> & _ & _ & ->).
    split; [reflexivity|]. intros b r Hb Hr.
    assert (Hx : In (prepared arch tid (max_width blocks) b r) ranked_rows) by (apply sort_rows_in, flagged_rows_in; eauto).
    rewrite Ey in Hx.
    assert (Hyx : row_le y' (prepared arch tid (max_width blocks) b r) = true).
    { apply row_le_trans with (y := y); [exact Hle|]. destruct Hx as [->|Hx]; [apply total_refl, row_le_total|].
      inversion Hs as [|? ? _ Hall]; subst. exact (proj1 (Forall_forall _ _) Hall _ Hx). }
    apply row_le_no_worse in Hyx. unfold no_worse in *. 
    change (f_chi2 (prepared arch tid (max_width blocks) b r)) with (f_chi2 r) in Hyx.
    destruct s; [rewrite small_not_bad|]; exact Hyx.
  Qed.

  (* output rows stay ranked *)
  Lemma out_ranked i j o p : i < j -> nth_error out i = Some o -> nth_error out j = Some p ->
    no_worse (f_zwarn o) (f_chi2 o) (f_zwarn p) (f_chi2 p).
  Proof.
    rewrite out_eq. intros Hij Ho Hp.
    assert (Hl : j < length trimmed) by (rewrite <- number_rows_length; apply nth_error_Some_lt in Hp; exact Hp).
    destruct (nth_error_lt_ex trimmed i) as [x Hx]; [lia|].
    destruct (nth_error_lt_ex trimmed j) as [y Hy]; [lia|].
    destruct (number_rows_nth _ _ _ Hx) as (d & s & _ & _ & E). rewrite E in Ho; injection Ho as <-.
    destruct (number_rows_nth _ _ _ Hy) as (d' & s' & _ & _ & E'). rewrite E' in Hp; injection Hp as <-.
    pose proof (trim_sorted nminima _ (sort_rows_sorted (flagged_rows arch tid blocks))) as Hs.
    fold ranked_rows in Hs. fold trimmed in Hs.
    rewrite StronglySorted_nth in Hs. specialize (Hs _ _ _ _ Hij Hx Hy). apply row_le_no_worse in Hs.
    destruct (numbered_fields i x d s) as (_ & _ & _ & _ & _ & -> & _ & _ & _ & _ & _ & _ & ->).
    destruct (numbered_fields j y d' s') as (_ & _ & _ & _ & _ & -> & _ & _ & _ & _ & _ & _ & ->).
    unfold no_worse in *. destruct s, s'; rewrite ?small_not_bad; exact Hs.
  Qed.

  Lemma out_nonempty : nminima >= 1 -> out <> [].
  Proof. intros Hn; destruct (out_first_best Hn) as (o & H & _). destruct out; [discriminate|congruence]. Qed.
End OneTarget.

(* ---- delta chi2 in the assembled table -------------------------------------------- *)
Definition homogeneous (b : block) : Prop := forall r s, In r (b_rows b) -> In s (b_rows b) -> f_type r = f_type s.
Definition type_limit (t : string) : Q := if String.eqb (upper t) "STAR" then 100 else 1000.

Lemma block_lim_type b r : homogeneous b -> In r (b_rows b) -> block_lim (b_rows b) = type_limit (f_type r).
Proof.
  intros Hh Hr. unfold block_lim, type_limit. destruct (b_rows b) as [|r0 rs] eqn:E; [destruct Hr|].
  rewrite (Hh r0 r); rewrite ?E; [reflexivity|left; reflexivity|exact Hr].
Qed.

(* competing fits of row i in the finished table *)
Definition table_gap (out : list frow) (chi : nat -> Q) (i : nat) (x : Q) : Prop :=
  exists j o p, i < j /\ nth_error out i = Some o /\ nth_error out j = Some p /\
    ~ is_bad (f_zwarn p) /\
    (Qmin (type_limit (f_type o)) (type_limit (f_type p)) < Qabs (velocity (f_z p) (f_z o)))%Q /\
    x = (chi j - chi i)%Q.

Section TableDelta.
  Context (nminima : nat) (arch : option archopt) (tid : Z) (blocks : list block) (out : list frow).
  Hypothesis Hok : assemble_target nminima arch tid blocks = Ok out.
  Hypothesis Hhom : forall b, In b blocks -> homogeneous b.
  Let trimmed := trim nminima (sort_rows (flagged_rows arch tid blocks)).

  Lemma pre_rows i o : nth_error out i = Some o <->
    exists r d s, nth_error trimmed i = Some r /\
      nth_error (fst (calc_deltachi2 (map to_drow trimmed))) i = Some d /\
      nth_error (snd (calc_deltachi2 (map to_drow trimmed))) i = Some s /\ o = numbered i r d s.
  Proof.
    rewrite (out_eq _ _ _ _ _ Hok). fold trimmed. split.
    - intros H.
      assert (Hl : i < length trimmed) by (rewrite <- number_rows_length; apply nth_error_Some_lt in H; exact H).
      destruct (nth_error_lt_ex _ _ Hl) as [r Hr].
      destruct (number_rows_nth _ _ _ Hr) as (d & s & Hd & Hs & E).
      exists r, d, s; repeat split; auto; congruence.
    - intros (r & d & s & Hr & Hd & Hs & ->).
      destruct (number_rows_nth _ _ _ Hr) as (d' & s' & Hd' & Hs' & E). rewrite E. congruence.
  Qed.

  Lemma trimmed_lim r : In r trimmed -> f_lim r = type_limit (f_type r).
  Proof.
    intros H. destruct (trimmed_in _ _ _ _ _ H) as (b & r0 & Hb & Hr & ->).
    cbn. apply block_lim_type; auto.
  Qed.

  Lemma small_bad_iff (s : bool) w : is_bad (if s then N.lor w ZW_SMALL_DELTA_CHI2 else w) <-> is_bad w.
  Proof. destruct s; [apply small_not_bad|reflexivity]. Qed.

  Lemma gaps_table chi i x :
    gaps (map to_drow trimmed) chi i x <-> table_gap out chi i x.
  Proof.
    unfold gaps, table_gap. split.
    - intros (j & r & s & Hij & Hr & Hs & Hb & Hv & ->).
      rewrite nth_error_map in Hr, Hs.
      destruct (nth_error trimmed i) as [ri|] eqn:Ei; [|discriminate].
      destruct (nth_error trimmed j) as [rj|] eqn:Ej; [|discriminate].
      injection Hr as <-; injection Hs as <-.
      destruct (number_rows_nth _ _ _ Ei) as (di & si & Hdi & Hsi & _).
      destruct (number_rows_nth _ _ _ Ej) as (dj & sj & Hdj & Hsj & _).
      exists j, (numbered i ri di si), (numbered j rj dj sj). split; [exact Hij|].
      split; [apply pre_rows; eauto 10|]. split; [apply pre_rows; eauto 10|].
      destruct (numbered_fields i ri di si) as (_ & Ht & _ & Hz & _).
      destruct (numbered_fields j rj dj sj) as (_ & Ht' & _ & Hz' & _ & _ & _ & _ & _ & _ & _ & _ & Hw').
      rewrite Ht, Hz, Ht', Hz', Hw', small_bad_iff. cbn [d_zwarn d_z d_lim to_drow] in *.
      rewrite (trimmed_lim ri), (trimmed_lim rj) in Hv by (eapply nth_error_In; eassumption). auto.
    - intros (j & o & p & Hij & Ho & Hp & Hb & Hv & ->).
      apply pre_rows in Ho as (ri & di & si & Ei & _ & _ & ->). apply pre_rows in Hp as (rj & dj & sj & Ej & _ & _ & ->).
      destruct (numbered_fields i ri di si) as (_ & Ht & _ & Hz & _).
      destruct (numbered_fields j rj dj sj) as (_ & Ht' & _ & Hz' & _ & _ & _ & _ & _ & _ & _ & _ & Hw').
      rewrite Ht, Hz, Ht', Hz' in Hv. rewrite Hw', small_bad_iff in Hb.
      exists j, (to_drow ri), (to_drow rj). rewrite !nth_error_map, Ei, Ej. cbn [d_zwarn d_z d_lim to_drow option_map].
      rewrite (trimmed_lim ri), (trimmed_lim rj) by (eapply nth_error_In; eassumption). auto 10.
  Qed.

  Lemma fin_rows chi : (forall j p, nth_error out j = Some p -> f_chi2 p = Fin (chi j)) ->
    forall j s, nth_error (map to_drow trimmed) j = Some s -> d_chi2 s = Fin (chi j).
  Proof.
    intros H j s Hs. rewrite nth_error_map in Hs. destruct (nth_error trimmed j) as [r|] eqn:E; [|discriminate].
    injection Hs as <-. cbn. destruct (number_rows_nth _ _ _ E) as (d & b & Hd & Hb & _).
    rewrite <- (H j (numbered j r d b)); [symmetry; apply numbered_fields|]. apply pre_rows; eauto 10.
  Qed.

  Lemma table_dchi2 chi : (forall j p, nth_error out j = Some p -> f_chi2 p = Fin (chi j)) ->
    forall i o, nth_error out i = Some o ->
    exists d, f_dchi2 o = Fin d /\ (0 <= d)%Q /\
      ((exists x, table_gap out chi i x) -> is_least (table_gap out chi i) d) /\
      ((forall x, ~ table_gap out chi i x) -> (d == 0)%Q).
  Proof.
    intros Hchi i o Ho. pose proof (fin_rows chi Hchi) as Hf.
    apply pre_rows in Ho as (r & dx & s & Hr & Hd & Hs & ->).
    destruct (numbered_fields i r dx s) as (_ & _ & _ & _ & _ & _ & _ & _ & _ & _ & -> & _).
    assert (Hi : i < length (map to_drow trimmed)) by (rewrite map_length; apply nth_error_Some_lt in Hr; exact Hr).
    destruct (deltachi2_spec _ chi Hf i Hi) as (d & Hd' & H1 & H2).
    assert (dx = Fin d) by congruence. subst dx.
    exists d; split; [reflexivity|].
    assert (Hrk : ranked (map to_drow trimmed)).
    { intros a b ra rb Hab Ha Hb. rewrite nth_error_map in Ha, Hb.
      destruct (nth_error trimmed a) as [xa|] eqn:Ea; [|discriminate]. destruct (nth_error trimmed b) as [xb|] eqn:Eb; [|discriminate].
      injection Ha as <-. injection Hb as <-. cbn.
      pose proof (trim_sorted nminima _ (sort_rows_sorted (flagged_rows arch tid blocks))) as Hso. fold trimmed in Hso.
      rewrite StronglySorted_nth in Hso. specialize (Hso _ _ _ _ Hab Ea Eb). apply row_le_no_worse in Hso. exact Hso. }
    destruct (gaps_dec _ chi i Hf Hi) as [He|He].
    - split; [|split].
      + destruct (H1 He) as [(x & Hx & Hq) _]. rewrite <- Hq. eapply gaps_nonneg; eassumption.
      + intros _. destruct (H1 He) as [(x & Hx & Hq) Hl]. split.
        * exists x; split; [apply gaps_table, Hx|exact Hq].
        * intros y Hy; apply Hl, gaps_table, Hy.
      + intros Hn. exfalso. destruct He as [x Hx]. exact (Hn x (proj1 (gaps_table chi i x) Hx)).
    - split; [|split].
      + rewrite (H2 He). lra.
      + intros [x Hx]. exfalso. exact (He x (proj2 (gaps_table chi i x) Hx)).
      + intros _; apply H2, He.
  Qed.

  Lemma table_small chi : (forall j p, nth_error out j = Some p -> f_chi2 p = Fin (chi j)) ->
    forall i o, nth_error out i = Some o ->
    exists b r, In b blocks /\ In r (b_rows b) /\ f_z o = f_z r /\ f_type o = f_type r /\
    (N.testbit (f_zwarn o) 2 = true <->
      N.testbit (f_zwarn r) 2 = true \/
      exists j p, j <> i /\ nth_error out j = Some p /\ ~ is_bad (f_zwarn p) /\
        (Qabs (chi j - chi i) < 9)%Q /\
        (Qmin (type_limit (f_type o)) (type_limit (f_type p)) <= Qabs (velocity (f_z p) (f_z o)))%Q).
  Proof.
    intros Hchi i o Ho. pose proof (fin_rows chi Hchi) as Hf.
    pose proof Ho as Ho'. apply pre_rows in Ho as (x & dx & s & Hr & Hd & Hs & ->).
    destruct (trimmed_in _ _ _ _ x (nth_error_In _ _ Hr)) as (b & r & Hb & Hin & Hx).
    exists b, r. split; [exact Hb|split; [exact Hin|]].
    destruct (numbered_fields i x dx s) as (_ & Ht & _ & Hz & _ & _ & _ & _ & _ & _ & _ & _ & Hw).
    split; [rewrite Hz, Hx; reflexivity|]. split; [rewrite Ht, Hx; reflexivity|].
    assert (Hr' : nth_error (map to_drow trimmed) i = Some (to_drow x)) by (rewrite nth_error_map, Hr; reflexivity).
    destruct (setzwarn_spec _ chi Hf i _ Hr') as (b' & Hb' & Hiff).
    assert (b' = s) by congruence. subst b'.
    assert (Hbit : N.testbit (f_zwarn x) 2 = N.testbit (f_zwarn r) 2).
    { rewrite Hx. unfold prepared. rewrite flag_row_bits. cbn [f_zwarn set_tid set_coeff set_prep].
      change (N.eqb 2 3) with false. change (N.eqb 2 9) with false. change (N.eqb 2 1) with false.
      cbn [andb]. rewrite !orb_false_r. reflexivity. }
    assert (Hs1 : N.testbit (f_zwarn (numbered i x dx s)) 2 = true <-> N.testbit (f_zwarn r) 2 = true \/ s = true).
    { rewrite Hw. destruct s.
      - rewrite N.lor_spec. unfold ZW_SMALL_DELTA_CHI2. rewrite pow2_bit. cbn. rewrite orb_true_r. tauto.
      - rewrite Hbit. split; [auto|intros [H|H]; [exact H|discriminate]]. }
    rewrite Hs1, Hiff, Ht, Hz. cbn [d_lim d_z to_drow].
    rewrite (trimmed_lim x) by (eapply nth_error_In; eassumption).
    assert (K : (exists j t, j <> i /\ nth_error (map to_drow trimmed) j = Some t /\ ~ is_bad (d_zwarn t) /\
          (Qabs (chi j - chi i) < 9)%Q /\
          (Qmin (type_limit (f_type x)) (d_lim t) <= Qabs (velocity (d_z t) (f_z x)))%Q) <->
       (exists j p, j <> i /\ nth_error out j = Some p /\ ~ is_bad (f_zwarn p) /\
          (Qabs (chi j - chi i) < 9)%Q /\
          (Qmin (type_limit (f_type x)) (type_limit (f_type p)) <= Qabs (velocity (f_z p) (f_z x)))%Q)); [|rewrite K; reflexivity].
    split.
    - intros (j & t & Hj & Ht' & H1 & H2 & H3). rewrite nth_error_map in Ht'.
      destruct (nth_error trimmed j) as [y|] eqn:Ey; [|discriminate]. injection Ht' as <-.
      destruct (number_rows_nth _ _ _ Ey) as (dj & sj & Hdj & Hsj & _).
      exists j, (numbered j y dj sj). split; [exact Hj|]. split; [apply pre_rows; eauto 10|].
      destruct (numbered_fields j y dj sj) as (_ & -> & _ & -> & _ & _ & _ & _ & _ & _ & _ & _ & ->).
      rewrite small_bad_iff. cbn in *. rewrite (trimmed_lim y) in H3 by (eapply nth_error_In; eassumption). auto.
    - intros (j & p & Hj & Hp & H1 & H2 & H3). apply pre_rows in Hp as (y & dj & sj & Ey & _ & _ & ->).
      destruct (numbered_fields j y dj sj) as (_ & Hy1 & _ & Hy2 & _ & _ & _ & _ & _ & _ & _ & _ & Hy3).
      rewrite Hy1, Hy2 in H3. rewrite Hy3, small_bad_iff in H1.
      exists j, (to_drow y). rewrite nth_error_map, Ey. cbn.
      rewrite (trimmed_lim y) by (eapply nth_error_In; eassumption). auto 10.
  Qed.
End TableDelta.

(* ---- all targets ------------------------------------------------------------------- *)
Lemma mapM_Forall2 {A B} (f : A -> res B) l ys :
  mapM f l = Ok ys <-> Forall2 (fun x y => f x = Ok y) l ys.
Proof.
  revert ys; induction l as [|x l IH]; intros ys; cbn.
  - split; [intros H; injection H as <-; constructor|intros H; inversion H; reflexivity].
  - unfold rbind at 1. destruct (f x) as [y|e] eqn:E.
    + unfold rbind at 1. destruct (mapM f l) as [ys'|e] eqn:E2.
      * split.
        -- intros H; injection H as <-. constructor; [exact E|apply IH; reflexivity].
        -- intros H; inversion H as [|? y0 ? ys0 Hy Hys]; subst. apply IH in Hys. congruence.
      * split; [discriminate|]. intros H; inversion H as [|? y0 ? ys0 Hy Hys]; subst. apply IH in Hys; discriminate.
    + split; [discriminate|]. intros H; inversion H; congruence.
Qed.

Definition wf_block (b : block) : Prop := Forall (fun r => length (f_coeff r) = b_width b) (b_rows b).

Lemma pad_length w c : length c <= w -> length (pad w c) = w.
Proof. intros H; unfold pad; rewrite app_length, repeat_length; lia. Qed.
Lemma list_max_le l x : In x l -> x <= list_max_nat l.
Proof. induction l as [|y l IH]; cbn; [intros []|intros [->|H]; [lia|specialize (IH H); fold (list_max_nat l); lia]]. Qed.

Lemma max_width_ge blocks b r : In b blocks -> In r (b_rows b) -> b_width b <= max_width blocks.
Proof.
  intros Hb Hr. apply list_max_le, in_map, filter_In. split; [exact Hb|].
  unfold nonempty; destruct (b_rows b); [destruct Hr|reflexivity].
Qed.

Lemma out_width nminima arch tid blocks out o :
  assemble_target nminima arch tid blocks = Ok out -> Forall wf_block blocks -> In o out ->
  length (f_coeff o) = max_width blocks.
Proof.
  intros Hok Hwf Ho. destruct (out_row _ _ _ _ _ Hok o Ho) as (b & r & Hb & Hr & _ & _ & _ & _ & _ & _ & _ & _ & Hc & _).
  rewrite Hc. apply pad_length. rewrite Forall_forall in Hwf. specialize (Hwf b Hb).
  unfold wf_block in Hwf; rewrite Forall_forall in Hwf. rewrite (Hwf r Hr). eapply max_width_ge; eassumption.
Qed.

(* final per-row changes of standardise *)
Definition finalised (maxcoeff : nat) (cut : option nat) (r : frow) : frow :=
  let r1 := set_coeff (set_type r (stake 6 (f_type r))) (pad maxcoeff (f_coeff r)) in
  match cut with None => r1 | Some n => set_coeff r1 (firstn n (f_coeff r1)) end.

Lemma standardise_eq maxcoeff rows out :
  standardise maxcoeff rows = Ok out ->
  coeff_width rows <= maxcoeff /\
  exists cut, out = map (finalised maxcoeff cut) rows /\
    (forall n, cut = Some n -> forall r, In r rows -> N.to_nat (f_ncoeff r) = n).
Proof.
  unfold standardise. set (rs := map (fun r => set_type r (stake 6 (f_type r))) rows).
  assert (Hw : coeff_width rs = coeff_width rows) by (unfold rs; destruct rows; reflexivity).
  rewrite Hw. destruct (Nat.ltb_spec maxcoeff (coeff_width rows)); [discriminate|].
  intros E. split; [assumption|].
  set (rs2 := map (fun r => set_coeff r (pad maxcoeff (f_coeff r))) rs) in E.
  assert (Hn : map f_ncoeff rs2 = map f_ncoeff rows) by (unfold rs2, rs; rewrite !map_map; reflexivity).
  assert (E2 : rs2 = map (finalised maxcoeff None) rows) by (unfold rs2, rs; rewrite !map_map; reflexivity).
  destruct (nodup N.eq_dec (map f_ncoeff rs2)) as [|n [|n' l]] eqn:En.
  - exists None. split; [congruence|intros; discriminate].
  - exists (Some (N.to_nat n)). split.
    + injection E as <-. rewrite E2, map_map. reflexivity.
    + intros m Hm r Hr. injection Hm as <-. f_equal.
      assert (Hin : In (f_ncoeff r) (nodup N.eq_dec (map f_ncoeff rs2))).
      { apply nodup_In. rewrite Hn. apply in_map, Hr. }
      rewrite En in Hin. destruct Hin as [->|[]]; reflexivity.
  - exists None. split; [congruence|intros; discriminate].
Qed.

Lemma zfind_table_shape nminima arch maxcoeff ids d tbl :
  zfind_table nminima arch maxcoeff ids d = Ok tbl ->
  exists ts cut,
    Forall2 (fun tid t => exists bs, rget d tid = Some bs /\ assemble_target nminima arch tid bs = Ok t) ids ts /\
    tbl = concat (map (map (finalised maxcoeff cut)) ts) /\
    (forall t u, In t ts -> In u ts -> coeff_width t = coeff_width u) /\
    (forall t, In t ts -> t <> [] -> coeff_width t <= maxcoeff) /\
    (forall n, cut = Some n -> forall t r, In t ts -> In r t -> N.to_nat (f_ncoeff r) = n).
Proof.
  unfold zfind_table. unfold rbind at 1. destruct (tables nminima arch ids d) as [ts|] eqn:Et; [|discriminate].
  unfold rbind. destruct (vstack ts) as [t|] eqn:Ev; [|discriminate]. intros Hst.
  destruct (standardise_eq _ _ _ Hst) as (Hw & cut & -> & Hcut).
  unfold vstack in Ev. destruct ts as [|t0 ts]; [discriminate|].
  destruct (forallb _ (t0 :: ts)) eqn:Ef; [|discriminate]. injection Ev as <-.
  change (t0 ++ concat ts) with (concat (t0 :: ts)) in *.
  rewrite forallb_forall in Ef.
  assert (Hsame : forall t u, In t (t0 :: ts) -> In u (t0 :: ts) -> coeff_width t = coeff_width u).
  { intros t u Ht Hu. pose proof (Ef t Ht) as H1. pose proof (Ef u Hu) as H2. apply Nat.eqb_eq in H1, H2. congruence. }
  exists (t0 :: ts), cut. split; [|split; [apply concat_map|split; [exact Hsame|split]]].
  - unfold tables in Et. apply mapM_Forall2 in Et. eapply Forall2_impl; [|exact Et].
    intros tid t H. cbn beta in H. destruct (rget d tid) as [bs|]; [eauto|discriminate].
  - intros t Ht Hne.
    assert (Hc : exists u, In u (t0 :: ts) /\ coeff_width u = coeff_width (concat (t0 :: ts))).
    { clear -Ht Hne. revert Ht. generalize (t0 :: ts) as l. induction l as [|u l IH]; [intros []|].
      intros Hin. destruct u as [|r u].
      - destruct Hin as [He|Hin]; [exfalso; apply Hne; symmetry; exact He|]. destruct (IH Hin) as (v & Hv & Hcv). exists v; split; [right; exact Hv|exact Hcv].
      - exists (r :: u). split; [left; reflexivity|reflexivity]. }
    destruct Hc as (u & Hu & Hcu). rewrite (Hsame t u Ht Hu), Hcu. exact Hw.
  - intros n Hn t r Ht Hr. apply (Hcut n Hn). apply in_concat. exists t; auto.
Qed.
