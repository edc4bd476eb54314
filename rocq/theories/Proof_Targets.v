(* Lemmas about sums, diagonals, and the coadd. *)
From Verif Require Import Prelude PreludeFacts Facts2 Model_Fitz Proof_Fitz Proof_Table Model_Targets Spec_Targets.
Local Open Scope Q_scope.

(* ---- totals ---- *)
Lemma total_ext {A} (f g : A -> Q) l : (forall x, In x l -> f x == g x) -> total l f == total l g.
Proof. apply sumQ_ext. Qed.
Lemma total_cons {A} (f : A -> Q) x l : total (x :: l) f = f x + total l f.
Proof. reflexivity. Qed.
Lemma total_nil {A} (f : A -> Q) : total [] f = 0.
Proof. reflexivity. Qed.
Lemma total_zero {A} (f : A -> Q) l : (forall x, In x l -> f x == 0) -> total l f == 0.
Proof.
  induction l as [|a l IH]; intros H; [reflexivity|]. rewrite total_cons, (H a), IH; [lra| |now left]. intros. apply H. now right.
Qed.
Lemma total_plus {A} (f g : A -> Q) l : total l (fun x => f x + g x) == total l f + total l g.
Proof. induction l as [|a l IH]; [reflexivity|]. rewrite !total_cons, IH. lra. Qed.
Lemma total_scale {A} (f : A -> Q) c l : total l (fun x => f x * c) == total l f * c.
Proof. induction l as [|a l IH]; [reflexivity|]. rewrite !total_cons, IH. lra. Qed.
Lemma total_swap {A B} (f : A -> B -> Q) l m : total l (fun x => total m (f x)) == total m (fun y => total l (fun x => f x y)).
Proof.
  induction l as [|a l IH]; [symmetry; now apply total_zero|]. rewrite total_cons, IH, <- total_plus. apply total_ext. reflexivity.
Qed.
Lemma total_map {A B} (f : B -> Q) (g : A -> B) l : total (map g l) f = total l (fun x => f (g x)).
Proof. unfold total. now rewrite map_map. Qed.
Lemma total_app {A} (f : A -> Q) l m : total (l ++ m) f == total l f + total m f.
Proof. induction l as [|a l IH]; [cbn [app]; rewrite total_nil; lra|]. rewrite <- app_comm_cons, !total_cons, IH. lra. Qed.
Lemma total_perm {A} (f : A -> Q) l m : Permutation l m -> total l f == total m f.
Proof. intros H. apply sumQ_perm, Permutation_map, H. Qed.
Lemma total_nonneg {A} (f : A -> Q) l : (forall x, In x l -> 0 <= f x) -> 0 <= total l f.
Proof. intros H. apply sumQ_nonneg. apply Forall_map, Forall_forall. exact H. Qed.
(* one term *)
Lemma total_single (f : nat -> Q) n (j0 : Z) :
  total (seq 0 n) (fun j => if (Z.of_nat j =? j0)%Z then f j else 0) ==
  (if inrange n j0 then f (Z.to_nat j0) else 0).
Proof.
  unfold inrange.
  induction n as [|n IH].
  - cbn [seq]. rewrite total_nil. destruct ((0 <=? j0)%Z && (j0 <? Z.of_nat 0)%Z) eqn:E; [|reflexivity].
    apply andb_true_iff in E as [E1 E2]. apply Z.leb_le in E1. apply Z.ltb_lt in E2. lia.
  - rewrite seq_S, total_app, IH, total_cons, total_nil. cbn [Nat.add].
    destruct (Z.eqb_spec (Z.of_nat n) j0) as [E|E].
    + subst j0. rewrite Nat2Z.id.
      destruct ((0 <=? Z.of_nat n)%Z && (Z.of_nat n <? Z.of_nat n)%Z) eqn:E1. { apply andb_true_iff in E1 as [_ E2]. apply Z.ltb_lt in E2. lia. }
      destruct ((0 <=? Z.of_nat n)%Z && (Z.of_nat n <? Z.of_nat (S n))%Z) eqn:E2; [lra|].
      apply andb_false_iff in E2 as [E2|E2]; [apply Z.leb_gt in E2; lia|apply Z.ltb_ge in E2; lia].
    + destruct ((0 <=? j0)%Z && (j0 <? Z.of_nat n)%Z) eqn:E1, ((0 <=? j0)%Z && (j0 <? Z.of_nat (S n))%Z) eqn:E2; try lra.
      * exfalso. apply andb_true_iff in E1 as [A B]. apply andb_false_iff in E2 as [C|C]; [congruence|].
        apply Z.ltb_lt in B. apply Z.ltb_ge in C. lia.
      * exfalso. apply andb_true_iff in E2 as [A B]. apply andb_false_iff in E1 as [C|C]; [congruence|].
        apply Z.ltb_lt in B. apply Z.ltb_ge in C. lia.
Qed.

Lemma row_sum_total R i : row_sum R i == total (seq 0 (d_n R)) (fun j => entry R i j).
Proof.
  unfold row_sum, entry. pose proof Qred_correct as HQ. rewrite HQ. rewrite total_swap. apply total_ext. intros [o row] _. cbn [fst snd].
  rewrite <- (total_single (fun j => px row j)). apply total_ext. intros j _.
  destruct (Z.eqb_spec (Z.of_nat j) (Z.of_nat i + o)), (Z.eqb_spec (Z.of_nat j - Z.of_nat i) o); try lia; reflexivity.
Qed.
Lemma low_res_iff R i : qlt (row_sum R i) min_resolution_integral = true <-> low_res R i.
Proof. rewrite qlt_iff, row_sum_total. reflexivity. Qed.
Lemma low_res_dec R i : low_res R i \/ ~ low_res R i.
Proof.
  destruct (qlt (row_sum R i) min_resolution_integral) eqn:E; [left; now apply low_res_iff|right; intros H; apply low_res_iff in H; congruence].
Qed.

Lemma enum_nth {A} (l : list A) i d : (i < length l)%nat -> nth i (enum l) (O, d) = (i, nth i l d).
Proof.
  intros H. apply nth_error_nth. unfold enum. rewrite enum_from_nth. rewrite (nth_error_nth' l d) by exact H. reflexivity.
Qed.
Lemma mask_at r iv out p : mask_lowres (Some r) iv = Ok out ->
  length out = length iv /\ length iv = d_n r /\
  ((p < length iv)%nat -> (low_res r p -> px out p = 0) /\ (~ low_res r p -> px out p = px iv p)).
Proof.
  unfold mask_lowres. destruct (Nat.eqb_spec (length iv) (d_n r)) as [E|]; [|discriminate]. intros H. injection H as <-.
  assert (Hl : length (enum iv) = length iv) by (rewrite <- (map_length snd); f_equal; apply enum_from_snd).
  split; [now rewrite map_length|]. split; [exact E|]. intros Hp. unfold px.
  set (f := fun p0 => _).
  assert (Ef : nth p (map f (enum iv)) 0 = f (p, nth p iv 0)).
  { rewrite (nth_indep _ 0 (f (O, 0))) by (rewrite map_length; lia). rewrite map_nth. now rewrite enum_nth by exact Hp. }
  rewrite Ef. unfold f. cbn [fst snd].
  destruct (qlt (row_sum r p) min_resolution_integral) eqn:Eq; split; intros Hlow.
  - reflexivity.
  - apply low_res_iff in Eq. contradiction.
  - apply low_res_iff in Hlow. congruence.
  - reflexivity.
Qed.

(* ---- keys ---- *)
Lemma key_eqb_spec a b : reflect (a = b) (key_eqb a b).
Proof.
  destruct a, b; cbn [key_eqb]; try (constructor; congruence).
  - destruct (String.eqb_spec b0 b); constructor; congruence.
  - destruct (Z.eqb_spec h h0); constructor; congruence.
Qed.
Lemma existsb_key k l : existsb (key_eqb k) l = true <-> In k l.
Proof.
  rewrite existsb_exists. split.
  - intros (x & Hx & E). destruct (key_eqb_spec k x); [now subst|discriminate].
  - intros H. exists k. split; [exact H|]. now destruct (key_eqb_spec k k).
Qed.
Lemma first_seen_acc_spec : forall l seen,
  (NoDup (first_seen_acc seen l) /\ (forall k, In k (first_seen_acc seen l) <-> In k l /\ ~ In k seen)) /\
  exists pos, StronglySorted lt pos /\
    Forall2 (fun k i => nth_error l i = Some k /\ forall i', (i' < i)%nat -> nth_error l i' <> Some k) (first_seen_acc seen l) pos.
Proof.
  induction l as [|k l IH]; intros seen; cbn [first_seen_acc].
  - split; [split; [constructor|]|exists []; split; constructor]. intros k. cbn. tauto.
  - destruct (existsb (key_eqb k) seen) eqn:E.
    + apply existsb_key in E. destruct (IH seen) as ((Hn & Hi) & pos & Hs & Hf). split; [split; [exact Hn|]|].
      * intros k'. rewrite Hi. cbn [In]. split; [tauto|]. intros ([->|H] & H'); [contradiction|tauto].
      * exists (map S pos). split.
        { clear -Hs. induction Hs as [|a p Hs IHs Ha]; constructor; [exact IHs|]. apply Forall_map. eapply Forall_impl; [|exact Ha]. cbn. lia. }
        assert (Hk : forall k', In k' (first_seen_acc seen l) -> k' <> k) by (intros k' H' ->; apply Hi in H'; tauto).
        revert Hf Hk. clear. generalize (first_seen_acc seen l). intros ks Hf. induction Hf as [|k' i ks p (H1 & H2) _ IHf]; intros Hk; constructor.
        { split; [exact H1|]. intros [|i'] Hi'; cbn [nth_error]; [|apply H2; lia]. intros E. injection E as E. apply (Hk k'); [now left|now symmetry]. }
        { apply IHf. intros k'' H''. apply Hk. now right. }
    + assert (Hnk : ~ In k seen) by (intros H; apply existsb_key in H; congruence).
      destruct (IH (k :: seen)) as ((Hn & Hi) & pos & Hs & Hf). split; [split|].
      * constructor; [|exact Hn]. rewrite Hi. cbn. tauto.
      * intros k'. cbn [In]. rewrite Hi. cbn [In]. split; [intros [->|H]; tauto|]. intros [[->|H] H']; [now left|].
        destruct (key_eqb_spec k k') as [->|Hne]; [now left|right]. split; [exact H|]. intros [->|]; [now apply Hne|contradiction].
      * exists (O :: map S pos). split.
        { constructor. { clear -Hs. induction Hs as [|a p Hs IHs Ha]; constructor; [exact IHs|]. apply Forall_map. eapply Forall_impl; [|exact Ha]. cbn. lia. }
          apply Forall_map, Forall_forall. intros; lia. }
        constructor. { split; [reflexivity|]. intros i' Hi'. lia. }
        assert (Hk : forall k', In k' (first_seen_acc (k :: seen) l) -> k' <> k) by (intros k' H' ->; apply Hi in H' as [_ H']; apply H'; now left).
        revert Hf Hk. clear. generalize (first_seen_acc (k :: seen) l). intros ks Hf. induction Hf as [|k' i ks p (H1 & H2) _ IHf]; intros Hk; constructor.
        { split; [exact H1|]. intros [|i'] Hi'; cbn [nth_error]; [|apply H2; lia]. intros E. injection E as E. apply (Hk k'); [now left|now symmetry]. }
        { apply IHf. intros k'' H''. apply Hk. now right. }
Qed.
Lemma first_seen_ok l : first_occurrences l (first_seen l).
Proof.
  destruct (first_seen_acc_spec l []) as ((H1 & H2) & H3). split; [exact H1|]. split; [|exact H3].
  intros k. unfold first_seen. rewrite H2. cbn. tauto.
Qed.

(* ---- tables ---- *)
Definition rect (n : nat) (A : list (list Q)) : Prop := Forall (fun r => length r = n) A.
Definition canon (A : list (list Q)) : Prop := forall k j, cell A k j = Qred (cell A k j).
Lemma rect_nth n A k : rect n A -> (k < length A)%nat -> length (nth k A []) = n.
Proof. intros H Hk. apply (proj1 (Forall_forall _ _) H). now apply nth_In. Qed.
Lemma cell_out_r A k j n : rect n A -> (n <= j)%nat -> cell A k j = 0.
Proof.
  intros H Hj. unfold cell. destruct (Nat.lt_ge_cases k (length A)) as [Hk|Hk].
  - apply nth_overflow. now rewrite (rect_nth n).
  - rewrite (nth_overflow A) by exact Hk. now destruct j.
Qed.
Lemma cell_out_k A k j : (length A <= k)%nat -> cell A k j = 0.
Proof. intros H. unfold cell. rewrite (nth_overflow A) by exact H. now destruct j. Qed.
Lemma nth_map_row {A} (f : A -> list Q) (l : list A) k d : (k < length l)%nat -> nth k (map f l) [] = f (nth k l d).
Proof. intros H. rewrite (nth_indep _ [] (f d)) by now rewrite map_length. apply map_nth. Qed.
Lemma canon_ext A B n : length A = length B -> rect n A -> rect n B -> canon A -> canon B ->
  (forall k j, (k < length A)%nat -> (j < n)%nat -> cell A k j == cell B k j) -> A = B.
Proof.
  intros Hl HA HB CA CB H. apply (nth_ext A B [] []); [exact Hl|]. intros k Hk.
  apply (nth_ext _ _ 0 0). { rewrite !(rect_nth n); [reflexivity|exact HB|lia|exact HA|exact Hk]. }
  intros j Hj. rewrite (rect_nth n) in Hj by assumption.
  change (cell A k j = cell B k j). rewrite CA, CB. apply Qred_complete. now apply H.
Qed.

Lemma scale_data_spec R iv out : wf_dia R -> scale_data R iv = Ok out ->
  length iv = d_n R /\ length out = length (d_data R) /\ rect (d_n R) out /\ canon out /\
  forall k j, cell out k j == cell (d_data R) k j * px iv j.
Proof.
  intros (Ho & Hnd & Hr) H. unfold scale_data in H. destruct (Nat.eqb_spec (length iv) (d_n R)) as [E|]; [|discriminate]. injection H as <-.
  split; [exact E|]. split; [apply map_length|].
  assert (Hrect : rect (d_n R) (map (fun row => map2 (fun d w => Qred (d * w)) row iv) (d_data R))).
  { apply Forall_map. eapply Forall_impl; [|exact Hr]. cbn. intros row Hrow. rewrite map2_length. lia. }
  split; [exact Hrect|].
  assert (Hc : forall k j, (k < length (d_data R))%nat -> (j < d_n R)%nat ->
     cell (map (fun row => map2 (fun d w => Qred (d * w)) row iv) (d_data R)) k j = Qred (cell (d_data R) k j * px iv j)).
  { intros k j Hk Hj. unfold cell at 1. rewrite (nth_map_row _ _ _ []) by exact Hk.
    rewrite (map2_nth _ 0 0 0); [reflexivity|rewrite (rect_nth (d_n R)); assumption|lia]. }
  split.
  - intros k j. destruct (Nat.lt_ge_cases k (length (d_data R))) as [Hk|Hk]; [|rewrite cell_out_k by (rewrite map_length; exact Hk); reflexivity].
    destruct (Nat.lt_ge_cases j (d_n R)) as [Hj|Hj]; [|rewrite (cell_out_r _ _ _ _ Hrect Hj); reflexivity].
    rewrite Hc by assumption. symmetry. apply Qred_complete. apply Qred_correct.
  - intros k j. destruct (Nat.lt_ge_cases k (length (d_data R))) as [Hk|Hk].
    2: { rewrite cell_out_k by (rewrite map_length; exact Hk). rewrite cell_out_k by exact Hk. lra. }
    destruct (Nat.lt_ge_cases j (d_n R)) as [Hj|Hj]. { rewrite Hc by assumption. apply Qred_correct. }
    rewrite (cell_out_r _ _ _ _ Hrect Hj). rewrite (cell_out_r (d_data R) _ _ _ Hr Hj). lra.
Qed.
Lemma same_shape_rect A B n : same_shape A B = true -> rect n A -> length A = length B /\ rect n B.
Proof.
  unfold same_shape. intros H HA. apply andb_true_iff in H as [E H]. apply Nat.eqb_eq in E. split; [exact E|].
  revert B E H. induction HA as [|a A Ha _ IH]; intros [|b B] E H; try discriminate; constructor.
  - cbn in H. apply andb_true_iff in H as [H _]. apply Nat.eqb_eq in H. lia.
  - apply IH; [now injection E|]. cbn in H. now apply andb_true_iff in H as [_ H].
Qed.
Lemma rect_same_shape A B n : length A = length B -> rect n A -> rect n B -> same_shape A B = true.
Proof.
  intros E HA HB. unfold same_shape. rewrite E, Nat.eqb_refl. cbn [andb]. revert B E HB.
  induction HA as [|a A Ha _ IH]; intros [|b B] E HB; try discriminate; [reflexivity|]. inversion HB; subst. cbn [combine forallb fst snd].
  rewrite IH by (congruence || (now injection E) || assumption). rewrite (proj2 (Nat.eqb_eq _ _)) by congruence. reflexivity.
Qed.
Lemma add_data_spec A B out n : rect n A -> add_data A B = Ok out ->
  length out = length A /\ rect n out /\ canon out /\ forall k j, cell out k j == cell A k j + cell B k j.
Proof.
  intros HA H. unfold add_data in H. destruct (same_shape A B) eqn:E; [|discriminate].
  assert (Ho : out = map2 (map2 (fun a b => Qred (a + b))) A B) by congruence. clear H. subst out.
  destruct (same_shape_rect _ _ _ E HA) as [Hl HB].
  assert (Hlen : length (map2 (map2 (fun a b => Qred (a + b))) A B) = length A) by (rewrite map2_length; lia).
  assert (Hc0 : forall k, (k < length A)%nat -> nth k (map2 (map2 (fun a b => Qred (a + b))) A B) [] = map2 (fun a b => Qred (a + b)) (nth k A []) (nth k B [])).
  { intros k Hk. apply (map2_nth _ [] [] []); lia. }
  assert (Hr : rect n (map2 (map2 (fun a b => Qred (a + b))) A B)).
  { apply Forall_forall. intros r Hr. apply (In_nth _ _ []) in Hr as (k & Hk & <-). rewrite Hlen in Hk. rewrite Hc0 by exact Hk.
    rewrite map2_length, !(rect_nth n); [lia|exact HB|lia|exact HA|exact Hk]. }
  assert (Hc : forall k j, (k < length A)%nat -> (j < n)%nat -> cell (map2 (map2 (fun a b => Qred (a + b))) A B) k j = Qred (cell A k j + cell B k j)).
  { intros k j Hk Hj. unfold cell at 1. rewrite Hc0 by exact Hk.
    rewrite (map2_nth _ 0 0 0); [reflexivity| |]; rewrite (rect_nth n); assumption || lia. }
  split; [exact Hlen|]. split; [exact Hr|]. split; intros k j.
  - destruct (Nat.lt_ge_cases k (length A)) as [Hk|Hk]; [|rewrite cell_out_k by (rewrite Hlen; exact Hk); reflexivity].
    destruct (Nat.lt_ge_cases j n) as [Hj|Hj]; [|rewrite (cell_out_r _ _ _ _ Hr Hj); reflexivity].
    rewrite Hc by assumption. symmetry. apply Qred_complete, Qred_correct.
  - destruct (Nat.lt_ge_cases k (length A)) as [Hk|Hk].
    2: { rewrite (cell_out_k A), (cell_out_k B) by lia. rewrite cell_out_k by (rewrite Hlen; exact Hk). lra. }
    destruct (Nat.lt_ge_cases j n) as [Hj|Hj]. { rewrite Hc by assumption. apply Qred_correct. }
    rewrite (cell_out_r _ _ _ _ Hr Hj), (cell_out_r A _ _ _ HA Hj), (cell_out_r B _ _ _ HB Hj). lra.
Qed.
Definition wfR (n : nat) (s : spec) : Prop := exists R, sp_R s = Some R /\ wf_dia R /\ d_n R = n.
Lemma wfR_Rof n s : wfR n s -> sp_R s = Some (Rof s) /\ wf_dia (Rof s) /\ d_n (Rof s) = n.
Proof. intros (R & E & H). unfold Rof. rewrite E. auto. Qed.
Lemma acc_R_spec n : forall l Rd out, rect n Rd -> canon Rd -> Forall (wfR n) l -> acc_R n Rd l = Ok out ->
  length out = length Rd /\ rect n out /\ canon out /\
  Forall (fun s => length (d_data (Rof s)) = length Rd) l /\
  forall k j, cell out k j == cell Rd k j + total l (fun s => cell (d_data (Rof s)) k j * px (sp_ivar s) j).
Proof.
  induction l as [|s l IH]; intros Rd out HR HC HW H; cbn [acc_R] in H.
  - injection H as <-. split; [reflexivity|]. split; [exact HR|]. split; [exact HC|]. split; [constructor|]. intros. rewrite total_nil. lra.
  - inversion HW as [|? ? Hs Hl]; subst. destruct (wfR_Rof _ _ Hs) as (Es & Hwd & Hdn). rewrite Es in H.
    destruct (length (sp_wave s) =? n)%nat; [|discriminate].
    destruct (scale_data (Rof s) (sp_ivar s)) as [x|] eqn:Ex; [|discriminate]. cbn [rbind] in H.
    destruct (add_data Rd x) as [y|] eqn:Ey; [|discriminate]. cbn [rbind] in H.
    destruct (scale_data_spec _ _ _ Hwd Ex) as (_ & Hlx & Hrx & _ & Hvx).
    assert (Hlxy : length Rd = length x). { unfold add_data in Ey. destruct (same_shape Rd x) eqn:E; [|discriminate]. now destruct (same_shape_rect _ _ n E HR). }
    destruct (add_data_spec _ _ _ n HR Ey) as (Hly & Hry & Hcy & Hvy).
    destruct (IH y out Hry Hcy Hl H) as (H1 & H2 & H3 & H4 & H5).
    split; [lia|]. split; [exact H2|]. split; [exact H3|]. split.
    + constructor; [lia|]. eapply Forall_impl; [|exact H4]. cbn. intros; lia.
    + intros k j. rewrite H5, Hvy, Hvx, total_cons. lra.
Qed.
Lemma acc_R_ok n : forall l Rd, rect n Rd -> Forall (wfR n) l ->
  Forall (fun s => length (sp_wave s) = n /\ length (sp_ivar s) = n /\ length (d_data (Rof s)) = length Rd) l ->
  exists out, acc_R n Rd l = Ok out.
Proof.
  induction l as [|s l IH]; intros Rd HR HW H; cbn [acc_R]; [eauto|].
  inversion HW as [|? ? Hs Hl]; subst. inversion H as [|? ? (H1 & H2 & H3) H']; subst. destruct (wfR_Rof _ _ Hs) as (Es & Hwd & Hdn). rewrite Es.
  rewrite Nat.eqb_refl.
  assert (Ex : exists x, scale_data (Rof s) (sp_ivar s) = Ok x) by (unfold scale_data; rewrite H2, Hdn, Nat.eqb_refl; eauto).
  destruct Ex as (x & Ex). rewrite Ex. cbn [rbind]. destruct (scale_data_spec _ _ _ Hwd Ex) as (_ & Hlx & Hrx & _).
  rewrite Hdn in Hrx.
  unfold add_data. rewrite (rect_same_shape _ _ (length (sp_wave s))) by (assumption || lia). cbn [rbind].
  assert (Ey : add_data Rd x = Ok (map2 (map2 (fun a b => Qred (a + b))) Rd x)) by (unfold add_data; now rewrite (rect_same_shape _ _ (length (sp_wave s))) by (assumption || lia)).
  destruct (add_data_spec _ _ _ _ HR Ey) as (Hly & Hry & _).
  apply IH; [exact Hry|exact Hl|]. eapply Forall_impl; [|exact H']. cbn beta. rewrite Hly. tauto.
Qed.

Lemma sum0_px n A j : (j < n)%nat -> px (sum0 n A) j = Qred (total A (fun r => px r j)).
Proof. intros H. unfold px, sum0. rewrite nth_tab by exact H. reflexivity. Qed.
Lemma sum0_length n A : length (sum0 n A) = n.
Proof. apply tab_length. Qed.
