From Verif Require Import Prelude PreludeFacts Model_Dist Spec_Dist.

(* ---------- keys ---------- *)
Lemma key_lt_trans_neg w p q r :
  key_lt w q p = false -> key_lt w r q = false -> key_lt w r p = false.
Proof.
  unfold key_lt.
  set (a1 := ((p_load p + w) / p_cap p)%Q). set (b1 := ((p_load q + w) / p_cap q)%Q).
  set (c1 := ((p_load r + w) / p_cap r)%Q). set (a2 := (1 / p_cap p)%Q).
  set (b2 := (1 / p_cap q)%Q). set (c2 := (1 / p_cap r)%Q).
  destruct (qlt b1 a1) eqn:E1; [discriminate|]. rewrite qlt_false in E1.
  destruct (qlt c1 b1) eqn:E2; [discriminate|]. rewrite qlt_false in E2.
  destruct (qlt c1 a1) eqn:E3; [rewrite qlt_iff in E3; exfalso; lra|].
  destruct (qlt a1 c1) eqn:E4; [reflexivity|]. rewrite qlt_false in E4.
  destruct (qlt a1 b1) eqn:E5; [rewrite qlt_iff in E5; exfalso; lra|].
  destruct (qlt b1 c1) eqn:E6; [rewrite qlt_iff in E6; exfalso; lra|].
  destruct (qlt b2 a2) eqn:F1; [discriminate|]. rewrite qlt_false in F1.
  destruct (qlt c2 b2) eqn:F2; [discriminate|]. rewrite qlt_false in F2.
  destruct (qlt c2 a2) eqn:F3; [rewrite qlt_iff in F3; exfalso; lra|].
  destruct (qlt a2 c2) eqn:F4; [reflexivity|]. rewrite qlt_false in F4.
  destruct (qlt a2 b2) eqn:F5; [rewrite qlt_iff in F5; exfalso; lra|].
  destruct (qlt b2 c2) eqn:F6; [rewrite qlt_iff in F6; exfalso; lra|].
  rewrite !Nat.ltb_ge; lia.
Qed.

Lemma key_lt_irrefl w p : key_lt w p p = false.
Proof.
  unfold key_lt.
  assert (H : forall x, qlt x x = false) by (intros; rewrite qlt_false; lra).
  rewrite !H. apply Nat.ltb_irrefl.
Qed.

Lemma key_lt_asym w p q : key_lt w p q = true -> key_lt w q p = false.
Proof.
  unfold key_lt.
  set (a1 := ((p_load p + w) / p_cap p)%Q). set (b1 := ((p_load q + w) / p_cap q)%Q).
  set (a2 := (1 / p_cap p)%Q). set (b2 := (1 / p_cap q)%Q).
  destruct (qlt a1 b1) eqn:E1.
  - rewrite qlt_iff in E1. destruct (qlt b1 a1) eqn:E2; [rewrite qlt_iff in E2; lra|reflexivity].
  - destruct (qlt b1 a1); [discriminate|].
    destruct (qlt a2 b2) eqn:E3.
    + rewrite qlt_iff in E3. destruct (qlt b2 a2) eqn:E2; [rewrite qlt_iff in E2; lra|reflexivity].
    + destruct (qlt b2 a2); [discriminate|]. rewrite Nat.ltb_lt, Nat.ltb_ge; lia.
Qed.

Lemma min_proc_spec w l : forall b,
  In (min_proc w b l) (b :: l) /\
  forall q, In q (b :: l) -> key_lt w q (min_proc w b l) = false.
Proof.
  induction l as [|a l IH]; intros b; cbn [min_proc].
  - split; [left; reflexivity|]. intros q [<-|[]]; apply key_lt_irrefl.
  - destruct (IH (if key_lt w a b then a else b)) as [Hin Hmin].
    split.
    + destruct Hin as [Hin|Hin]; [rewrite <- Hin|right; right; exact Hin].
      destruct (key_lt w a b); [right; left|left]; reflexivity.
    + intros q [<-|[<-|Hq]].
      * destruct (key_lt w a b) eqn:E.
        -- apply (key_lt_trans_neg w _ a); [apply Hmin; left; reflexivity|].
           apply key_lt_asym, E.
        -- apply Hmin; left; reflexivity.
      * destruct (key_lt w a b) eqn:E.
        -- apply Hmin; left; reflexivity.
        -- apply (key_lt_trans_neg w _ b); [apply Hmin; left; reflexivity|exact E].
      * apply Hmin; right; exact Hq.
Qed.

(* ---------- the loop ---------- *)
Lemma append_at_ok i x : forall d, i < length d ->
  exists d', append_at i x d = Ok d' /\ length d' = length d /\
    nth i d' [] = nth i d [] ++ [x] /\ (forall j, j <> i -> nth j d' [] = nth j d []) /\
    Permutation (concat d') (x :: concat d).
Proof.
  induction i as [|i IH]; intros [|l d] Hi; cbn in Hi; try lia.
  - exists ((l ++ [x]) :: d); repeat split.
    + intros [|j] Hj; [lia|reflexivity].
    + cbn. rewrite <- app_assoc. cbn. symmetry; apply Permutation_middle.
  - destruct (IH d ltac:(lia)) as (d' & H1 & H2 & H3 & H4 & H5).
    exists (l :: d'). cbn. rewrite H1; cbn. repeat split.
    + congruence.
    + exact H3.
    + intros [|j] Hj; [reflexivity|apply H4; lia].
    + rewrite H5. symmetry; apply Permutation_middle.
Qed.

Definition tracks (wt : Z -> Q) (caps : list Q) (d : list (list Z)) (ps : list proc) : Prop :=
  length ps = length caps /\ length d = length caps /\
  forall i p, nth_error ps i = Some p ->
    p_id p = i /\ nth_error caps i = Some (p_cap p) /\ (p_load p == load wt (nth i d []))%Q.

Lemma load_app wt a b : (load wt (a ++ b) == load wt a + load wt b)%Q.
Proof. unfold load; rewrite map_app; apply sumQ_app. Qed.
Lemma load_one wt x : (load wt [x] == wt x)%Q.
Proof. unfold load; cbn; lra. Qed.

Lemma tracks_step wt caps d ps x i d' :
  tracks wt caps d ps -> i < length caps ->
  length d' = length d -> nth i d' [] = nth i d [] ++ [x] ->
  (forall j, j <> i -> nth j d' [] = nth j d []) ->
  tracks wt caps d' (add_load i (wt x) ps).
Proof.
  intros (Hl & Hd & Hp) Hi Hl' Hn Ho. unfold tracks, add_load.
  rewrite map_length. split; [exact Hl|split; [congruence|]].
  intros j p Hj. rewrite nth_error_map in Hj.
  destruct (nth_error ps j) as [p0|] eqn:E; [|discriminate]. cbn in Hj.
  destruct (Hp j p0 E) as (Hid & Hc & Hld). injection Hj as <-. rewrite Hid.
  destruct (Nat.eqb_spec j i) as [->|Hne]; cbn.
  - split; [first [exact Hid|reflexivity]|split; [exact Hc|]]. rewrite Hn, load_app, load_one, Hld; lra.
  - rewrite (Ho j Hne); auto.
Qed.

Lemma prefers_of_key wt caps d ps w i j p q :
  tracks wt caps d ps -> Forall (fun c => 0 < c)%Q caps ->
  nth_error ps i = Some p -> nth_error ps j = Some q -> i <> j ->
  key_lt w q p = false -> prefers wt caps d w i j.
Proof.
  intros (Hl & Hd & Hp) Hpos Hi Hj Hne Hk.
  destruct (Hp i p Hi) as (Hidp & Hcp & Hlp). destruct (Hp j q Hj) as (Hidq & Hcq & Hlq).
  pose proof (nth_error_nth _ _ 0%Q Hcp) as Hcp'. pose proof (nth_error_nth _ _ 0%Q Hcq) as Hcq'.
  assert (H0p : (0 < p_cap p)%Q) by (rewrite Forall_forall in Hpos; apply Hpos; eapply nth_error_In; eassumption).
  assert (H0q : (0 < p_cap q)%Q) by (rewrite Forall_forall in Hpos; apply Hpos; eapply nth_error_In; eassumption).
  unfold prefers. rewrite Hcp', Hcq'.
  unfold key_lt in Hk.
  assert (Ep : ((p_load p + w) / p_cap p == (load wt (nth i d []) + w) / p_cap p)%Q) by (rewrite Hlp; reflexivity).
  assert (Eq : ((p_load q + w) / p_cap q == (load wt (nth j d []) + w) / p_cap q)%Q) by (rewrite Hlq; reflexivity).
  destruct (qlt _ _) eqn:E1 in Hk; [discriminate|]. rewrite qlt_false in E1.
  destruct (qlt ((p_load p + w) / p_cap p) ((p_load q + w) / p_cap q)) eqn:E2 in Hk.
  { rewrite qlt_iff in E2. left; lra. }
  rewrite qlt_false in E2.
  destruct (qlt (1 / p_cap q) (1 / p_cap p)) eqn:E3 in Hk; [discriminate|]. rewrite qlt_false in E3.
  right.
  assert (Hinv : forall a b, (0 < a)%Q -> (0 < b)%Q -> (1 / a <= 1 / b)%Q -> (b <= a)%Q).
  { intros a b Ha Hb H.
    assert (Hab : (0 <= a * b)%Q) by (apply Qlt_le_weak, Qmult_lt_0_compat; assumption).
    pose proof (Qmult_le_compat_r _ _ _ H Hab) as H'.
    assert ((1 / a * (a * b) == b)%Q) by (field; lra).
    assert ((1 / b * (a * b) == a)%Q) by (field; lra). lra. }
  destruct (qlt (1 / p_cap p) (1 / p_cap q)) eqn:E4 in Hk.
  - left. split; [lra|]. pose proof (Hinv _ _ H0p H0q E3) as H1.
    rewrite qlt_iff in E4. apply Qle_lteq in H1 as [H1|H1]; [exact H1|exfalso].
    rewrite H1 in E4. exact (Qlt_irrefl _ E4).
  - rewrite qlt_false in E4. right. split; [lra|]. split.
    + apply Qle_antisym; apply Hinv; assumption.
    + rewrite Hidp, Hidq, Nat.ltb_ge in Hk. lia.
Qed.

Lemma Forall_pos_nocap0 wt caps d ps :
  tracks wt caps d ps -> Forall (fun c => 0 < c)%Q caps ->
  existsb (fun q => Qeq_bool (p_cap q) 0) ps = false.
Proof.
  intros (Hl & Hd & Hp) Hpos. destruct (existsb _ ps) eqn:E; [|reflexivity].
  apply existsb_exists in E as (q & Hq & He). apply Qeq_bool_iff in He.
  apply In_nth_error in Hq as [i Hi]. destruct (Hp i q Hi) as (_ & Hc & _).
  apply nth_error_In in Hc. rewrite Forall_forall in Hpos. specialize (Hpos _ Hc). exfalso; lra.
Qed.

Lemma assign_greedy wt caps (Hpos : Forall (fun c => 0 < c)%Q caps) (Hn : 0 < length caps) :
  forall sids ps d done,
  tracks wt caps d ps -> greedy wt caps done d -> Permutation (concat d) done ->
  exists d', assign wt sids ps d = Ok d' /\ greedy wt caps (done ++ sids) d' /\
    length d' = length caps /\ Permutation (concat d') (done ++ sids).
Proof.
  induction sids as [|x xs IH]; intros ps d done Ht Hg Hpm; cbn [assign].
  - exists d; rewrite app_nil_r. destruct Ht as (? & ? & ?). auto.
  - pose proof (Forall_pos_nocap0 _ _ _ _ Ht Hpos) as H0.
    destruct ps as [|p ps']; [destruct Ht as (H & _); cbn in H; lia|].
    rewrite H0. destruct (min_proc_spec (wt x) ps' p) as [Hin Hmin].
    set (m := min_proc (wt x) p ps') in *.
    apply In_nth_error in Hin as [i Hi].
    pose proof Ht as (Hl & Hd & Hp).
    destruct (Hp i m Hi) as (Hid & Hc & _). rewrite Hid.
    assert (Hilt : i < length caps) by (rewrite <- Hl; eapply nth_error_Some_lt; eassumption).
    destruct (append_at_ok i x d ltac:(lia)) as (d1 & E1 & E2 & E3 & E4 & E5).
    rewrite E1; cbn [rbind].
    destruct (IH (add_load i (wt x) (p :: ps')) d1 (done ++ [x])) as (d' & A1 & A2 & A3 & A4).
    + eapply tracks_step; eassumption.
    + apply greedy_snoc with (d := d) (i := i); try assumption.
      intros j Hj Hne. rewrite <- Hl in Hj. destruct (nth_error_lt_ex _ _ Hj) as [q Hq].
      eapply prefers_of_key; try eassumption; [congruence|].
      apply Hmin. eapply nth_error_In; eassumption.
    + rewrite E5. rewrite Hpm. apply Permutation_cons_append.
    + exists d'. rewrite <- app_assoc in A2, A4. auto.
Qed.

(* what the caller supplies must cover every item *)
Definition weight_of (weights : option (Z -> option Q)) (x : Z) : option Q :=
  match weights with None => Some 1%Q | Some f => f x end.
Definition caps_of (nproc : nat) (c : option (list Q)) : list Q :=
  match c with None => repeat 1%Q nproc | Some c => c end.

Lemma tracks_init wt caps n : length caps = n ->
  tracks wt caps (repeat [] n)
    (map (fun ic => {| p_id := fst ic; p_cap := snd ic; p_load := 0%Q |}) (enum caps)).
Proof.
  intros <-. unfold tracks, enum. rewrite map_length, enum_from_length, repeat_length.
  split; [reflexivity|split; [reflexivity|]].
  intros i p Hp. rewrite nth_error_map, enum_from_nth in Hp.
  destruct (nth_error caps i) eqn:E; [|discriminate]. cbn in Hp. injection Hp as <-. cbn.
  split; [reflexivity|split; [reflexivity|]].
  assert (nth i (repeat (@nil Z) (length caps)) [] = []) as ->.
  { destruct (nth_in_or_default i (repeat (@nil Z) (length caps)) []) as [H|H]; [|exact H].
    apply repeat_spec in H; exact H. }
  reflexivity.
Qed.

Lemma distribute_work_greedy nproc ids weights capacities wt :
  (forall x, In x ids -> weight_of weights x = Some (wt x)) ->
  0 < nproc -> length (caps_of nproc capacities) = nproc ->
  Forall (fun c => 0 < c)%Q (caps_of nproc capacities) ->
  exists dist, distribute_work nproc ids weights capacities = Ok dist /\
    length dist = nproc /\ Permutation (concat dist) ids /\
    exists wt', (forall x, In x ids -> wt' x = wt x) /\
      greedy wt' (caps_of nproc capacities) (by_weight wt' ids) dist.
Proof.
  intros Hw Hn Hl Hpos. unfold distribute_work. fold (caps_of nproc capacities).
  set (caps := caps_of nproc capacities) in *.
  set (wl := match weights with None => _ | Some f => f end).
  assert (Hwl : forall x, wl x = weight_of weights x) by (intros; unfold wl; destruct weights; reflexivity).
  assert (Hf : forallb (fun x => match wl x with Some _ => true | None => false end) ids = true).
  { apply forallb_forall; intros x Hx. rewrite Hwl, (Hw x Hx); reflexivity. }
  rewrite Hf. set (wt' := fun x => match wl x with Some w => w | None => 0%Q end).
  destruct (assign_greedy wt' caps Hpos ltac:(lia) (by_weight wt' ids)
    (map (fun ic => {| p_id := fst ic; p_cap := snd ic; p_load := 0%Q |}) (enum caps))
    (repeat [] nproc) []) as (d & A1 & A2 & A3 & A4).
  - apply tracks_init, Hl.
  - rewrite <- Hl; constructor.
  - clear; induction nproc; cbn; auto.
  - exists d. repeat split; [exact A1|congruence| |].
    + rewrite A4; cbn [app]. symmetry; apply isort_perm.
    + exists wt'. split; [|exact A2]. intros x Hx. unfold wt'. rewrite Hwl, (Hw x Hx); reflexivity.
Qed.

(* ---------- consequences of greediness ---------- *)
Lemma greedy_length wt caps it d : greedy wt caps it d -> length d = length caps.
Proof. induction 1; [apply repeat_length|congruence]. Qed.

Lemma load_nonneg wt l : (forall x, In x l -> 0 <= wt x)%Q -> (0 <= load wt l)%Q.
Proof.
  intros H; apply sumQ_nonneg, Forall_forall. intros y Hy.
  apply in_map_iff in Hy as (x & <- & Hx). auto.
Qed.

Lemma nth_repeat_nil {A} i n : nth i (repeat (@nil A) n) [] = [].
Proof.
  destruct (nth_in_or_default i (repeat (@nil A) n) []) as [H|H]; [|exact H].
  apply repeat_spec in H; exact H.
Qed.

Lemma greedy_in wt caps it d : greedy wt caps it d ->
  forall i x, In x (nth i d []) -> In x it.
Proof.
  induction 1 as [|it d x i d' Hg IH Hi Hpref Hl Hn Ho]; intros j y Hy.
  - rewrite nth_repeat_nil in Hy; exact Hy.
  - apply in_or_app. destruct (Nat.eq_dec j i) as [->|Hne].
    + rewrite Hn in Hy. apply in_app_or in Hy as [Hy|Hy]; [left; eauto|right; exact Hy].
    + rewrite (Ho j Hne) in Hy. left; eauto.
Qed.

(* Each worker's list keeps the processing order: it is a subsequence. *)
Inductive subseq {A} : list A -> list A -> Prop :=
| sub_nil : subseq [] []
| sub_skip x l m : subseq l m -> subseq l (x :: m)
| sub_keep x l m : subseq l m -> subseq (x :: l) (x :: m).
Lemma subseq_snoc_skip {A} (l m : list A) x : subseq l m -> subseq l (m ++ [x]).
Proof.
  induction 1; cbn.
  - first [apply sub_keep; apply sub_nil|apply sub_skip; apply sub_nil].
  - apply sub_skip; assumption.
  - apply sub_keep; assumption.
Qed.
Lemma subseq_snoc_keep {A} (l m : list A) x : subseq l m -> subseq (l ++ [x]) (m ++ [x]).
Proof.
  induction 1; cbn.
  - first [apply sub_keep; apply sub_nil|apply sub_skip; apply sub_nil].
  - apply sub_skip; assumption.
  - apply sub_keep; assumption.
Qed.
Lemma greedy_subseq wt caps it d : greedy wt caps it d -> forall i, subseq (nth i d []) it.
Proof.
  induction 1 as [|it d x i d' Hg IH Hi Hpref Hl Hn Ho]; intros j.
  - rewrite nth_repeat_nil; constructor.
  - destruct (Nat.eq_dec j i) as [->|Hne].
    + rewrite Hn; apply subseq_snoc_keep, IH.
    + rewrite (Ho j Hne). apply subseq_snoc_skip, IH.
Qed.

(* The last item a worker took was taken while that was the best choice. *)
Lemma greedy_last wt caps it d :
  greedy wt caps it d -> Forall (fun c => 0 < c)%Q caps ->
  (forall x, In x it -> 0 <= wt x)%Q ->
  forall i l x, i < length caps -> nth i d [] = l ++ [x] ->
  forall j, j < length caps -> j <> i ->
    let ni := (load wt (nth i d []) / nth i caps 0)%Q in
    let nj := ((load wt (nth j d []) + wt x) / nth j caps 0)%Q in
    (ni <= nj)%Q /\ ((nth i caps 0 < nth j caps 0)%Q -> (ni < nj)%Q).
Proof.
  intros Hg Hpos; induction Hg as [|it d x0 i0 d' Hg IH Hi0 Hpref Hl Hn Ho]; intros Hw i l x Hi E j Hj Hne.
  - rewrite nth_repeat_nil in E. destruct l; discriminate.
  - assert (Hcj : (0 < nth j caps 0)%Q) by (rewrite Forall_forall in Hpos; apply Hpos, nth_In, Hj).
    assert (Hci : (0 < nth i caps 0)%Q) by (rewrite Forall_forall in Hpos; apply Hpos, nth_In, Hi).
    destruct (Nat.eq_dec i i0) as [->|Hni].
    + rewrite Hn in E. apply app_inj_tail in E as [_ ->].
      specialize (Hpref j Hj Hne). unfold prefers in Hpref. cbv zeta in Hpref |- *.
      rewrite Hn, (Ho j Hne).
      assert (EL : (load wt (nth i0 d [] ++ [x]) / nth i0 caps 0 == (load wt (nth i0 d []) + wt x) / nth i0 caps 0)%Q)
        by (rewrite load_app, load_one; reflexivity).
      rewrite EL. destruct Hpref as [H|[[H1 H2]|(H1 & H2 & H3)]]; split; try intros; lra.
    + rewrite (Ho i Hni) in E |- *.
      assert (Hw' : forall y, In y it -> (0 <= wt y)%Q) by (intros; apply Hw, in_or_app; auto).
      specialize (IH Hw' i l x Hi E j Hj Hne). cbv zeta in IH |- *.
      assert (Hmono : ((load wt (nth j d []) + wt x) / nth j caps 0 <= (load wt (nth j d' []) + wt x) / nth j caps 0)%Q).
      { apply Qmult_le_compat_r; [|apply Qlt_le_weak, Qinv_lt_0_compat, Hcj].
        destruct (Nat.eq_dec j i0) as [->|Hnj].
        - rewrite Hn, load_app, load_one.
          assert (0 <= wt x0)%Q by (apply Hw, in_or_app; right; left; reflexivity). lra.
        - rewrite (Ho j Hnj). lra. }
      destruct IH as [I1 I2]. split; [lra|intros Hc; specialize (I2 Hc); lra].
Qed.
