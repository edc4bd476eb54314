(* Proofs on weighted_partition and the groups of the ranks. *)
From Verif Require Import Prelude PreludeFacts Facts2 Model_Dist Model_Fitz Proof_Fitz Proof_Fitz2 Proof_Dist2 Model_Zscan Model_IO Model_Wrap Spec_Wrap.
Open Scope nat_scope.

Lemma upd_length {A} (f : A -> A) l : forall j, length (upd_nth j f l) = length l.
Proof. induction l as [|x l IH]; intros [|j]; cbn [upd_nth length]; auto. Qed.
Lemma upd_nth_eq {A} (f : A -> A) d l : forall j, j < length l -> nth j (upd_nth j f l) d = f (nth j l d).
Proof. induction l as [|x l IH]; intros [|j] H; cbn in *; try lia; [reflexivity|]. apply IH. lia. Qed.
Lemma upd_nth_ne {A} (f : A -> A) d l : forall j k, j <> k -> nth k (upd_nth j f l) d = nth k l d.
Proof. induction l as [|x l IH]; intros [|j] [|k] H; cbn [upd_nth nth]; auto; try congruence. Qed.
Lemma upd_concat {A} (x : A) l : forall j, j < length l -> Permutation (concat (upd_nth j (fun g => g ++ [x]) l)) (x :: concat l).
Proof.
  induction l as [|g l IH]; intros [|j] H; cbn in *; try lia.
  - rewrite <- app_assoc. cbn. symmetry. apply Permutation_middle.
  - rewrite (IH j) by lia. symmetry. apply Permutation_middle.
Qed.
Lemma sumQ_snoc l x : (sumQ (l ++ [x]) == sumQ l + x)%Q.
Proof. induction l as [|a l IH]; cbn; [lra|]. change (a + sumQ (l ++ [x]) == a + sumQ l + x)%Q. rewrite IH. lra. Qed.

Section WP.
Variable ws : list Q.
Notation w := (fun i => nth i ws 0%Q).
(* done: indices placed so far *)
Record inv (done : list nat) (groups : list (list nat)) (sums : list Q) : Prop := {
  iv_len : length sums = length groups;
  iv_perm : Permutation (concat groups) done;
  iv_sum : forall k, k < length groups -> (nth k sums 0 == group_weight ws (nth k groups []))%Q;
  iv_sub : forall k i, In i (nth k groups []) -> In i done;
  iv_desc : forall k, StronglySorted (fun i j => (w j <= w i)%Q) (nth k groups []);
  iv_bal : forall k l g i, k < length groups -> l < length groups -> nth k groups [] = g ++ [i] -> (nth k sums 0 - w i <= nth l sums 0)%Q }.
Lemma SS_snoc {A} (R : A -> A -> Prop) l x : StronglySorted R l -> (forall y, In y l -> R y x) -> StronglySorted R (l ++ [x]).
Proof.
  induction 1 as [|a l Hs IH Hf]; intro H; [constructor; constructor|]. cbn. constructor; [apply IH; intros; apply H; now right|].
  rewrite Forall_forall in *. intros y Hy. apply in_app_or in Hy as [Hy|[<-|[]]]; [now apply Hf|apply H; now left].
Qed.
Lemma inv_step done groups sums i : inv done groups sums -> sums <> [] -> (0 <= w i)%Q -> (forall j, In j done -> (w i <= w j)%Q) ->
  inv (done ++ [i]) (upd_nth (argmin sums) (fun g => g ++ [i]) groups) (upd_nth (argmin sums) (fun s => s + w i)%Q sums).
Proof.
  intros [I1 I2 I3 I4 I5 I6] Hne Hw Hd. destruct (argmin_spec sums Hne) as (J1 & J2 & _). set (j := argmin sums) in *.
  assert (Jg : j < length groups) by lia.
  constructor.
  - now rewrite !upd_length.
  - rewrite upd_concat by exact Jg. rewrite I2. apply Permutation_cons_append.
  - intros k Hk. rewrite upd_length in Hk. destruct (Nat.eq_dec j k) as [<-|N].
    + rewrite (upd_nth_eq _ 0%Q) by exact J1. rewrite (upd_nth_eq _ []) by exact Jg. unfold group_weight. rewrite map_app. cbn [map]. rewrite sumQ_snoc. rewrite I3 by exact Jg. reflexivity.
    + rewrite !upd_nth_ne by exact N. now apply I3.
  - intros k x Hx. destruct (Nat.eq_dec j k) as [<-|N].
    + rewrite (upd_nth_eq _ []) in Hx by exact Jg. apply in_app_or in Hx as [Hx|[<-|[]]]; apply in_or_app; [left; eapply I4; exact Hx|right; now left].
    + rewrite upd_nth_ne in Hx by exact N. apply in_or_app. left. eapply I4. exact Hx.
  - intro k. destruct (Nat.eq_dec j k) as [<-|N].
    + rewrite (upd_nth_eq _ []) by exact Jg. apply SS_snoc; [apply I5|]. intros y Hy. apply Hd. eapply I4. exact Hy.
    + rewrite upd_nth_ne by exact N. apply I5.
  - intros k l g x Hk Hl E. rewrite upd_length in Hk, Hl.
    assert (Hlj : (nth l sums 0 <= nth l (upd_nth j (fun s => s + w i)%Q sums) 0)%Q).
    { destruct (Nat.eq_dec j l) as [<-|N]; [rewrite (upd_nth_eq _ 0%Q) by exact J1; lra|rewrite upd_nth_ne by exact N; lra]. }
    destruct (Nat.eq_dec j k) as [<-|N].
    + rewrite (upd_nth_eq _ []) in E by exact Jg. apply app_inj_tail in E. destruct E as [_ <-]. rewrite (upd_nth_eq _ 0%Q) by exact J1.
      specialize (J2 l ltac:(lia)). cbv beta in *. lra.
    + rewrite upd_nth_ne in E by exact N. rewrite (upd_nth_ne _ _ _ j k) by exact N. specialize (I6 k l g x Hk Hl E). cbv beta in *. lra.
Qed.
Lemma wp_ok order : forall done groups sums, inv done groups sums -> sums <> [] -> (forall i, In i (done ++ order) -> i < length ws /\ (0 <= w i)%Q) ->
  StronglySorted (fun i j => (w j <= w i)%Q) order -> (forall i j, In i done -> In j order -> (w j <= w i)%Q) ->
  exists g s, wp_loop ws order groups sums = Ok (g, s) /\ inv (done ++ order) g s /\ length g = length groups.
Proof.
  induction order as [|i r IH]; intros done groups sums I Hne Hi Hs Hd; cbn [wp_loop].
  - exists groups, sums. rewrite app_nil_r. now split.
  - destruct sums as [|s0 sr] eqn:Es; [congruence|]. rewrite <- Es in *. destruct (Hi i) as [Hl Hw]; [apply in_or_app; right; now left|].
    rewrite (nth_error_nth' ws 0%Q Hl). destruct (StronglySorted_inv Hs) as [Hs' Hf]. rewrite Forall_forall in Hf.
    assert (E : done ++ i :: r = (done ++ [i]) ++ r) by (rewrite <- app_assoc; reflexivity).
    destruct (IH (done ++ [i]) (upd_nth (argmin sums) (fun g => g ++ [i]) groups) (upd_nth (argmin sums) (fun s => s + w i)%Q sums)) as (g & s & Eg & Ig & Lg).
    + apply inv_step; auto. intros j Hj. apply Hd; [exact Hj|now left].
    + intro Hc. apply (f_equal (@List.length Q)) in Hc. rewrite upd_length, Es in Hc. discriminate.
    + intros x Hx. apply Hi. rewrite E. exact Hx.
    + exact Hs'.
    + intros a b Ha Hb. apply in_app_or in Ha as [Ha|[<-|[]]]; [apply Hd; [exact Ha|now right]|now apply Hf].
    + exists g, s. rewrite E. rewrite upd_length in Lg. now split.
Qed.
Lemma inv_init n : inv [] (repeat [] n) (repeat 0%Q n).
Proof.
  assert (N : forall k, nth k (repeat (@nil nat) n) [] = []). { intro k. destruct (Nat.lt_ge_cases k n); [apply nth_repeat|apply nth_overflow; now rewrite repeat_length]. }
  assert (Z : forall k, nth k (repeat 0%Q n) 0%Q = 0%Q). { intro k. destruct (Nat.lt_ge_cases k n); [apply nth_repeat|apply nth_overflow; now rewrite repeat_length]. }
  constructor.
  - now rewrite !repeat_length.
  - clear. induction n as [|n IH]; [constructor|exact IH].
  - intros k _. rewrite N, Z. reflexivity.
  - intros k i. rewrite N. intros [].
  - intro k. rewrite N. constructor.
  - intros k l g i _ _ E. rewrite N in E. destruct g; discriminate.
Qed.
End WP.
Lemma weighted_partition_ok argsort ws n : qargsort_ok argsort -> 0 < n -> (forall x, In x ws -> (0 <= x)%Q) ->
  exists g s, weighted_partition argsort ws n = Ok (g, s) /\ length g = n /\ inv ws (argsort (map Qopp ws)) g s.
Proof.
  intros Ha Hn Hw. destruct (Ha (map Qopp ws)) as [P So]. rewrite map_length in P. unfold weighted_partition.
  assert (Hi : forall i, In i (argsort (map Qopp ws)) -> i < length ws).
  { intros i Hi. apply (Permutation_in i) in P; [|exact Hi]. apply in_seq in P. lia. }
  destruct (wp_ok ws (argsort (map Qopp ws)) [] (repeat [] n) (repeat 0%Q n)) as (g & s & E & I & L).
  - apply inv_init.
  - destruct n; [lia|discriminate].
  - intros i Hin. cbn in Hin. split; [now apply Hi|apply Hw, nth_In, Hi, Hin].
  - eapply StronglySorted_in_impl; [|exact So]. intros i j Hin Hjn H. cbv beta in H. rewrite (nth_indep _ 0%Q (Qopp 0)), map_nth in H by (rewrite map_length; auto).
    rewrite (nth_indep (map Qopp ws) 0%Q (Qopp 0)), map_nth in H by (rewrite map_length; auto). lra.
  - intros i j [].
  - exists g, s. split; [exact E|]. split; [rewrite L; apply repeat_length|exact I].
Qed.
