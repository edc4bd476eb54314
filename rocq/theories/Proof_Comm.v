(* Programs that agree on their calls never hang, whatever the order of the steps. *)
From Verif Require Import Prelude Model_Comm.
Open Scope nat_scope.

Lemma kind_eqb_iff a b : kind_eqb a b = true <-> a = b.
Proof.
  destruct a, b; cbn; try (split; [discriminate|discriminate]); try (split; reflexivity); rewrite Nat.eqb_eq; split; try (intros <-; reflexivity); intro H; now injection H.
Qed.
Lemma given_some m k h j y : given m k h j = Some y <-> h j = Some (m, k, y).
Proof.
  unfold given. destruct (h j) as [[[m' k'] v]|]; [|split; discriminate]. destruct (m' =? m) eqn:E; [|split; [discriminate|intro H; injection H as -> -> ->; now rewrite Nat.eqb_refl in E]]. apply Nat.eqb_eq in E as ->. destruct (kind_eqb k' k) eqn:E; cbn.
  - apply kind_eqb_iff in E as ->. split; intro H; injection H as ->; reflexivity.
  - split; [discriminate|]. intro H; injection H as -> ->. assert (kind_eqb k k = true) by now apply kind_eqb_iff. congruence.
Qed.
Lemma collect_some l vs : collect l = Some vs <-> l = map Some vs.
Proof.
  revert vs. induction l as [|[x|] l IH]; intro vs; cbn.
  - destruct vs; cbn; split; intro H; try discriminate; reflexivity.
  - destruct (collect l) as [w|]; [|split; [discriminate|]].
    + destruct vs as [|y vs]; [split; discriminate|]. cbn. split; intro H; [injection H as -> <-; f_equal; now apply IH|]. injection H as -> H. apply IH in H. congruence.
    + destruct vs as [|y vs]; [discriminate|]. cbn. intro H. injection H as -> H. apply IH in H. discriminate.
  - split; [discriminate|]. destruct vs; discriminate.
Qed.

Definition before (m r : nat) : nat := if r =? 0 then m - 1 else r - 1.
Definition full (m : nat) (k : kind) (v : nat -> val) (r : nat) : val :=
  match k with
  | Barrier => VU | Bcast root => v root | Allgather | Split => VL (map v (seq 0 m))
  | Gather root => if r =? root then VL (map v (seq 0 m)) else VU
  | Shift => v (before m r)
  end.
Definition root_ok (m : nat) (k : kind) : Prop := 0 < m /\ match k with Bcast root | Gather root => root < m | _ => True end.
Lemma everyone_all m k h v : (forall j, j < m -> h j = Some (m, k, v j)) -> everyone m k h = Some (map v (seq 0 m)).
Proof. intro H. unfold everyone. apply collect_some. rewrite map_map. apply map_ext_in. intros j Hj. apply in_seq in Hj. apply given_some, H. lia. Qed.
Lemma everyone_val m k h l v : (forall j y, j < m -> given m k h j = Some y -> y = v j) -> everyone m k h = Some l -> l = map v (seq 0 m).
Proof.
  intros H E. unfold everyone in E. apply collect_some in E. assert (I : forall j, In j (seq 0 m) -> j < m) by (intros j Hj; apply in_seq in Hj; lia). revert l E I. generalize (seq 0 m). clear -H. intro s. induction s as [|j s IH]; intros [|y l] E I; try discriminate; [reflexivity|]. cbn in E. injection E as E1 E2. cbn. f_equal; [apply (H j); [apply I; now left|exact E1]|apply IH; [exact E2|intros; apply I; now right]].
Qed.
Lemma result_full m k h v r x : root_ok m k -> r < m -> (forall j y, j < m -> given m k h j = Some y -> y = v j) -> result m k h r = Some x -> x = full m k v r.
Proof.
  intros [M K] Hr H E. destruct k; cbn in *.
  - destruct (everyone m Barrier h); congruence.
  - now apply H.
  - destruct (everyone m Allgather h) as [l|] eqn:X; [|discriminate]. rewrite (everyone_val _ _ _ _ _ H X) in E. congruence.
  - destruct (r =? root); [|congruence]. destruct (everyone m (Gather root) h) as [l|] eqn:X; [|discriminate]. rewrite (everyone_val _ _ _ _ _ H X) in E. congruence.
  - destruct (everyone m Split h) as [l|] eqn:X; [|discriminate]. rewrite (everyone_val _ _ _ _ _ H X) in E. congruence.
  - apply H in E; [exact E|]. destruct (r =? 0) eqn:B; [lia|]. apply Nat.eqb_neq in B. lia.
Qed.
Lemma result_all m k h v r : root_ok m k -> r < m -> (forall j, j < m -> h j = Some (m, k, v j)) -> result m k h r = Some (full m k v r).
Proof.
  intros [M K] Hr H. pose proof (everyone_all m k h v H) as E. destruct k; cbn in *; try rewrite E; try reflexivity.
  - apply given_some, H, K.
  - destruct (r =? root); reflexivity.
  - unfold before. apply given_some, H. destruct (r =? 0) eqn:B; [lia|]. apply Nat.eqb_neq in B. lia.
Qed.

(* all ranks of the communicator do the same call; the others are over *)
Definition lock (P : nat) (f g : nat -> prog unit) : Prop := exists m k v, m <= P /\ root_ok m k /\
  (forall r, r < m -> exists c, f r = Coll m k (v r) c /\ g r = c (full m k v r)) /\ (forall r, m <= r -> r < P -> over (f r) /\ g r = f r).
Inductive ends (fl : bool) (P : nat) : (nat -> prog unit) -> Prop :=
| en_done f : (forall r, r < P -> if fl then over (f r) else f r = Ret tt) -> ends fl P f
| en_abort f r : fl = true -> r < P -> f r = Abort -> ends fl P f
| en_lock f g : lock P f g -> ends fl P g -> ends fl P f.

Lemma over_dec p : {over p} + {~ over p}.
Proof. destruct p; cbn; auto. Qed.
Lemma bounded (Q : nat -> Prop) : (forall r, {Q r} + {~ Q r}) -> forall n, (forall r, r < n -> Q r) \/ exists r, r < n /\ ~ Q r.
Proof.
  intros D n. induction n as [|n [IH|(r & Hr & N)]]; [left; lia| |right; exists r; split; [lia|exact N]].
  destruct (D n) as [Y|N]; [left; intros r Hr; destruct (Nat.eq_dec r n) as [->|]; [exact Y|apply IH; lia]|right; exists n; split; [lia|exact N]].
Qed.
Lemma least (Q : nat -> Prop) (f : nat -> nat) : (forall r, {Q r} + {~ Q r}) -> forall n r, r < n -> Q r -> exists q, q < n /\ Q q /\ forall j, j < n -> Q j -> f q <= f j.
Proof.
  intros D n. induction n as [|n IH]; intros r Hr Qr; [lia|].
  destruct (D n) as [Y|N].
  - destruct (bounded (fun j => ~ Q j) (fun j => match D j with left y => right (fun h => h y) | right h => left h end) n) as [A|(j & Hj & Qj)].
    + exists n. split; [lia|]. split; [exact Y|]. intros j Hj Qj. destruct (Nat.eq_dec j n) as [->|]; [lia|]. exfalso. apply (A j); [lia|exact Qj].
    + assert (Qj' : Q j) by (destruct (D j); [assumption|contradiction]). destruct (IH j Hj Qj') as (q & Hq & Qq & Lq). destruct (le_lt_dec (f q) (f n)).
      * exists q. split; [lia|]. split; [exact Qq|]. intros i Hi Qi. destruct (Nat.eq_dec i n) as [->|]; [assumption|apply Lq; [lia|exact Qi]].
      * exists n. split; [lia|]. split; [exact Y|]. intros i Hi Qi. destruct (Nat.eq_dec i n) as [->|]; [lia|]. specialize (Lq i ltac:(lia) Qi). lia.
  - assert (r <> n) by (intros ->; contradiction). destruct (IH r ltac:(lia) Qr) as (q & Hq & Qq & Lq). exists q. split; [lia|]. split; [exact Qq|]. intros i Hi Qi. destruct (Nat.eq_dec i n) as [->|]; [contradiction|apply Lq; [lia|exact Qi]].
Qed.

(* the lockstep history *)
Record story (fl : bool) (P N : nat) (F : nat -> nat -> prog unit) : Prop := {
  st_lock : forall n, n < N -> lock P (F n) (F (S n));
  st_end : (forall r, r < P -> if fl then over (F N r) else F N r = Ret tt) \/ (fl = true /\ exists r, r < P /\ F N r = Abort) }.
Lemma ends_story fl P f : ends fl P f -> exists N F, F 0 = f /\ story fl P N F.
Proof.
  induction 1 as [f H|f r Hf Hr A|f g L _ (N & F & E & Sy)].
  - exists 0, (fun _ => f). split; [reflexivity|]. split; [intros n Hn; lia|left; exact H].
  - exists 0, (fun _ => f). split; [reflexivity|]. split; [intros n Hn; lia|right; split; [exact Hf|exists r; auto]].
  - exists (S N), (fun n => match n with 0 => f | S n => F n end). split; [reflexivity|]. destruct Sy as [S1 S2]. split; [|exact S2].
    intros [|n] Hn; [rewrite E; exact L|apply S1; lia].
Qed.
Definition entry (p : prog unit) : option (nat * kind * val) := match p with Coll m k v _ => Some (m, k, v) | _ => None end.
Record Inv (P N : nat) (F : nat -> nat -> prog unit) (s : st) : Prop := {
  i_code : forall r, r < P -> pos s r <= N -> code s r = F (pos s r) r;
  i_pos : forall r, r < P -> pos s r <= N \/ entry (F N r) <> None;
  i_made : forall n r, n < N -> r < P -> n < pos s r \/ (n = pos s r /\ waiting s r = true) -> hist s n r = entry (F n r);
  i_hist : forall n r, n < N -> r < P -> hist s n r <> None -> hist s n r = entry (F n r);
  i_abort : aborted s = true -> exists r, r < P /\ code s r = Abort }.
Lemma upd_same {A} (f : nat -> A) r a : upd f r a r = a. Proof. unfold upd. now rewrite Nat.eqb_refl. Qed.
Lemma upd_other {A} (f : nat -> A) r a j : j <> r -> upd f r a j = f j. Proof. intro H. unfold upd. now rewrite (proj2 (Nat.eqb_neq j r) H). Qed.
Ltac updt r' r := destruct (Nat.eq_dec r' r) as [->|]; [rewrite ?upd_same in *|rewrite ?(upd_other _ _ _ r') in * by assumption].

Lemma inv_init P N F : Inv P N F (init (F 0)).
Proof.
  split; cbn.
  - reflexivity.
  - intros; left; lia.
  - intros n r Hn Hr [H|[_ H]]; [lia|discriminate].
  - intros n r Hn Hr H. now contradiction H.
  - discriminate.
Qed.
Lemma inv_step fl P N F s s' : story fl P N F -> Inv P N F s -> step P s s' -> Inv P N F s'.
Proof.
  intros [S1 S2] [Ic Ip Im Ih Ia] St. destruct St as [r m k v c Ab Hr C W|r m k v c x Ab Hr C W R|r Ab Hr C].
  - split; cbn.
    + exact Ic.
    + exact Ip.
    + intros n q Hn Hq Q. destruct (Nat.eq_dec n (pos s r)) as [E|E].
      * subst n. rewrite upd_same. updt q r; [|apply Im; assumption]. rewrite <- (Ic r Hr) by lia. rewrite C. reflexivity.
      * rewrite upd_other by exact E. apply Im; try assumption. destruct Q as [Q|[Q1 Q2]]; [left; exact Q|]. updt q r; [contradiction|right; auto].
    + intros n q Hn Hq. destruct (Nat.eq_dec n (pos s r)) as [E|E].
      * subst n. rewrite upd_same. updt q r; [|apply Ih; assumption]. intros _. rewrite <- (Ic r Hr) by lia. rewrite C. reflexivity.
      * rewrite upd_other by exact E. apply Ih; assumption.
    + discriminate.
  - assert (G : pos s r < N -> c x = F (S (pos s r)) r).
    { intro L. destruct (S1 _ L) as (m' & k' & v' & Lm & Ro & Me & Ot). rewrite (Ic r Hr) in C by lia.
      assert (Hm : r < m'). { destruct (le_lt_dec m' r) as [L'|L']; [|exact L']. destruct (Ot r L' Hr) as [O _]. rewrite C in O. destruct O. }
      destruct (Me r Hm) as (c' & E & ->). rewrite C in E. injection E as -> -> -> ->. f_equal. apply (result_full m' k' (hist s (pos s r)) v' r x Ro Hm); [|exact R].
      intros j y Hj Y. apply given_some in Y. assert (HjP : j < P) by lia. destruct (Me j Hj) as (cj & Ej & _). rewrite (Ih (pos s r) j L HjP) in Y by (rewrite Y; discriminate). rewrite Ej in Y. cbn in Y. congruence. }
    split; cbn.
    + intros q Hq. updt q r; [intro L; now apply G|now apply Ic].
    + intros q Hq. updt q r; [|now apply Ip]. destruct (le_lt_dec (S (pos s r)) N); [now left|]. right. destruct (Ip r Hr) as [L|L]; [|exact L]. assert (E : pos s r = N) by lia. specialize (Ic r Hr L). rewrite E in Ic. rewrite <- Ic, C. discriminate.
    + intros n q Hn Hq. updt q r; [|now apply Im]. intros [Q|[_ Q]]; [|discriminate]. apply Im; try assumption. destruct (Nat.eq_dec n (pos s r)) as [->|]; [right; auto|left; lia].
    + intros n q Hn Hq. now apply Ih.
    + discriminate.
  - split; cbn; try assumption. intros _. exists r. auto.
Qed.
Lemma inv_steps fl P N F s : story fl P N F -> steps P (init (F 0)) s -> Inv P N F s.
Proof.
  intros S St. remember (init (F 0)) as s0 eqn:E. induction St as [s|s s' s'' _ IH X]; [subst; apply inv_init|]. exact (inv_step fl P N F s' s'' S (IH E) X).
Qed.
Lemma over_stays fl P N F n q r : story fl P N F -> r < P -> over (F n r) -> n + q <= N -> F (n + q) r = F n r.
Proof.
  intros S Hr O. induction q as [|q IH]; intro L; [now rewrite Nat.add_0_r|]. specialize (IH ltac:(lia)). rewrite <- plus_n_Sm. destruct (st_lock _ _ _ _ S (n + q) ltac:(lia)) as (m & k & v & Lm & Ro & Me & Ot).
  destruct (le_lt_dec m r) as [L'|L']; [destruct (Ot r L' Hr) as [_ ->]; exact IH|]. destruct (Me r L') as (c & E & _). rewrite IH in E. rewrite E in O. destruct O.
Qed.
Lemma no_hang fl P f s : ends fl P f -> steps P (init f) s -> ~ hung P s.
Proof.
  intros En St [Ne Nm]. destruct (ends_story fl P f En) as (N & F & E & S). subst f. pose proof (inv_steps fl P N F s S St) as [Ic Ip Im Ih Ia].
  destruct (bounded (fun r => over (code s r)) (fun r => over_dec (code s r)) P) as [A|(q0 & Hq0 & Nq0)]; [apply Ne; right; exact A|].
  destruct (least (fun r => ~ over (code s r)) (pos s) (fun r => match over_dec (code s r) with left y => right (fun h => h y) | right h => left h end) P q0 Hq0 Nq0) as (r & Hr & Nr & Lr).
  assert (NA : forall j, j < P -> code s j <> Abort). { intros j Hj X. apply (Nm j Hj). unfold must. now rewrite X. }
  destruct (le_lt_dec N (pos s r)) as [L|L].
  - destruct (st_end _ _ _ _ S) as [D|(_ & q & Hq & Aq)].
    + assert (O : over (F N r)). { specialize (D r Hr). destruct fl; [exact D|rewrite D; exact I]. } destruct (Ip r Hr) as [L2|L2].
      * apply Nr. rewrite (Ic r Hr L2). assert (X : pos s r = N) by lia. rewrite X. exact O.
      * destruct (F N r); try destruct O; now apply L2.
    + destruct (Ip q Hq) as [L2|L2]; [|rewrite Aq in L2; now apply L2]. assert (Nq : ~ over (code s q)).
      { intro O. rewrite (Ic q Hq L2) in O. pose proof (over_stays fl P N F (pos s q) (N - pos s q) q S Hq O ltac:(lia)) as X. replace (pos s q + (N - pos s q)) with N in X by lia. rewrite Aq in X. rewrite <- X in O. destruct O. }
      specialize (Lr q Hq Nq). assert (X : pos s q = N) by lia. apply (NA q Hq). rewrite (Ic q Hq L2), X. exact Aq.
  - destruct (st_lock _ _ _ _ S (pos s r) L) as (m & k & v & Lm & Ro & Me & Ot). assert (Cr : code s r = F (pos s r) r) by (apply Ic; [exact Hr|lia]).
    assert (Hm : r < m). { destruct (le_lt_dec m r) as [L'|L']; [|exact L']. destruct (Ot r L' Hr) as [O _]. rewrite <- Cr in O. contradiction. }
    assert (X : forall j, j < m -> hist s (pos s r) j = Some (m, k, v j)).
    { intros j Hj. assert (HjP : j < P) by lia. destruct (Me j Hj) as (c & Ej & _).
      assert (Y : pos s r < pos s j \/ (pos s r = pos s j /\ waiting s j = true)).
      { destruct (over_dec (code s j)) as [O|O].
        - left. destruct (le_lt_dec (pos s j) (pos s r)) as [L'|L']; [|exact L']. exfalso. rewrite (Ic j HjP) in O by lia. pose proof (over_stays fl P N F (pos s j) (pos s r - pos s j) j S HjP O ltac:(lia)) as Y. replace (pos s j + (pos s r - pos s j)) with (pos s r) in Y by lia. rewrite Ej in Y. rewrite <- Y in O. destruct O.
        - specialize (Lr j HjP O). destruct (Nat.eq_dec (pos s r) (pos s j)) as [Ep|]; [|left; lia]. right. split; [exact Ep|]. destruct (waiting s j) eqn:W; [reflexivity|]. exfalso. apply (Nm j HjP). unfold must. rewrite (Ic j HjP) by lia. rewrite <- Ep, Ej. left. exact W. }
      rewrite (Im (pos s r) j L HjP Y), Ej. reflexivity. }
    apply (Nm r Hr). unfold must. destruct (Me r Hm) as (c & Er & _). rewrite Cr, Er. right. exists (map v (seq 0 m)). now apply everyone_all.
Qed.
(* no failure: all return *)
Lemma all_return P f s : ends false P f -> steps P (init f) s -> aborted s = false /\ (forall r, r < P -> over (code s r) -> code s r = Ret tt).
Proof.
  intros En St. destruct (ends_story false P f En) as (N & F & E & S). subst f. pose proof (inv_steps false P N F s S St) as [Ic Ip Im Ih Ia].
  assert (D : forall r, r < P -> F N r = Ret tt) by (destruct (st_end _ _ _ _ S) as [D|[D _]]; [exact D|discriminate]).
  assert (L : forall r, r < P -> pos s r <= N). { intros r Hr. destruct (Ip r Hr) as [L|L]; [exact L|]. rewrite (D r Hr) in L. now contradiction L. }
  assert (X : forall r, r < P -> over (code s r) -> code s r = Ret tt).
  { intros r Hr O. rewrite (Ic r Hr (L r Hr)) in *. pose proof (over_stays false P N F (pos s r) (N - pos s r) r S Hr O ltac:(specialize (L r Hr); lia)) as X. replace (pos s r + (N - pos s r)) with N in X by (specialize (L r Hr); lia). rewrite <- X. now apply D. }
  split; [|exact X]. destruct (aborted s) eqn:Ab; [|reflexivity]. destruct (Ia eq_refl) as (r & Hr & A). exfalso.
  rewrite (Ic r Hr (L r Hr)) in A. destruct (Nat.eq_dec (pos s r) N) as [Eq|Neq]; [rewrite Eq, (D r Hr) in A; discriminate|].
  destruct (st_lock _ _ _ _ S (pos s r) ltac:(specialize (L r Hr); lia)) as (m & k & v & _ & _ & Me & Ot). destruct (le_lt_dec m r) as [L'|L'].
  - destruct (Ot r L' Hr) as [O _]. rewrite A in O. destruct O.
  - destruct (Me r L') as (c & E & _). rewrite A in E. discriminate.
Qed.

(* ---------------- no infinite execution ---------------- *)
Lemma wf_vec {A} (R : A -> A -> Prop) : well_founded R -> forall P, well_founded (fun g f : nat -> A => exists r, r < P /\ R (g r) (f r) /\ forall j, j <> r -> g j = f j).
Proof.
  intros W P. induction P as [|P IH]; [intro f; constructor; intros g (r & Hr & _); lia|].
  intro f. remember (f P) as a eqn:Ea. revert f Ea. induction (W a) as [a _ IHa]. intros f Ea. induction (IH f) as [f _ IHf]. constructor. intros g (r & Hr & D & O). destruct (Nat.eq_dec r P) as [->|Nr].
  - apply (IHa (g P)); [now rewrite Ea|reflexivity].
  - apply IHf; [exists r; split; [lia|]; split; assumption|]. rewrite O by congruence. exact Ea.
Qed.
Inductive less : bool * prog unit -> bool * prog unit -> Prop :=
| l_call m k v c : less (true, Coll m k v c) (false, Coll m k v c)
| l_ret m k v c x : less (false, c x) (true, Coll m k v c).
Lemma less_wf : well_founded less.
Proof.
  assert (X : forall p, Acc less (false, p)).
  { induction p as [a|e| |m k v c IH]; constructor; intros y Hy; inversion Hy; subst. constructor. intros y Hy'. inversion Hy'; subst. apply IH. }
  intros [[|] p]; [|apply X]. constructor. intros y Hy. inversion Hy; subst. apply X.
Qed.
Lemma steps_end P : well_founded (fun s' s => step P s s').
Proof.
  assert (X : forall s, aborted s = true -> Acc (fun s' s => step P s s') s). { intros s Hs. constructor. intros s' St. inversion St; congruence. }
  assert (Y : forall w s, w = (fun r => (waiting s r, code s r)) -> Acc (fun s' s => step P s s') s).
  { intro w. induction (wf_vec less less_wf P w) as [w _ IH]. intros s E. constructor. intros s' St. destruct St as [r m k v c Ab Hr C W|r m k v c x Ab Hr C W R|r Ab Hr C].
    - eapply IH; [|reflexivity]. exists r. split; [exact Hr|]. subst w. cbn. split; [rewrite upd_same, C, W; constructor|]. intros j Hj. now rewrite upd_other.
    - eapply IH; [|reflexivity]. exists r. split; [exact Hr|]. subst w. cbn. split; [rewrite !upd_same, C, W; constructor|]. intros j Hj. now rewrite !upd_other.
    - apply X. reflexivity. }
  intro s. eapply Y. reflexivity.
Qed.
