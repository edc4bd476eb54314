From Verif Require Import Prelude PreludeFacts Model_Dist Model_MPI.

Lemma upd_same {A} (f : nat -> A) r x : upd f r x r = x.
Proof. unfold upd; rewrite Nat.eqb_refl; reflexivity. Qed.
Lemma upd_other {A} (f : nat -> A) r x k : k <> r -> upd f r x k = f k.
Proof. intros H; unfold upd; destruct (Nat.eqb_spec k r); [congruence|reflexivity]. Qed.

Fixpoint sumf (f : nat -> nat) (n : nat) : nat := match n with 0 => 0 | S n => f n + sumf f n end.
Lemma sumf_ext f g n : (forall i, i < n -> f i = g i) -> sumf f n = sumf g n.
Proof. induction n; intros H; cbn; [reflexivity|]. rewrite (H n), IHn; auto. Qed.
Lemma sumf_upd f g n r : r < n -> (forall i, i < n -> i <> r -> g i = f i) -> sumf g n + f r = sumf f n + g r.
Proof.
  induction n as [|n IH]; intros Hr H; [lia|]. cbn.
  destruct (Nat.eq_dec r n) as [->|Hne].
  - rewrite (sumf_ext g f n); [lia|]. intros; apply H; lia.
  - rewrite (H n) by lia. specialize (IH ltac:(lia)). assert (forall i, i < n -> i <> r -> g i = f i) by (intros; apply H; lia).
    specialize (IH H0). lia.
Qed.
Lemma sumf_le f b n : (forall i, i < n -> f i <= b) -> sumf f n <= n * b.
Proof. induction n; intros H; cbn; [lia|]. pose proof (H n). specialize (IHn ltac:(auto)). lia. Qed.

Section Ring.
Variables (P T : nat) (eager : bool).
Hypothesis HP : 0 < P.

Lemma to_lt r : r < P -> to_proc P r < P.
Proof. intros H. unfold to_proc. destruct (Nat.leb_spec P (r + 1)); lia. Qed.
Lemma from_lt r : r < P -> from_proc P r < P.
Proof. intros H. unfold from_proc. destruct (Nat.eqb_spec r 0); lia. Qed.
Lemma from_to r : r < P -> from_proc P (to_proc P r) = r.
Proof. intros H. unfold to_proc, from_proc. destruct (Nat.leb_spec P (r + 1)); [cbn; lia|].
  destruct (Nat.eqb_spec (r + 1) 0); lia. Qed.
Lemma to_from r : r < P -> to_proc P (from_proc P r) = r.
Proof. intros H. unfold to_proc, from_proc. destruct (Nat.eqb_spec r 0).
  - destruct (Nat.leb_spec P (P - 1 + 1)); lia.
  - destruct (Nat.leb_spec P (r - 1 + 1)); lia. Qed.
Lemma to_inj a b : a < P -> b < P -> to_proc P a = to_proc P b -> a = b.
Proof. intros Ha Hb H. rewrite <- (from_to a Ha), <- (from_to b Hb), H; reflexivity. Qed.

(* the piece rank r holds in its i-th round (counting over all templates) *)
Definition pc (r i : nat) : piece := (i / P, (r + P - i mod P) mod P).

Lemma pc_start r t : r < P -> pc r (t * P) = (t, r).
Proof.
  intros H. unfold pc. rewrite Nat.div_mul, Nat.mod_mul by lia.
  rewrite Nat.sub_0_r. replace (r + P) with (r + 1 * P) by lia. rewrite Nat.mod_add, Nat.mod_small by lia. reflexivity.
Qed.

Lemma idx_eq r k : r < P -> k < P -> (r + P - k) mod P = if k <=? r then r - k else r + P - k.
Proof.
  intros Hr Hk. destruct (Nat.leb_spec k r).
  - replace (r + P - k) with ((r - k) + 1 * P) by lia. rewrite Nat.mod_add, Nat.mod_small; lia.
  - rewrite Nat.mod_small; lia.
Qed.

Lemma succ_divmod n : (S n mod P = 0 /\ S n / P = S (n / P) /\ n mod P = P - 1) \/
  (S n mod P = S (n mod P) /\ S n / P = n / P /\ n mod P < P - 1).
Proof.
  pose proof (Nat.div_mod n P ltac:(lia)) as E. pose proof (Nat.mod_upper_bound n P ltac:(lia)) as B.
  destruct (Nat.eq_dec (n mod P) (P - 1)) as [H|H].
  - left. assert (Hs : S n = 0 + (S (n / P)) * P) by nia.
    rewrite Hs, Nat.mod_add, Nat.div_add by lia. rewrite Nat.mod_small, Nat.div_small by lia. lia.
  - right. assert (Hs : S n = S (n mod P) + (n / P) * P) by nia.
    rewrite Hs, Nat.mod_add, Nat.div_add by lia. rewrite Nat.mod_small, Nat.div_small by lia. lia.
Qed.

(* what arrives in round n is the sender's round-n piece *)
Lemma pc_arrive r n : r < P ->
  (snd (pc (from_proc P r) n) = r <-> n mod P = P - 1) /\
  (n mod P < P - 1 -> pc (from_proc P r) n = pc r (S n)).
Proof.
  intros Hr. pose proof (from_lt r Hr) as Hf. pose proof (Nat.mod_upper_bound n P ltac:(lia)) as B.
  unfold pc; cbn [snd]. rewrite idx_eq by assumption.
  split.
  - unfold from_proc. destruct (Nat.eqb_spec r 0);
      repeat (match goal with |- context[?a <=? ?b] => destruct (Nat.leb_spec a b) end); lia.
  - intros Hlt. destruct (succ_divmod n) as [(H1 & H2 & H3)|(H1 & H2 & H3)]; [lia|].
    rewrite H1, H2. f_equal. rewrite idx_eq by lia. unfold from_proc.
    destruct (Nat.eqb_spec r 0); repeat (match goal with |- context[?a <=? ?b] => destruct (Nat.leb_spec a b) end); lia.
Qed.

Definition hist (r n : nat) : list piece := map (pc r) (seq 0 n).
Lemma hist_S r n : hist r (S n) = hist r n ++ [pc r n].
Proof. unfold hist. rewrite seq_S, map_app. reflexivity. Qed.

Definition sent (ph : phase) (n : nat) := match ph with PCompute | PDone => n | _ => S n end.
Definition rcvd (ph : phase) (n : nat) := match ph with PWait _ => S n | _ => n end.
Definition prog (ph : phase) (n : nat) := match ph with PCompute | PDone => 3 * n | PRecv => 3 * n + 1 | PWait _ => 3 * n + 2 end.

Definition rank_ok (r n : nat) (k : rk) : Prop :=
  match k_phase k with
  | PCompute => n < T * P /\ k_hold k = pc r n /\ k_log k = hist r n
  | PRecv => n < T * P /\ k_hold k = pc r n /\ k_log k = hist r (S n)
  | PWait m => n < T * P /\ m = pc (from_proc P r) n /\ k_log k = hist r (S n)
  | PDone => n = T * P /\ (0 < T -> k_hold k = (T - 1, r)) /\ k_log k = hist r n
  end.

Definition Inv (k : nat) (s : ring) : Prop :=
  exists n : nat -> nat,
    (forall r, r < P -> rank_ok r (n r) (g_rk s r)) /\
    (forall r, r < P ->
       let f := from_proc P r in
       let a := rcvd (k_phase (g_rk s r)) (n r) in let b := sent (k_phase (g_rk s f)) (n f) in
       a <= b /\ g_chan s r = map (pc f) (seq a (b - a))) /\
    sumf (fun r => prog (k_phase (g_rk s r)) (n r)) P = k.

Lemma inv_init : Inv 0 (ring_init T).
Proof.
  exists (fun _ => 0). unfold ring_init; cbn.
  destruct (Nat.eqb_spec T 0) as [->|HT].
  - split; [|split].
    + intros r Hr. unfold rank_ok; cbn. repeat split; lia.
    + intros r Hr; cbn; auto.
    + cbn. clear HP. induction P; cbn; auto.
  - split; [|split].
    + intros r Hr. unfold rank_ok; cbn. split; [nia|]. split; [|reflexivity].
      symmetry; apply (pc_start r 0 Hr).
    + intros r Hr; cbn; auto.
    + cbn. clear HP. induction P; cbn; auto.
Qed.

Ltac rcases r := 
  match goal with |- context[upd _ r _ ?x] => destruct (Nat.eq_dec x r) as [->|?];
     [rewrite ?upd_same|rewrite ?(upd_other _ r) by assumption] end.

Lemma inv_step k s s' : Inv k s -> ring_step P T eager s s' -> Inv (S k) s'.
Proof.
  intros (n & Hrk & Hch & Hk) Hst. destruct Hst as [r Hr Hph|r m rest Hr Hph Hc|r m Hr Hph Hg].
  - (* compute + isend *)
    pose proof (Hrk r Hr) as Hok. unfold rank_ok in Hok; rewrite Hph in Hok. destruct Hok as (Hn & Hh & Hl).
    exists n. cbn [g_rk g_chan]. split; [|split].
    + intros x Hx. rcases r; [|apply Hrk, Hx]. unfold rank_ok; cbn [k_phase k_hold k_log]. rewrite hist_S, Hl, Hh. auto.
    + intros x Hx. cbv zeta. specialize (Hch x Hx). cbv zeta in Hch. destruct Hch as [H1 H2].
      assert (Hrc : rcvd (k_phase (upd (g_rk s) r {| k_hold := k_hold (g_rk s r); k_phase := PRecv; k_log := k_log (g_rk s r) ++ [k_hold (g_rk s r)] |} x)) (n x) = rcvd (k_phase (g_rk s x)) (n x)).
      { destruct (Nat.eq_dec x r) as [->|Hne]; [rewrite upd_same, Hph; reflexivity|rewrite upd_other by exact Hne; reflexivity]. }
      rewrite Hrc.
      destruct (Nat.eq_dec (from_proc P x) r) as [Hf|Hf].
      * rewrite Hf in *. rewrite upd_same. cbn [k_phase sent]. rewrite Hph in H1, H2. cbn [sent] in H1, H2.
        assert (x = to_proc P r) as -> by (rewrite <- Hf, to_from; auto). rewrite upd_same, H2, Hh.
        split; [lia|]. replace (S (n r) - rcvd (k_phase (g_rk s (to_proc P r))) (n (to_proc P r)))
          with (S (n r - rcvd (k_phase (g_rk s (to_proc P r))) (n (to_proc P r)))) by lia.
        rewrite seq_S, map_app. cbn [map]. do 3 f_equal. lia.
      * rewrite (upd_other (g_rk s) r) by exact Hf.
        rewrite upd_other; [split; [exact H1|exact H2]|].
        intros ->. apply Hf, from_to, Hr.
    + pose proof (sumf_upd (fun x => prog (k_phase (g_rk s x)) (n x))
        (fun x => prog (k_phase (upd (g_rk s) r {| k_hold := k_hold (g_rk s r); k_phase := PRecv; k_log := k_log (g_rk s r) ++ [k_hold (g_rk s r)] |} x)) (n x)) P r Hr) as E.
      cbv beta in E. rewrite upd_same, Hph, Hk in E. cbn [k_phase prog] in E.
      rewrite Nat.add_comm in E. assert (E' := E ltac:(intros i _ Hi; rewrite upd_other by exact Hi; reflexivity)). lia.
  - (* recv *)
    pose proof (Hrk r Hr) as Hok. unfold rank_ok in Hok; rewrite Hph in Hok. destruct Hok as (Hn & Hh & Hl).
    exists n. cbn [g_rk g_chan]. pose proof (Hch r Hr) as [A1 A2]. cbv zeta in A1, A2. rewrite Hph in A1, A2. cbn [rcvd] in A1, A2.
    set (b := sent _ _) in A1, A2.
    assert (Hm : m = pc (from_proc P r) (n r) /\ rest = map (pc (from_proc P r)) (seq (S (n r)) (b - S (n r))) /\ S (n r) <= b).
    { rewrite Hc in A2. destruct (b - n r) as [|q] eqn:Eq; [discriminate|]. cbn in A2. injection A2 as -> ->.
      split; [reflexivity|]. split; [|lia]. do 2 f_equal. lia. }
    destruct Hm as (Hm & Hrest & Hb).
    split; [|split].
    + intros x Hx. rcases r; [|apply Hrk, Hx]. unfold rank_ok; cbn [k_phase k_hold k_log]. auto.
    + intros x Hx. cbv zeta. 
      assert (Hse : forall y, sent (k_phase (upd (g_rk s) r {| k_hold := k_hold (g_rk s r); k_phase := PWait m; k_log := k_log (g_rk s r) |} y)) (n y) = sent (k_phase (g_rk s y)) (n y)).
      { intros y. destruct (Nat.eq_dec y r) as [->|Hne]; [rewrite upd_same, Hph; reflexivity|rewrite upd_other by exact Hne; reflexivity]. }
      rewrite Hse. rcases r; [|apply (Hch x Hx)].
      cbn [k_phase rcvd]. fold b. split; [lia|exact Hrest].
    + pose proof (sumf_upd (fun x => prog (k_phase (g_rk s x)) (n x))
        (fun x => prog (k_phase (upd (g_rk s) r {| k_hold := k_hold (g_rk s r); k_phase := PWait m; k_log := k_log (g_rk s r) |} x)) (n x)) P r Hr) as E.
      cbv beta in E. rewrite upd_same, Hph, Hk in E. cbn [k_phase prog] in E.
      assert (E' := E ltac:(intros i _ Hi; rewrite upd_other by exact Hi; reflexivity)). lia.
  - (* wait *)
    pose proof (Hrk r Hr) as Hok. unfold rank_ok in Hok; rewrite Hph in Hok. destruct Hok as (Hn & Hm & Hl).
    exists (upd n r (S (n r))). cbn [g_rk g_chan].
    destruct (pc_arrive r (n r) Hr) as [Harr1 Harr2]. rewrite <- Hm in Harr1, Harr2.
    set (k' := after_wait T r m (k_log (g_rk s r))).
    assert (Hk' : rank_ok r (S (n r)) k' /\ (k_phase k' = PCompute \/ k_phase k' = PDone)).
    { unfold k', after_wait. destruct (Nat.eqb_spec (snd m) r) as [Hs|Hs].
      - pose proof (proj1 Harr1 Hs) as Hmod. destruct (succ_divmod (n r)) as [(D1 & D2 & D3)|(D1 & D2 & D3)]; [|lia].
        assert (Hfst : fst m = n r / P) by (rewrite Hm; reflexivity).
        assert (HSn : S (n r) = S (n r / P) * P) by (pose proof (Nat.div_mod (S (n r)) P ltac:(lia)); nia).
        destruct (Nat.ltb_spec (S (fst m)) T) as [Hlt|Hge]; unfold rank_ok; cbn [k_phase k_hold k_log].
        + split; [|auto]. split; [nia|]. split; [|exact Hl]. rewrite Hfst, HSn, pc_start by assumption. reflexivity.
        + split; [|auto]. assert (S (n r / P) = T) by nia. split; [nia|]. split; [|exact Hl].
          intros _. rewrite (surjective_pairing m), Hs, Hfst. f_equal. lia.
      - assert (Hlt : n r mod P < P - 1).
        { pose proof (Nat.mod_upper_bound (n r) P ltac:(lia)). destruct (Nat.eq_dec (n r mod P) (P - 1)); [|lia]. exfalso; apply Hs, Harr1; assumption. }
        unfold rank_ok; cbn [k_phase k_hold k_log]. split; [|auto]. split.
        + destruct (succ_divmod (n r)) as [(D1 & D2 & D3)|(D1 & D2 & D3)]; [lia|].
          destruct (Nat.eq_dec (S (n r)) (T * P)) as [E|]; [|lia]. rewrite E, Nat.mod_mul in D1 by lia. lia.
        + split; [apply Harr2, Hlt|exact Hl]. }
    destruct Hk' as [Hk1 Hk2].
    split; [|split].
    + intros x Hx. destruct (Nat.eq_dec x r) as [->|Hne]; [rewrite !upd_same; exact Hk1|rewrite !upd_other by exact Hne; apply Hrk, Hx].
    + intros x Hx. cbv zeta.
      assert (Hse : forall y, sent (k_phase (upd (g_rk s) r k' y)) (upd n r (S (n r)) y) = sent (k_phase (g_rk s y)) (n y)).
      { intros y. destruct (Nat.eq_dec y r) as [->|Hne]; [|rewrite !upd_other by exact Hne; reflexivity].
        rewrite !upd_same, Hph. destruct Hk2 as [-> | ->]; reflexivity. }
      assert (Hrc : forall y, rcvd (k_phase (upd (g_rk s) r k' y)) (upd n r (S (n r)) y) = rcvd (k_phase (g_rk s y)) (n y)).
      { intros y. destruct (Nat.eq_dec y r) as [->|Hne]; [|rewrite !upd_other by exact Hne; reflexivity].
        rewrite !upd_same, Hph. destruct Hk2 as [-> | ->]; reflexivity. }
      rewrite Hse, Hrc. apply (Hch x Hx).
    + pose proof (sumf_upd (fun x => prog (k_phase (g_rk s x)) (n x))
        (fun x => prog (k_phase (upd (g_rk s) r k' x)) (upd n r (S (n r)) x)) P r Hr) as E.
      cbv beta in E. rewrite !upd_same, Hph, Hk in E.
      assert (E' := E ltac:(intros i _ Hi; rewrite !upd_other by exact Hi; reflexivity)).
      assert (prog (k_phase k') (S (n r)) = 3 * S (n r)) by (destruct Hk2 as [-> | ->]; reflexivity).
      cbn [prog] in E'. lia.
Qed.

Lemma inv_steps k s : ring_steps P T eager k (ring_init T) s -> Inv k s.
Proof.
  remember (ring_init T) as s0 eqn:E0. induction 1 as [s|k s s' s'' Hs IH Hst]; subst.
  - apply inv_init.
  - eapply inv_step; [apply IH; reflexivity|exact Hst].
Qed.

Lemma inv_bound k s : Inv k s -> k <= 3 * (T * P) * P.
Proof.
  intros (n & Hrk & _ & <-). rewrite (Nat.mul_comm _ P). apply sumf_le.
  intros r Hr. specialize (Hrk r Hr). unfold rank_ok in Hrk. unfold prog.
  destruct (k_phase (g_rk s r)); lia.
Qed.

(* decidable minimum over unfinished ranks *)
Definition undone (s : ring) (r : nat) : bool := match k_phase (g_rk s r) with PDone => false | _ => true end.
Lemma min_undone s (n : nat -> nat) q :
  (forall r, r < q -> undone s r = false) \/
  exists r, r < q /\ undone s r = true /\ forall x, x < q -> undone s x = true -> n r <= n x.
Proof.
  induction q as [|q [IH|(r & H1 & H2 & H3)]].
  - left; lia.
  - destruct (undone s q) eqn:E.
    + right. exists q. split; [lia|]. split; [exact E|]. intros x Hx Hu.
      destruct (Nat.eq_dec x q) as [->|]; [lia|]. rewrite IH in Hu by lia. discriminate.
    + left. intros r Hr. destruct (Nat.eq_dec r q) as [->|]; [exact E|apply IH; lia].
  - right. destruct (undone s q) eqn:E.
    + destruct (Nat.le_gt_cases (n r) (n q)).
      * exists r. split; [lia|]. split; [exact H2|]. intros x Hx Hu. destruct (Nat.eq_dec x q) as [->|]; [assumption|apply H3; [lia|exact Hu]].
      * exists q. split; [lia|]. split; [exact E|]. intros x Hx Hu. destruct (Nat.eq_dec x q) as [->|]; [lia|]. specialize (H3 x ltac:(lia) Hu). lia.
    + exists r. split; [lia|]. split; [exact H2|]. intros x Hx Hu. destruct (Nat.eq_dec x q) as [->|]; [congruence|apply H3; [lia|exact Hu]].
Qed.

Lemma inv_progress k s : Inv k s -> ring_finished P s \/ exists s', ring_step P T eager s s'.
Proof.
  intros (n & Hrk & Hch & _).
  destruct (min_undone s n P) as [Hall|(r & Hr & Hu & Hmin)].
  - left. intros r Hr. specialize (Hall r Hr). unfold undone in Hall. destruct (k_phase (g_rk s r)); congruence.
  - right. unfold undone in Hu. destruct (k_phase (g_rk s r)) as [| |m|] eqn:Hph; [| | |discriminate].
    + eexists; eapply R_compute; eassumption.
    + (* waiting for a message from f *)
      pose proof (from_lt r Hr) as Hf. set (f := from_proc P r) in *.
      pose proof (Hrk r Hr) as Hok. unfold rank_ok in Hok; rewrite Hph in Hok. destruct Hok as (Hn & _).
      destruct (Hch r Hr) as [A1 A2]. cbv zeta in A1, A2. fold f in A1, A2. rewrite Hph in A1, A2. cbn [rcvd] in A1, A2.
      destruct (k_phase (g_rk s f)) as [| |m|] eqn:Hpf.
      * eexists; eapply (R_compute _ _ _ _ f); assumption.
      * assert (Hge : n r <= n f) by (apply Hmin; [exact Hf|unfold undone; rewrite Hpf; reflexivity]).
        cbn [sent] in A2. destruct (S (n f) - n r) as [|q] eqn:Eq; [lia|]. cbn in A2.
        eexists; eapply (R_recv _ _ _ _ r); eassumption.
      * assert (Hge : n r <= n f) by (apply Hmin; [exact Hf|unfold undone; rewrite Hpf; reflexivity]).
        cbn [sent] in A2. destruct (S (n f) - n r) as [|q] eqn:Eq; [lia|]. cbn in A2.
        eexists; eapply (R_recv _ _ _ _ r); eassumption.
      * pose proof (Hrk f Hf) as Hokf. unfold rank_ok in Hokf; rewrite Hpf in Hokf. destruct Hokf as (Hnf & _).
        cbn [sent] in A2. destruct (n f - n r) as [|q] eqn:Eq; [lia|]. cbn in A2.
        eexists; eapply (R_recv _ _ _ _ r); eassumption.
    + (* waiting for our send to complete *)
      pose proof (to_lt r Hr) as Ht. set (t := to_proc P r) in *.
      pose proof (Hrk r Hr) as Hok. unfold rank_ok in Hok; rewrite Hph in Hok. destruct Hok as (Hn & _).
      destruct (Hch t Ht) as [A1 A2]. cbv zeta in A1, A2.
      assert (Hft : from_proc P t = r) by (apply from_to, Hr). rewrite Hft, Hph in A1, A2. cbn [sent] in A1, A2.
      destruct (k_phase (g_rk s t)) as [| |m'|] eqn:Hpt; cbn [rcvd] in A1, A2.
      * eexists; eapply (R_compute _ _ _ _ t); assumption.
      * assert (Hge : n r <= n t) by (apply Hmin; [exact Ht|unfold undone; rewrite Hpt; reflexivity]).
        destruct (S (n r) - n t) as [|q] eqn:Eq; cbn in A2.
        -- eexists; eapply (R_wait _ _ _ _ r); [exact Hr|exact Hph|right; exact A2].
        -- eexists; eapply (R_recv _ _ _ _ t); eassumption.
      * assert (Hge : n r <= n t) by (apply Hmin; [exact Ht|unfold undone; rewrite Hpt; reflexivity]).
        replace (S (n r) - S (n t)) with 0 in A2 by lia. cbn in A2.
        eexists; eapply (R_wait _ _ _ _ r); [exact Hr|exact Hph|right; exact A2].
      * pose proof (Hrk t Ht) as Hokt. unfold rank_ok in Hokt; rewrite Hpt in Hokt. destruct Hokt as (Hnt & _).
        replace (S (n r) - n t) with 0 in A2 by lia. cbn in A2.
        eexists; eapply (R_wait _ _ _ _ r); [exact Hr|exact Hph|right; exact A2].
Qed.

Lemma inv_final k s r : Inv k s -> ring_finished P s -> r < P ->
  k_log (g_rk s r) = hist r (T * P) /\ (0 < T -> k_hold (g_rk s r) = (T - 1, r)) /\ g_chan s r = [].
Proof.
  intros (n & Hrk & Hch & _) Hf Hr. pose proof (Hrk r Hr) as H. unfold rank_ok in H. rewrite (Hf r Hr) in H.
  destruct H as (H1 & H2 & H3). split; [congruence|]. split; [exact H2|].
  destruct (Hch r Hr) as [_ A]. cbv zeta in A. rewrite (Hf r Hr), (Hf _ (from_lt r Hr)) in A. cbn in A.
  pose proof (Hrk _ (from_lt r Hr)) as H'. unfold rank_ok in H'. rewrite (Hf _ (from_lt r Hr)) in H'.
  destruct H' as (H1' & _). rewrite H1, H1', Nat.sub_diag in A. exact A.
Qed.

(* indices processed for template t *)
Lemma hist_idxs r t : t < T ->
  idxs_of t (hist r (T * P)) = map (fun j => (r + P - j) mod P) (seq 0 P).
Proof.
  intros Ht. unfold idxs_of, hist.
  assert (E : T * P = t * P + (P + (T - t - 1) * P)) by nia. rewrite E, !seq_app, !map_app, !filter_app, !map_app.
  assert (Hno : forall a b, (forall i, a <= i -> i < a + b -> i / P <> t) ->
    filter (fun p : piece => fst p =? t) (map (pc r) (seq a b)) = []).
  { intros a b H. induction b as [|b IH] in a, H |- *; [reflexivity|]. cbn [seq map filter].
    destruct (Nat.eqb_spec (fst (pc r a)) t) as [Ee|]; [exfalso; apply (H a); [lia|lia|exact Ee]|].
    apply IH. intros i Hi1 Hi2; apply H; lia. }
  rewrite (Hno 0 (t * P)), (Hno (0 + t * P + P)).
  2:{ intros i Hi1 Hi2 Hc. assert (i / P >= S t); [|lia]. apply Nat.div_le_lower_bound; lia. }
  2:{ intros i Hi1 Hi2 Hc. assert (i / P < t); [|lia]. apply Nat.div_lt_upper_bound; lia. }
  cbn [map app]. rewrite app_nil_r. cbn [Nat.add].
  assert (Hyes : forall a b, a + b <= P -> map snd (filter (fun p : piece => fst p =? t) (map (pc r) (seq (t * P + a) b))) =
    map (fun j => (r + P - j) mod P) (seq a b)).
  { intros a b; revert a; induction b as [|b IH]; intros a Hab; [reflexivity|]. cbn [seq map filter].
    assert (Hd : (t * P + a) / P = t) by (rewrite Nat.add_comm, Nat.div_add, Nat.div_small; lia).
    assert (Hm : (t * P + a) mod P = a) by (rewrite Nat.add_comm, Nat.mod_add, Nat.mod_small; lia).
    replace (fst (pc r (t * P + a)) =? t) with true by (unfold pc; cbn; rewrite Hd, Nat.eqb_refl; reflexivity).
    cbn [map]. f_equal; [unfold pc; cbn; rewrite Hm; reflexivity|].
    replace (S (t * P + a)) with (t * P + S a) by lia. apply IH. lia. }
  specialize (Hyes 0 P ltac:(lia)). rewrite Nat.add_0_r in Hyes. exact Hyes.
Qed.

Lemma ring_idxs_perm r : r < P -> Permutation (map (fun j => (r + P - j) mod P) (seq 0 P)) (seq 0 P).
Proof.
  intros Hr. apply NoDup_Permutation_bis.
  - assert (Hinj : forall l, NoDup l -> (forall j, In j l -> j < P) -> NoDup (map (fun j => (r + P - j) mod P) l)).
    { induction l as [|a l IH]; intros Hn Hb; cbn; [constructor|]. inversion Hn; subst. constructor.
      - rewrite in_map_iff. intros (b & Hb1 & Hb2).
        pose proof (Hb a (or_introl eq_refl)). pose proof (Hb b (or_intror Hb2)).
        rewrite !idx_eq in Hb1 by assumption.
        assert (a = b); [|congruence].
        destruct (Nat.leb_spec a r), (Nat.leb_spec b r); lia.
      - apply IH; [assumption|]. intros; apply Hb; right; assumption. }
    apply Hinj; [apply seq_NoDup|]. intros j Hj; apply in_seq in Hj; lia.
  - rewrite map_length, !seq_length. lia.
  - intros x Hx. apply in_map_iff in Hx as (j & <- & Hj). apply in_seq. split; [lia|].
    cbn. apply Nat.mod_upper_bound; lia.
Qed.
End Ring.
