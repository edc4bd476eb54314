From Verif Require Import Prelude PreludeFacts Model_Dist Model_MPI Proof_Dist2 Proof_Dist3 Proof_Ring.

Lemma skipn_add {A} (l : list A) : forall a b, skipn (a + b) l = skipn b (skipn a l).
Proof.
  intros a; revert l; induction a as [|a IH]; intros l b; [reflexivity|].
  destruct l; cbn; [symmetry; apply skipn_nil|apply IH].
Qed.
Lemma firstn_add {A} : forall a b (l : list A), firstn (a + b) l = firstn a l ++ firstn b (skipn a l).
Proof.
  induction a as [|a IH]; intros b l; [reflexivity|].
  destruct l; cbn; [rewrite firstn_nil; reflexivity|rewrite IH; reflexivity].
Qed.
Lemma chunks_concat {A} (l : list A) m q :
  concat (map (fun k => firstn m (skipn (k * m) l)) (seq 0 q)) = firstn (q * m) l.
Proof.
  induction q as [|q IH]; [reflexivity|].
  rewrite seq_S, map_app, concat_app, IH. cbn [map concat]. rewrite app_nil_r. cbn [Nat.add].
  replace (S q * m) with (q * m + m) by lia. rewrite firstn_add. reflexivity.
Qed.

Lemma sender_msgs_shape {V} maxb (res : dict V) : 0 < maxb ->
  exists bs, sender_msgs maxb res = MCount (length bs) :: map MDict bs /\ bs <> [] /\ concat bs = res /\
    Forall (fun b => length b <= maxb) bs.
Proof.
  intros Hm. unfold sender_msgs. destruct (Nat.ltb_spec (length res) maxb) as [Hlt|Hge].
  - exists [res]. repeat split; [discriminate|cbn; apply app_nil_r|constructor; [lia|constructor]].
  - assert (Hq : (length res + maxb - 1) / maxb = (length res - 1) / maxb + 1).
    { replace (length res + maxb - 1) with (length res - 1 + 1 * maxb) by lia. rewrite Nat.div_add by lia. reflexivity. }
    rewrite Hq. set (q := (length res - 1) / maxb + 1).
    exists (map (fun k => firstn maxb (skipn (k * maxb) res)) (seq 0 q)). repeat split.
    + rewrite map_length, seq_length, map_map. reflexivity.
    + unfold q; rewrite Nat.add_1_r. discriminate.
    + rewrite chunks_concat. apply firstn_all2. unfold q.
      pose proof (Nat.mul_succ_div_gt (length res - 1) maxb ltac:(lia)). nia.
    + apply Forall_forall; intros b Hb. apply in_map_iff in Hb as (k & <- & _). rewrite firstn_length. lia.
Qed.

Section Gather.
Context {V : Type}.
Variables (P cap maxb : nat) (ress : list (dict V)).
Hypothesis HP : length ress = P.
Hypothesis Hm : 0 < maxb.
Hypothesis Hkeys : Forall (fun d : dict V => NoDup (map fst d)) ress.

Let res r := nth r ress [].
Lemma res_nodup r : NoDup (map fst (res r)).
Proof.
  unfold res. destruct (nth_in_or_default r ress []) as [H| ->]; [|constructor].
  rewrite Forall_forall in Hkeys; auto.
Qed.

Definition stream (s : gst V) r := s_chan s r ++ s_todo s r.
Definition ntot (s : gst V) := sumf (fun r => length (s_chan s r) + 2 * length (s_todo s r)) P.

Definition Ginv (s : gst V) : Prop :=
  1 <= x_rank (s_rx s) /\ x_rank (s_rx s) <= Nat.max 1 P /\
  x_out (s_rx s) = map res (seq 1 (x_rank (s_rx s) - 1)) /\
  (forall r, 1 <= r -> r < x_rank (s_rx s) -> stream s r = []) /\
  (forall r, x_rank (s_rx s) < r -> r < P -> stream s r = sender_msgs maxb (res r)) /\
  (x_rank (s_rx s) < P ->
    match x_phase (s_rx s) with
    | WaitCount => stream s (x_rank (s_rx s)) = sender_msgs maxb (res (x_rank (s_rx s)))
    | WaitBatch k acc => exists bs, stream s (x_rank (s_rx s)) = map MDict bs /\ length bs = k /\ bs <> [] /\
        acc ++ concat bs = res (x_rank (s_rx s))
    end) /\
  (P <= x_rank (s_rx s) -> x_phase (s_rx s) = WaitCount).

Lemma ginv_init : Ginv (gather_init maxb ress).
Proof.
  unfold Ginv, gather_init, stream; cbn [s_rx x_rank x_out x_phase s_chan s_todo app].
  repeat split; try lia; try reflexivity.
Qed.

(* consuming the head of the current stream *)
Lemma take_ok s x' m ms todo' chan' :
  Ginv s -> x_rank (s_rx s) < P ->
  stream s (x_rank (s_rx s)) = m :: ms -> rx_take (s_rx s) m = Some x' ->
  (forall r, r <> x_rank (s_rx s) -> chan' r ++ todo' r = stream s r) ->
  chan' (x_rank (s_rx s)) ++ todo' (x_rank (s_rx s)) = ms ->
  Ginv {| s_todo := todo'; s_chan := chan'; s_rx := x' |}.
Proof.
  intros (I1 & I2 & I3 & I4 & I5 & I6 & I7) Hlt Hst Htk Hoth Hms. specialize (I6 Hlt).
  unfold Ginv, stream; cbn [s_rx s_todo s_chan].
  destruct (s_rx s) as [xr ph out] eqn:Ex. cbn [x_rank x_phase x_out] in *.
  destruct ph as [|k acc].
  - rewrite Hst in I6. destruct (sender_msgs_shape maxb (res xr) Hm) as (bs & E & Hne & Hc & _).
    rewrite E in I6. injection I6 as -> ->. unfold rx_take in Htk; cbn [x_phase x_rank x_out] in Htk.
    destruct bs as [|b0 bs]; [congruence|]. cbn [length] in Htk. injection Htk as <-. cbn [x_rank x_phase x_out].
    split; [exact I1|]. split; [exact I2|]. split; [exact I3|].
    split; [intros r H1 H2; rewrite Hoth by lia; apply I4; assumption|].
    split; [intros r H1 H2; rewrite Hoth by lia; apply I5; assumption|].
    split; [|intros; lia]. intros _. exists (b0 :: bs). rewrite Hms. repeat split; auto.
  - destruct I6 as (bs & E & Hk & Hne & Hc). rewrite Hst in E.
    destruct bs as [|b bs]; [congruence|]. cbn [map] in E. injection E as -> ->.
    cbn [length] in Hk. subst k. unfold rx_take in Htk; cbn [x_phase x_rank x_out] in Htk.
    assert (Hacc : dupdate acc b = acc ++ b).
    { apply dupdate_fresh. pose proof (res_nodup xr) as Hn. rewrite <- Hc in Hn. cbn [concat] in Hn.
      rewrite app_assoc, map_app in Hn. apply NoDup_app_l in Hn. exact Hn. }
    destruct bs as [|b' bs].
    + cbn [length] in Htk. injection Htk as <-. cbn [x_rank x_phase x_out]. rewrite Hacc.
      cbn [concat] in Hc. rewrite app_nil_r in Hc. rewrite Hc.
      assert (Hout : out ++ [res xr] = map res (seq 1 (S xr - 1))).
      { replace (S xr - 1) with (S (xr - 1)) by lia. rewrite seq_S, map_app, <- I3. cbn [map]. do 3 f_equal. lia. }
      split; [lia|]. split; [lia|]. split; [exact Hout|].
      split; [intros r H1 H2; destruct (Nat.eq_dec r xr) as [->|]; [exact Hms|rewrite Hoth by lia; apply I4; lia]|].
      split; [intros r H1 H2; rewrite Hoth by lia; apply I5; lia|].
      split; [|reflexivity]. intros H. rewrite Hoth by lia. apply I5; lia.
    + cbn [length] in Htk. injection Htk as <-. cbn [x_rank x_phase x_out].
      split; [exact I1|]. split; [exact I2|]. split; [exact I3|].
      split; [intros r H1 H2; rewrite Hoth by lia; apply I4; assumption|].
      split; [intros r H1 H2; rewrite Hoth by lia; apply I5; assumption|].
      split; [|intros; lia]. intros _. exists (b' :: bs). rewrite Hms, Hacc. repeat split; [discriminate|].
      cbn [concat] in Hc. rewrite <- app_assoc. exact Hc.
Qed.

Lemma ginv_step s s' : Ginv s -> gstep P cap s s' -> Ginv s'.
Proof.
  intros HI Hst. destruct Hst as [r m ms H1 H2 Ht Hc|m ms x' Hx Hc Htk|m ms x' Hx Hc Ht Htk].
  - destruct HI as (I1 & I2 & I3 & I4 & I5 & I6 & I7).
    assert (Hs : forall r', stream {| s_todo := upd (s_todo s) r ms; s_chan := upd (s_chan s) r (s_chan s r ++ [m]); s_rx := s_rx s |} r' = stream s r').
    { intros r'. unfold stream; cbn [s_todo s_chan]. destruct (Nat.eq_dec r' r) as [->|Hne].
      - rewrite !upd_same, Ht, <- app_assoc. reflexivity.
      - rewrite !upd_other by exact Hne. reflexivity. }
    unfold Ginv; cbn [s_rx]. split; [exact I1|]. split; [exact I2|]. split; [exact I3|].
    split; [intros r' ? ?; rewrite Hs; auto|]. split; [intros r' ? ?; rewrite Hs; auto|].
    split; [|exact I7]. intros H; specialize (I6 H). destruct (x_phase (s_rx s)); [rewrite Hs; exact I6|].
    destruct I6 as (bs & E & I6). exists bs. rewrite Hs. auto.
  - eapply take_ok; try eassumption.
    + unfold stream; rewrite Hc; reflexivity.
    + intros r Hr. unfold stream. rewrite upd_other by exact Hr. reflexivity.
    + rewrite upd_same. reflexivity.
  - eapply take_ok; try eassumption.
    + unfold stream; rewrite Hc, Ht; reflexivity.
    + intros r Hr. unfold stream. rewrite upd_other by exact Hr. reflexivity.
    + rewrite upd_same, Hc. reflexivity.
Qed.

Lemma ginv_steps k s : gsteps P cap k (gather_init maxb ress) s -> Ginv s.
Proof.
  remember (gather_init maxb ress) as s0 eqn:E0. induction 1 as [s|k s s' s'' Hs IH Hst]; subst.
  - apply ginv_init.
  - eapply ginv_step; [apply IH; reflexivity|exact Hst].
Qed.

Lemma gstep_measure s s' : 1 <= x_rank (s_rx s) -> gstep P cap s s' -> ntot s' < ntot s.
Proof.
  intros H1x Hst. unfold ntot.
  destruct Hst as [r m ms H1 H2 Ht Hc|m ms x' Hx Hc Htk|m ms x' Hx Hc Ht Htk]; cbn [s_todo s_chan].
  - pose proof (sumf_upd (fun r => length (s_chan s r) + 2 * length (s_todo s r))
      (fun r0 => length (upd (s_chan s) r (s_chan s r ++ [m]) r0) + 2 * length (upd (s_todo s) r ms r0)) P r H2) as E.
    cbv beta in E. rewrite !upd_same in E. rewrite Ht in E. rewrite app_length in E. cbn [length] in E.
    assert (E' := E ltac:(intros i _ Hi; rewrite !upd_other by exact Hi; reflexivity)). lia.
  - pose proof (sumf_upd (fun r => length (s_chan s r) + 2 * length (s_todo s r))
      (fun r0 => length (upd (s_chan s) (x_rank (s_rx s)) ms r0) + 2 * length (s_todo s r0)) P _ Hx) as E.
    cbv beta in E. rewrite !upd_same in E. rewrite Hc in E. cbn [length] in E.
    assert (E' := E ltac:(intros i _ Hi; rewrite !upd_other by exact Hi; reflexivity)). lia.
  - pose proof (sumf_upd (fun r => length (s_chan s r) + 2 * length (s_todo s r))
      (fun r0 => length (s_chan s r0) + 2 * length (upd (s_todo s) (x_rank (s_rx s)) ms r0)) P _ Hx) as E.
    cbv beta in E. rewrite !upd_same in E. rewrite Ht in E. cbn [length] in E.
    assert (E' := E ltac:(intros i _ Hi; rewrite !upd_other by exact Hi; reflexivity)). lia.
Qed.

Lemma gsteps_measure k s : gsteps P cap k (gather_init maxb ress) s -> k + ntot s <= ntot (gather_init maxb ress).
Proof.
  remember (gather_init maxb ress) as s0 eqn:E0. induction 1 as [s|k s s' s'' Hs IH Hst]; subst; [lia|].
  specialize (IH eq_refl). assert (Hi : Ginv s') by (eapply ginv_steps; eassumption).
  pose proof (gstep_measure s' s'' (proj1 Hi) Hst). lia.
Qed.

Lemma ginv_progress s : Ginv s -> gather_finished P s \/ exists s', gstep P cap s s'.
Proof.
  intros (I1 & I2 & I3 & I4 & I5 & I6 & I7).
  destruct (Nat.lt_ge_cases (x_rank (s_rx s)) P) as [Hlt|Hge].
  - right. specialize (I6 Hlt).
    assert (Hhd : exists m ms x', stream s (x_rank (s_rx s)) = m :: ms /\ rx_take (s_rx s) m = Some x').
    { unfold rx_take. destruct (x_phase (s_rx s)) as [|k acc].
      - destruct (sender_msgs_shape maxb (res (x_rank (s_rx s))) Hm) as (bs & E & Hne & _).
        rewrite E in I6. destruct bs as [|b bs]; [congruence|]. do 3 eexists. split; [exact I6|]. cbn [length]. reflexivity.
      - destruct I6 as (bs & E & Hk & Hne & _). destruct bs as [|b bs]; [congruence|].
        cbn [length] in Hk. subst k. destruct (length bs) eqn:El; (do 3 eexists; split; [exact E|reflexivity]). }
    destruct Hhd as (m & ms & x' & Hs & Ht). unfold stream in Hs.
    destruct (s_chan s (x_rank (s_rx s))) as [|m0 c] eqn:Ec.
    + cbn [app] in Hs. eexists; eapply G_rendezvous; eassumption.
    + cbn [app] in Hs. injection Hs as -> _. eexists; eapply G_recv; eassumption.
  - left. split; [exact Hge|]. intros r H1 H2. assert (Hs : stream s r = []) by (apply I4; lia).
    unfold stream in Hs. apply app_eq_nil in Hs as [_ Hs]; exact Hs.
Qed.

Lemma ginv_final s : Ginv s -> gather_finished P s -> 1 <= P -> x_out (s_rx s) = tl ress.
Proof.
  intros (I1 & I2 & I3 & _) [Hf _] H1. rewrite I3. assert (x_rank (s_rx s) = P) as -> by lia.
  clear I1 I2 I3 Hf Hkeys. unfold res. rewrite <- HP. destruct ress as [|d ds]; cbn [length] in *; [lia|].
  cbn [tl]. replace (S (length ds) - 1) with (length ds) by lia.
  rewrite <- seq_shift, map_map. cbn [nth].
  clear. apply nth_error_ext. intros i. rewrite nth_error_map.
  destruct (Nat.lt_ge_cases i (length ds)) as [H|H].
  - assert (E : nth_error (seq 0 (length ds)) i = Some i).
    { rewrite (nth_error_nth' _ 0) by (rewrite seq_length; exact H). rewrite seq_nth by exact H. reflexivity. }
    rewrite E. cbn. symmetry. apply nth_error_nth', H.
  - rewrite !(proj2 (nth_error_None _ _)); [reflexivity|lia|rewrite seq_length; lia].
Qed.
End Gather.

(* ---------- assembling ---------- *)
Lemma kset_fresh {V} (d : list (nat * V)) k v : ~ In k (map fst d) -> kset d k v = d ++ [(k, v)].
Proof.
  induction d as [|[a x] d IH]; cbn; intros H; [reflexivity|].
  destruct (Nat.eqb_spec a k) as [->|Hak]; [exfalso; auto|rewrite IH; auto].
Qed.
Lemma scan_dict_eq {A V} (f : A -> V) sl : forall idxs acc, NoDup (map fst acc ++ idxs) ->
  fold_left (fun d i => kset d i (map f (nth i sl []))) idxs acc = acc ++ map (fun i => (i, map f (nth i sl []))) idxs.
Proof.
  induction idxs as [|i idxs IH]; intros acc H; cbn [fold_left map]; [rewrite app_nil_r; reflexivity|].
  rewrite kset_fresh.
  - rewrite IH; [rewrite <- app_assoc; reflexivity|]. rewrite map_app, <- app_assoc. exact H.
  - apply NoDup_remove_2 in H. intros Hc; apply H, in_or_app; auto.
Qed.
Lemma kget_map {V} (g : nat -> V) l k : In k l -> kget (map (fun i => (i, g i)) l) k = Some (g k).
Proof.
  induction l as [|a l IH]; cbn; intros H; [destruct H|].
  destruct (Nat.eqb_spec a k) as [->|Hne]; [reflexivity|apply IH; destruct H; congruence].
Qed.
Lemma leb_total_b : total_b Nat.leb.
Proof. intros x y; rewrite !Nat.leb_le; lia. Qed.
Lemma leb_trans_b : trans_b Nat.leb.
Proof. intros x y z; rewrite !Nat.leb_le; lia. Qed.
Lemma isort_seq l n : Permutation l (seq 0 n) -> isort Nat.leb l = seq 0 n.
Proof.
  intros H.
  assert (Hs : StronglySorted (fun a b => Nat.leb a b = true) (isort Nat.leb l)) by (apply isort_sorted; [apply leb_total_b|apply leb_trans_b]).
  assert (Hp : Permutation (isort Nat.leb l) (seq 0 n)) by (rewrite <- (isort_perm Nat.leb l); exact H).
  assert (Hq : StronglySorted (fun a b => Nat.leb a b = true) (seq 0 n)).
  { eapply StronglySorted_impl; [|apply StronglySorted_seq]. cbn; intros; apply Nat.leb_le; lia. }
  clear H. revert Hp Hq Hs. generalize (isort Nat.leb l), (seq 0 n). clear.
  intros a; induction a as [|x a IH]; intros b Hp Hb Ha.
  - apply Permutation_nil in Hp; congruence.
  - destruct b as [|y b]; [apply Permutation_sym, Permutation_nil in Hp; discriminate|].
    inversion Ha as [|? ? Ha' Fa]; inversion Hb as [|? ? Hb' Fb]; subst.
    assert (x = y).
    { rewrite Forall_forall in Fa, Fb.
      assert (Hx : In x (y :: b)) by (eapply Permutation_in; [exact Hp|left; reflexivity]).
      assert (Hy : In y (x :: a)) by (eapply Permutation_in; [symmetry; exact Hp|left; reflexivity]).
      destruct Hx as [|Hx]; [congruence|]. destruct Hy as [|Hy]; [congruence|].
      apply Fb in Hx. apply Fa in Hy. apply Nat.leb_le in Hx, Hy. lia. }
    subst y. f_equal. apply IH; [eapply Permutation_cons_inv; exact Hp|assumption|assumption].
Qed.

Lemma assemble_ok {A V} (f : A -> V) (sl : list (list A)) idxs :
  Permutation idxs (seq 0 (length sl)) -> assemble (scan_dict f sl idxs) = map f (concat sl).
Proof.
  intros Hp. unfold scan_dict. rewrite scan_dict_eq; cbn [map app].
  2:{ eapply Permutation_NoDup; [symmetry; exact Hp|apply seq_NoDup]. }
  unfold assemble. rewrite map_map. cbn [fst]. rewrite map_id, (isort_seq _ _ Hp).
  rewrite (map_ext_in _ (fun k => map f (nth k sl []))).
  2:{ intros k Hk. rewrite (kget_map (fun i => map f (nth i sl []))); [reflexivity|].
      eapply Permutation_in; [symmetry; exact Hp|exact Hk]. }
  clear. induction sl as [|a sl IH]; [reflexivity|].
  cbn [length seq map concat]. rewrite <- seq_shift, map_map. cbn [nth]. rewrite IH, map_app. reflexivity.
Qed.
