(* Bin edges and evenly spaced values in double precision. *)
From Coq Require Import ZArith Reals Lra Lia List Bool.
From Flocq Require Import Core.Core IEEE754.BinarySingleNaN Relative.
From Verif Require Import Model_Float Spec_Float Proof_Float Proof_Float2 Proof_Float3.
Import ListNotations.
Open Scope R_scope.

Lemma bp1 k : bpow radix2 (k + 1) = 2 * bpow radix2 k.
Proof. rewrite bpow_plus. change (bpow radix2 1) with 2. ring. Qed.

Definition mid (a b : b64) : b64 := fdiv (fadd a b) (fint 2).
Lemma mid_spec a b : within 1000 a -> within 1000 b -> B2R a <= B2R b ->
  within 1000 (mid a b) /\ B2R a <= B2R (mid a b) <= B2R b /\ B2R (mid a b) = rnd (rnd (B2R a + B2R b) / 2).
Proof.
  intros [Fa Ba] [Fb Bb] L. destruct two as [F2 E2].
  destruct (pow2 1001 _ _ ltac:(lia) (add_rounds a b Fa Fb)) as [Fs Bs].
  { change 1001%Z with (1000 + 1)%Z. rewrite bp1. apply (Rle_trans _ _ _ (Rabs_triang _ _)). lra. }
  pose proof (rounds_fin _ _ (add_rounds a b Fa Fb) Fs) as Es.
  assert (S : 2 * B2R a <= rnd (B2R a + B2R b) <= 2 * B2R b).
  { split; [rewrite <- (rnd_id (2 * B2R a)) by apply dbl_format, fmt|rewrite <- (rnd_id (2 * B2R b)) by apply dbl_format, fmt];
      apply rnd_mono; lra. }
  destruct (rounds_between _ _ a b (div_rounds _ (fint 2) Fs F2 ltac:(lra)) Fa Fb) as (F & E & B).
  { rewrite E2, Es. lra. }
  unfold mid. split; [|split; [exact B|rewrite E, E2, Es; reflexivity]]. split; [exact F|].
  apply Rabs_le_inv in Ba, Bb. apply Rabs_le. lra.
Qed.

Lemma half_format r : generic_format radix2 fexp r -> bpow radix2 (-1000) <= Rabs r -> generic_format radix2 fexp (r / 2).
Proof.
  rewrite fexp_FLT. intros H L. apply FLT_format_generic in H; [|easy]. destruct H as [f E M X].
  apply generic_format_FLT. exists (Float radix2 (Fnum f) (Fexp f - 1)).
  - rewrite E. unfold F2R. cbn [Fnum Fexp]. replace (bpow radix2 (Fexp f)) with (2 * bpow radix2 (Fexp f - 1)); [field|].
    rewrite <- bp1. f_equal. lia.
  - exact M.
  - cbn [Fexp]. assert (Fexp f <> -1074)%Z; [|lia]. intros C. apply (Rle_not_lt _ _ L).
    rewrite E. unfold F2R. rewrite C, Rabs_mult, (Rabs_pos_eq (bpow _ _)) by apply bpow_ge_0.
    rewrite <- abs_IZR. apply (Rlt_trans _ (bpow radix2 53 * bpow radix2 (-1074))).
    + apply Rmult_lt_compat_r; [apply bpow_gt_0|]. change (bpow radix2 53) with (IZR (2 ^ 53)). apply IZR_lt. exact M.
    + rewrite <- bpow_plus. now apply bpow_lt.
Qed.

Lemma mid_strict (a b f : b64) : within 1000 a -> within 1000 b -> bpow radix2 (-1000) <= B2R a ->
  B2R a < B2R f < B2R b -> B2R a < B2R (mid a b) < B2R b.
Proof.
  intros Wa Wb P [H1 H2]. destruct (mid_spec a b Wa Wb ltac:(lra)) as (_ & _ & E). rewrite E.
  assert (N : Rabs (rnd (B2R a + B2R b) - (B2R a + B2R b)) <= Rabs (2 * B2R f - (B2R a + B2R b))).
  { destruct (round_N_pt radix2 fexp (fun z => negb (Z.even z)) (B2R a + B2R b)) as [_ K]. apply K. apply dbl_format, fmt. }
  assert (N' : Rabs (2 * B2R f - (B2R a + B2R b)) < B2R b - B2R a) by (apply Rabs_def1; lra).
  assert (S : 2 * B2R a < rnd (B2R a + B2R b) < 2 * B2R b).
  { pose proof (Rle_lt_trans _ _ _ N N') as K. apply Rabs_def2 in K. lra. }
  pose proof (bpow_gt_0 radix2 (-1000)).
  rewrite rnd_id; [lra|]. apply half_format; [apply generic_format_round; auto with typeclass_instances|].
  rewrite Rabs_right; lra.
Qed.

Lemma mids_cons a b l : mids a (b :: l) = mid a b :: mids b l. Proof. reflexivity. Qed.

Lemma rising_in a l : rising l -> In a l -> finite a.
Proof. induction 1 as [|b Fb|b c l Fb L H IH]; intros I; [destruct I|destruct I as [<-|[]]; easy|]. destruct I as [<-|I]; auto. Qed.

Lemma last_d {A} (c : A) l d d' : last (c :: l) d = last (c :: l) d'.
Proof. revert c. induction l as [|e l IH]; intros c; [reflexivity|]. exact (IH e). Qed.

Lemma last_mids : forall l a b, rising (a :: b :: l) -> Forall (within 1000) (a :: b :: l) ->
  within 1000 (last (mids a (b :: l)) fzero) /\ B2R (last (mids a (b :: l)) fzero) <= B2R (last (b :: l) a) /\
  (roomy (a :: b :: l) -> bpow radix2 (-1000) <= B2R a -> B2R (last (mids a (b :: l)) fzero) < B2R (last (b :: l) a)).
Proof.
  induction l as [|c l IH]; intros a b R W.
  - inversion W as [|a' l' Wa W']; subst. inversion W' as [|b' l'' Wb _]; subst. inversion R as [| |a' b' l' Fa L R']; subst.
    cbn [mids last]. fold (mid a b). destruct (mid_spec a b Wa Wb ltac:(lra)) as (A & B & _). split; [easy|]. split; [lra|].
    intros [(f & Hf) _] P. apply (mid_strict a b f); auto.
  - inversion R as [| |a' b' l' Fa L R']; subst. inversion W as [|a' l' Wa W']; subst.
    destruct (IH b c R' W') as (A & B & C).
    change (last (b :: c :: l) a) with (last (c :: l) a). rewrite (last_d c l a b). split; [exact A|]. split; [exact B|].
    intros [_ Rm] P. apply C; [exact Rm|]. lra.
Qed.

Lemma inter_aux g : finite g -> forall l a e, rising (a :: l) -> Forall (within 1000) (a :: l) -> finite e ->
  B2R e <= B2R a -> B2R (last l a) <= B2R g -> interleaved (a :: l) (e :: mids a l ++ [g]).
Proof.
  intros Fg. induction l as [|b l IH]; intros a e R W Fe He Hg.
  - cbn in *. auto.
  - inversion R as [| |a' b' l' Fa L R']; subst. inversion W as [|a' l' Wa W']; subst. inversion W' as [|b' l'' Wb _]; subst.
    destruct (mid_spec a b Wa Wb ltac:(lra)) as (A & B & _).
    rewrite mids_cons. cbn [app]. cbn [interleaved]. split; [easy|]. split; [lra|].
    change (interleaved (b :: l) (mid a b :: mids b l ++ [g])). apply IH; auto; [apply A|lra|].
    clear - Hg. destruct l as [|c l]; [exact Hg|]. rewrite (last_d c l b a). exact Hg.
Qed.

Lemma outer_low a b m : within 1000 a -> within 1000 b -> within 1000 m -> B2R m <= B2R b ->
  finite (fsub a (fsub b m)) /\ B2R (fsub a (fsub b m)) <= B2R a.
Proof.
  intros [Fa Ba] [Fb Bb] [Fm Bm] L.
  destruct (pow2 1001 _ _ ltac:(lia) (sub_rounds b m Fb Fm)) as [Fd Bd].
  { change 1001%Z with (1000 + 1)%Z. rewrite bp1. apply Rabs_le_inv in Bb, Bm. apply Rabs_le. lra. }
  assert (P : 0 <= B2R (fsub b m)) by (rewrite (rounds_fin _ _ (sub_rounds b m Fb Fm) Fd); apply rnd_nonneg; lra).
  destruct (pow2 1002 _ _ ltac:(lia) (sub_rounds a _ Fa Fd)) as [F _].
  { change 1002%Z with (1001 + 1)%Z. change 1001%Z with (1000 + 1)%Z in *. rewrite !bp1 in *. pose proof (bpow_gt_0 radix2 1000).
    apply Rabs_le_inv in Ba, Bd. apply Rabs_le. lra. }
  split; [exact F|]. rewrite (rounds_fin _ _ (sub_rounds a _ Fa Fd) F). apply rnd_le_B. lra.
Qed.
Lemma outer_high z m : within 1000 z -> within 1000 m -> B2R m <= B2R z ->
  finite (fadd z (fsub z m)) /\ B2R z <= B2R (fadd z (fsub z m)).
Proof.
  intros [Fz Bz] [Fm Bm] L.
  destruct (pow2 1001 _ _ ltac:(lia) (sub_rounds z m Fz Fm)) as [Fd Bd].
  { change 1001%Z with (1000 + 1)%Z. rewrite bp1. apply Rabs_le_inv in Bz, Bm. apply Rabs_le. lra. }
  assert (P : 0 <= B2R (fsub z m)) by (rewrite (rounds_fin _ _ (sub_rounds z m Fz Fm) Fd); apply rnd_nonneg; lra).
  destruct (pow2 1002 _ _ ltac:(lia) (add_rounds z _ Fz Fd)) as [F _].
  { change 1002%Z with (1001 + 1)%Z. change 1001%Z with (1000 + 1)%Z in *. rewrite !bp1 in *. pose proof (bpow_gt_0 radix2 1000).
    apply Rabs_le_inv in Bz, Bd. apply Rabs_le. lra. }
  split; [exact F|]. rewrite (rounds_fin _ _ (add_rounds z _ Fz Fd) F). apply rnd_ge_B. lra.
Qed.

Lemma last_in {A} (l : list A) d : In (last l d) (d :: l).
Proof. induction l as [|a [|b l] IH]; [now left|now right; left|]. change (last (a :: b :: l) d) with (last (b :: l) d). destruct IH as [IH|IH]; [now left|now right; right]. Qed.

Lemma edges_interleaved a b l : rising (a :: b :: l) -> Forall (within 1000) (a :: b :: l) ->
  interleaved (a :: b :: l) (edges a b l).
Proof.
  intros R W. destruct (last_mids l a b R W) as (Wm & Lm & _).
  inversion R as [| |a' b' l' Fa L R']; subst. pose proof W as W0. inversion W as [|a' l' Wa W']; subst. inversion W' as [|b' l'' Wb _]; subst.
  destruct (mid_spec a b Wa Wb ltac:(lra)) as (A & B & _).
  assert (Wz : within 1000 (last (b :: l) a)).
  { rewrite Forall_forall in W0. apply W0. apply last_in. }
  destruct (outer_low a b (mid a b) Wa Wb A ltac:(lra)) as [F1 E1].
  destruct (outer_high _ _ Wz Wm Lm) as [F2 E2].
  unfold edges. cbv zeta. change (hd fzero (mids a (b :: l))) with (mid a b).
  apply inter_aux; auto.
Qed.

Lemma rising_aux g : finite g -> forall l a, rising (a :: l) -> Forall (within 1000) (a :: l) -> roomy (a :: l) ->
  bpow radix2 (-1000) <= B2R a -> (l <> [] -> B2R (last (mids a l) fzero) < B2R g) -> rising (mids a l ++ [g]) /\
  Forall (fun e => B2R a < B2R e) (mids a l).
Proof.
  intros Fg. induction l as [|b l IH]; intros a R W Rm P Hg; [split; constructor; easy|].
  inversion R as [| |a' b' l' Fa L R']; subst. inversion W as [|a' l' Wa W']; subst. inversion W' as [|b' l'' Wb _]; subst.
  destruct Rm as [(f & Hf) Rm]. destruct (mid_spec a b Wa Wb ltac:(lra)) as (A & _).
  pose proof (mid_strict a b f Wa Wb P Hf) as S.
  destruct (IH b R' W' Rm ltac:(lra)) as [I1 I2].
  { intros N. specialize (Hg ltac:(easy)). destruct l; [easy|exact Hg]. }
  rewrite mids_cons. split.
  - cbn [app]. destruct (mids b l ++ [g]) as [|c k] eqn:E; [destruct (mids b l); discriminate|].
    constructor; [apply A| |exact I1]. destruct l as [|c' l].
    + cbn in E. injection E as <- <-. specialize (Hg ltac:(easy)). cbn [mids last] in Hg. exact Hg.
    + rewrite mids_cons in E, I2. cbn [app] in E. injection E as <- _. inversion I2; subst. lra.
  - constructor; [lra|]. eapply Forall_impl; [|exact I2]. intros e He. cbn beta in He. lra.
Qed.

Lemma edges_rising a b l : rising (a :: b :: l) -> Forall (within 1000) (a :: b :: l) -> roomy (a :: b :: l) ->
  bpow radix2 (-1000) <= B2R a -> rising (edges a b l).
Proof.
  intros R W Rm P. destruct (last_mids l a b R W) as (Wm & Lm & Sm). specialize (Sm Rm P).
  inversion R as [| |a' b' l' Fa L R']; subst. pose proof W as W0. inversion W as [|a' l' Wa W']; subst. inversion W' as [|b' l'' Wb _]; subst.
  destruct (mid_spec a b Wa Wb ltac:(lra)) as (A & B & _).
  assert (Wz : within 1000 (last (b :: l) a)).
  { rewrite Forall_forall in W0. apply W0. apply last_in. }
  destruct (outer_low a b (mid a b) Wa Wb A ltac:(lra)) as [F1 E1].
  destruct (outer_high _ _ Wz Wm Lm) as [F2 E2].
  unfold edges. cbv zeta. change (hd fzero (mids a (b :: l))) with (mid a b).
  destruct (rising_aux _ F2 (b :: l) a R W0 Rm P) as [I1 I2]; [intros _; lra|].
  rewrite mids_cons in *. cbn [app] in *. constructor; [exact F1| |exact I1].
  inversion I2; subst. lra.
Qed.

(* np.linspace *)
Lemma rnd_rel r : bpow radix2 (-1022) <= Rabs r -> exists e, rnd r = r * (1 + e) /\ Rabs e <= u.
Proof.
  intros H. destruct (relative_error_N_FLT_ex radix2 (-1074) 53 ltac:(easy) (fun z => negb (Z.even z)) r H) as (e & H1 & H2).
  exists e. split; [exact H2|]. replace u with (/ 2 * bpow radix2 (- (53) + 1)); [exact H1|].
  change (/2) with (bpow radix2 (-1)). rewrite <- bpow_plus. reflexivity.
Qed.
Lemma rnd_up r : bpow radix2 (-1022) <= r -> rnd r <= r * (1 + u).
Proof.
  intros H. pose proof (bpow_gt_0 radix2 (-1022)). destruct (rnd_rel r) as (e & -> & He); [rewrite Rabs_pos_eq; lra|].
  apply Rabs_le_inv in He. apply Rmult_le_compat_l; lra.
Qed.
Lemma rnd_pos_ge k r : (-1074 <= k)%Z -> bpow radix2 k <= r -> bpow radix2 k <= rnd r.
Proof.
  intros Hk H. apply round_ge_generic; auto with typeclass_instances. apply generic_format_bpow.
  change (SpecFloat.fexp 53 1024 (k + 1) <= k)%Z. unfold SpecFloat.fexp, SpecFloat.emin. lia.
Qed.
Lemma cube_small : (1 + u) ^ 3 <= 1 + bpow radix2 (-50).
Proof.
  assert (E : bpow radix2 (-50) = 8 * u).
  { unfold u. change 8 with (bpow radix2 3). rewrite <- bpow_plus. reflexivity. }
  rewrite E. pose proof u_pos. assert (u <= 1/8).
  { unfold u. replace (1/8) with (bpow radix2 (-3)) by (cbn; lra). now apply bpow_le. }
  nra.
Qed.

Section Lin.
Variables (lo hi : b64) (n : nat).
Hypothesis (Wl : within 900 lo) (Wh : within 900 hi) (N2 : (2 <= n)%nat) (N20 : (Z.of_nat n <= 2 ^ 20)%Z).
Hypothesis (G : bpow radix2 (-900) <= B2R hi - B2R lo).
Local Notation D := (rnd (B2R hi - B2R lo)).
Local Notation M := (IZR (Z.of_nat (n - 1))).

Lemma M_pos : 1 <= M. Proof. apply (IZR_le 1). lia. Qed.
Lemma M_small : M <= bpow radix2 20.
Proof. change (bpow radix2 20) with (IZR (2 ^ 20)). apply IZR_le. lia. Qed.

Lemma delta_fin : within 901 (fsub hi lo) /\ B2R (fsub hi lo) = D /\ bpow radix2 (-900) <= D.
Proof.
  destruct Wl as [Fl Bl], Wh as [Fh Bh]. destruct (pow2 901 _ _ ltac:(lia) (sub_rounds hi lo Fh Fl)) as [F B].
  { change 901%Z with (900 + 1)%Z. rewrite bp1. apply Rabs_le_inv in Bl, Bh. apply Rabs_le. lra. }
  split; [split; [exact F|exact B]|]. split; [now apply rounds_fin with (1 := sub_rounds hi lo Fh Fl)|]. now apply rnd_pos_ge.
Qed.
Lemma D_up : D <= (B2R hi - B2R lo) * (1 + u).
Proof. apply rnd_up. apply (Rle_trans _ (bpow radix2 (-900))); [apply bpow_le; lia|exact G]. Qed.

Definition step : b64 := fdiv (fsub hi lo) (fint (Z.of_nat (n - 1))).
Lemma quot_low : bpow radix2 (-920) <= D / M.
Proof.
  destruct delta_fin as (_ & _ & L). pose proof M_pos. pose proof M_small.
  apply (Rmult_le_reg_r M); [lra|]. unfold Rdiv. rewrite Rmult_assoc, Rinv_l by lra. rewrite Rmult_1_r.
  apply (Rle_trans _ (bpow radix2 (-920) * bpow radix2 20)); [apply Rmult_le_compat_l; [apply bpow_ge_0|easy]|].
  rewrite <- bpow_plus. exact L.
Qed.
Lemma step_spec : within 901 step /\ B2R step = rnd (D / M) /\ bpow radix2 (-920) <= B2R step /\ B2R step <= D / M * (1 + u).
Proof.
  destruct delta_fin as ((F & B) & E & L). destruct (fint_val (Z.of_nat (n - 1)) ltac:(lia)) as [Fm Em].
  pose proof M_pos. pose proof quot_low as Q. pose proof (bpow_gt_0 radix2 (-900)). pose proof (bpow_gt_0 radix2 (-920)).
  assert (R : rounds step (D / M)) by (rewrite <- E, <- Em; apply div_rounds; auto; rewrite Em; lra).
  assert (Q2 : D / M <= D).
  { apply (Rmult_le_reg_r M); [lra|]. unfold Rdiv. rewrite Rmult_assoc, Rinv_l by lra. nra. }
  destruct (pow2 901 _ _ ltac:(lia) R) as [Fs Bs].
  { rewrite <- E in *. rewrite Rabs_pos_eq by lra. apply Rabs_le_inv in B. lra. }
  pose proof (rounds_fin _ _ R Fs) as Es. split; [split; assumption|]. split; [exact Es|]. rewrite Es. split.
  - now apply rnd_pos_ge.
  - apply rnd_up. apply (Rle_trans _ (bpow radix2 (-920))); [apply bpow_le; lia|exact Q].
Qed.

Lemma lin_inner i : (S i < n)%nat ->
  finite (lin_at lo hi n i) /\ B2R lo <= B2R (lin_at lo hi n i) <= B2R hi /\
  B2R (lin_at lo hi n i) = rnd (rnd (INR i * B2R step) + B2R lo).
Proof.
  intros Hi. unfold lin_at. destruct (Nat.eqb_spec (S i) n) as [C|_]; [lia|]. cbv zeta. fold step.
  destruct step_spec as ((Fs & Bs) & Es & Ls & Us). pose proof (bpow_gt_0 radix2 (-920)).
  assert (Nz : feq step fzero = false).
  { unfold feq. rewrite eqb_fin by (exact Fs || reflexivity). apply Req_bool_false. cbn. lra. }
  rewrite Nz. destruct (fint_val (Z.of_nat i) ltac:(lia)) as [Fk Ek]. rewrite <- INR_IZR_INZ in Ek.
  assert (Ki : 0 <= INR i) by apply pos_INR.
  assert (Kb : INR i <= bpow radix2 20).
  { rewrite INR_IZR_INZ. change (bpow radix2 20) with (IZR (2 ^ 20)). apply IZR_le. lia. }
  assert (R : rounds (fmul (fint (Z.of_nat i)) step) (INR i * B2R step)) by (rewrite <- Ek; now apply mul_rounds).
  destruct (pow2 921 _ _ ltac:(lia) R) as [Fp Bp].
  { rewrite Rabs_mult, (Rabs_pos_eq (INR i)) by easy. change 921%Z with (20 + 901)%Z. rewrite bpow_plus.
    apply Rmult_le_compat; auto using Rabs_pos. }
  pose proof (rounds_fin _ _ R Fp) as Ep.
  assert (P0 : 0 <= rnd (INR i * B2R step)) by (apply rnd_nonneg, Rmult_le_pos; lra).
  assert (PU : rnd (INR i * B2R step) <= B2R hi - B2R lo).
  { destruct i as [|i].
    - cbn [INR]. rewrite Rmult_0_l, rnd_0. pose proof (bpow_gt_0 radix2 (-900)). lra.
    - assert (K1 : 1 <= INR (S i)) by (rewrite S_INR; pose proof (pos_INR i); lra).
      apply (Rle_trans _ (INR (S i) * B2R step * (1 + u))).
      { apply rnd_up. apply (Rle_trans _ (bpow radix2 (-920))); [apply bpow_le; lia|]. nra. }
      pose proof u_pos. pose proof D_up as DU. pose proof M_pos. pose proof M_small.
      set (W := B2R hi - B2R lo) in *. set (k := INR (S i)) in *.
      assert (KM : k + 1 <= M).
      { unfold k. rewrite INR_IZR_INZ, <- (plus_IZR _ 1). apply IZR_le. lia. }
      assert (W0 : 0 < W) by (pose proof (bpow_gt_0 radix2 (-900)); lra).
      assert (Iv : 0 < / M) by (apply Rinv_0_lt_compat; lra).
      assert (S1 : B2R step <= W * / M * (1 + u) ^ 2).
      { apply (Rle_trans _ _ _ Us). unfold Rdiv.
        apply (Rle_trans _ (W * (1 + u) * / M * (1 + u))); [|right; ring].
        apply Rmult_le_compat_r; [lra|]. apply Rmult_le_compat_r; lra. }
      apply (Rle_trans _ (k * (W * / M * (1 + u) ^ 2) * (1 + u))).
      { apply Rmult_le_compat_r; [lra|]. apply Rmult_le_compat_l; lra. }
      replace (k * (W * / M * (1 + u) ^ 2) * (1 + u)) with (W * (k * / M * (1 + u) ^ 3)) by ring.
      rewrite <- (Rmult_1_r W) at 2. apply Rmult_le_compat_l; [lra|].
      apply (Rmult_le_reg_r M); [lra|]. replace (k * / M * (1 + u) ^ 3 * M) with (k * (1 + u) ^ 3) by (field; lra).
      pose proof cube_small as C3. pose proof (bpow_gt_0 radix2 (-50)) as B50.
      assert (k * bpow radix2 (-50) <= 1).
      { apply (Rle_trans _ (bpow radix2 20 * bpow radix2 (-50))); [apply Rmult_le_compat_r; lra|].
        rewrite <- bpow_plus. change 1 with (bpow radix2 0). now apply bpow_le. }
      apply (Rle_trans _ (k * (1 + bpow radix2 (-50)))); [apply Rmult_le_compat_l; lra|]. lra. }
  destruct (rounds_between _ _ lo hi (add_rounds _ lo Fp (proj1 Wl)) (proj1 Wl) (proj1 Wh)) as (F & E & B).
  { rewrite Ep. lra. }
  split; [exact F|]. split; [exact B|]. rewrite E, Ep. reflexivity.
Qed.
End Lin.
