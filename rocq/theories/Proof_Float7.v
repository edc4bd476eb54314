(* Rebinning a positive spectrum in double precision. *)
From Verif Require Import Prelude.
From Coq Require Import ZArith Reals Lra Lia List Bool.
From Flocq Require Import Core.Core IEEE754.BinarySingleNaN.
From Verif Require Import Model_Float Model_Float2 Spec_Float Proof_Float Proof_Float2 Proof_Float3 Proof_Float4 Proof_Float5 Proof_Float6.
Import ListNotations.
Open Scope R_scope.

Lemma div_nneg x y : nneg x -> finite y -> 0 < B2R y -> nneg (fdiv x y).
Proof.
  intros Hx Fy Py. destruct (is_finite x) eqn:Fx.
  - apply (rounds_nneg _ _ (div_rounds x y Fx Fy ltac:(lra))). apply fin_nneg in Hx; auto.
    apply Rmult_le_pos; [easy|]. left. now apply Rinv_0_lt_compat.
  - assert (nneg y) by (apply fin_nneg; [easy|lra]). destruct (sign_nonneg y Fy) as [S _]. specialize (S Py).
    destruct x as [s|s| |s m e h], y as [t|t| |t k g i]; try easy; cbn in *; subst; easy.
Qed.

Lemma cube8 v : 0 < v < 1 -> (1 + v) ^ 3 <= 1 + 8 * v.
Proof.
  intros H. assert (v * v <= v * 1) by (apply Rmult_le_compat_l; lra).
  assert (v * v * v <= v * v * 1) by (apply Rmult_le_compat_l; [apply Rmult_le_pos|]; lra).
  replace ((1 + v) ^ 3) with (1 + 3 * v + 3 * (v * v) + v * v * v) by ring. lra.
Qed.
Lemma pos_factor a b : 0 <= a * b -> 0 < b -> 0 <= a.
Proof.
  intros H P. apply Rnot_lt_le. intros N. assert (a * b < 0 * b) by (now apply Rmult_lt_compat_r). lra.
Qed.
Lemma line_nneg (y0 a g b : b64) y1 : finite y0 -> within 401 a -> within 401 g -> finite b ->
  bpow radix2 (-400) <= B2R y0 -> 0 <= y1 -> 16 * u * B2R y0 <= y1 -> bpow radix2 (-400) <= B2R b -> Rabs (B2R a) <= B2R b ->
  (0 <= B2R a * B2R g \/ Rabs (B2R g) <= (B2R y0 - y1) * (1 + u)) ->
  nneg (fadd y0 (fdiv (fmul a g) b)).
Proof.
  intros Fy [Fa Ba] [Fg Bg] Fb Py Y1 HY Pb Hab H. pose proof (bpow_gt_0 radix2 (-400)) as B4.
  destruct H as [H|H].
  - apply add_nneg; [apply fin_nneg; [easy|lra]|]. apply div_nneg; auto; [|lra].
    now apply (rounds_nneg _ _ (mul_rounds a g Fa Fg)).
  - pose proof u_pos as U. pose proof eta_pos as E.
    set (Y := B2R y0) in *. set (G := Rabs (B2R g)) in *. set (B := B2R b) in *.
    assert (G0 : 0 <= G) by apply Rabs_pos.
    assert (u8 : u <= 1 / 1024). { unfold u. replace (1 / 1024) with (bpow radix2 (-10)) by (cbn; lra). now apply bpow_le. }
    assert (GY : G <= Y * (1 + u)) by nra.
    (* everything is bounded by the largest float *)
    assert (YM : Y < big) by (pose proof (B_lt_big y0) as K; apply Rabs_def2 in K; unfold Y; lra).
    (* magnitude of the quotient *)
    destruct (pow2 802 _ _ ltac:(lia) (mul_rounds a g Fa Fg)) as [Fm _].
    { rewrite Rabs_mult. change 802%Z with (401 + 401)%Z. rewrite bpow_plus. apply Rmult_le_compat; auto using Rabs_pos. }
    { pose proof (rounds_fin _ _ (mul_rounds a g Fa Fg) Fm) as Em.
      assert (M1 : Rabs (B2R (fmul a g)) <= B * G * (1 + u) + eta / 2).
      { rewrite Em. destruct (rnd_err (B2R a * B2R g)) as (e & h & -> & He & Hh).
        apply (Rle_trans _ _ _ (Rabs_triang _ _)). apply Rplus_le_compat; [|easy]. rewrite !Rabs_mult. fold G.
        assert (Rabs (1 + e) <= 1 + u) by (apply Rabs_le_inv in He; apply Rabs_le; lra).
        apply Rmult_le_compat; auto using Rabs_pos; [apply Rmult_le_pos; [apply Rabs_pos|easy]|]. apply Rmult_le_compat_r; easy. }
      pose proof (div_rounds (fmul a g) b Fm Fb ltac:(fold B; lra)) as R.
      set (q := B2R (fmul a g) / B2R b) in *.
      assert (IB : 0 < / B) by (apply Rinv_0_lt_compat; lra).
      assert (IB4 : / B <= bpow radix2 400).
      { rewrite <- (Rinv_inv (bpow radix2 400)), <- bpow_opp. apply Rinv_le_contravar; [apply bpow_gt_0|exact Pb]. }
      assert (Q1 : Rabs q <= G * (1 + u) + eta / 2 * bpow radix2 400).
      { unfold q, Rdiv. rewrite Rabs_mult. fold B. rewrite (Rabs_pos_eq (/ B)) by lra.
        apply (Rle_trans _ ((B * G * (1 + u) + eta / 2) * / B)); [apply Rmult_le_compat_r; lra|].
        replace ((B * G * (1 + u) + eta / 2) * / B) with (G * (1 + u) + eta / 2 * / B) by (field; lra).
        apply Rplus_le_compat_l, Rmult_le_compat_l; lra. }
      assert (Q2 : Rabs (rnd q) <= Y).
      { destruct (rnd_err q) as (e & h & -> & He & Hh). apply (Rle_trans _ _ _ (Rabs_triang _ _)). rewrite Rabs_mult.
        assert (He' : Rabs (1 + e) <= 1 + u) by (apply Rabs_le_inv in He; apply Rabs_le; lra).
        assert (P1 : Rabs q * Rabs (1 + e) <= (G * (1 + u) + eta / 2 * bpow radix2 400) * (1 + u)) by (apply Rmult_le_compat; auto using Rabs_pos).
        assert (P2 : G * (1 + u) * (1 + u) <= (Y - y1) * (1 + u) ^ 3).
        { replace ((Y - y1) * (1 + u) ^ 3) with ((Y - y1) * (1 + u) * (1 + u) * (1 + u)) by ring.
          apply Rmult_le_compat_r; [lra|]. apply Rmult_le_compat_r; lra. }
        assert (C3 : (1 + u) ^ 3 <= 1 + 8 * u) by (now apply cube8).
        assert (YY : 0 <= Y - y1) by (apply (pos_factor _ (1 + u)); lra).
        assert (P3 : (Y - y1) * (1 + u) ^ 3 <= (Y - y1) * (1 + 8 * u)) by (apply Rmult_le_compat_l; lra).
        assert (SM : eta * bpow radix2 400 * 2 <= 8 * u * Y).
        { apply (Rle_trans _ (8 * u * bpow radix2 (-400))); [|apply Rmult_le_compat_l; lra].
          unfold eta, u. replace 8 with (bpow radix2 3) by (cbn; lra). change 2 with (bpow radix2 1).
          rewrite <- !bpow_plus. now apply bpow_le. }
        assert (B400 : 1 <= bpow radix2 400) by (change 1 with (bpow radix2 0); now apply bpow_le).
        assert (eta <= eta * bpow radix2 400) by (rewrite <- (Rmult_1_r eta) at 1; apply Rmult_le_compat_l; lra).
        assert (eta / 2 * bpow radix2 400 * (1 + u) <= eta * bpow radix2 400).
        { replace (eta / 2 * bpow radix2 400 * (1 + u)) with (eta * bpow radix2 400 * ((1 + u) / 2)) by field.
          rewrite <- (Rmult_1_r (eta * bpow radix2 400)) at 2. apply Rmult_le_compat_l; lra. }
        assert (8 * u * y1 >= 0) by (apply Rle_ge, Rmult_le_pos; lra). lra. }
      assert (QB : Rabs (rnd q) < big) by lra. destruct (rounds_small _ _ R QB) as [Fq Eq].
      apply (rounds_nneg _ _ (add_rounds y0 _ Fy Fq)). rewrite Eq. fold Y. apply Rabs_le_inv in Q2. lra. }
Qed.

Section Pos.
Variables (x y : list b64).
Hypothesis (Ly : length y = length x).
Local Notation X i := (B2R (nth i x fzero)).
Local Notation Y i := (B2R (nth i y fzero)).
Definition at_index : Prop := forall i, (i < length x)%nat ->
  within 400 (nth i x fzero) /\ within 400 (nth i y fzero) /\ bpow radix2 (-400) <= Y i /\
  ((i + 1 < length x)%nat -> bpow radix2 (-400) <= X (i + 1) - X i /\ 16 * u * Y i <= Y (i + 1) /\ 16 * u * Y (i + 1) <= Y i).
Hypothesis (T : at_index).

Lemma sub400 (a b : b64) : within 400 a -> within 400 b -> within 401 (fsub a b) /\ B2R (fsub a b) = rnd (B2R a - B2R b).
Proof.
  intros [Fa Ba] [Fb Bb]. destruct (pow2 401 _ _ ltac:(lia) (sub_rounds a b Fa Fb)) as [F B].
  { change 401%Z with (400 + 1)%Z. rewrite bp1. apply Rabs_le_inv in Ba, Bb. apply Rabs_le. lra. }
  split; [split; assumption|]. now apply rounds_fin with (1 := sub_rounds a b Fa Fb).
Qed.
Lemma sub_up (a b : b64) : rnd (B2R a - B2R b) <= Rmax 0 (B2R a - B2R b) * (1 + u) \/ B2R a - B2R b < 0.
Proof.
  destruct (Rle_or_lt 0 (B2R a - B2R b)) as [C|C]; [left|now right]. rewrite Rmax_right by easy.
  destruct (rnd_add_err a (Bopp b)) as (e & H1 & H2). rewrite B2R_Bopp in H1. change (B2R a + - B2R b) with (B2R a - B2R b) in H1.
  rewrite H1. apply Rabs_le_inv in H2. apply Rmult_le_compat_l; lra.
Qed.
Lemma Rabs_rnd r : Rabs (rnd r) = rnd (Rabs r).
Proof.
  unfold Rabs. destruct (Rcase_abs r) as [C|C], (Rcase_abs (rnd r)) as [C'|C']; auto.
  - now rewrite rnd_opp.
  - rewrite rnd_opp. assert (rnd r <= 0) by (rewrite <- rnd_0; apply rnd_mono; lra). lra.
  - assert (0 <= rnd r) by (apply rnd_nonneg; lra). lra.
Qed.

Lemma line_at k e : (k + 1 < length x)%nat -> finite e -> X k <= B2R e <= X (k + 1) ->
  nneg (fadd (nth k y fzero) (fdiv (fmul (fsub e (nth k x fzero)) (fsub (nth (k + 1) y fzero) (nth k y fzero))) (fsub (nth (k + 1) x fzero) (nth k x fzero)))) /\
  nneg (fadd (nth (k + 1) y fzero) (fdiv (fmul (fsub e (nth (k + 1) x fzero)) (fsub (nth (k + 1) y fzero) (nth k y fzero))) (fsub (nth (k + 1) x fzero) (nth k x fzero)))).
Proof.
  intros Hk Fe He. destruct (T k ltac:(lia)) as (Wx & Wy & Py & H). destruct (H Hk) as (Dx & R1 & R2). clear H.
  destruct (T (k + 1)%nat Hk) as (Wx' & Wy' & Py' & _).
  assert (We : within 400 e).
  { split; [easy|]. destruct Wx as [_ B1], Wx' as [_ B2]. apply Rabs_le_inv in B1, B2. apply Rabs_le. lra. }
  set (x0 := nth k x fzero) in *. set (x1 := nth (k + 1) x fzero) in *. set (y0 := nth k y fzero) in *. set (y1 := nth (k + 1) y fzero) in *.
  destruct (sub400 _ _ Wx' Wx) as ((Fb & Bb) & Eb). destruct (sub400 _ _ Wy' Wy) as (Wg & Eg).
  destruct (sub400 _ _ We Wx) as (Wa & Ea). destruct (sub400 _ _ We Wx') as (Wa' & Ea').
  pose proof (bpow_gt_0 radix2 (-400)) as B4. pose proof u_pos as U.
  assert (Pb : bpow radix2 (-400) <= B2R (fsub x1 x0)) by (rewrite Eb; now apply rnd_pos_ge).
  assert (A1 : Rabs (B2R (fsub e x0)) <= B2R (fsub x1 x0)).
  { rewrite Ea, Eb, Rabs_rnd, Rabs_pos_eq by lra. apply rnd_mono. lra. }
  assert (A2 : Rabs (B2R (fsub e x1)) <= B2R (fsub x1 x0)).
  { rewrite Ea', Eb, Rabs_rnd, Rabs_left1 by lra. apply rnd_mono. lra. }
  split.
  - apply line_nneg with (y1 := B2R y1); auto; try lra; [apply Wy|].
    destruct (Rle_or_lt (B2R y0) (B2R y1)) as [C|C].
    + left. rewrite Ea, Eg. apply Rmult_le_pos; apply rnd_nonneg; lra.
    + right. rewrite Eg, Rabs_rnd, Rabs_left1 by lra. replace (- (B2R y1 - B2R y0)) with (B2R y0 - B2R y1) by ring.
      destruct (sub_up y0 y1) as [K|K]; [|lra]. rewrite Rmax_right in K by lra. exact K.
  - apply line_nneg with (y1 := B2R y0); auto; try lra; [apply Wy'|].
    destruct (Rle_or_lt (B2R y1) (B2R y0)) as [C|C].
    + left. rewrite Ea', Eg.
      assert (rnd (B2R e - B2R x1) <= 0) by (rewrite <- rnd_0; apply rnd_mono; lra).
      assert (rnd (B2R y1 - B2R y0) <= 0) by (rewrite <- rnd_0; apply rnd_mono; lra). nra.
    + right. rewrite Eg, Rabs_rnd, Rabs_pos_eq by lra.
      destruct (sub_up y1 y0) as [K|K]; [|lra]. rewrite Rmax_right in K by lra. exact K.
Qed.

Lemma Fx' : Forall finite x.
Proof. apply Forall_forall. intros v Hv. apply (In_nth _ _ fzero) in Hv. destruct Hv as (i & Hi & <-). apply (T i Hi). Qed.
Lemma Yn i : nneg (nth i y fzero).
Proof.
  destruct (Nat.lt_ge_cases i (length x)) as [C|C]; [|rewrite nth_overflow by lia; easy].
  destruct (T i C) as (_ & [F _] & P & _). apply fin_nneg; [exact F|]. pose proof (bpow_gt_0 radix2 (-400)). lra.
Qed.
Lemma half_nneg : nneg fhalf. Proof. reflexivity. Qed.
Lemma trap_nneg a b c d : nneg a -> nneg b -> finite c -> finite d -> B2R d <= B2R c -> nneg (trap a b c d).
Proof.
  intros Ha Hb Fc Fd L. apply mul_nneg; [apply mul_nneg; [apply half_nneg|now apply add_nneg]|].
  apply (rounds_nneg _ _ (sub_rounds c d Fc Fd)). lra.
Qed.
Lemma fline_val y0 e x0 dy dx v : fline y0 e x0 dy dx = Ok v -> v = fadd y0 (fdiv (fmul (fsub e x0) dy) dx).
Proof. unfold fline, pdiv. destruct (Beqb dx fzero); cbn; [easy|]. now injection 1 as <-. Qed.

Lemma finterior_nneg hi n : finite hi -> (n < length x)%nat -> B2R hi <= X n -> forall fuel j acc k a,
  (j <= n)%nat -> X j < B2R hi -> nneg acc -> finterior fuel x y hi j acc = Ok (k, a) -> nneg a.
Proof.
  intros Fh Hn Hb. induction fuel as [|fuel IH]; intros j acc k a Hj Hx Ha; cbn [finterior]; [easy|].
  assert (j <> n) by (intros ->; lra).
  rewrite fget_ok by lia. cbn [rbind]. rewrite ltb_fin by (auto using (Fn x Fx')).
  destruct (Rlt_bool_spec (X (j + 1)) (B2R hi)) as [C|C].
  - rewrite !fget_ok by lia. cbn [rbind]. apply IH; [lia|easy|]. apply add_nneg; [easy|].
    apply trap_nneg; auto using Yn, (Fn x Fx'). destruct (T j ltac:(lia)) as (_ & _ & _ & HT). destruct (HT ltac:(lia)) as (D & _).
    pose proof (bpow_gt_0 radix2 (-400)). lra.
  - now injection 1 as <- <-.
Qed.

Lemma fbin_nneg lo hi j0 r0 n j r : finite lo -> finite hi -> B2R lo < B2R hi -> (n < length x)%nat -> B2R hi <= X n ->
  X 0 <= B2R lo -> (j0 <= n)%nat -> (j0 = 0%nat \/ X (j0 - 1) <= B2R lo) -> nneg r0 ->
  fbin x y lo hi j0 r0 = Ok (j, r) -> nneg r.
Proof.
  intros Fl Fh L Hn Hb H0 Hj Hp Hr. unfold fbin.
  destruct (fseek_ok x y Ly Fx' lo n Fl (length x + 1) j0 Hj Hn ltac:(lia) ltac:(lra) Hp) as (i & -> & J1 & J2 & J3).
  assert (J0 : i <> 0%nat) by (intros ->; lra). destruct J3 as [J3|J3]; [easy|].
  assert (G : forall v, length v = length x -> fgetm1 v i = Ok (nth (i - 1) v fzero)).
  { intros v Hv. destruct i as [|i]; [easy|]. cbn [fgetm1]. rewrite fget_ok by lia. now replace (S i - 1)%nat with i by lia. }
  cbn [rbind]. rewrite !G by congruence. cbn [rbind]. rewrite !fget_ok by lia. cbn [rbind].
  destruct (line_at (i - 1) lo ltac:(lia) Fl) as [LA LB]; [replace (i - 1 + 1)%nat with i by lia; lra|].
  replace (i - 1 + 1)%nat with i in LA, LB by lia.
  destruct (fline _ _ _ _ _) as [v|] eqn:E1; [|easy]. cbn [rbind]. apply fline_val in E1. rewrite <- E1 in LA.
  rewrite ltb_fin by (auto using (Fn x Fx')). destruct (Rlt_bool_spec (X i) (B2R hi)) as [C|C].
  - assert (Nr : nneg (fadd r0 (trap (nth i y fzero) v (nth i x fzero) lo))).
    { apply add_nneg; [easy|]. apply trap_nneg; auto using Yn, (Fn x Fx'). lra. }
    destruct (finterior_ok x y Ly Fx' hi n Fh Hn Hb (length x + 1) i (fadd r0 (trap (nth i y fzero) v (nth i x fzero) lo)) J1 ltac:(lia) C)
      as (k & a & EI & K1 & K2 & K3). pose proof (finterior_nneg hi n Fh Hn Hb _ _ _ _ _ J1 C Nr EI) as Na.
    rewrite EI. cbn [rbind]. rewrite !fget_ok by lia. cbn [rbind].
    destruct (line_at k hi ltac:(lia) Fh ltac:(lra)) as [LA' _].
    destruct (fline (nth k y fzero) hi _ _ _) as [v'|] eqn:E2; [|easy]. cbn [rbind]. apply fline_val in E2. rewrite <- E2 in LA'.
    injection 1 as <- <-. apply add_nneg; [easy|]. apply trap_nneg; auto using Yn, (Fn x Fx'). lra.
  - destruct (line_at (i - 1) hi ltac:(lia) Fh) as [_ LB']; [replace (i - 1 + 1)%nat with i by lia; lra|].
    replace (i - 1 + 1)%nat with i in LB' by lia.
    destruct (fline (nth i y fzero) lo _ _ _) as [v1|] eqn:E2; [|easy]. cbn [rbind]. apply fline_val in E2. rewrite <- E2 in LB.
    destruct (fline (nth i y fzero) hi _ _ _) as [v2|] eqn:E3; [|easy]. cbn [rbind]. apply fline_val in E3. rewrite <- E3 in LB'.
    injection 1 as <- <-. apply add_nneg; [easy|]. apply trap_nneg; auto. lra.
Qed.

Lemma fbins_nneg edges : rising edges -> forall j n r, (n < length x)%nat -> B2R (last edges fzero) <= X n ->
  X 0 <= B2R (hd fzero edges) -> (j <= n)%nat -> (j = 0%nat \/ X (j - 1) <= B2R (hd fzero edges)) ->
  fbins x y edges j = Ok r -> Forall nneg r.
Proof.
  induction 1 as [|a Fa|a b l Fa L H IH]; intros j n r Hn Hb H0 Hj Hp E; [injection E as <-; constructor|injection E as <-; constructor|].
  change (fbins x y (a :: b :: l) j) with (do p <- fbin x y a b j fzero; do more <- fbins x y (b :: l) (fst p); Ok (snd p :: more)) in E.
  cbn [hd] in *. change (last (a :: b :: l) fzero) with (last (b :: l) fzero) in Hb.
  pose proof (rising_last b l H) as RL. pose proof (rising_hd b l H) as Fb.
  destruct (fbin_ok x y Ly Fx' a b j fzero n Fa Fb L Hn (Rle_trans _ _ _ RL Hb) H0 Hj Hp) as (k & s & Ek & K1 & K2).
  rewrite Ek in E. cbn [rbind fst snd] in E.
  destruct (fbins x y (b :: l) k) as [rs|] eqn:Er; [|easy]. cbn [rbind] in E. injection E as <-.
  constructor.
  - exact (fbin_nneg a b j fzero n k s Fa Fb L Hn (Rle_trans _ _ _ RL Hb) H0 Hj Hp Logic.I Ek).
  - apply (IH k n rs Hn Hb); auto. lra.
Qed.
End Pos.

Lemma fnormalise_nneg edges : rising edges -> forall r v, Forall nneg r -> fnormalise edges r = Ok v -> Forall nneg v.
Proof.
  induction 1 as [|a Fa|a b l Fa L H IH]; intros r v Hr E; [injection E as <-; constructor|destruct r; injection E as <-; constructor|].
  destruct r as [|r rs]; [injection E as <-; constructor|].
  change (fnormalise (a :: b :: l) (r :: rs)) with (do v <- pdiv r (fsub b a); do more <- fnormalise (b :: l) rs; Ok (v :: more)) in E.
  pose proof (rising_hd b l H) as Fb. inversion Hr as [|r' rs' H1 H2]; subst.
  unfold pdiv in E. rewrite diff_nonzero in E by (auto; lra). cbn [rbind] in E.
  destruct (fnormalise (b :: l) rs) as [vs|] eqn:Ev; [|easy]. cbn [rbind] in E. injection E as <-.
  constructor; [|now apply (IH rs)].
  pose proof (sub_rounds b a Fb Fa) as R. pose proof (diff_nonzero b a Fb Fa ltac:(lra)) as NZ.
  assert (Nb : nneg (fsub b a)) by (apply (rounds_nneg _ _ R); lra).
  destruct (is_finite (fsub b a)) eqn:F.
  - apply div_nneg; auto. apply fin_nneg in Nb; auto. rewrite eqb_fin in NZ by (exact F || reflexivity).
    destruct (Rle_lt_or_eq_dec _ _ Nb) as [P|P]; [easy|].
    exfalso. revert NZ. cbn. rewrite <- P. intros K. now rewrite Req_bool_true in K.
  - destruct (fsub b a) as [s|s| |s m e h]; try easy; destruct R as [Nn _]; try easy. cbn in Nb. subst s.
    destruct r as [s|s| |s m e h]; cbn in *; try easy.
Qed.

Lemma tame_index : forall x y, tame x y -> length y = length x /\ at_index x y.
Proof.
  unfold at_index. induction x as [|a x IH]; intros [|f y] H; try (now destruct H).
  - destruct x; now destruct H.
  - destruct x as [|b x], y as [|g y]; try (now destruct H).
    + split; [reflexivity|]. destruct H as (H1 & H2 & H3). intros [|i] Hi; cbn in Hi; [|lia]. cbn [nth]. repeat split; try apply H1; try apply H2; auto; intros; cbn [length] in *; lia.
    + destruct H as (H1 & H2 & H3 & H4 & H5 & H6 & H7). destruct (IH (g :: y) H7) as [L I]. split; [cbn [length] in *; lia|].
      intros [|i] Hi.
      * cbn [nth Nat.add]. split; [exact H1|]. split; [exact H3|]. split; [exact H4|]. intros _. change half_ulp with u in *. auto.
      * specialize (I i ltac:(cbn [length] in *; lia)). cbn [nth Nat.add] in *. destruct I as (I1 & I2 & I3 & I4).
        split; [exact I1|]. split; [exact I2|]. split; [exact I3|]. intros Hi'. apply I4. cbn [length] in *. lia.
Qed.

Lemma trapz_1d_nneg x y edges v : tame x y -> rising edges ->
  B2R (hd fzero x) <= B2R (hd fzero edges) -> B2R (last edges fzero) <= B2R (last x fzero) ->
  trapz_1d x y edges = Ok v -> Forall nneg v.
Proof.
  intros Tm R H1 H2 E. destruct (tame_index x y Tm) as [Ly T].
  assert (Nx : x <> []) by (destruct x, y; try easy; now destruct Tm).
  unfold trapz_1d in E.
  assert (E0 : hd fzero x = nth 0 x fzero) by now destruct x.
  assert (E1 : last x fzero = nth (length x - 1) x fzero).
  { clear. induction x as [|a [|b l] IH]; [reflexivity|reflexivity|].
    change (last (a :: b :: l) fzero) with (last (b :: l) fzero). rewrite IH. cbn [length]. now rewrite !Nat.sub_succ, !Nat.sub_0_r. }
  assert (Lx : (0 < length x)%nat) by (destruct x; [easy|cbn; lia]).
  rewrite E0 in H1. rewrite E1 in H2.
  destruct (fbins x y edges 0) as [r|] eqn:Er; [|easy]. cbn [rbind] in E.
  eapply fnormalise_nneg; [exact R| |exact E].
  eapply (fbins_nneg x y Ly T edges R 0 (length x - 1) r); auto; lia.
Qed.
