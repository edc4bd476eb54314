(* Rebinning a flat spectrum in double precision. *)
From Verif Require Import Prelude.
From Coq Require Import Reals Lra.
From Flocq Require Import Core.Core IEEE754.BinarySingleNaN.
From Verif Require Import Model_Float Model_Float2 Spec_Float Proof_Float Proof_Float2 Proof_Float3 Proof_Float4 Proof_Float5 Proof_Float6 Proof_Float7 Proof_Float8.
Import ListNotations.
Open Scope R_scope.

Definition good (v : b64) : Prop := finite v /\ / 2 <= B2R v <= bpow radix2 101.
Definition near (k : nat) (v : b64) (r : R) : Prop := finite v /\ (1 - u) ^ k * r <= B2R v <= (1 + u) ^ k * r.

Lemma near_weak k k' v r : 0 <= r -> (k <= k')%nat -> near k v r -> near k' v r.
Proof.
  intros R K (F & L & U). split; [exact F|]. pose proof (down k r k' R K). pose proof (up k r k' R K). lra.
Qed.
Lemma pow_le2 k : (Z.of_nat k <= 2 ^ 50)%Z -> (1 + u) ^ k <= 2.
Proof.
  intros K. assert (INR k <= bpow radix2 50).
  { rewrite INR_IZR_INZ. change (bpow radix2 50) with (IZR (2 ^ 50)). now apply IZR_le. }
  assert (2 * INR k * u <= / 4).
  { replace (/ 4) with (2 * bpow radix2 50 * u); [apply Rmult_le_compat_r; [pose proof u_pos|]; lra|].
    unfold u. rewrite Rmult_assoc, <- bpow_plus. change (bpow radix2 (50 + -53)) with (/ 8). lra. }
  pose proof (pow_up' k ltac:(lra)). lra.
Qed.
Lemma add_near k acc s r q : (Z.of_nat k <= 2 ^ 50)%Z -> 0 <= r <= bpow radix2 300 -> 0 <= q <= bpow radix2 300 ->
  near k acc r -> near k s q -> near (S k) (fadd acc s) (r + q).
Proof.
  intros K R Q (Fa & La & Ua) (Fs & Ls & Us). pose proof u_pos as UP. pose proof (pow_le2 k K) as P2.
  set (P := (1 + u) ^ k) in *. set (M := (1 - u) ^ k) in *.
  assert (M0 : 0 <= M) by (apply pow_le; lra).
  assert (Mr : 0 <= M * r) by (apply Rmult_le_pos; lra). assert (Mq : 0 <= M * q) by (apply Rmult_le_pos; lra).
  assert (Pr : P * r <= 2 * r) by (apply Rmult_le_compat_r; lra). assert (Pq : P * q <= 2 * q) by (apply Rmult_le_compat_r; lra).
  destruct (pow2 302 _ _ ltac:(lia) (add_rounds acc s Fa Fs)) as [F _].
  { change 302%Z with (300 + 1 + 1)%Z. rewrite !bp1. rewrite Rabs_pos_eq; lra. }
  split; [exact F|]. rewrite (rounds_fin _ _ (add_rounds acc s Fa Fs) F).
  destruct (rnd_add_err acc s) as (e & -> & He). apply Rabs_le_inv in He. cbn [pow]. fold P M.
  set (A := B2R acc) in *. set (B := B2R s) in *. split.
  - apply (Rle_trans _ ((A + B) * (1 - u))); [|apply Rmult_le_compat_l; lra].
    replace ((1 - u) * M * (r + q)) with ((M * r + M * q) * (1 - u)) by ring. apply Rmult_le_compat_r; lra.
  - apply (Rle_trans _ ((A + B) * (1 + u))); [apply Rmult_le_compat_l; lra|].
    replace ((1 + u) * P * (r + q)) with ((P * r + P * q) * (1 + u)) by ring. apply Rmult_le_compat_r; lra.
Qed.

(* differences of wavelengths are multiples of 2^-53 *)
Lemma good_grid v : good v -> exists k, B2R v = IZR k * bpow radix2 (-53).
Proof.
  intros (F & L & U). pose proof (fmt v) as G. rewrite fexp_FLT in G. unfold generic_format in G.
  set (e := cexp radix2 (FLT_exp (-1074) 53) (B2R v)) in *.
  assert (E : (-53 <= e)%Z).
  { unfold e, cexp, FLT_exp. assert (0 <= mag radix2 (B2R v))%Z; [|lia].
    apply mag_ge_bpow. rewrite Rabs_pos_eq by lra. change (bpow radix2 (0 - 1)) with (/ 2). exact L. }
  exists (Ztrunc (scaled_mantissa radix2 (FLT_exp (-1074) 53) (B2R v)) * 2 ^ (e + 53))%Z.
  rewrite G at 1. unfold F2R. cbn [Fnum Fexp]. rewrite mult_IZR, Rmult_assoc. f_equal.
  fold e. change 2%Z with (radix_val radix2). rewrite IZR_Zpower by lia. rewrite <- bpow_plus. f_equal. lia.
Qed.
Lemma good_diff a b : good a -> good b -> B2R a < B2R b -> bpow radix2 (-53) <= B2R b - B2R a.
Proof.
  intros Ga Gb L. destruct (good_grid a Ga) as [k Ek], (good_grid b Gb) as [m Em]. rewrite Ek, Em in *.
  pose proof (bpow_gt_0 radix2 (-53)) as P.
  assert (k < m)%Z by (apply lt_IZR; apply (Rmult_lt_reg_r _ _ _ P L)).
  rewrite <- Rmult_minus_distr_r, <- minus_IZR.
  assert (1 <= IZR (m - k)) by (apply (IZR_le 1); lia). nra.
Qed.
Lemma good_sub a b : good a -> good b -> B2R a <= B2R b -> near 1 (fsub b a) (B2R b - B2R a) /\ B2R (fsub b a) <= bpow radix2 101.
Proof.
  intros Ga Gb L. pose proof u_pos as UP. pose proof Ga as (Fa & La & Ua). pose proof Gb as (Fb & Lb & Ub).
  destruct (pow2 101 _ _ ltac:(lia) (sub_rounds b a Fb Fa)) as [F B]; [rewrite Rabs_pos_eq; lra|].
  split; [|apply Rabs_le_inv in B; lra]. split; [exact F|]. rewrite (rounds_fin _ _ (sub_rounds b a Fb Fa) F), !pow_1.
  destruct (rnd_rel0 (B2R b - B2R a)) as (f & -> & Hf).
  { destruct (Rle_lt_or_eq_dec _ _ L) as [L'|E]; [right|left; lra].
    apply (Rle_trans _ (bpow radix2 (-53))); [apply bpow_le; lia|]. rewrite Rabs_pos_eq by lra. now apply good_diff. }
  apply Rabs_le_inv in Hf. set (w := B2R b - B2R a) in *. assert (0 <= w) by (unfold w; lra). split; nra.
Qed.

Section Flat.
Variables (c : b64).
Hypothesis (Fc : finite c) (Bc : bpow radix2 (-100) <= B2R c <= bpow radix2 100).
Local Notation C := (B2R c).
Lemma c_pos : 0 < C. Proof. pose proof (bpow_gt_0 radix2 (-100)). lra. Qed.

Lemma half_c : finite (fmul fhalf (fadd c c)) /\ B2R (fmul fhalf (fadd c c)) = C.
Proof.
  pose proof c_pos. assert (Fh : finite fhalf) by reflexivity. assert (Eh : B2R fhalf = / 2) by (vm_compute; lra).
  destruct (pow2 101 _ _ ltac:(lia) (add_rounds c c Fc Fc)) as [F B].
  { change 101%Z with (100 + 1)%Z. rewrite bp1, Rabs_pos_eq; lra. }
  assert (E : B2R (fadd c c) = 2 * C).
  { rewrite (rounds_fin _ _ (add_rounds c c Fc Fc) F). replace (C + C) with (2 * C) by ring. apply rnd_id, dbl_format, fmt. }
  pose proof (mul_rounds _ _ Fh F) as R. rewrite E, Eh in R. replace (/ 2 * (2 * C)) with C in R by field.
  destruct (pow2 100 _ _ ltac:(lia) R) as [F' _]; [rewrite Rabs_pos_eq; lra|].
  split; [exact F'|]. rewrite (rounds_fin _ _ R F'). apply rnd_B.
Qed.
Lemma trap_near a b : good a -> good b -> B2R a <= B2R b -> near 2 (trap c c b a) (C * (B2R b - B2R a)).
Proof.
  intros Ga Gb L. pose proof u_pos as UP. pose proof c_pos as C0. destruct half_c as [Fh Eh]. destruct (good_sub a b Ga Gb L) as [(Fs & Ls & Us) Bs].
  rewrite !pow_1 in *. unfold trap. pose proof (mul_rounds _ _ Fh Fs) as R. rewrite Eh in R.
  set (w := B2R b - B2R a) in *. set (v := B2R (fsub b a)) in *. assert (w0 : 0 <= w) by (unfold w; lra).
  assert (v0 : 0 <= v) by nra.
  destruct (pow2 201 _ _ ltac:(lia) R) as [F _].
  { rewrite Rabs_pos_eq by (apply Rmult_le_pos; lra). change 201%Z with (100 + 101)%Z. rewrite bpow_plus. apply Rmult_le_compat; lra. }
  split; [exact F|]. rewrite (rounds_fin _ _ R F).
  destruct (rnd_rel0 (C * v)) as (f & -> & Hf).
  { destruct (Rle_lt_or_eq_dec _ _ L) as [L'|E].
    - right. pose proof (good_diff a b Ga Gb L') as D. fold w in D.
      assert (bpow radix2 (-54) <= v).
      { assert (bpow radix2 (-53) = 2 * bpow radix2 (-54)) by (change (-53)%Z with (-54 + 1)%Z; apply bp1). pose proof u_small. nra. }
      rewrite Rabs_pos_eq by (apply Rmult_le_pos; lra).
      apply (Rle_trans _ (bpow radix2 (-100) * bpow radix2 (-54))); [rewrite <- bpow_plus; apply bpow_le; lia|].
      apply Rmult_le_compat; try apply bpow_ge_0; lra.
    - left. assert (w = 0) by (unfold w; lra). assert (v = 0) by nra. rewrite H0. ring. }
  apply Rabs_le_inv in Hf. cbn [pow]. rewrite !Rmult_1_r.
  assert (CW : 0 <= C * w) by (apply Rmult_le_pos; lra).
  assert (V1 : C * w * (1 - u) <= C * v) by (rewrite Rmult_assoc; apply Rmult_le_compat_l; lra).
  assert (V2 : C * v <= C * w * (1 + u)) by (rewrite Rmult_assoc; apply Rmult_le_compat_l; lra).
  assert (CV : 0 <= C * v) by (apply Rmult_le_pos; lra).
  split.
  - apply (Rle_trans _ (C * v * (1 - u))); [|apply Rmult_le_compat_l; lra].
    replace ((1 - u) * (1 - u) * (C * w)) with (C * w * (1 - u) * (1 - u)) by ring. apply Rmult_le_compat_r; lra.
  - apply (Rle_trans _ (C * v * (1 + u))); [apply Rmult_le_compat_l; lra|].
    replace ((1 + u) * (1 + u) * (C * w)) with (C * w * (1 + u) * (1 + u)) by ring. apply Rmult_le_compat_r; lra.
Qed.

Lemma zero_of (v : b64) : finite v -> B2R v = 0 -> exists s, v = B754_zero s.
Proof. intros F E. apply masked_zero; auto. Qed.
Lemma line_flat e p a b : good e -> good p -> good a -> good b -> B2R b < B2R a -> fline c e p (fsub c c) (fsub a b) = Ok c.
Proof.
  intros (Fe & Le & Ue) (Fp & Lp & Up) Ga Gb L. pose proof c_pos as C0.
  unfold fline, pdiv. rewrite diff_nonzero by (try apply Ga; try apply Gb; lra). cbn [rbind]. f_equal.
  destruct (pow2 0 _ _ ltac:(lia) (sub_rounds c c Fc Fc)) as [Fz _].
  { rewrite Rminus_diag_eq, Rabs_R0 by reflexivity. apply bpow_ge_0. }
  destruct (zero_of (fsub c c) Fz) as [s Es].
  { rewrite (rounds_fin _ _ (sub_rounds c c Fc Fc) Fz), Rminus_diag_eq by reflexivity. apply rnd_0. }
  destruct (pow2 101 _ _ ltac:(lia) (sub_rounds e p Fe Fp)) as [Fd _]; [apply Rabs_le; lra|].
  rewrite Es.
  assert (Em : exists t, fmul (fsub e p) (B754_zero s) = B754_zero t).
  { unfold finite in Fd. destruct (fsub e p) as [q|q| |q m g h]; cbn in Fd |- *; try discriminate; eexists; reflexivity. }
  destruct Em as [t Em]. rewrite Em.
  destruct (good_sub b a Gb Ga ltac:(lra)) as [(Fs & Ls & _) _]. rewrite pow_1 in Ls.
  assert (S0 : 0 < B2R (fsub a b)).
  { pose proof u_small. apply (Rlt_le_trans _ ((1 - u) * (B2R a - B2R b))); [apply Rmult_lt_0_compat; lra|exact Ls]. }
  assert (Ed : exists t', fdiv (B754_zero t) (fsub a b) = B754_zero t').
  { unfold finite in Fs. destruct (fsub a b) as [q|q| |q m g h]; cbn in Fs, S0 |- *; try discriminate; try lra; eexists; reflexivity. }
  destruct Ed as [t' Ed]. rewrite Ed. unfold finite in Fc. revert C0. destruct c as [q|q| |q m g h]; cbn; try (intros; lra); try discriminate. reflexivity.
Qed.

Variables (x y : list b64).
Hypothesis (Ly : length y = length x) (Gx : Forall good x) (Ay : Forall (fun v => v = c) y).
Hypothesis (Asc : forall i, (S i < length x)%nat -> B2R (nth i x fzero) <= B2R (nth (S i) x fzero)).
Hypothesis (Lx : (Z.of_nat (length x) + 10 <= 2 ^ 50)%Z).
Local Notation X i := (B2R (nth i x fzero)).
Lemma Yc i : (i < length x)%nat -> nth i y fzero = c.
Proof. intros Hi. rewrite Forall_forall in Ay. apply Ay, nth_In. lia. Qed.
Lemma Xg i : (i < length x)%nat -> good (nth i x fzero).
Proof. intros Hi. rewrite Forall_forall in Gx. apply Gx, nth_In. lia. Qed.
Lemma Fxs : Forall finite x. Proof. eapply Forall_impl; [|exact Gx]. now intros v [F _]. Qed.
Lemma width a b : good a -> good b -> B2R a <= B2R b -> 0 <= C * (B2R b - B2R a) <= bpow radix2 300.
Proof.
  intros (_ & La & Ua) (_ & Lb & Ub) L. pose proof c_pos. split; [apply Rmult_le_pos; lra|].
  apply (Rle_trans _ (bpow radix2 100 * bpow radix2 101)); [apply Rmult_le_compat; lra|rewrite <- bpow_plus; apply bpow_le; lia].
Qed.

Lemma finterior_flat lo hi n : good lo -> good hi -> (n < length x)%nat -> B2R hi <= X n -> forall fuel j acc k a m,
  (j <= n)%nat -> B2R lo <= X j -> X j < B2R hi -> (2 <= m)%nat -> (m + (n - j) <= length x + 5)%nat ->
  near m acc (C * (X j - B2R lo)) -> finterior fuel x y hi j acc = Ok (k, a) ->
  near (m + (n - j)) a (C * (X k - B2R lo)) /\ B2R lo <= X k.
Proof.
  intros Gl Gh Hn Hb. pose proof c_pos as C0. induction fuel as [|fuel IH]; intros j acc k a m Hj Hlo Hx Hm Hk Na E; cbn [finterior] in E; [easy|].
  assert (j <> n) by (intros ->; lra).
  rewrite fget_ok in E by lia. cbn [rbind] in E. rewrite ltb_fin in E by (apply (Fn x Fxs) || apply Gh).
  destruct (Rlt_bool_spec (X (j + 1)) (B2R hi)) as [D|D].
  - rewrite !fget_ok in E by lia. cbn [rbind] in E. rewrite !Yc in E by lia.
    assert (A : X j <= X (j + 1)) by (rewrite Nat.add_1_r; apply Asc; lia).
    assert (N1 : near (S m) (fadd acc (trap c c (nth (j + 1) x fzero) (nth j x fzero))) (C * (X (j + 1) - B2R lo))).
    { replace (C * (X (j + 1) - B2R lo)) with (C * (X j - B2R lo) + C * (X (j + 1) - X j)) by ring.
      apply add_near; [lia|apply width; auto using Xg; apply Xg; lia|apply width; auto; apply Xg; lia|exact Na|].
      apply (near_weak 2); [apply width; auto; apply Xg; lia|lia|]. apply trap_near; auto; apply Xg; lia. }
    destruct (IH (j + 1)%nat _ k a (S m) ltac:(lia) ltac:(lra) D ltac:(lia) ltac:(lia) N1 E) as [R1 R2].
    split; [|exact R2]. now replace (m + (n - j))%nat with (S m + (n - (j + 1)))%nat by lia.
  - injection E as <- <-. split; [|exact Hlo]. apply (near_weak m); [apply width; auto; apply Xg; lia|lia|exact Na].
Qed.

Lemma zero_near k : near k fzero 0.
Proof. split; [reflexivity|]. rewrite !Rmult_0_r. cbn. lra. Qed.

Lemma fbin_flat lo hi j0 n j r : good lo -> good hi -> B2R lo < B2R hi -> (n < length x)%nat -> B2R hi <= X n ->
  X 0 <= B2R lo -> (j0 <= n)%nat -> (j0 = 0%nat \/ X (j0 - 1) <= B2R lo) ->
  fbin x y lo hi j0 fzero = Ok (j, r) -> near (length x + 6) r (C * (B2R hi - B2R lo)).
Proof.
  intros Gl Gh L Hn Hb H0 Hj Hp. pose proof c_pos as C0. pose proof Gl as (Fl & _). pose proof Gh as (Fh & _). unfold fbin.
  destruct (fseek_ok x y Ly Fxs lo n Fl (length x + 1) j0 Hj Hn ltac:(lia) ltac:(lra) Hp) as (i & -> & J1 & J2 & J3).
  assert (J0 : i <> 0%nat) by (intros ->; lra). destruct J3 as [J3|J3]; [easy|].
  assert (G : forall v, length v = length x -> fgetm1 v i = Ok (nth (i - 1) v fzero)).
  { intros v Hv. destruct i as [|i]; [easy|]. cbn [fgetm1]. rewrite fget_ok by lia. now replace (S i - 1)%nat with i by lia. }
  cbn [rbind]. rewrite !G by congruence. cbn [rbind]. rewrite !fget_ok by lia. cbn [rbind]. rewrite !Yc by lia.
  rewrite line_flat by (auto; try (apply Xg; lia); lra). cbn [rbind].
  rewrite ltb_fin by (apply (Fn x Fxs) || exact Fh). destruct (Rlt_bool_spec (X i) (B2R hi)) as [D|D].
  - assert (N1 : near 3 (fadd fzero (trap c c (nth i x fzero) lo)) (C * (X i - B2R lo))).
    { replace (C * (X i - B2R lo)) with (0 + C * (X i - B2R lo)) by ring. apply (add_near 2); [lia| | |apply zero_near|].
      - pose proof (bpow_gt_0 radix2 300). lra.
      - apply width; auto; [apply Xg; lia|lra].
      - apply trap_near; auto; [apply Xg; lia|lra]. }
    destruct (finterior_ok x y Ly Fxs hi n Fh Hn Hb (length x + 1) i (fadd fzero (trap c c (nth i x fzero) lo)) J1 ltac:(lia) D)
      as (k & a & EI & K1 & K2 & K3).
    destruct (finterior_flat lo hi n Gl Gh Hn Hb _ _ _ _ _ 3 J1 ltac:(lra) D ltac:(lia) ltac:(lia) N1 EI) as [Na La].
    rewrite EI. cbn [rbind]. rewrite !fget_ok by lia. cbn [rbind]. rewrite !Yc by lia.
    rewrite line_flat by (auto; try (apply Xg; lia); lra). cbn [rbind].
    injection 1 as <- <-. replace (C * (B2R hi - B2R lo)) with (C * (X k - B2R lo) + C * (B2R hi - X k)) by ring.
    replace (length x + 6)%nat with (S (length x + 5)) by lia.
    apply add_near; [lia|apply width; auto; apply Xg; lia|apply width; auto; [apply Xg; lia|lra]| |].
    + apply (near_weak (3 + (n - i))); [apply width; auto; apply Xg; lia|lia|exact Na].
    + apply (near_weak 2); [apply width; auto; [apply Xg; lia|lra]|lia|]. apply trap_near; auto; [apply Xg; lia|lra].
  - rewrite !line_flat by (auto; try (apply Xg; lia); lra). cbn [rbind]. intros E. assert (E' : r = fadd fzero (trap c c hi lo)) by congruence. clear E. rewrite E'.
    apply (near_weak 3); [apply width; auto; lra|lia|].
    replace (C * (B2R hi - B2R lo)) with (0 + C * (B2R hi - B2R lo)) by ring. apply (add_near 2); [lia| | |apply zero_near|].
    + pose proof (bpow_gt_0 radix2 300). lra.
    + apply width; auto; lra.
    + apply trap_near; auto; lra.
Qed.

Fixpoint bins_near (edges rs : list b64) : Prop :=
  match edges, rs with
  | lo :: ((hi :: _) as rest), r :: rs => near (length x + 6) r (C * (B2R hi - B2R lo)) /\ bins_near rest rs
  | _, _ => True
  end.
Lemma fbins_flat edges : rising edges -> Forall good edges -> forall j n r, (n < length x)%nat -> B2R (last edges fzero) <= X n ->
  X 0 <= B2R (hd fzero edges) -> (j <= n)%nat -> (j = 0%nat \/ X (j - 1) <= B2R (hd fzero edges)) ->
  fbins x y edges j = Ok r -> bins_near edges r.
Proof.
  induction 1 as [|a Fa|a b l Fa L H IH]; intros Ge j n r Hn Hb H0 Hj Hp E; [exact Logic.I|exact Logic.I|].
  change (fbins x y (a :: b :: l) j) with (do p <- fbin x y a b j fzero; do more <- fbins x y (b :: l) (fst p); Ok (snd p :: more)) in E.
  cbn [hd] in *. change (last (a :: b :: l) fzero) with (last (b :: l) fzero) in Hb.
  pose proof (rising_last b l H) as RL. pose proof (rising_hd b l H) as Fb.
  inversion Ge as [|a' l' Ga Ge']; subst. inversion Ge' as [|b' l'' Gb _]; subst.
  destruct (fbin_ok x y Ly Fxs a b j fzero n Fa Fb L Hn (Rle_trans _ _ _ RL Hb) H0 Hj Hp) as (k & s & Ek & K1 & K2).
  rewrite Ek in E. cbn [rbind fst snd] in E.
  destruct (fbins x y (b :: l) k) as [rs|] eqn:Er; [|easy]. cbn [rbind] in E. injection E as <-.
  split.
  - exact (fbin_flat a b j n k s Ga Gb L Hn (Rle_trans _ _ _ RL Hb) H0 Hj Hp Ek).
  - apply (IH Ge' k n rs Hn Hb); auto. lra.
Qed.

Lemma div_near k r w : (Z.of_nat k <= 2 ^ 50)%Z -> near k r (C * w) -> forall d, near 1 d w -> bpow radix2 (-53) <= w -> B2R d <= bpow radix2 101 ->
  near (k + 3) (fdiv r d) C.
Proof.
  intros K (Fr & Lr & Ur) d (Fd & Ld & Ud) W Bd. rewrite !pow_1 in *. pose proof u_pos as UP. pose proof u_small as US. pose proof c_pos as C0.
  pose proof (bpow_gt_0 radix2 (-53)) as B53.
  assert (d0 : 0 < B2R d) by nra. pose proof (pow_le2 k K) as P2. set (P := (1 + u) ^ k) in *. set (M := (1 - u) ^ k) in *.
  assert (M0 : 0 < M) by (apply pow_lt; lra).
  pose proof (div_rounds r d Fr Fd ltac:(lra)) as R.
  set (D := B2R d) in *. set (V := B2R r) in *.
  assert (V0 : 0 < V).
  { apply (Rlt_le_trans _ (M * (C * w))); [|exact Lr]. apply Rmult_lt_0_compat; [lra|]. apply Rmult_lt_0_compat; lra. }
  (* V / D is C up to (1+u)^(k+2) *)
  assert (Q1 : V / D <= P * (1 + u) * (1 + u) * C).
  { apply (Rmult_le_reg_r D); [exact d0|]. replace (V / D * D) with V by (field; lra).
    apply (Rle_trans _ _ _ Ur). assert (T : w <= (1 + u) * (1 + u) * D) by nra.
    apply (Rle_trans _ (P * (C * ((1 + u) * (1 + u) * D)))); [|right; ring].
    apply Rmult_le_compat_l; [unfold P; apply pow_le; lra|]. apply Rmult_le_compat_l; lra. }
  assert (Q2 : M * (1 - u) * C <= V / D).
  { apply (Rmult_le_reg_r D); [exact d0|]. replace (V / D * D) with V by (field; lra).
    apply (Rle_trans _ (M * (C * w))); [|exact Lr]. assert (T : (1 - u) * D <= w) by nra.
    apply (Rle_trans _ (M * (C * ((1 - u) * D)))); [right; ring|].
    apply Rmult_le_compat_l; [lra|]. apply Rmult_le_compat_l; lra. }
  assert (P8 : P * (1 + u) * (1 + u) <= 4) by nra.
  destruct (pow2 102 _ _ ltac:(lia) R) as [F _].
  { rewrite Rabs_pos_eq by (unfold Rdiv; apply Rmult_le_pos; [lra|left; now apply Rinv_0_lt_compat]).
    apply (Rle_trans _ _ _ Q1). change 102%Z with (100 + 1 + 1)%Z. rewrite !bp1.
    apply (Rle_trans _ (4 * C)); [apply Rmult_le_compat_r; lra|lra]. }
  split; [exact F|]. rewrite (rounds_fin _ _ R F). fold V D.
  assert (Q0 : 0 <= V / D) by (unfold Rdiv; apply Rmult_le_pos; [lra|left; now apply Rinv_0_lt_compat]).
  destruct (rnd_rel0 (V / D)) as (f & -> & Hf).
  { right. rewrite Rabs_pos_eq by exact Q0. apply (Rle_trans _ (M * (1 - u) * C)); [|exact Q2].
    assert (M3 : / 4 <= M).
    { assert (1 <= M * P * 2); [|nra]. unfold M, P. rewrite <- Rpow_mult_distr.
      assert (KU : INR k * (u * u) <= / 4).
      { assert (INR k <= bpow radix2 50).
        { rewrite INR_IZR_INZ. change (bpow radix2 50) with (IZR (2 ^ 50)). now apply IZR_le. }
        apply (Rle_trans _ (bpow radix2 50 * (u * u))); [apply Rmult_le_compat_r; nra|].
        replace (bpow radix2 50 * (u * u)) with (/ 8 * u); [lra|].
        unfold u. rewrite <- !bpow_plus. change (/ 8) with (bpow radix2 (-3)). rewrite <- bpow_plus. reflexivity. }
      replace ((1 - u) * (1 + u)) with (1 - u * u) by ring.
      assert (B : 1 - INR k * (u * u) <= (1 - u * u) ^ k).
      { clear KU. set (v := u * u) in *. assert (0 <= v <= 1) by (unfold v; nra). clear - H.
        induction k as [|k IH]; [cbn; lra|]. rewrite S_INR. cbn [pow].
        assert (0 <= INR k) by apply pos_INR. assert ((1 - v) * (1 - INR k * v) <= (1 - v) * (1 - v) ^ k) by (apply Rmult_le_compat_l; lra). nra. }
      lra. }
    apply (Rle_trans _ (bpow radix2 (-3) * bpow radix2 (-100))); [rewrite <- bpow_plus; apply bpow_le; lia|].
    change (bpow radix2 (-3)) with (/ 8). apply Rmult_le_compat; try lra; [apply bpow_ge_0|nra]. }
  apply Rabs_le_inv in Hf. rewrite !pow_add. fold P M. cbn [pow]. rewrite !Rmult_1_r.
  split.
  - apply (Rle_trans _ (V / D * (1 - u))); [|apply Rmult_le_compat_l; lra].
    apply (Rle_trans _ (M * (1 - u) * C * (1 - u))); [|apply Rmult_le_compat_r; lra].
    replace (M * ((1 - u) * ((1 - u) * (1 - u))) * C) with (M * (1 - u) * C * (1 - u) * (1 - u)) by ring.
    rewrite <- (Rmult_1_r (M * (1 - u) * C * (1 - u))) at 2. apply Rmult_le_compat_l; [|lra].
    repeat apply Rmult_le_pos; lra.
  - apply (Rle_trans _ (V / D * (1 + u))); [apply Rmult_le_compat_l; lra|].
    apply (Rle_trans _ (P * (1 + u) * (1 + u) * C * (1 + u))); [apply Rmult_le_compat_r; lra|right; ring].
Qed.

Lemma fnormalise_flat edges : rising edges -> Forall good edges -> forall r v, bins_near edges r ->
  fnormalise edges r = Ok v -> Forall (fun w => near (length x + 9) w C) v.
Proof.
  induction 1 as [|a Fa|a b l Fa L H IH]; intros Ge r v Hr E; [injection E as <-; constructor|destruct r; injection E as <-; constructor|].
  destruct r as [|r rs]; [injection E as <-; constructor|].
  change (fnormalise (a :: b :: l) (r :: rs)) with (do v <- pdiv r (fsub b a); do more <- fnormalise (b :: l) rs; Ok (v :: more)) in E.
  inversion Ge as [|a' l' Ga Ge']; subst. inversion Ge' as [|b' l'' Gb _]; subst. destruct Hr as [Hr Hrs].
  unfold pdiv in E. rewrite diff_nonzero in E by (try apply Ga; try apply Gb; lra). cbn [rbind] in E.
  destruct (fnormalise (b :: l) rs) as [vs|] eqn:Ev; [|easy]. cbn [rbind] in E. injection E as <-.
  constructor; [|now apply (IH Ge' rs)].
  replace (length x + 9)%nat with (length x + 6 + 3)%nat by lia.
  destruct (good_sub a b Ga Gb ltac:(lra)) as [Nd Bd].
  apply (div_near _ _ (B2R b - B2R a)); auto; [lia|]. now apply good_diff.
Qed.
End Flat.
