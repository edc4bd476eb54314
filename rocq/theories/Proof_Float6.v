(* Coadded weights and fluxes in double precision. *)
From Coq Require Import ZArith Reals Lra Lia List Bool Permutation.
From Flocq Require Import Core.Core IEEE754.BinarySingleNaN.
From Verif Require Import Model_Float Spec_Float Proof_Float Proof_Float2 Proof_Float3 Proof_Float5.
Import ListNotations.
Open Scope R_scope.

Lemma fsum_num o x : Forall weight x -> num (fsum o x).
Proof.
  intros H. induction o as [i|a IHa b IHb]; cbn [fsum]; [|now apply add_num].
  destruct (nth_P weight x fzero i zero_weight H) as [F P]. split; [now apply finite_notnan|]. now apply fin_nneg.
Qed.
Lemma fsum_ge o x : Forall weight x -> finite (fsum o x) -> 0 <= B2R (fsum o x) /\
  forall i, In i (parts_of o) -> B2R (nth i x fzero) <= B2R (fsum o x).
Proof.
  intros H. induction o as [i|a IHa b IHb]; cbn [fsum parts_of]; intros F.
  - split; [apply (nth_P weight x fzero i zero_weight H)|]. intros j [<-|[]]. lra.
  - destruct (finite_add _ _ (fsum_num a x H) (fsum_num b x H) F) as [Fa Fb].
    destruct (IHa Fa) as [Pa Ga]. destruct (IHb Fb) as [Pb Gb].
    rewrite (rounds_fin _ _ (add_rounds _ _ Fa Fb) F).
    assert (A : B2R (fsum a x) <= rnd (B2R (fsum a x) + B2R (fsum b x))) by (apply rnd_ge_B; lra).
    assert (B : B2R (fsum b x) <= rnd (B2R (fsum a x) + B2R (fsum b x))) by (apply rnd_ge_B; lra).
    split; [lra|]. intros i Hi. apply in_app_iff in Hi. destruct Hi as [Hi|Hi]; [specialize (Ga i Hi)|specialize (Gb i Hi)]; lra.
Qed.
Lemma fsum_acc o x : Forall weight x -> finite (fsum o x) ->
  let T := term_sum (fun i => B2R (nth i x fzero)) (parts_of o) in
  0 <= T /\ (1 - u) ^ sdepth o * T <= B2R (fsum o x) <= (1 + u) ^ sdepth o * T.
Proof.
  intros H. pose proof u_pos as U. induction o as [i|a IHa b IHb]; cbn [fsum parts_of sdepth]; intros F; cbv zeta in *.
  - cbn [term_sum pow]. pose proof (proj2 (nth_P weight x fzero i zero_weight H)). lra.
  - destruct (finite_add _ _ (fsum_num a x H) (fsum_num b x H) F) as [Fa Fb].
    destruct (IHa Fa) as (Ta & La & Ua). destruct (IHb Fb) as (Tb & Lb & Ub). clear IHa IHb.
    rewrite (rounds_fin _ _ (add_rounds _ _ Fa Fb) F).
    destruct (rnd_add_err (fsum a x) (fsum b x)) as (e & -> & He). apply Rabs_le_inv in He.
    pose proof (proj1 (fsum_ge a x H Fa)) as Pa. pose proof (proj1 (fsum_ge b x H Fb)) as Pb.
    rewrite term_sum_app. set (TA := term_sum _ (parts_of a)) in *. set (TB := term_sum _ (parts_of b)) in *.
    set (d := Nat.max (sdepth a) (sdepth b)).
    pose proof (down (sdepth a) TA d Ta ltac:(unfold d; lia)). pose proof (down (sdepth b) TB d Tb ltac:(unfold d; lia)).
    pose proof (up (sdepth a) TA d Ta ltac:(unfold d; lia)). pose proof (up (sdepth b) TB d Tb ltac:(unfold d; lia)).
    cbn [pow]. set (P := (1 + u) ^ d) in *. set (Q := (1 - u) ^ d) in *.
    set (X := B2R (fsum a x)) in *. set (Y := B2R (fsum b x)) in *.
    split; [lra|]. split.
    + apply (Rle_trans _ ((X + Y) * (1 - u))); [|apply Rmult_le_compat_l; lra].
      apply (Rle_trans _ ((Q * (TA + TB)) * (1 - u))); [right; ring|apply Rmult_le_compat_r; lra].
    + apply (Rle_trans _ ((X + Y) * (1 + u))); [apply Rmult_le_compat_l; lra|].
      rewrite Rmult_assoc, (Rmult_comm (1 + u)). apply Rmult_le_compat_r; lra.
Qed.

(* signed sums *)
Lemma fadd_fin x y : is_finite (fadd x y) = true -> is_finite x = true /\ is_finite y = true.
Proof.
  destruct x as [s|s| |s m e h], y as [t|t| |t k g i]; cbn; try easy. now destruct (Bool.eqb s t).
Qed.
Lemma fsum_abs o x : finite (fsum o x) ->
  let T := term_sum (fun i => B2R (nth i x fzero)) (parts_of o) in
  let A := term_sum (fun i => Rabs (B2R (nth i x fzero))) (parts_of o) in
  0 <= A /\ Rabs T <= A /\ Rabs (B2R (fsum o x) - T) <= ((1 + u) ^ sdepth o - 1) * A.
Proof.
  pose proof u_pos as U. induction o as [i|a IHa b IHb]; cbn [fsum parts_of sdepth]; intros F; cbv zeta in *.
  - cbn [term_sum pow]. rewrite !Rplus_0_r, Rminus_diag_eq, Rabs_R0 by reflexivity. pose proof (Rabs_pos (B2R (nth i x fzero))). lra.
  - destruct (fadd_fin _ _ F) as [Fa Fb]. destruct (IHa Fa) as (Aa & Ta & Ea). destruct (IHb Fb) as (Ab & Tb & Eb). clear IHa IHb.
    rewrite (rounds_fin _ _ (add_rounds _ _ Fa Fb) F), !term_sum_app.
    destruct (rnd_add_err (fsum a x) (fsum b x)) as (e & -> & He).
    set (TA := term_sum (fun i => B2R (nth i x fzero)) (parts_of a)) in *. set (TB := term_sum (fun i => B2R (nth i x fzero)) (parts_of b)) in *.
    set (AA := term_sum (fun i => Rabs (B2R (nth i x fzero))) (parts_of a)) in *. set (AB := term_sum (fun i => Rabs (B2R (nth i x fzero))) (parts_of b)) in *.
    set (X := B2R (fsum a x)) in *. set (Y := B2R (fsum b x)) in *.
    split; [lra|]. split; [apply (Rle_trans _ _ _ (Rabs_triang _ _)); lra|].
    set (d := Nat.max (sdepth a) (sdepth b)).
    pose proof (up (sdepth a) AA d Aa ltac:(unfold d; lia)). pose proof (up (sdepth b) AB d Ab ltac:(unfold d; lia)).
    cbn [pow]. set (P := (1 + u) ^ d) in *.
    assert (HX : Rabs X <= P * AA).
    { replace X with ((X - TA) + TA) by ring. apply (Rle_trans _ _ _ (Rabs_triang _ _)). lra. }
    assert (HY : Rabs Y <= P * AB).
    { replace Y with ((Y - TB) + TB) by ring. apply (Rle_trans _ _ _ (Rabs_triang _ _)). lra. }
    replace ((X + Y) * (1 + e) - (TA + TB)) with ((X - TA) + (Y - TB) + (X + Y) * e) by ring.
    apply (Rle_trans _ _ _ (Rabs_triang _ _)).
    assert (Rabs ((X + Y) * e) <= P * (AA + AB) * u).
    { rewrite Rabs_mult. apply Rmult_le_compat; auto using Rabs_pos. apply (Rle_trans _ _ _ (Rabs_triang _ _)). lra. }
    pose proof (Rabs_triang (X - TA) (Y - TB)). lra.
Qed.
Lemma fadd_zero x : finite x -> B2R (fadd x fzero) = B2R x /\ finite (fadd x fzero).
Proof.
  intros F. destruct (rounds_between _ _ x x (add_rounds x fzero F eq_refl) F F) as (F' & _ & B).
  { cbn. lra. }
  split; [lra|exact F'].
Qed.

Lemma fsum_leaf o x i : finite (fsum o x) -> In i (parts_of o) -> finite (nth i x fzero).
Proof.
  induction o as [j|a IHa b IHb]; cbn [fsum parts_of]; intros F I.
  - destruct I as [<-|[]]. exact F.
  - destruct (fadd_fin _ _ F) as [Fa Fb]. apply in_app_iff in I. destruct I; auto.
Qed.
Lemma fmul_fin x y : is_finite (fmul x y) = true -> is_finite x = true /\ is_finite y = true.
Proof. destruct x as [s|s| |s m e h], y as [t|t| |t k g i]; cbn; easy. Qed.
Lemma fdiv_fin x y : is_finite (fdiv x y) = true -> is_finite y = true -> is_finite x = true.
Proof. destruct x as [s|s| |s m e h], y as [t|t| |t k g i]; cbn; easy. Qed.

Lemma sum_seq {A} (g : nat -> R) (h : A -> R) (d : A) : forall l k, (forall i, (i < length l)%nat -> g (k + i)%nat = h (nth i l d)) ->
  term_sum g (seq k (length l)) = fold_right (fun a s => h a + s) 0 l.
Proof.
  induction l as [|a l IH]; intros k H; [reflexivity|]. cbn [length seq term_sum fold_right].
  pose proof (H 0%nat ltac:(cbn; lia)) as H0. rewrite Nat.add_0_r in H0. rewrite H0. cbn [nth]. f_equal.
  apply IH. intros i Hi. specialize (H (S i) ltac:(cbn; lia)). rewrite <- plus_n_Sm in H. exact H.
Qed.
Lemma weighted_sum ivar flux : length ivar = length flux ->
  weighted ivar flux = term_sum (fun i => B2R (nth i ivar fzero) * B2R (nth i flux fzero)) (seq 0 (length flux)).
Proof.
  intros L. transitivity (fold_right (fun p s => B2R (fst p) * B2R (snd p) + s) 0 (combine ivar flux)).
  - revert flux L. induction ivar as [|v ivar IH]; intros [|f flux] L; cbn in *; try easy. rewrite IH by lia. reflexivity.
  - replace (length flux) with (length (combine ivar flux)) by (rewrite combine_length; lia). symmetry.
    apply (sum_seq _ (fun p => B2R (fst p) * B2R (snd p)) (fzero, fzero)). intros i _. now rewrite combine_nth.
Qed.
Lemma weighted_abs_sum ivar flux : length ivar = length flux ->
  weighted_abs ivar flux = term_sum (fun i => Rabs (B2R (nth i ivar fzero) * B2R (nth i flux fzero))) (seq 0 (length flux)).
Proof.
  intros L. transitivity (fold_right (fun p s => Rabs (B2R (fst p) * B2R (snd p)) + s) 0 (combine ivar flux)).
  - revert flux L. induction ivar as [|v ivar IH]; intros [|f flux] L; cbn in *; try easy. rewrite IH by lia. reflexivity.
  - replace (length flux) with (length (combine ivar flux)) by (rewrite combine_length; lia). symmetry.
    apply (sum_seq _ (fun p => Rabs (B2R (fst p) * B2R (snd p))) (fzero, fzero)). intros i _. now rewrite combine_nth.
Qed.
Lemma term_sum_abs t l : Rabs (term_sum t l) <= term_sum (fun i => Rabs (t i)) l.
Proof.
  induction l as [|i l IH]; cbn; [rewrite Rabs_R0; lra|]. apply (Rle_trans _ _ _ (Rabs_triang _ _)). lra.
Qed.

Lemma coadd_acc o ivar flux : length ivar = length flux -> each_once o (length flux) ->
  Forall weight ivar -> Forall2 no_underflow ivar flux -> 0 < total ivar ->
  finite (coadd_weight o ivar) -> finite (coadd_flux o ivar flux) ->
  4 * INR (sdepth o + 1) * u <= 1 ->
  Rabs (B2R (coadd_flux o ivar flux) - weighted ivar flux / total ivar) <=
    8 * INR (sdepth o + 2) * u * (weighted_abs ivar flux / total ivar) + eta.
Proof.
  intros L O Wv NU T0 Fw Ff K. pose proof u_pos as U. pose proof eta_pos as Et.
  unfold coadd_weight in Fw. unfold coadd_flux in *. cbv zeta in *.
  destruct (fsum_acc o ivar Wv Fw) as (_ & WL & WU). unfold each_once in O.
  rewrite (term_sum_perm _ _ _ O), <- L, <- total_sum in WL, WU.
  set (d := sdepth o) in *. set (n := INR (d + 1)) in *.
  assert (n0 : 1 <= n) by (unfold n; rewrite plus_INR; cbn [INR]; pose proof (pos_INR d); lra).
  set (a := 2 * n * u) in *.
  assert (Hd : INR d <= n) by (unfold n; rewrite plus_INR; cbn [INR]; lra).
  assert (PU : forall k, (k <= d + 1)%nat -> (1 + u) ^ k <= 1 + a).
  { intros k Hk. assert (KI : INR k <= n) by (unfold n; now apply le_INR). pose proof (pos_INR k).
    assert (E1 : 2 * INR k * u <= a) by (unfold a; nra). apply (Rle_trans _ (1 + 2 * INR k * u)); [|lra].
    clear - U E1 K. assert (2 * INR k * u <= 1) by (unfold a in *; lra).
    clear - U H. induction k as [|k IH]; [cbn; lra|]. rewrite S_INR in *. assert (0 <= INR k) by apply pos_INR. cbn [pow].
    specialize (IH ltac:(nra)). assert (2 * INR k * u * u <= u) by nra.
    assert ((1 + u) * (1 + u) ^ k <= (1 + u) * (1 + 2 * INR k * u)) by (apply Rmult_le_compat_l; lra). lra. }
  assert (PD : 1 - a <= (1 - u) ^ d).
  { assert (E : 1 - INR d * u <= (1 - u) ^ d).
    { clear - U. induction d as [|k IH]; [cbn; lra|]. rewrite S_INR. cbn [pow]. assert (0 <= INR k) by apply pos_INR.
      assert ((1 - u) * (1 - INR k * u) <= (1 - u) * (1 - u) ^ k) by (apply Rmult_le_compat_l; lra).
      assert (0 <= INR k * u * u) by (apply Rmult_le_pos; [apply Rmult_le_pos; lra|lra]). lra. }
    assert (INR d * u <= a) by (unfold a; nra). lra. }
  assert (a0 : 0 < a <= 1 / 2) by (unfold a; nra).
  set (V := B2R (fsum o ivar)) in *. set (W := total ivar) in *.
  assert (VB : (1 - a) * W <= V <= (1 + a) * W).
  { split; [apply (Rle_trans _ ((1 - u) ^ d * W)); [apply Rmult_le_compat_r; lra|easy]|].
    apply (Rle_trans _ ((1 + u) ^ d * W)); [easy|apply Rmult_le_compat_r; [lra|apply PU; lia]]. }
  assert (V0 : W / 2 <= V) by nra.
  assert (NB : feq (fsum o ivar) fzero = false).
  { unfold feq. rewrite eqb_fin by (exact Fw || reflexivity). apply Req_bool_false. fold V. cbn. lra. }
  rewrite NB in *. destruct (fadd_zero _ Fw) as [Ez Fz].
  pose proof (fdiv_fin _ _ Ff Fz) as FN.
  destruct (fsum_abs o _ FN) as (_ & _ & EN). fold d in EN.
  rewrite !(term_sum_perm _ _ _ O) in EN.
  assert (Pi : forall i, In i (seq 0 (length flux)) -> exists e,
    B2R (nth i (map2 fmul ivar flux) fzero) = B2R (nth i ivar fzero) * B2R (nth i flux fzero) * (1 + e) /\ Rabs e <= u).
  { intros i Hi. assert (Hp : In i (parts_of o)) by (eapply Permutation_in; [apply Permutation_sym, O|exact Hi]).
    pose proof (fsum_leaf o _ i FN Hp) as Fp. apply in_seq in Hi.
    rewrite (map2_nth fmul ivar flux fzero fzero fzero i) in * by lia.
    destruct (fmul_fin _ _ Fp) as [F1 F2]. rewrite (rounds_fin _ _ (mul_rounds _ _ F1 F2) Fp).
    assert (NUi : no_underflow (nth i ivar fzero) (nth i flux fzero)).
    { clear - NU Hi L. revert i Hi L. induction NU as [|v f ivar flux H H' IH]; intros [|i] Hi L; cbn in *; try lia; auto. apply IH; lia. }
    destruct NUi as [Z|B].
    - rewrite Z, rnd_0. exists 0. rewrite Rabs_R0. split; lra.
    - destruct (rnd_rel _ B) as (e & E1 & E2). exists e. auto. }
  set (A := weighted_abs ivar flux) in *. set (S := weighted ivar flux) in *.
  assert (EA : A = term_sum (fun i => Rabs (B2R (nth i ivar fzero) * B2R (nth i flux fzero))) (seq 0 (length flux))) by now apply weighted_abs_sum.
  assert (ES : S = term_sum (fun i => B2R (nth i ivar fzero) * B2R (nth i flux fzero)) (seq 0 (length flux))) by now apply weighted_sum.
  set (p := fun i => B2R (nth i (map2 fmul ivar flux) fzero)) in *.
  set (q := fun i => B2R (nth i ivar fzero) * B2R (nth i flux fzero)) in *.
  set (I := seq 0 (length flux)) in *.
  assert (A0 : 0 <= A) by (rewrite EA; apply term_sum_nneg; intros; apply Rabs_pos).
  assert (SA : Rabs S <= A) by (rewrite EA, ES; apply term_sum_abs).
  assert (Q1 : Rabs (term_sum p I - S) <= u * A).
  { rewrite ES, EA. clear - Pi U. induction I as [|i l IH]; cbn [term_sum].
    - rewrite Rminus_diag_eq, Rabs_R0 by reflexivity. lra.
    - destruct (Pi i (or_introl eq_refl)) as (e & E & He). assert (IH' := IH (fun j Hj => Pi j (or_intror Hj))).
      fold (p i) in E. fold (q i) in E. rewrite E.
      replace (q i * (1 + e) + term_sum p l - (q i + term_sum q l)) with (q i * e + (term_sum p l - term_sum q l)) by ring.
      apply (Rle_trans _ _ _ (Rabs_triang _ _)). rewrite Rabs_mult.
      assert (Rabs (q i) * Rabs e <= Rabs (q i) * u) by (apply Rmult_le_compat_l; [apply Rabs_pos|easy]). unfold q in *. lra. }
  assert (Q2 : term_sum (fun i => Rabs (p i)) I <= (1 + u) * A).
  { rewrite EA, <- (Rplus_0_r ((1 + u) * _)). 
    apply (Rle_trans _ (term_sum (fun i => (1 + u) * Rabs (q i) + 0 * 0) I)); [|rewrite (term_sum_lin (fun i => Rabs (q i)) (fun _ => 0) (1 + u) 0); unfold q; lra].
    apply term_sum_le. intros i Hi. destruct (Pi i Hi) as (e & E & He). fold (p i) in E. fold (q i) in E. rewrite E, Rabs_mult.
    assert (Rabs (1 + e) <= 1 + u) by (apply Rabs_le_inv in He; apply Rabs_le; lra).
    assert (Rabs (q i) * Rabs (1 + e) <= Rabs (q i) * (1 + u)) by (apply Rmult_le_compat_l; [apply Rabs_pos|easy]). lra. }
  set (N := B2R (fsum o (map2 fmul ivar flux))) in *.
  assert (NS : Rabs (N - S) <= a * A).
  { replace (N - S) with ((N - term_sum p I) + (term_sum p I - S)) by ring. apply (Rle_trans _ _ _ (Rabs_triang _ _)).
    assert (P1 : 1 <= (1 + u) ^ d) by (apply pow_R1_Rle; lra).
    assert (R1 : Rabs (N - term_sum p I) <= ((1 + u) ^ d - 1) * ((1 + u) * A)).
    { apply (Rle_trans _ _ _ EN). apply Rmult_le_compat_l; [lra|exact Q2]. }
    pose proof (PU (d + 1)%nat ltac:(lia)) as P2. rewrite Nat.add_1_r in P2. cbn [pow] in P2.
    apply (Rle_trans _ (((1 + u) * (1 + u) ^ d - 1) * A)); [lra|apply Rmult_le_compat_r; lra]. }
  assert (R : rounds (fdiv (fsum o (map2 fmul ivar flux)) (fadd (fsum o ivar) fzero)) (N / V)).
  { unfold N, V. rewrite <- Ez. apply div_rounds; auto. rewrite Ez. fold V. lra. }
  rewrite (rounds_fin _ _ R Ff). destruct (rnd_err (N / V)) as (e & h & -> & He & Hh).
  assert (IW : 0 < / W) by (apply Rinv_0_lt_compat; lra). assert (IV : 0 < / V) by (apply Rinv_0_lt_compat; lra).
  assert (IVW : / V <= 2 * / W).
  { apply (Rmult_le_reg_r (V * W)); [nra|]. replace (/ V * (V * W)) with W by (field; lra). replace (2 * / W * (V * W)) with (2 * V) by (field; lra). lra. }
  replace (N / V * (1 + e) + h - S / W) with ((N - S) * / V + S * ((W - V) * / W) * / V + N * / V * e + h) by (field; lra).
  assert (B1 : Rabs ((N - S) * / V) <= a * A * (2 * / W)).
  { rewrite Rabs_mult, (Rabs_pos_eq (/ V)) by lra. apply Rmult_le_compat; auto using Rabs_pos; lra. }
  assert (B2 : Rabs (S * ((W - V) * / W) * / V) <= A * a * (2 * / W)).
  { rewrite !Rabs_mult, (Rabs_pos_eq (/ V)), (Rabs_pos_eq (/ W)) by lra.
    assert (Rabs (W - V) * / W <= a).
    { apply (Rmult_le_reg_r W); [lra|]. rewrite Rmult_assoc, Rinv_l, Rmult_1_r by lra. apply Rabs_le. lra. }
    apply Rmult_le_compat; auto; try lra.
    - apply Rmult_le_pos; [apply Rabs_pos|]. apply Rmult_le_pos; [apply Rabs_pos|lra].
    - apply Rmult_le_compat; auto using Rabs_pos. apply Rmult_le_pos; [apply Rabs_pos|lra]. }
  assert (NA : Rabs N <= 2 * A).
  { replace N with ((N - S) + S) by ring. apply (Rle_trans _ _ _ (Rabs_triang _ _)). assert (a * A <= 1 * A) by (apply Rmult_le_compat_r; lra). lra. }
  assert (B3 : Rabs (N * / V * e) <= 2 * A * (2 * / W) * u).
  { rewrite !Rabs_mult, (Rabs_pos_eq (/ V)) by lra. apply Rmult_le_compat; auto using Rabs_pos.
    - apply Rmult_le_pos; [apply Rabs_pos|lra].
    - apply Rmult_le_compat; auto using Rabs_pos; lra. }
  apply (Rle_trans _ (a * A * (2 * / W) + A * a * (2 * / W) + 2 * A * (2 * / W) * u + eta / 2)).
  { repeat (apply (Rle_trans _ _ _ (Rabs_triang _ _)); apply Rplus_le_compat; [|assumption]). assumption. }
  assert (E2 : INR (d + 2) = n + 1) by (unfold n; rewrite !plus_INR; cbn [INR]; lra).
  rewrite E2. unfold a, Rdiv. assert (0 <= A * / W * u) by (apply Rmult_le_pos; [apply Rmult_le_pos; lra|lra]). lra.
Qed.
