(* Rebinning commutes with linear combinations of any number of basis vectors. *)
From Coq Require Import Reals Qreals Lra Psatz.
From Coquelicot Require Import Coquelicot.
From Verif Require Import Prelude PreludeFacts Facts2 Model_Fitz Proof_Fitz Model_Rebin Spec_Rebin Proof_Rebin Proof_Rebin2 Proof_RebinGPU Proof_Rebin3 Props_Rebin Model_Zscan Model_Dist Model_Targets Model_Targets2.
Open Scope nat_scope.
Local Arguments Qred : simpl never.

Fixpoint Fsum (X : list Q) (ys : list (list Q)) (c : list Q) (t : R) : R :=
  match ys, c with y :: ys', a :: c' => (Q2R a * itp X y t + 1 * Fsum X ys' c' t)%R | _, _ => 0%R end.
Definition comb_at (ys : list (list Q)) (c : list Q) (k : nat) : Q := sumQ (map2 Qmult (map (fun row => nth k row 0%Q) ys) c).
Lemma comb_at_cons y ys a c k : comb_at (y :: ys) (a :: c) k = (nth k y 0 * a + comb_at ys c k)%Q.
Proof. reflexivity. Qed.
Lemma Q2R_0' : Q2R 0 = 0%R. Proof. apply RMicromega.Q2R_0. Qed.
Lemma Fsum_interp X : strictly_increasing X -> forall ys c, length ys = length c -> (forall y, In y ys -> length y = length X) ->
  forall k t, S k < length X -> (Q2R (nth k X 0%Q) <= t <= Q2R (nth (S k) X 0%Q))%R ->
  Fsum X ys c t = (Q2R (comb_at ys c k) + (t - Q2R (nth k X 0%Q)) * (Q2R (comb_at ys c (S k)) - Q2R (comb_at ys c k)) / (Q2R (nth (S k) X 0%Q) - Q2R (nth k X 0%Q)))%R.
Proof.
  intros HX. assert (Hd : forall k, S k < length X -> (Q2R (nth k X 0%Q) < Q2R (nth (S k) X 0%Q))%R) by (intros k Hk; apply Qlt_Rlt, HX; lia).
  induction ys as [|y ys IH]; intros [|a c] Hl Hy k t Hk Ht; try discriminate Hl; specialize (Hd k Hk).
  - cbn [Fsum]. unfold comb_at. cbn [map map2]. unfold sumQ. cbn [fold_right]. rewrite Q2R_0'. field. Lra.lra.
  - cbn [Fsum]. rewrite (IH c ltac:(cbn in Hl; lia) (fun y' H => Hy y' (or_intror H)) k t Hk Ht).
    assert (F1 : interpolates (itp X y) X y) by (apply interp_exists; [exact HX|apply Hy; now left]).
    rewrite (F1 k t Hk Ht). rewrite !comb_at_cons, !Q2R_plus, !Q2R_mult. field. Lra.lra.
Qed.
Lemma Fsum_int X a b i : forall ys c cols, Forall2 (fun y col => is_RInt (itp X y) (Q2R a) (Q2R b) (Q2R (nth i col 0 * (b - a))%Q)) ys cols -> length ys = length c ->
  is_RInt (Fsum X ys c) (Q2R a) (Q2R b) (Q2R (comb_at cols c i * (b - a))).
Proof.
  induction ys as [|y ys IH]; intros [|p c] cols H Hl; try discriminate Hl; inversion H; subst.
  - cbn [Fsum]. unfold comb_at. cbn [map map2]. unfold sumQ. cbn [fold_right]. rewrite Q2R_mult, Q2R_0', Rmult_0_l.
    pose proof (is_RInt_const (V := R_NormedModule) (Q2R a) (Q2R b) 0%R) as Hc. unfold scal in Hc; cbn in Hc; unfold mult in Hc; cbn in Hc.
    rewrite Rmult_0_r in Hc. exact Hc.
  - rewrite comb_at_cons. pose proof (is_RInt_lin _ _ _ _ _ _ (Q2R p) 1%R H2 (IH c l' H4 ltac:(cbn in Hl; lia))) as J.
    match goal with |- is_RInt _ _ _ ?v => match type of J with is_RInt _ _ _ ?w => replace v with w; [exact J|] end end.
    rewrite !Q2R_mult, Q2R_plus, !Q2R_mult, !Q2R_minus. ring.
Qed.
Lemma rebin_comb x ys c edges z cols : valid x edges z -> (forall y, In y ys -> length y = length x) -> length ys = length c ->
  Forall2 (fun y col => rebin_1d (redshifted x z) y edges (zeros (length edges - 1)) = Ok col) ys cols ->
  exists out, rebin_1d (redshifted (redshifted x z) 0) (comb ys c (length x)) edges (zeros (length edges - 1)) = Ok out /\
    length out = length edges - 1 /\ forall i, i < length edges - 1 -> (nth i out 0 == comb_at cols c i)%Q.
Proof.
  intros V Hy Hl HC. assert (V0 := V). destruct V0 as (Hx & He & H2 & Hz & H0 & H1). pose proof (valid_len _ _ _ V) as Hlx.
  set (X := redshifted x z). assert (HX : strictly_increasing X) by (apply redshifted_incr; assumption).
  assert (HlX : length X = length x) by apply redshifted_length.
  assert (V' : valid X edges 0).
  { split; [exact HX|]. split; [exact He|]. split; [exact H2|]. split; [lra|]. rewrite HlX. unfold X. rewrite !redshifted_nth by lia. split; lra. }
  assert (Hcl : length (comb ys c (length x)) = length X) by (unfold comb; rewrite map_length, seq_length; lia).
  assert (HF : interpolates (Fsum X ys c) (redshifted X 0) (comb ys c (length x))).
  { intros k t Hk. rewrite redshifted_length in Hk. cbv zeta. rewrite !redshifted_nth by lia.
    assert (E1 : forall v, Q2R (v * (1 + 0))%Q = Q2R v) by (intros v; apply Qeq_eqR; ring). rewrite !E1. intros Ht.
    rewrite (Fsum_interp X HX ys c Hl) with (k := k); [|intros y Hy'; rewrite HlX; now apply Hy|exact Hk|exact Ht].
    assert (E2 : forall j, j < length x -> Q2R (nth j (comb ys c (length x)) 0%Q) = Q2R (comb_at ys c j)).
    { intros j Hj. unfold comb. rewrite nth_tab by exact Hj. unfold dot. apply Qeq_eqR. apply Qred_correct. }
    rewrite !E2 by lia. reflexivity. }
  destruct (rebin_1d_valid _ X _ edges 0 V' Hcl HF) as (out & E & Hlo & HI). exists out. split; [exact E|]. split; [exact Hlo|].
  intros i Hi. specialize (HI i Hi). assert (Hlh : (nth i edges 0 < nth (S i) edges 0)%Q) by (apply He; lia).
  eapply (average_unique _ _ (nth i edges 0%Q) (nth (S i) edges 0%Q)); [reflexivity|exact Hlh|exact HI|].
  apply Fsum_int; [|exact Hl]. clear -HC V Hy Hi HX HlX.
  assert (G : forall y col, In y ys -> rebin_1d (redshifted x z) y edges (zeros (length edges - 1)) = Ok col ->
    is_RInt (itp X y) (Q2R (nth i edges 0%Q)) (Q2R (nth (S i) edges 0%Q)) (Q2R (nth i col 0 * (nth (S i) edges 0 - nth i edges 0))%Q)).
  { intros y col Hin E. destruct (rebin_1d_valid (itp X y) x y edges z V (Hy y Hin)) as (out & E' & _ & HI).
    - apply interp_exists; [exact HX|]. rewrite redshifted_length. now apply Hy.
    - rewrite E in E'. injection E' as <-. now apply HI. }
  clear Hy. induction HC as [|y col ys cols E HC IH]; constructor; [apply G; [now left|exact E]|apply IH; intros; apply G; [now right|assumption]].
Qed.

Definition dotf {A} (f : A -> Q) (s : list A) (c : list Q) : Q := sumQ (map2 Qmult (map f s) c).
Lemma dotf_ext {A} (f g : A -> Q) s : forall c, (forall b, In b s -> (f b == g b)%Q) -> (dotf f s c == dotf g s c)%Q.
Proof.
  induction s as [|a s IH]; intros [|x c] H; try reflexivity. unfold dotf in *. cbn [map map2]. rewrite !sumQ_cons.
  rewrite (H a (or_introl eq_refl)), (IH c) by (intros; apply H; now right). reflexivity.
Qed.
Lemma dotf_add {A} (f g : A -> Q) s : forall c, (dotf (fun b => f b + g b) s c == dotf f s c + dotf g s c)%Q.
Proof.
  induction s as [|a s IH]; intros [|x c]; unfold dotf in *; cbn [map map2]; [reflexivity..|]. rewrite !sumQ_cons, IH. ring.
Qed.
Lemma dotf_scal {A} (f : A -> Q) k s : forall c, (dotf (fun b => k * f b) s c == k * dotf f s c)%Q.
Proof.
  induction s as [|a s IH]; intros [|x c]; unfold dotf in *; cbn [map map2]; try (unfold sumQ; cbn [fold_right]; ring). rewrite !sumQ_cons, IH. ring.
Qed.
Lemma dotf_0 {A} s : forall c, (dotf (fun _ : A => 0) s c == 0)%Q.
Proof. induction s as [|a s IH]; intros [|x c]; unfold dotf in *; cbn [map map2]; [reflexivity..|]. rewrite sumQ_cons, IH. ring. Qed.
Lemma exchange {A} (J : list nat) (s : list A) (v : nat -> Q) (M : nat -> A -> Q) c :
  (dotf (fun b => Qred (sumQ (map (fun jj => v jj * M jj b) J))) s c == sumQ (map (fun jj => v jj * dotf (M jj) s c) J))%Q.
Proof.
  rewrite (dotf_ext _ (fun b => sumQ (map (fun jj => v jj * M jj b)%Q J))) by (intros; apply Qred_correct).
  induction J as [|j J IH]; [apply dotf_0|]. cbn [map]. rewrite sumQ_cons, <- IH.
  rewrite (dotf_ext _ (fun b => v j * M j b + sumQ (map (fun jj => v jj * M jj b) J))%Q) by (intros; now rewrite sumQ_cons).
  rewrite dotf_add, dotf_scal. reflexivity.
Qed.
(* the sparse product of the combination is the combination of the sparse products *)
Lemma csr_comb Rm nb (A : mat) out c : length out = length A -> 
  (forall l, l < length A -> (nth l out 0 == dotf (fun b => nth b (nth l A []) 0) (seq 0 nb) c)%Q) ->
  match csr_dot Rm nb A with
  | Ok B => exists m, csr_vec Rm out = Ok m /\ Forall2 Qeq m (mvec B c)
  | Err e => csr_vec Rm out = Err e
  end.
Proof.
  intros Hl H. unfold csr_dot, csr_vec. unfold vec in *. rewrite Hl. destruct (length A =? r_ncol Rm); [|reflexivity].
  eexists. split; [reflexivity|]. unfold mvec. rewrite map_map. generalize (seq 0 (r_nrow Rm)). intros rows.
  induction rows as [|row rows IH]; cbn [map]; constructor; [|exact IH].
  unfold dot. rewrite Qred_correct. change (map2 Qmult (map ?f ?s) c) with (map2 Qmult (map f s) c).
  unfold csr_row_dot. rewrite Qred_correct. symmetry.
  etransitivity; [apply (exchange _ (seq 0 nb) (fun jj => nth jj (r_val Rm) 0%Q) (fun jj b => nth b (nth (nth jj (r_ind Rm) O) A []) 0%Q) c)|].
  symmetry. apply sumQ_ext. intros j _. set (l := nth j (r_ind Rm) O).
  destruct (Nat.lt_ge_cases l (length A)) as [Hlt|Hge]; [now rewrite (H l Hlt)|].
  rewrite (nth_overflow out) by lia. rewrite (nth_overflow A) by lia.
  rewrite (dotf_ext _ (fun _ => 0%Q)) by (intros b _; destruct b; reflexivity). rewrite dotf_0. reflexivity.
Qed.
