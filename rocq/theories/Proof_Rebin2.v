From Coq Require Import Reals Qreals Lra Psatz.
From Coquelicot Require Import Coquelicot.
From Verif Require Import Prelude PreludeFacts Model_Fitz Model_Rebin Spec_Rebin Facts2 Proof_Rebin.
Open Scope nat_scope.

(* ---------- existence of the interpolant ---------- *)
Fixpoint itp (x y : list Q) (t : R) : R :=
  match x, y with
  | x0 :: ((x1 :: _) as xr), y0 :: ((y1 :: _) as yr) =>
      if Rle_dec t (Q2R x1) then (Q2R y0 + (t - Q2R x0) * (Q2R y1 - Q2R y0) / (Q2R x1 - Q2R x0))%R else itp xr yr t
  | _, _ => 0%R
  end.
Lemma incr_tl a x : strictly_increasing (a :: x) -> strictly_increasing x.
Proof. intros H i j Hij Hj. apply (H (S i) (S j)); cbn; lia. Qed.
Lemma interp_exists x : forall y, strictly_increasing x -> length y = length x -> interpolates (itp x y) x y.
Proof.
  induction x as [|x0 x IH]; intros y Hx Hy k t Hk; [cbn in Hk; lia|].
  destruct x as [|x1 x]; [cbn in Hk; lia|]. destruct y as [|y0 [|y1 y]]; [cbn in Hy; lia..|].
  assert (H01 : (Q2R x0 < Q2R x1)%R) by (apply Qlt_Rlt; apply (Hx 0 1); cbn; lia).
  destruct k as [|k]; cbv zeta; intros [Ha Hb].
  - cbn [nth] in *. cbn [itp]. destruct (Rle_dec t (Q2R x1)); [reflexivity|contradiction].
  - assert (Hy' : length (y1 :: y) = length (x1 :: x)) by (cbn in *; lia).
    specialize (IH (y1 :: y) (incr_tl _ _ Hx) Hy' k t ltac:(cbn in *; lia)). cbv zeta in IH.
    cbn [nth] in Ha, Hb |- *. specialize (IH (conj Ha Hb)).
    cbn [itp]. destruct (Rle_dec t (Q2R x1)) as [Hle|Hgt]; [|exact IH].
    destruct k as [|k].
    + cbn [nth] in *. assert (t = Q2R x1) by Lra.lra. subst t.
      assert (H12 : (Q2R x1 < Q2R (nth 0 x 0%Q))%R) by (apply Qlt_Rlt; apply (Hx 1 2); cbn in *; lia).
      transitivity (Q2R y1); field; Lra.lra.
    + exfalso. assert (H1k : (Q2R x1 < Q2R (nth k x 0%Q))%R).
      { apply Qlt_Rlt. apply (Hx 1 (S (S k))); cbn in *; lia. }
      Lra.lra.
Qed.

(* ---------- all bins ---------- *)
Lemma incr_hd a b l : strictly_increasing (a :: b :: l) -> (a < b)%Q.
Proof. intros H. apply (H 0 1); cbn; lia. Qed.
Lemma last_edge_le e hi rest : strictly_increasing (e :: hi :: rest) ->
  (hi <= nth (length (e :: hi :: rest) - 1) (e :: hi :: rest) 0)%Q.
Proof. intros H. change hi with (nth 1 (e :: hi :: rest) 0%Q) at 1. apply incr_le; [exact H|cbn; lia|cbn; lia]. Qed.

Lemma bins_cons x y lo hi rest r0 rs j : bins x y (lo :: hi :: rest) (r0 :: rs) j =
  do p <- bin x y lo hi j r0; do more <- bins x y (hi :: rest) rs (fst p); Ok (snd p :: more).
Proof. reflexivity. Qed.
Lemma normalise_cons lo hi rest r rs : normalise (lo :: hi :: rest) (r :: rs) =
  do v <- qdiv r (hi - lo); do more <- normalise (hi :: rest) rs; Ok (v :: more).
Proof. reflexivity. Qed.
Lemma bins_spec f x y : interpolates f x y -> strictly_increasing x -> length y = length x ->
  forall edges results j0, strictly_increasing edges -> length results = length edges - 1 ->
  (2 <= length edges -> covers x edges) ->
  (forall k, k < j0 -> k < length x -> (nth k x 0 <= nth 0 edges 0)%Q) ->
  exists out, bins x y edges results j0 = Ok out /\ length out = length results /\
    forall i, i < length results -> exists v, (nth i out 0 == nth i results 0 + v)%Q /\
      is_RInt f (Q2R (nth i edges 0%Q)) (Q2R (nth (S i) edges 0%Q)) (Q2R v).
Proof.
  intros Hf Hx Hy. induction edges as [|lo edges IH]; intros results j0 He Hr Hc Hj0.
  - exists results. cbn in *. split; [reflexivity|]. split; [reflexivity|]. intros; lia.
  - destruct edges as [|hi edges].
    { exists results. cbn in *. split; [reflexivity|]. split; [reflexivity|]. intros; lia. }
    destruct results as [|r0 results]; [cbn in Hr; lia|].
    specialize (Hc ltac:(cbn; lia)). destruct Hc as [Hc0 Hc1].
    destruct (bin_spec f x y Hf Hx Hy lo hi j0 r0) as (j' & v & w & E & Hw & Hj' & Hint).
    + exact Hc0.
    + apply incr_hd in He. exact He.
    + eapply Qle_trans; [apply last_edge_le; exact He|exact Hc1].
    + exact Hj0.
    + rewrite bins_cons, E. cbn [rbind fst snd].
      destruct (IH results j' (incr_tl _ _ He)) as (out & Eo & Hlo & Ho).
      * cbn in *; lia.
      * intros H2. split; [cbn [nth]|].
        -- eapply Qle_trans; [exact Hc0|]. cbn [nth]. apply incr_hd in He. lra.
        -- cbn [length] in *. replace (S (S (length edges)) - 1) with (S (S (length edges) - 1)) in Hc1 by lia. exact Hc1.
      * cbn [nth]. exact Hj'.
      * rewrite Eo. cbn [rbind]. exists (w :: out). split; [reflexivity|]. split; [cbn; lia|].
        intros [|i] Hi; cbn [nth].
        -- exists v. split; [exact Hw|exact Hint].
        -- apply Ho. cbn in Hi; lia.
Qed.

Lemma normalise_spec : forall edges results, strictly_increasing edges -> length results = length edges - 1 ->
  exists out, normalise edges results = Ok out /\ length out = length results /\
    forall i, i < length results -> (nth i out 0 * (nth (S i) edges 0 - nth i edges 0) == nth i results 0)%Q.
Proof.
  induction edges as [|lo edges IH]; intros results He Hr.
  - exists results. cbn in *. split; [reflexivity|]. split; [reflexivity|]. intros; lia.
  - destruct edges as [|hi edges].
    { exists results. cbn in *. split; [reflexivity|]. split; [reflexivity|]. intros; lia. }
    destruct results as [|r0 results]; [cbn in Hr; lia|].
    pose proof (incr_hd _ _ _ He) as Hlh.
    rewrite normalise_cons. unfold qdiv. rewrite (Qsub_neqb lo hi Hlh). cbn [rbind].
    destruct (IH results (incr_tl _ _ He)) as (out & Eo & Hlo & Ho); [cbn in *; lia|].
    rewrite Eo. cbn [rbind]. eexists. split; [reflexivity|]. split; [cbn; lia|].
    intros [|i] Hi; cbn [nth]; [field; lra|]. apply Ho. cbn in Hi; lia.
Qed.

Lemma rebin_1d_spec f x y edges : interpolates f x y -> strictly_increasing x -> length y = length x ->
  strictly_increasing edges -> (2 <= length edges -> covers x edges) ->
  exists out, rebin_1d x y edges (zeros (length edges - 1)) = Ok out /\ length out = length edges - 1 /\
    forall i, i < length edges - 1 ->
      is_RInt f (Q2R (nth i edges 0%Q)) (Q2R (nth (S i) edges 0%Q)) (Q2R (nth i out 0 * (nth (S i) edges 0 - nth i edges 0))%Q).
Proof.
  intros Hf Hx Hy He Hc. unfold rebin_1d.
  destruct (bins_spec f x y Hf Hx Hy edges (zeros (length edges - 1)) 0 He) as (r & Er & Hlr & Hr);
    [apply repeat_length|exact Hc|intros; lia|].
  rewrite Er. cbn [rbind]. unfold zeros in Hlr. rewrite repeat_length in Hlr.
  destruct (normalise_spec edges r He Hlr) as (out & Eo & Hlo & Ho).
  exists out. split; [exact Eo|]. split; [lia|]. intros i Hi.
  destruct (Hr i) as (v & Hv & Hint); [unfold zeros; rewrite repeat_length; exact Hi|].
  specialize (Ho i ltac:(lia)). rewrite Hv in Ho. unfold zeros in Ho. rewrite nth_repeat in Ho. rewrite Qplus_0_l in Ho.
  apply Qeq_eqR in Ho. rewrite Ho. exact Hint.
Qed.

(* ---------- uniqueness ---------- *)
Lemma average_unique (f g : R -> R) a b (u v : Q) : (forall t, (Q2R a <= t <= Q2R b)%R -> f t = g t) -> (a < b)%Q ->
  is_RInt f (Q2R a) (Q2R b) (Q2R (u * (b - a))) -> is_RInt g (Q2R a) (Q2R b) (Q2R (v * (b - a))) -> (u == v)%Q.
Proof.
  intros Hfg Hab Hu Hv.
  assert (HabR : (Q2R a < Q2R b)%R) by (apply Qlt_Rlt; exact Hab).
  assert (Hv' : is_RInt f (Q2R a) (Q2R b) (Q2R (v * (b - a)))).
  { apply (is_RInt_ext g); [|exact Hv]. intros t Ht. rewrite Rmin_left, Rmax_right in Ht by Lra.lra. symmetry. apply Hfg. Lra.lra. }
  assert (E : Q2R (u * (b - a)) = Q2R (v * (b - a))).
  { rewrite <- (is_RInt_unique _ _ _ _ Hu). apply is_RInt_unique. exact Hv'. }
  apply Q2R_inj in E. assert (E2 : (u * (b - a) / (b - a) == v * (b - a) / (b - a))%Q) by (rewrite E; reflexivity).
  rewrite !Qdiv_mult_l in E2 by lra. exact E2.
Qed.

(* which segment a point lies in *)
Lemma segment_of x t : strictly_increasing x -> 2 <= length x ->
  (Q2R (nth 0 x 0%Q) <= t <= Q2R (nth (length x - 1) x 0%Q))%R ->
  exists k, S k < length x /\ (Q2R (nth k x 0%Q) <= t <= Q2R (nth (S k) x 0%Q))%R.
Proof.
  intros Hx H2 [Ha Hb].
  assert (H : forall n, n < length x -> (t <= Q2R (nth n x 0%Q))%R -> 0 < n -> exists k, S k < length x /\ (Q2R (nth k x 0%Q) <= t <= Q2R (nth (S k) x 0%Q))%R).
  { induction n as [|n IH]; intros Hn Ht Hpos; [lia|].
    destruct (Rle_dec (Q2R (nth n x 0%Q)) t) as [Hle|Hgt]; [exists n; split; [exact Hn|split; assumption]|].
    destruct n as [|n]; [contradiction|]. apply IH; [lia|Lra.lra|lia]. }
  apply (H (length x - 1)); [lia|exact Hb|lia].
Qed.

(* two interpolants agree on the range *)
Lemma interp_agree f g x y t : strictly_increasing x -> 2 <= length x -> interpolates f x y -> interpolates g x y ->
  (Q2R (nth 0 x 0%Q) <= t <= Q2R (nth (length x - 1) x 0%Q))%R -> f t = g t.
Proof.
  intros Hx H2 Hf Hg Ht. destruct (segment_of x t Hx H2 Ht) as (k & Hk & Hkt).
  rewrite (Hf k t Hk Hkt), (Hg k t Hk Hkt). reflexivity.
Qed.
(* bounds *)
Lemma interp_bounds f x y m M t : strictly_increasing x -> 2 <= length x -> length y = length x -> interpolates f x y ->
  (forall v, In v y -> (m <= v /\ v <= M)%Q) ->
  (Q2R (nth 0 x 0%Q) <= t <= Q2R (nth (length x - 1) x 0%Q))%R -> (Q2R m <= f t <= Q2R M)%R.
Proof.
  intros Hx H2 Hy Hf Hb Ht. destruct (segment_of x t Hx H2 Ht) as (k & Hk & Hkt).
  rewrite (Hf k t Hk Hkt).
  destruct (Hb (nth k y 0%Q)) as [A1 A2]; [apply nth_In; lia|].
  destruct (Hb (nth (S k) y 0%Q)) as [B1 B2]; [apply nth_In; lia|].
  apply Qle_Rle in A1, A2, B1, B2.
  assert (Hd : (Q2R (nth k x 0%Q) < Q2R (nth (S k) x 0%Q))%R) by (apply Qlt_Rlt, Hx; lia).
  set (a := Q2R (nth k x 0%Q)) in *. set (b := Q2R (nth (S k) x 0%Q)) in *.
  set (u := Q2R (nth k y 0%Q)) in *. set (v := Q2R (nth (S k) y 0%Q)) in *.
  set (s := ((t - a) / (b - a))%R).
  assert (Hs : (0 <= s <= 1)%R).
  { split; unfold s; [apply Rmult_le_pos; [Lra.lra|left; apply Rinv_0_lt_compat; Lra.lra]|].
    apply (Rmult_le_reg_r (b - a)); [Lra.lra|]. field_simplify; Lra.lra. }
  replace (u + (t - a) * (v - u) / (b - a))%R with ((1 - s) * u + s * v)%R by (unfold s; field; Lra.lra).
  split; Psatz.nra.
Qed.
