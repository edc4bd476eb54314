(* Rebinning in double precision never reads outside its arrays nor divides by zero. *)
From Verif Require Import Prelude.
From Coq Require Import ZArith Reals Lra Lia List Bool.
From Flocq Require Import Core.Core IEEE754.BinarySingleNaN.
From Verif Require Import Model_Float Model_Float2 Spec_Float Proof_Float Proof_Float2 Proof_Float3.
Import ListNotations.
Open Scope R_scope.

Lemma fget_ok x j : (j < length x)%nat -> fget x j = Ok (nth j x fzero).
Proof. intros H. unfold fget. now rewrite (nth_error_nth' x fzero H). Qed.

Lemma diff_nonzero a b : finite a -> finite b -> B2R a <> B2R b -> Beqb (fsub a b) fzero = false.
Proof.
  intros Fa Fb N. pose proof (sub_rounds a b Fa Fb) as [Nn V].
  destruct (is_finite (fsub a b)) eqn:F.
  - rewrite eqb_fin by (exact F || reflexivity). rewrite (rounds_fin _ _ (sub_rounds a b Fa Fb) F).
    apply Req_bool_false. cbn. intros C. apply diff_zero in C. easy.
  - destruct (fsub a b) as [s|s| |s m e h]; try easy. now destruct s.
Qed.
Lemma fline_ok y0 e x0 dy a b : finite a -> finite b -> B2R a <> B2R b -> exists v, fline y0 e x0 dy (fsub a b) = Ok v.
Proof. intros Fa Fb N. unfold fline, pdiv. rewrite diff_nonzero by easy. cbn. eauto. Qed.

Section Bins.
Variables (x y : list b64).
Hypothesis (Ly : length y = length x) (Fx : Forall finite x).
Local Notation X i := (B2R (nth i x fzero)).
Lemma Fn i : finite (nth i x fzero).
Proof. apply (nth_P finite); [reflexivity|exact Fx]. Qed.

Lemma fseek_ok lo n : finite lo -> forall fuel j, (j <= n)%nat -> (n < length x)%nat -> (n - j < fuel)%nat ->
  B2R lo < X n -> (j = 0%nat \/ X (j - 1) <= B2R lo) ->
  exists k, fseek fuel x lo j = Ok k /\ (k <= n)%nat /\ B2R lo < X k /\ (k = 0%nat \/ X (k - 1) <= B2R lo).
Proof.
  intros Fl. induction fuel as [|fuel IH]; intros j Hj Hn Hf Hb Hp; [lia|]. cbn [fseek].
  rewrite fget_ok by lia. cbn. rewrite leb_fin by (auto using Fn). destruct (Rle_bool_spec (X j) (B2R lo)) as [C|C].
  - assert (j <> n) by (intros ->; lra). apply IH; try lia; try easy. right. now replace (S j - 1)%nat with j by lia.
  - exists j. auto.
Qed.

Lemma finterior_ok hi n : finite hi -> (n < length x)%nat -> B2R hi <= X n -> forall fuel j acc,
  (j <= n)%nat -> (n - j < fuel)%nat -> X j < B2R hi ->
  exists k a, finterior fuel x y hi j acc = Ok (k, a) /\ (j <= k < n)%nat /\ X k < B2R hi <= X (k + 1) /\ (k = j \/ X (k - 1) < B2R hi).
Proof.
  intros Fh Hn Hb. induction fuel as [|fuel IH]; intros j acc Hj Hf Hx; [lia|]. cbn [finterior].
  assert (j <> n) by (intros ->; lra).
  rewrite fget_ok by lia. cbn [rbind]. rewrite ltb_fin by (auto using Fn).
  destruct (Rlt_bool_spec (X (j + 1)) (B2R hi)) as [C|C].
  - rewrite !fget_ok by lia. cbn [rbind]. destruct (IH (j + 1)%nat (fadd acc (trap (nth (j + 1) y fzero) (nth j y fzero) (nth (j + 1) x fzero) (nth j x fzero)))) as (k & a & E & K1 & K2 & K3); try lia; try easy.
    exists k, a. split; [exact E|]. split; [lia|]. split; [easy|]. right.
    destruct K3 as [-> |K3]; [now replace (j + 1 - 1)%nat with j by lia|easy].
  - exists j, acc. repeat split; auto; lia.
Qed.

Lemma fbin_ok lo hi j0 r0 n : finite lo -> finite hi -> B2R lo < B2R hi -> (n < length x)%nat -> B2R hi <= X n ->
  X 0 <= B2R lo -> (j0 <= n)%nat -> (j0 = 0%nat \/ X (j0 - 1) <= B2R lo) ->
  exists j r, fbin x y lo hi j0 r0 = Ok (j, r) /\ (j <= n)%nat /\ X (j - 1) <= B2R hi.
Proof.
  intros Fl Fh L Hn Hb H0 Hj Hp. unfold fbin.
  destruct (fseek_ok lo n Fl (length x + 1) j0 Hj Hn ltac:(lia) ltac:(lra) Hp) as (j & -> & J1 & J2 & J3).
  assert (J0 : j <> 0%nat) by (intros ->; lra). destruct J3 as [J3|J3]; [easy|].
  assert (G : forall v, length v = length x -> fgetm1 v j = Ok (nth (j - 1) v fzero)).
  { intros v Hv. destruct j as [|i]; [easy|]. cbn [fgetm1]. rewrite fget_ok by lia. now replace (S i - 1)%nat with i by lia. }
  cbn [rbind]. rewrite !G by congruence. cbn [rbind]. rewrite !fget_ok by lia. cbn [rbind].
  destruct (fline_ok (nth (j - 1) y fzero) lo (nth (j - 1) x fzero) (fsub (nth j y fzero) (nth (j - 1) y fzero))
    (nth j x fzero) (nth (j - 1) x fzero) (Fn _) (Fn _) ltac:(lra)) as (v & ->). cbn [rbind].
  rewrite ltb_fin by (auto using Fn). destruct (Rlt_bool_spec (X j) (B2R hi)) as [C|C].
  - destruct (finterior_ok hi n Fh Hn Hb (length x + 1) j (fadd r0 (trap (nth j y fzero) v (nth j x fzero) lo)) J1 ltac:(lia) C)
      as (k & a & -> & K1 & K2 & K3). cbn [rbind]. rewrite !fget_ok by lia. cbn [rbind].
    destruct (fline_ok (nth k y fzero) hi (nth k x fzero) (fsub (nth (k + 1) y fzero) (nth k y fzero))
      (nth (k + 1) x fzero) (nth k x fzero) (Fn _) (Fn _) ltac:(lra)) as (v' & ->). cbn [rbind].
    eexists _, _. split; [reflexivity|]. split; [lia|]. destruct K3 as [-> |K3]; lra.
  - destruct (fline_ok (nth j y fzero) lo (nth j x fzero) (fsub (nth j y fzero) (nth (j - 1) y fzero))
      (nth j x fzero) (nth (j - 1) x fzero) (Fn _) (Fn _) ltac:(lra)) as (v1 & ->). cbn [rbind].
    destruct (fline_ok (nth j y fzero) hi (nth j x fzero) (fsub (nth j y fzero) (nth (j - 1) y fzero))
      (nth j x fzero) (nth (j - 1) x fzero) (Fn _) (Fn _) ltac:(lra)) as (v2 & ->). cbn [rbind].
    eexists _, _. split; [reflexivity|]. split; [easy|]. lra.
Qed.

Lemma rising_last a l : rising (a :: l) -> B2R a <= B2R (last (a :: l) fzero).
Proof.
  revert a. induction l as [|b l IH]; intros a H; [cbn; lra|]. inversion H; subst.
  change (last (a :: b :: l) fzero) with (last (b :: l) fzero). specialize (IH b ltac:(easy)). lra.
Qed.
Lemma rising_hd a l : rising (a :: l) -> finite a. Proof. inversion 1; auto. Qed.

Lemma fbins_ok edges : rising edges -> forall j n, (n < length x)%nat -> B2R (last edges fzero) <= X n ->
  X 0 <= B2R (hd fzero edges) -> (j <= n)%nat -> (j = 0%nat \/ X (j - 1) <= B2R (hd fzero edges)) ->
  exists r, fbins x y edges j = Ok r /\ length r = (length edges - 1)%nat.
Proof.
  induction 1 as [|a Fa|a b l Fa L H IH]; intros j n Hn Hb H0 Hj Hp; [exists []; auto|exists []; auto|].
  change (fbins x y (a :: b :: l) j) with (do p <- fbin x y a b j fzero; do more <- fbins x y (b :: l) (fst p); Ok (snd p :: more)).
  cbn [hd] in *. change (last (a :: b :: l) fzero) with (last (b :: l) fzero) in Hb.
  pose proof (rising_last b l H) as RL. pose proof (rising_hd b l H) as Fb.
  destruct (fbin_ok a b j fzero n Fa Fb L Hn (Rle_trans _ _ _ RL Hb) H0 Hj Hp) as (k & r & -> & K1 & K2). cbn [rbind fst snd].
  destruct (IH k n Hn Hb ltac:(lra) K1 (or_intror K2)) as (rs & -> & Lr). cbn [rbind].
  eexists. split; [reflexivity|]. cbn [length] in *. lia.
Qed.
End Bins.

Lemma fnormalise_ok edges : rising edges -> forall r, length r = (length edges - 1)%nat ->
  exists v, fnormalise edges r = Ok v /\ length v = (length edges - 1)%nat.
Proof.
  induction 1 as [|a Fa|a b l Fa L H IH]; intros r Hr; [exists []; auto|exists []; auto|].
  destruct r as [|r rs]; [cbn in Hr; lia|]. cbn [length] in Hr.
  change (fnormalise (a :: b :: l) (r :: rs)) with (do v <- pdiv r (fsub b a); do more <- fnormalise (b :: l) rs; Ok (v :: more)).
  unfold pdiv. rewrite diff_nonzero; [|exact (rising_hd _ _ H)|exact Fa|lra]. cbn [rbind].
  destruct (IH rs ltac:(cbn [length]; lia)) as (v & -> & Lv). cbn [rbind]. eexists. split; [reflexivity|]. cbn [length] in *. lia.
Qed.

Lemma trapz_1d_ok x y edges : length y = length x -> x <> [] -> Forall finite x -> rising edges ->
  B2R (hd fzero x) <= B2R (hd fzero edges) -> B2R (last edges fzero) <= B2R (last x fzero) ->
  exists v, trapz_1d x y edges = Ok v /\ length v = (length edges - 1)%nat.
Proof.
  intros Ly Nx Fx R H1 H2. unfold trapz_1d.
  assert (E0 : hd fzero x = nth 0 x fzero) by now destruct x.
  assert (E1 : last x fzero = nth (length x - 1) x fzero).
  { clear. induction x as [|a [|b l] IH]; [reflexivity|reflexivity|].
    change (last (a :: b :: l) fzero) with (last (b :: l) fzero). rewrite IH. cbn [length]. now rewrite !Nat.sub_succ, !Nat.sub_0_r. }
  assert (Lx : (0 < length x)%nat) by (destruct x; [easy|cbn; lia]).
  rewrite E0 in H1. rewrite E1 in H2.
  destruct (fbins_ok x y Ly Fx edges R 0 (length x - 1) ltac:(lia) H2 H1 ltac:(lia) ltac:(auto)) as (r & -> & Lr). cbn [rbind].
  now apply fnormalise_ok.
Qed.

(* shifting keeps order *)
Lemma rounds_prod_fin a b : within 500 a -> within 500 b -> finite (fmul a b) /\ B2R (fmul a b) = rnd (B2R a * B2R b).
Proof.
  intros [Fa Ba] [Fb Bb]. destruct (pow2 1000 _ _ ltac:(lia) (mul_rounds a b Fa Fb)) as [F _].
  { change 1000%Z with (500 + 500)%Z. rewrite bpow_plus, Rabs_mult. apply Rmult_le_compat; auto using Rabs_pos. }
  split; [exact F|]. now apply rounds_fin with (1 := mul_rounds a b Fa Fb).
Qed.
Lemma one_plus z : within 499 z -> within 500 (fadd (fint 1) z) /\ B2R (fadd (fint 1) z) = rnd (1 + B2R z).
Proof.
  intros [Fz Bz]. destruct one as [F1 E1]. destruct (pow2 500 _ _ ltac:(lia) (add_rounds (fint 1) z F1 Fz)) as [F B].
  { rewrite E1. apply (Rle_trans _ _ _ (Rabs_triang _ _)). rewrite Rabs_R1.
    assert (1 <= bpow radix2 499) by (change 1 with (bpow radix2 0); now apply bpow_le).
    change 500%Z with (1 + 499)%Z. rewrite bpow_plus. change (bpow radix2 1) with 2. lra. }
  split; [split; auto|]. rewrite (rounds_fin _ _ (add_rounds (fint 1) z F1 Fz) F), E1. reflexivity.
Qed.
