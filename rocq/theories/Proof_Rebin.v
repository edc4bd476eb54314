From Coq Require Import Reals Qreals Lra.
From Coquelicot Require Import Coquelicot.
From Verif Require Import Prelude PreludeFacts Model_Fitz Model_Rebin Spec_Rebin Facts2.
Open Scope nat_scope.

(* ---------- real facts ---------- *)
Lemma Q2R_div' a b : ~ (b == 0)%Q -> Q2R (a / b) = (Q2R a / Q2R b)%R.
Proof. intros H. unfold Qdiv. rewrite Q2R_mult, Q2R_inv by exact H. reflexivity. Qed.
Lemma Q2R_inj a b : Q2R a = Q2R b -> (a == b)%Q.
Proof. apply eqR_Qeq. Qed.
Lemma Q2R_half : Q2R (1#2) = (1/2)%R.
Proof. unfold Q2R; cbn; Lra.lra. Qed.

Lemma line_RInt (c d a b : R) : is_RInt (fun t => c + d * t)%R a b ((b - a) * ((c + d * a) + (c + d * b)) / 2)%R.
Proof.
  replace ((b - a) * ((c + d * a) + (c + d * b)) / 2)%R with (minus (c * b + d * b * b / 2) (c * a + d * a * a / 2))%R
    by (unfold minus, plus, opp; cbn; field).
  apply (is_RInt_derive (fun t => c * t + d * t * t / 2)%R (fun t => c + d * t)%R).
  - intros t _. auto_derive; [exact I|]. field.
  - intros t _. apply (ex_derive_continuous (fun t => c + d * t)%R). auto_derive. exact I.
Qed.

(* one linear piece *)
Lemma piece f x y k (a b v : Q) : interpolates f x y -> strictly_increasing x -> S k < length x ->
  (nth k x 0 <= a)%Q -> (a <= b)%Q -> (b <= nth (S k) x 0)%Q ->
  let xk := nth k x 0%Q in let xn := nth (S k) x 0%Q in let yk := nth k y 0%Q in let yn := nth (S k) y 0%Q in
  (v == (b - a) * ((yk + (a - xk) * (yn - yk) / (xn - xk)) + (yk + (b - xk) * (yn - yk) / (xn - xk))) / 2)%Q ->
  is_RInt f (Q2R a) (Q2R b) (Q2R v).
Proof.
  intros Hf Hx Hk Ha Hab Hb xk xn yk yn Hv.
  assert (Hd : (xk < xn)%Q) by (apply Hx; lia).
  assert (Hne : ~ (xn - xk == 0)%Q) by lra.
  assert (HdR : (Q2R xk < Q2R xn)%R) by (apply Qlt_Rlt; exact Hd).
  assert (HaR : (Q2R xk <= Q2R a)%R) by (apply Qle_Rle; exact Ha).
  assert (HabR : (Q2R a <= Q2R b)%R) by (apply Qle_Rle; exact Hab).
  assert (HbR : (Q2R b <= Q2R xn)%R) by (apply Qle_Rle; exact Hb).
  set (D := ((Q2R yn - Q2R yk) / (Q2R xn - Q2R xk))%R).
  set (C := (Q2R yk - Q2R xk * D)%R).
  apply (is_RInt_ext (fun t => C + D * t)%R).
  - intros t Ht. rewrite Rmin_left, Rmax_right in Ht by exact HabR.
    specialize (Hf k t Hk). cbv zeta in Hf. fold xk xn yk yn in Hf. 
    assert (E : (C + D * t)%R = f t) by (rewrite Hf by Lra.lra; unfold C, D; field; Lra.lra). exact E.
  - apply Qeq_eqR in Hv. rewrite Hv.
    match type of Hv with _ = ?r => assert (E2 : r = ((Q2R b - Q2R a) * ((C + D * Q2R a) + (C + D * Q2R b)) / 2)%R) end.
    { rewrite Q2R_div' by discriminate. rewrite Q2R_mult, !Q2R_plus, !Q2R_minus, !Q2R_div' by exact Hne.
      rewrite !Q2R_mult, !Q2R_minus. unfold C, D.
      replace (Q2R 2) with 2%R by (unfold Q2R; cbn; Lra.lra). field. Lra.lra. }
    rewrite E2. apply line_RInt.
Qed.

Lemma Qsub_neqb a b : (a < b)%Q -> Qeq_bool (b - a) 0 = false.
Proof. intros H. destruct (Qeq_bool (b - a) 0) eqn:E; [|reflexivity]. apply Qeq_bool_iff in E. lra. Qed.
(* ---------- list access ---------- *)
Lemma get_nth l j : j < length l -> get l j = Ok (nth j l 0%Q).
Proof. intros H. unfold get. rewrite (nth_error_nth' l 0%Q H). reflexivity. Qed.
Lemma get_ok l j v : get l j = Ok v -> j < length l /\ nth j l 0%Q = v.
Proof.
  unfold get. destruct (nth_error l j) eqn:E; [|discriminate]. intros H; injection H as <-.
  split; [apply nth_error_Some; congruence|apply nth_error_nth; exact E].
Qed.
Lemma incr_le x i j : strictly_increasing x -> i <= j -> j < length x -> (nth i x 0 <= nth j x 0)%Q.
Proof.
  intros Hx Hij Hj. destruct (Nat.eq_dec i j) as [->|]; [apply Qle_refl|]. apply Qlt_le_weak, Hx; lia.
Qed.
Lemma incr_lt_inv x i j : strictly_increasing x -> i < length x -> j < length x -> (nth i x 0 < nth j x 0)%Q -> i < j.
Proof.
  intros Hx Hi Hj H. destruct (Nat.lt_ge_cases i j); [assumption|]. exfalso. pose proof (incr_le x j i Hx ltac:(lia) Hi). lra.
Qed.

(* ---------- seek ---------- *)
Lemma seek_spec x e : forall fuel j, length x - j < fuel ->
  (exists k, j <= k /\ k < length x /\ (e < nth k x 0)%Q) ->
  exists j', seek fuel x e j = Ok j' /\ j <= j' /\ j' < length x /\ (e < nth j' x 0)%Q /\
    (forall k, j <= k -> k < j' -> (nth k x 0 <= e)%Q).
Proof.
  induction fuel as [|n IH]; intros j Hf (k & Hk & Hkx & Hke); [lia|].
  cbn [seek]. rewrite get_nth by lia. cbn [rbind]. destruct (Qle_bool (nth j x 0%Q) e) eqn:E.
  - apply Qle_bool_iff in E. assert (j <> k) by (intros ->; lra).
    destruct (IH (S j)) as (j' & H1 & H2 & H3 & H4 & H5); [lia|exists k; split; [lia|split; assumption]|].
    exists j'. split; [exact H1|]. split; [lia|]. split; [exact H3|]. split; [exact H4|].
    intros i Hi Hij. destruct (Nat.eq_dec i j) as [->|]; [exact E|apply H5; lia].
  - exists j. split; [reflexivity|]. split; [lia|]. split; [lia|]. split; [apply Qle_bool_false in E; exact E|lia].
Qed.
(* fuel is never exhausted *)
Lemma seek_no_fuel x e : forall fuel j, length x - j < fuel -> seek fuel x e j <> Err RuntimeError.
Proof.
  induction fuel as [|n IH]; intros j Hf; [lia|]. cbn [seek]. unfold get. destruct (nth_error x j) eqn:E; cbn [rbind]; [|discriminate].
  apply nth_error_Some_lt in E. destruct (Qle_bool _ _); [apply IH; lia|discriminate].
Qed.
Lemma interior_no_fuel x y hi : forall fuel j acc, length x - j < fuel -> interior fuel x y hi j acc <> Err RuntimeError.
Proof.
  induction fuel as [|n IH]; intros j acc Hf; [lia|]. cbn [interior]. unfold get at 1. destruct (nth_error x (j + 1)) eqn:E; cbn [rbind]; [|discriminate].
  apply nth_error_Some_lt in E. destruct (qlt _ _); [|discriminate].
  unfold get. destruct (nth_error y (j + 1)); cbn [rbind]; [|discriminate].
  destruct (nth_error y j); cbn [rbind]; [|discriminate]. destruct (nth_error x j); cbn [rbind]; [|discriminate]. apply IH. lia.
Qed.

(* ---------- interior ---------- *)
Section Bin.
Variables (f : R -> R) (x y : list Q).
Hypothesis Hf : interpolates f x y.
Hypothesis Hx : strictly_increasing x.
Hypothesis Hy : length y = length x.

Lemma interior_spec a hi : (hi <= nth (length x - 1) x 0)%Q -> forall fuel j acc, length x - j < fuel -> j < length x ->
  (nth j x 0 < hi)%Q -> is_RInt f (Q2R a) (Q2R (nth j x 0%Q)) (Q2R acc) ->
  exists j' acc', interior fuel x y hi j acc = Ok (j', acc') /\ j <= j' /\ j' + 1 < length x /\
    (nth j' x 0 < hi)%Q /\ (hi <= nth (j' + 1) x 0)%Q /\ is_RInt f (Q2R a) (Q2R (nth j' x 0%Q)) (Q2R acc').
Proof.
  intros Hhi. induction fuel as [|n IH]; intros j acc Hfu Hj Hlt Hint; [lia|].
  assert (Hj1 : j + 1 < length x).
  { destruct (Nat.eq_dec j (length x - 1)) as [->|]; [lra|lia]. }
  cbn [interior]. rewrite get_nth by exact Hj1. cbn [rbind]. destruct (qlt (nth (j + 1) x 0%Q) hi) eqn:E.
  - apply qlt_iff in E. rewrite !get_nth by lia. cbn [rbind].
    destruct (IH (j + 1) (acc + (1#2) * (nth (j + 1) y 0 + nth j y 0) * (nth (j + 1) x 0 - nth j x 0))%Q) as (j' & acc' & H1 & H2 & H3);
      [lia|lia|exact E| |exists j', acc'; split; [exact H1|]; split; [lia|exact H3]].
    rewrite Q2R_plus. eapply (is_RInt_Chasles f); [exact Hint|].
    replace (j + 1) with (S j) in * by lia.
    assert (Hd : (nth j x 0 < nth (S j) x 0)%Q) by (apply Hx; lia).
    apply (piece f x y j); auto; [apply Qle_refl|lra|apply Qle_refl|]. field. lra.
  - apply qlt_false in E. exists j, acc. split; [reflexivity|]. split; [lia|]. split; [exact Hj1|]. split; [exact Hlt|]. split; [exact E|exact Hint].
Qed.

(* ---------- one bin ---------- *)
Lemma bin_spec lo hi j0 r0 : (nth 0 x 0 <= lo)%Q -> (lo < hi)%Q -> (hi <= nth (length x - 1) x 0)%Q ->
  (forall k, k < j0 -> k < length x -> (nth k x 0 <= lo)%Q) ->
  exists j' v w, bin x y lo hi j0 r0 = Ok (j', w) /\ (w == r0 + v)%Q /\ (forall k, k < j' -> k < length x -> (nth k x 0 <= hi)%Q) /\
     is_RInt f (Q2R lo) (Q2R hi) (Q2R v).
Proof.
  intros H0 Hlh Hhi Hj0.
  assert (Hlen : 0 < length x). { destruct x as [|q xs]; [cbn in *; lra|cbn; lia]. }
  destruct (seek_spec x lo (length x + 1) j0) as (j & Es & Hj & Hjx & Hjlo & Hbet); [lia| |].
  { exists (length x - 1). split; [|split; [lia|lra]].
    destruct (Nat.le_gt_cases j0 (length x - 1)) as [|Hg]; [assumption|]. exfalso.
    specialize (Hj0 (length x - 1) ltac:(lia) ltac:(lia)). lra. }
  assert (Hjpos : 0 < j). { destruct (Nat.eq_dec j 0) as [->|]; [lra|lia]. }
  assert (Hprev : (nth (j - 1) x 0 <= lo)%Q).
  { destruct (Nat.lt_ge_cases (j - 1) j0); [apply Hj0; lia|apply Hbet; lia]. }
  destruct j as [|k]; [lia|]. replace (S k - 1) with k in Hprev by lia.
  assert (Hd : (nth k x 0 < nth (S k) x 0)%Q) by (apply Hx; lia).
  assert (Hne : Qeq_bool (nth (S k) x 0%Q - nth k x 0%Q) 0 = false) by (apply Qsub_neqb; exact Hd).
  unfold bin. rewrite Es. cbn [rbind getm1]. rewrite !get_nth by lia. cbn [rbind].
  unfold qdiv at 1. rewrite Hne. cbn [rbind].
  destruct (qlt (nth (S k) x 0%Q) hi) eqn:E.
  - apply qlt_iff in E.
    set (ye := (nth k y 0 + (lo - nth k x 0) * (nth (S k) y 0 - nth k y 0) / (nth (S k) x 0 - nth k x 0))%Q).
    set (v1 := ((1#2) * (nth (S k) y 0 + ye) * (nth (S k) x 0 - lo))%Q).
    (* run interior with the accumulator r0 + v1; compare with acc v1 *)
    assert (Hshift : forall fuel j acc acc' c, (acc == c + acc')%Q -> forall j1 a1, interior fuel x y hi j acc' = Ok (j1, a1) ->
       exists a2, interior fuel x y hi j acc = Ok (j1, a2) /\ (a2 == c + a1)%Q).
    { clear. induction fuel as [|n IH]; intros j acc acc' c Ha j1 a1 Hi; cbn [interior] in *; [discriminate|].
      destruct (get x (j + 1)); cbn [rbind] in *; [|discriminate]. destruct (qlt _ _).
      - destruct (get y (j + 1)); cbn [rbind] in *; [|discriminate]. destruct (get y j); cbn [rbind] in *; [|discriminate].
        destruct (get x j); cbn [rbind] in *; [|discriminate]. eapply IH; [|exact Hi]. rewrite Ha. ring.
      - injection Hi as <- <-. exists acc. split; [reflexivity|exact Ha]. }
    destruct (interior_spec lo hi Hhi (length x + 1) (S k) v1) as (j' & acc' & Hi & Hle & Hj' & Hlt' & Hge' & Hint); [lia|lia|exact E| |].
    { apply (piece f x y k); auto; [lra|apply Qle_refl|]. unfold v1, ye. field. lra. }
    destruct (Hshift (length x + 1) (S k) (r0 + v1)%Q v1 r0 ltac:(reflexivity) j' acc' Hi) as (a2 & Hi2 & Ha2).
    rewrite Hi2. cbn [rbind].
    rewrite !get_nth by lia. cbn [rbind]. replace (j' + 1) with (S j') in * by lia.
    assert (Hd' : (nth j' x 0 < nth (S j') x 0)%Q) by (apply Hx; lia).
    assert (Hne' : Qeq_bool (nth (S j') x 0%Q - nth j' x 0%Q) 0 = false) by (apply Qsub_neqb; exact Hd').
    unfold qdiv. rewrite Hne'. cbn [rbind].
    eexists j', _, _. split; [reflexivity|]. split.
    { rewrite Ha2. rewrite <- Qplus_assoc. reflexivity. }
    split.
    { intros i Hi' Hix. pose proof (incr_le x i j' Hx ltac:(lia) ltac:(lia)). lra. }
    rewrite Q2R_plus. eapply (is_RInt_Chasles f); [exact Hint|].
    apply (piece f x y j'); auto; [apply Qle_refl|lra|]. field. lra.
  - apply qlt_false in E. unfold qdiv. rewrite Hne. cbn [rbind].
    eexists (S k), _, _. split; [reflexivity|]. split; [reflexivity|]. split.
    { intros i Hi' Hix. pose proof (incr_le x i k Hx ltac:(lia) ltac:(lia)). lra. }
    apply (piece f x y k); auto; [lra|]. field. lra.
Qed.
End Bin.
