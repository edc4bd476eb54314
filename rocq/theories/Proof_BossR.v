From Verif Require Import Prelude Model_BossR.
From Coq Require Import Reals Lra Psatz.
Open Scope R_scope.

Lemma rsum_ext k f g : (forall i, (i < k)%nat -> f i = g i) -> rsum k f = rsum k g.
Proof. induction k as [|k IH]; intro H; cbn; [reflexivity|]. rewrite IH by (intros; apply H; lia). now rewrite H by lia. Qed.
Lemma rsum_plus k f g : rsum k (fun i => f i + g i) = rsum k f + rsum k g.
Proof. induction k as [|k IH]; cbn; [lra|]. rewrite IH. lra. Qed.
Lemma rsum_scal k c f : rsum k (fun i => c * f i) = c * rsum k f.
Proof. induction k as [|k IH]; cbn; [lra|]. rewrite IH. lra. Qed.
Lemma rsum_zero k f : (forall i, (i < k)%nat -> f i = 0) -> rsum k f = 0.
Proof. induction k as [|k IH]; intro H; cbn; [reflexivity|]. rewrite IH by (intros; apply H; lia). rewrite H by lia. lra. Qed.
Lemma rsum_nonneg k f : (forall i, (i < k)%nat -> 0 <= f i) -> 0 <= rsum k f.
Proof. induction k as [|k IH]; intro H; cbn; [lra|]. assert (0 <= f k) by (apply H; lia). assert (0 <= rsum k f) by (apply IH; intros; apply H; lia). lra. Qed.
Lemma rsum_pos k f i : (i < k)%nat -> (forall j, (j < k)%nat -> 0 <= f j) -> 0 < f i -> 0 < rsum k f.
Proof.
  induction k as [|k IH]; intros Hi H Hp; [lia|]. cbn. assert (0 <= f k) by (apply H; lia). assert (0 <= rsum k f) by (apply rsum_nonneg; intros; apply H; lia).
  destruct (Nat.eq_dec i k) as [->|N]; [lra|]. assert (0 < rsum k f) by (apply IH; [lia|intros; apply H; lia|exact Hp]). lra.
Qed.
Lemma rsum_swap n m f : rsum n (fun i => rsum m (fun j => f i j)) = rsum m (fun j => rsum n (fun i => f i j)).
Proof.
  induction n as [|n IH]; cbn [rsum]; [symmetry; now apply rsum_zero|]. rewrite IH. now rewrite <- rsum_plus.
Qed.
(* change of index: sum over the diagonals that meet column j = sum over the rows *)
Lemma rsum_app a b f : rsum (a + b) f = rsum a f + rsum b (fun i => f (a + i)%nat).
Proof. induction b as [|b IH]; [rewrite Nat.add_0_r; cbn; lra|]. rewrite Nat.add_succ_r. cbn. rewrite IH. lra. Qed.
Section B.
Variables (n h : nat) (wd : nat -> R).
Notation g := (fun i j => exp (- (IZR (Z.of_nat j - Z.of_nat i) * IZR (Z.of_nat j - Z.of_nat i)) / 2 / (wd j * wd j))).
Definition near (i j : nat) : bool := Z.leb (Z.abs (Z.of_nat j - Z.of_nat i)) (Z.of_nat h).
(* diagonal k meets column j at row j + k - h, when that is a row *)
Lemma raw_at k j : (j < n)%nat -> reso_raw n h wd k j = if (Nat.leb h (j + k) && Nat.ltb (j + k - h) n)%bool then g (j + k - h)%nat j else 0.
Proof.
  intros Hj. unfold reso_raw, diag_len. set (o := (Z.of_nat h - Z.of_nat k)%Z).
  assert (E : (h <= j + k)%nat -> g (j + k - h)%nat j = exp (- (IZR o * IZR o) / 2 / (wd j * wd j))).
  { intro H. cbv beta. replace (Z.of_nat j - Z.of_nat (j + k - h))%Z with o by (unfold o; lia). reflexivity. }
  destruct (Z.ltb_spec o 0).
  - assert (Hk : (h <= j + k)%nat) by (unfold o in *; lia). rewrite (proj2 (Nat.leb_le h (j + k)) Hk). cbn [andb].
    assert (D : Z.abs_nat o = (k - h)%nat) by (unfold o in *; lia). rewrite D.
    destruct (Nat.ltb_spec j (n - (k - h))), (Nat.ltb_spec (j + k - h) n); try lia; [|reflexivity]. symmetry. now apply E.
  - assert (D : Z.abs_nat o = (h - k)%nat) by (unfold o in *; lia). rewrite D.
    destruct (Nat.leb_spec (n - (n - (h - k))) j), (Nat.leb_spec h (j + k)); cbn [andb].
    + destruct (Nat.ltb_spec j n); [|lia]. destruct (Nat.ltb_spec (j + k - h) n); [|unfold o in *; lia]. symmetry. apply E. lia.
    + unfold o in *. lia.
    + unfold o in *. lia.
    + reflexivity.
Qed.
Definition Scol (j : nat) : R := rsum (2 * h + 1) (fun k => reso_raw n h wd k j).
Definition Tcol (j : nat) : R := rsum n (fun i => if near i j then g i j else 0).
Lemma rsum_band a m f p : (forall k, (k < p)%nat -> f k = 0) -> (p + m <= a)%nat -> (forall k, (p + m <= k < a)%nat -> f k = 0) -> rsum a f = rsum m (fun i => f (p + i)%nat).
Proof.
  intros H1 H2 H3. replace a with ((p + m) + (a - (p + m)))%nat by lia. rewrite rsum_app, rsum_app. rewrite (rsum_zero p f H1).
  rewrite (rsum_zero (a - (p + m))) by (intros i Hi; apply H3; lia). lra.
Qed.
Lemma col_sum j : (j < n)%nat -> Scol j = Tcol j.
Proof.
  intro Hj. unfold Scol, Tcol. set (lo := (j - h)%nat). set (m := (Nat.min n (j + h + 1) - lo)%nat).
  rewrite (rsum_band (2 * h + 1) m _ (h - j)%nat).
  - rewrite (rsum_band n m (fun i => if near i j then g i j else 0) lo).
    + apply rsum_ext. intros i Hi. rewrite raw_at by exact Hj. unfold near.
      assert (E1 : Nat.leb h (j + (h - j + i)) = true) by (apply Nat.leb_le; lia). assert (E2 : Nat.ltb (j + (h - j + i) - h) n = true) by (apply Nat.ltb_lt; unfold m, lo in *; lia). rewrite E1, E2. cbn [andb].
      assert (E3 : Z.leb (Z.abs (Z.of_nat j - Z.of_nat (lo + i))) (Z.of_nat h) = true) by (apply Z.leb_le; unfold m, lo in *; lia). rewrite E3.
      replace (j + (h - j + i) - h)%nat with (lo + i)%nat by (unfold lo; lia). reflexivity.
    + intros k Hk. unfold near. destruct (Z.leb_spec (Z.abs (Z.of_nat j - Z.of_nat k)) (Z.of_nat h)); [unfold lo in *; lia|reflexivity].
    + unfold m, lo. lia.
    + intros k Hk. unfold near. destruct (Z.leb_spec (Z.abs (Z.of_nat j - Z.of_nat k)) (Z.of_nat h)); [unfold m, lo in *; lia|reflexivity].
  - intros k Hk. rewrite raw_at by exact Hj. destruct (Nat.leb_spec h (j + k)); [lia|reflexivity].
  - unfold m, lo. lia.
  - intros k Hk. rewrite raw_at by exact Hj. destruct (Nat.leb_spec h (j + k)); [|reflexivity]. destruct (Nat.ltb_spec (j + k - h) n); [unfold m, lo in *; lia|reflexivity].
Qed.
Lemma near_self j : near j j = true.
Proof. unfold near. rewrite Z.sub_diag. apply Z.leb_le. lia. Qed.
Lemma Tcol_pos j : (j < n)%nat -> 0 < Tcol j.
Proof.
  intro Hj. unfold Tcol. apply rsum_pos with (i := j); [exact Hj| |].
  - intros i _. destruct (near i j); [left; apply exp_pos|lra].
  - rewrite near_self. apply exp_pos.
Qed.
Lemma Rmat_at i j : (i < n)%nat -> (j < n)%nat -> Rmat n h wd i j = (if near i j then g i j else 0) / Tcol j.
Proof.
  intros Hi Hj. unfold Rmat, reso. fold (Scol j). rewrite col_sum by exact Hj. unfold near. set (o := (Z.of_nat j - Z.of_nat i)%Z).
  destruct (Z.leb_spec (Z.abs o) (Z.of_nat h)).
  - assert (E : (Z.leb 0 (Z.of_nat h - o) && Z.leb (Z.of_nat h - o) (2 * Z.of_nat h))%bool = true) by (apply andb_true_iff; split; apply Z.leb_le; lia). rewrite E.
    f_equal. rewrite raw_at by exact Hj.
    assert (E1 : Nat.leb h (j + Z.to_nat (Z.of_nat h - o)) = true) by (apply Nat.leb_le; unfold o in *; lia).
    assert (E2 : (j + Z.to_nat (Z.of_nat h - o) - h)%nat = i) by (unfold o in *; lia). rewrite E1, E2. apply Nat.ltb_lt in Hi. rewrite Hi. reflexivity.
  - assert (E : (Z.leb 0 (Z.of_nat h - o) && Z.leb (Z.of_nat h - o) (2 * Z.of_nat h))%bool = false).
    { apply andb_false_iff. destruct (Z_lt_ge_dec o 0); [right; apply Z.leb_gt; lia|left; apply Z.leb_gt; lia]. }
    rewrite E. unfold Rdiv. lra.
Qed.
Lemma column_one j : (j < n)%nat -> rsum n (fun i => Rmat n h wd i j) = 1.
Proof.
  intro Hj. rewrite (rsum_ext n _ (fun i => / Tcol j * (if near i j then g i j else 0))) by (intros i Hi; rewrite Rmat_at by assumption; unfold Rdiv; lra).
  rewrite rsum_scal. fold (Tcol j). apply Rinv_l. pose proof (Tcol_pos j Hj). lra.
Qed.
Lemma flux_kept x : rsum n (apply_R n h wd x) = rsum n x.
Proof.
  unfold apply_R. rewrite rsum_swap. apply rsum_ext. intros j Hj. rewrite (rsum_ext n _ (fun i => x j * Rmat n h wd i j)) by (intros; lra).
  rewrite rsum_scal, column_one by exact Hj. lra.
Qed.
End B.
