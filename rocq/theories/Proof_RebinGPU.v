From Coq Require Import Reals Qreals Lra Psatz.
From Coquelicot Require Import Coquelicot.
From Verif Require Import Prelude PreludeFacts Model_Fitz Model_Rebin Spec_Rebin Facts2 Proof_Rebin Proof_Rebin2.
Open Scope nat_scope.

Lemma redshifted_length x z : length (redshifted x z) = length x.
Proof. apply map_length. Qed.
Lemma redshifted_nth x z k : k < length x -> nth k (redshifted x z) 0%Q = (nth k x 0 * (1 + z))%Q.
Proof. intros H. apply nth_error_nth. unfold redshifted. rewrite nth_error_map, (nth_error_nth' x 0%Q H). reflexivity. Qed.
Lemma redshifted_incr x z : (0 < 1 + z)%Q -> strictly_increasing x -> strictly_increasing (redshifted x z).
Proof.
  intros Hz Hx i j Hij Hj. rewrite redshifted_length in Hj. rewrite !redshifted_nth by lia.
  apply Qmult_lt_compat_r; [exact Hz|]. apply Hx; assumption.
Qed.

(* ---------- searchsorted ---------- *)
Lemma ss_spec x v : strictly_increasing x ->
  searchsorted_right x v <= length x /\
  (forall k, k < searchsorted_right x v -> (nth k x 0 <= v)%Q) /\
  (forall k, searchsorted_right x v <= k -> k < length x -> (v < nth k x 0)%Q).
Proof.
  induction x as [|a x IH]; intros Hx; unfold searchsorted_right in *; cbn [filter length].
  - split; [lia|]. split; intros; cbn in *; lia.
  - specialize (IH (incr_tl _ _ Hx)). destruct IH as (I1 & I2 & I3).
    destruct (Qle_bool a v) eqn:E; cbn [length].
    + apply Qle_bool_iff in E. split; [lia|]. split.
      * intros [|k] Hk; cbn [nth]; [exact E|apply I2; lia].
      * intros [|k] Hk Hkl; [lia|cbn [nth]; apply I3; cbn in *; lia].
    + apply Qle_bool_false in E.
      assert (Hall : forall b, In b x -> (v < b)%Q).
      { intros b Hb. destruct (In_nth _ _ 0%Q Hb) as (k & Hk & <-). pose proof (Hx 0 (S k) ltac:(lia) ltac:(cbn; lia)) as H. cbn in H. lra. }
      assert (Hnil : filter (fun xi => Qle_bool xi v) x = []).
      { clear -Hall. induction x as [|b x IH]; [reflexivity|]. cbn [filter].
        assert (Hb : Qle_bool b v = false).
        { destruct (Qle_bool b v) eqn:E; [|reflexivity]. apply Qle_bool_iff in E. specialize (Hall b (or_introl eq_refl)). lra. }
        rewrite Hb. apply IH. intros c Hc. apply Hall. right; exact Hc. }
      rewrite Hnil in *. cbn [length] in *. split; [lia|]. split; [intros; lia|].
      intros [|k] _ Hk; cbn [nth]; [exact E|]. apply Hall, nth_In. cbn in Hk; lia.
Qed.

(* ---------- flat indexing ---------- *)
Lemma concat_uniform {A} (rows : list (list A)) n d : (forall r, In r rows -> length r = n) ->
  forall r c, r < length rows -> c < n -> nth_error (concat rows) (c + r * n) = Some (nth c (nth r rows []) d).
Proof.
  induction rows as [|a rows IH]; intros Hn r c Hr Hc; [cbn in Hr; lia|].
  cbn [concat]. assert (Ha : length a = n) by (apply Hn; left; reflexivity). destruct r as [|r]; cbn [nth].
  - rewrite Nat.mul_0_l, Nat.add_0_r. rewrite nth_error_app1 by lia. apply nth_error_nth'. lia.
  - rewrite nth_error_app2 by lia. replace (c + S r * n - length a) with (c + r * n) by lia.
    apply IH; [intros; apply Hn; right; assumption|cbn in Hr; lia|exact Hc].
Qed.
Lemma chunk_nth {A} (l : list A) d n : forall k q c, length l = k * n -> q < k -> c < n ->
  nth c (nth q (chunk k n l) []) d = nth (c + q * n) l d.
Proof.
  intros k; revert l. induction k as [|k IH]; intros l q c Hl Hq Hc; [lia|].
  cbn [chunk]. destruct q as [|q]; cbn [nth].
  - rewrite Nat.mul_0_l, Nat.add_0_r.
    transitivity (nth c (firstn n l ++ skipn n l) d); [|rewrite firstn_skipn; reflexivity].
    rewrite app_nth1; [reflexivity|]. rewrite firstn_length. lia.
  - rewrite IH; [|rewrite skipn_length; lia|lia|exact Hc].
    transitivity (nth (c + S q * n) (firstn n l ++ skipn n l) d); [|rewrite firstn_skipn; reflexivity].
    rewrite app_nth2; rewrite firstn_length, Nat.min_l by lia; [|lia]. f_equal. lia.
Qed.
Lemma chunk_length {A} n : forall k (l : list A), length (chunk k n l) = k.
Proof. induction k; intros; cbn; auto. Qed.
Lemma chunk_row_length {A} n : forall k (l : list A) r, length l = k * n -> In r (chunk k n l) -> length r = n.
Proof.
  induction k as [|k IH]; intros l r Hl Hr; [destruct Hr|]. cbn [chunk] in Hr. destruct Hr as [<-|Hr].
  - rewrite firstn_length. lia.
  - eapply IH; [|exact Hr]. rewrite skipn_length. lia.
Qed.
Lemma decode nbin nbasis iz ib b : ib < nbin -> b < nbasis ->
  let i := (iz * nbin + ib) * nbasis + b in
  i mod nbasis = b /\ (i mod (nbasis * nbin)) / nbasis = ib /\ i / (nbasis * nbin) = iz /\ i / nbasis = iz * nbin + ib.
Proof.
  intros Hib Hb i.
  assert (H1 : i / nbasis = iz * nbin + ib) by (symmetry; apply (Nat.div_unique _ _ _ b); lia).
  assert (H2 : i mod nbasis = b) by (symmetry; apply (Nat.mod_unique _ _ (iz * nbin + ib)); lia).
  assert (H3 : ib * nbasis + b < nbasis * nbin) by nia.
  assert (H4 : i / (nbasis * nbin) = iz) by (symmetry; apply (Nat.div_unique _ _ _ (ib * nbasis + b)); [exact H3|unfold i; nia]).
  assert (H5 : i mod (nbasis * nbin) = ib * nbasis + b) by (symmetry; apply (Nat.mod_unique _ _ iz); [exact H3|unfold i; nia]).
  split; [exact H2|]. split; [|split; assumption]. rewrite H5. symmetry. apply (Nat.div_unique _ _ _ b); lia.
Qed.

Lemma Qdiv_mul_back s w : ~ (w == 0)%Q -> (s / w * w == s)%Q.
Proof. intros. field. exact H. Qed.
(* ---------- the kernel ---------- *)
Section Kernel.
Variables (f : R -> R) (x y : list Q) (yflat : list Q) (off : nat) (z : Q).
Let X := redshifted x z.
Hypothesis Hz : (0 < 1 + z)%Q.
Hypothesis Hx : strictly_increasing x.
Hypothesis Hy : length y = length x.
Hypothesis Hyf : forall j, j < length y -> nth_error yflat (j + off) = Some (nth j y 0%Q).
Hypothesis Hf : interpolates f X y.

Lemma HX : strictly_increasing X. Proof. apply redshifted_incr; assumption. Qed.
Lemma HlX : length X = length x. Proof. apply redshifted_length. Qed.
Lemma gety j : j < length x -> get yflat (j + off) = Ok (nth j y 0%Q).
Proof. intros H. unfold get. rewrite Hyf by lia. reflexivity. Qed.

Lemma gpu_interior_spec a end_idx : end_idx < length x -> forall fuel j acc, length x - j < fuel -> j < end_idx ->
  is_RInt f (Q2R a) (Q2R (nth j X 0%Q)) (Q2R acc) ->
  exists acc', gpu_interior fuel x yflat (1 + z)%Q end_idx j (j + off) acc = Ok (end_idx - 1, end_idx - 1 + off, acc') /\
    is_RInt f (Q2R a) (Q2R (nth (end_idx - 1) X 0%Q)) (Q2R acc').
Proof.
  intros He. induction fuel as [|n IH]; intros j acc Hfu Hj Hint; [lia|].
  cbn [gpu_interior]. destruct (Nat.ltb_spec (j + 1) end_idx) as [Hlt|Hge].
  - rewrite !get_nth by lia. cbn [rbind]. replace (j + off + 1) with (j + 1 + off) by lia.
    rewrite !gety by lia. cbn [rbind]. apply IH; [lia|lia|].
    rewrite Q2R_plus. eapply (is_RInt_Chasles f); [exact Hint|].
    pose proof (HX j (S j) ltac:(lia)) as Hd. rewrite HlX in Hd. specialize (Hd ltac:(lia)).
    replace (j + 1) with (S j) in * by lia.
    apply (piece f X y j _ _ _ Hf HX); [rewrite HlX; lia|apply Qle_refl|lra|apply Qle_refl|].
    unfold X in *. rewrite !redshifted_nth in * by lia. field. lra.
  - assert (j = end_idx - 1) by lia. subst j. exists acc. split; [reflexivity|exact Hint].
Qed.
End Kernel.

Lemma kernel_spec f x yrow yflat edges zs idx nbin nbasis i iz ib b :
  strictly_increasing x -> strictly_increasing edges -> length yrow = length x ->
  nbin = length edges - 1 -> iz < length zs -> ib < nbin -> b < nbasis ->
  let z := nth iz zs 0%Q in (0 < 1 + z)%Q ->
  i = (iz * nbin + ib) * nbasis + b ->
  interpolates f (redshifted x z) yrow ->
  (forall j, j < length yrow -> nth_error yflat (j + b * length x) = Some (nth j yrow 0%Q)) ->
  (forall k, k <= nbin -> nth_error idx (iz * (nbin + 1) + k) = Some (searchsorted_right x (nth k edges 0 / (1 + z))%Q)) ->
  (nth 0 (redshifted x z) 0 <= nth ib edges 0)%Q -> (nth (S ib) edges 0 < nth (length x - 1) (redshifted x z) 0)%Q ->
  exists v, kernel x yflat edges zs idx nbin nbasis (length x) i = Ok v /\
    is_RInt f (Q2R (nth ib edges 0%Q)) (Q2R (nth (S ib) edges 0%Q)) (Q2R (v * (nth (S ib) edges 0 - nth ib edges 0))%Q).
Proof.
  intros Hx He Hy Hnb Hiz Hib Hb z Hz Hi Hf Hyf Hidx H0 H1.
  destruct (decode nbin nbasis iz ib b Hib Hb) as (D1 & D2 & D3 & D4). rewrite <- Hi in *.
  unfold kernel. rewrite D1, D2, D3, D4. cbv zeta.
  rewrite (get_nth zs iz Hiz). cbn [rbind]. fold z.
  unfold geti. replace (iz * nbin + ib + iz) with (iz * (nbin + 1) + ib) by lia.
  rewrite Hidx by lia. replace (iz * (nbin + 1) + ib + 1) with (iz * (nbin + 1) + (S ib)) by lia. rewrite Hidx by lia. cbn [rbind].
  set (lo := nth ib edges 0%Q) in *. set (hi := nth (S ib) edges 0%Q) in *.
  set (X := redshifted x z) in *.
  assert (HX : strictly_increasing X) by (apply redshifted_incr; assumption).
  assert (HlX : length X = length x) by apply redshifted_length.
  assert (Hlh : (lo < hi)%Q) by (apply He; lia).
  assert (Hlen : 0 < length x). { destruct x as [|q xs]; [cbn in *; lra|cbn; lia]. }
  (* indices *)
  assert (Hidxs : forall v, let s := searchsorted_right x (v / (1 + z))%Q in
     s <= length x /\ (forall k, k < s -> (nth k X 0 <= v)%Q) /\ (forall k, s <= k -> k < length x -> (v < nth k X 0)%Q)).
  { intros v s. destruct (ss_spec x (v / (1 + z))%Q Hx) as (S1 & S2 & S3). fold s in S1, S2, S3.
    split; [exact S1|]. split.
    - intros k Hk. unfold X. rewrite redshifted_nth by lia. specialize (S2 k Hk).
      apply (Qmult_le_compat_r _ _ (1 + z)) in S2; [|lra]. unfold Qdiv in S2. rewrite <- Qmult_assoc, (Qmult_comm (/ _)), Qmult_inv_r, Qmult_1_r in S2 by lra. exact S2.
    - intros k Hk Hkx. unfold X. rewrite redshifted_nth by lia. specialize (S3 k Hk Hkx).
      apply (Qmult_lt_compat_r _ _ (1 + z)) in S3; [|lra]. unfold Qdiv in S3. rewrite <- Qmult_assoc, (Qmult_comm (/ _)), Qmult_inv_r, Qmult_1_r in S3 by lra. exact S3. }
  set (j := searchsorted_right x (lo / (1 + z))%Q). destruct (Hidxs lo) as (J1 & J2 & J3). fold j in J1, J2, J3.
  set (e := searchsorted_right x (hi / (1 + z))%Q). destruct (Hidxs hi) as (E1 & E2 & E3). fold e in E1, E2, E3.
  assert (Hj0 : 0 < j). { destruct (Nat.eq_dec j 0) as [Hc|]; [|lia]. specialize (J3 0 ltac:(lia) ltac:(lia)). lra. }
  assert (Hje : j <= e). { destruct (Nat.le_gt_cases j e); [assumption|]. specialize (J2 e ltac:(lia)). specialize (E3 e ltac:(lia) ltac:(lia)). lra. }
  assert (Hex : e < length x). { destruct (Nat.eq_dec e (length x)) as [Hc|]; [|lia]. specialize (E2 (length x - 1) ltac:(lia)). lra. }
  clearbody j e. destruct j as [|k]; [lia|].
  assert (Hjx : S k < length x) by lia.
  specialize (J2 k ltac:(lia)). specialize (J3 (S k) ltac:(lia) ltac:(lia)).
  assert (Hd : (nth k X 0 < nth (S k) X 0)%Q) by (apply HX; lia).
  rewrite (get_nth x (S k) Hjx). cbn [cget1]. rewrite (get_nth x k) by lia. cbn [rbind].
  assert (Ek : (nth k x 0 * (1 + z))%Q = nth k X 0%Q) by (symmetry; apply redshifted_nth; lia).
  assert (Esk : (nth (S k) x 0 * (1 + z))%Q = nth (S k) X 0%Q) by (symmetry; apply redshifted_nth; lia).
  rewrite Ek, Esk.
  change (S k + b * length x) with (S (k + b * length x)). cbn [cget1].
  assert (Gy : forall j, j < length x -> get yflat (j + b * length x) = Ok (nth j yrow 0%Q)).
  { intros j Hj. unfold get. rewrite Hyf by lia. reflexivity. }
  change (S (k + b * length x)) with (S k + b * length x).
  rewrite (Gy k ltac:(lia)), (Gy (S k) ltac:(lia)). cbn [rbind].
  rewrite (get_nth edges ib) by lia. replace (ib + 1) with (S ib) by lia. rewrite (get_nth edges (S ib)) by lia. cbn [rbind]. fold lo hi.
  destruct (qlt (nth (S k) X 0%Q) hi) eqn:E.
  - apply qlt_iff in E.
    assert (Hse : S k < e). { destruct (Nat.eq_dec (S k) e) as [Hc|]; [|lia]. specialize (E3 (S k) ltac:(lia) ltac:(lia)). lra. }
    match goal with |- context [gpu_interior _ _ _ _ _ _ _ ?a] => set (v1 := a) end.
    destruct (gpu_interior_spec f x yrow yflat (b * length x) z Hz Hx Hy Hyf Hf lo e Hex (length x + 1) (S k) v1) as (acc' & Hi' & Hint); [lia|lia| |].
    { fold X. apply (piece f X yrow k _ _ _ Hf HX); [lia|exact J2|lra|apply Qle_refl|]. unfold v1. field. lra. }
    rewrite Hi'. cbn [rbind]. fold X in Hint.
    rewrite (get_nth x (e - 1)), (get_nth x (e - 1 + 1)) by lia. cbn [rbind].
    rewrite (Gy (e - 1) ltac:(lia)). replace (e - 1 + b * length x + 1) with (e + b * length x) by lia. rewrite (Gy e ltac:(lia)). cbn [rbind].
    replace (e - 1 + 1) with e by lia.
    assert (Ee : (nth e x 0 * (1 + z))%Q = nth e X 0%Q) by (symmetry; apply redshifted_nth; lia).
    assert (Ee1 : (nth (e - 1) x 0 * (1 + z))%Q = nth (e - 1) X 0%Q) by (symmetry; apply redshifted_nth; lia).
    rewrite Ee, Ee1.
    eexists. split; [reflexivity|].
    match goal with |- context [Q2R ((?s / ?w) * ?w')] => assert (Eq : Q2R ((s / w) * w') = Q2R s) by (apply Qeq_eqR; apply Qdiv_mul_back; lra); rewrite Eq end.
    rewrite Q2R_plus. eapply (is_RInt_Chasles f); [exact Hint|].
    destruct e as [|e']; [lia|]. replace (S e' - 1) with e' in * by lia.
    specialize (E2 e' ltac:(lia)). specialize (E3 (S e') ltac:(lia) ltac:(lia)).
    assert (Hd' : (nth e' X 0 < nth (S e') X 0)%Q) by (apply HX; lia).
    apply (piece f X yrow e' _ _ _ Hf HX); [lia|apply Qle_refl|exact E2|lra|]. field. lra.
  - apply qlt_false in E. eexists. split; [reflexivity|].
    match goal with |- context [Q2R ((?s / ?w) * ?w')] => assert (Eq : Q2R ((s / w) * w') = Q2R s) by (apply Qeq_eqR; apply Qdiv_mul_back; lra); rewrite Eq end.
    apply (piece f X yrow k _ _ _ Hf HX); [lia|exact J2|lra|exact E|]. field. lra.
Qed.
