(* Index-sum algebra and the least-squares argument. *)
From Verif Require Import Prelude PreludeFacts Facts2 Model_Fitz Proof_Fitz Model_Dist Model_Zscan Spec_Zscan.
Local Open Scope Q_scope.

Lemma bigsum_ext n f g : (forall i, (i < n)%nat -> f i == g i) -> bigsum n f == bigsum n g.
Proof. induction n; intros H; [reflexivity|]. cbn [bigsum]. rewrite IHn by (intros; apply H; lia). rewrite (H n) by lia. reflexivity. Qed.
Lemma bigsum_plus n f g : bigsum n (fun i => f i + g i) == bigsum n f + bigsum n g.
Proof. induction n; cbn [bigsum]; [lra|rewrite IHn; lra]. Qed.
Lemma bigsum_minus n f g : bigsum n (fun i => f i - g i) == bigsum n f - bigsum n g.
Proof. induction n; cbn [bigsum]; [lra|rewrite IHn; lra]. Qed.
Lemma bigsum_scale n a f : bigsum n (fun i => a * f i) == a * bigsum n f.
Proof. induction n; cbn [bigsum]; [lra|rewrite IHn; lra]. Qed.
Lemma bigsum_scale_r n a f : bigsum n (fun i => f i * a) == bigsum n f * a.
Proof. induction n; cbn [bigsum]; [lra|rewrite IHn; lra]. Qed.
Lemma bigsum_zero n f : (forall i, (i < n)%nat -> f i == 0) -> bigsum n f == 0.
Proof. induction n; intros H; [reflexivity|]. cbn [bigsum]. rewrite IHn by (intros; apply H; lia). rewrite (H n) by lia. lra. Qed.
Lemma bigsum_nonneg n f : (forall i, (i < n)%nat -> 0 <= f i) -> 0 <= bigsum n f.
Proof. induction n; intros H; cbn [bigsum]; [lra|]. assert (0 <= f n) by (apply H; lia). assert (0 <= bigsum n f) by (apply IHn; intros; apply H; lia). lra. Qed.
Lemma bigsum_le n f g : (forall i, (i < n)%nat -> f i <= g i) -> bigsum n f <= bigsum n g.
Proof. induction n; intros H; cbn [bigsum]; [lra|]. assert (f n <= g n) by (apply H; lia). assert (bigsum n f <= bigsum n g) by (apply IHn; intros; apply H; lia). lra. Qed.
Lemma bigsum_swap n m f : bigsum n (fun i => bigsum m (fun j => f i j)) == bigsum m (fun j => bigsum n (fun i => f i j)).
Proof.
  induction n; cbn [bigsum].
  - symmetry. apply bigsum_zero. reflexivity.
  - rewrite IHn, <- bigsum_plus. reflexivity.
Qed.
Lemma bigsum_shift n f : bigsum (S n) f == f O + bigsum n (fun i => f (S i)).
Proof. induction n; [cbn [bigsum]; lra|]. change (bigsum (S (S n)) f) with (bigsum (S n) f + f (S n)). rewrite IHn. cbn [bigsum]. lra. Qed.
Lemma bigsum_all_zero n f : (forall i, (i < n)%nat -> 0 <= f i) -> bigsum n f <= 0 -> forall i, (i < n)%nat -> f i == 0.
Proof.
  induction n; intros Hp Hs i Hi; [lia|]. cbn [bigsum] in Hs.
  assert (0 <= f n) by (apply Hp; lia).
  assert (0 <= bigsum n f) by (apply bigsum_nonneg; intros; apply Hp; lia).
  destruct (Nat.eq_dec i n) as [->|]; [lra|]. apply IHn; [intros; apply Hp; lia|lra|lia].
Qed.
Lemma bigsum_single n f k : (k < n)%nat -> (forall i, (i < n)%nat -> i <> k -> f i == 0) -> bigsum n f == f k.
Proof.
  induction n; intros Hk H; [lia|]. cbn [bigsum]. destruct (Nat.eq_dec k n) as [->|].
  - rewrite bigsum_zero; [lra|]. intros i Hi. apply H; lia.
  - rewrite IHn by (try lia; intros; apply H; lia). rewrite (H n) by lia. lra.
Qed.
Lemma bigsum_extend n m f : (n <= m)%nat -> (forall i, (n <= i < m)%nat -> f i == 0) -> bigsum m f == bigsum n f.
Proof.
  induction m; intros Hl H. { replace n with O by lia. reflexivity. }
  destruct (Nat.eq_dec n (S m)) as [->|]; [reflexivity|]. cbn [bigsum]. rewrite IHm by (try lia; intros; apply H; lia).
  rewrite (H m) by lia. lra.
Qed.
Lemma sumQ_bigsum l : sumQ l == bigsum (length l) (fun i => nth i l 0).
Proof.
  induction l as [|a l IH]; [reflexivity|]. rewrite sumQ_cons. cbn [length]. rewrite bigsum_shift. rewrite IH. reflexivity.
Qed.
Lemma sumQ_map_seq n (f : nat -> Q) : sumQ (map f (seq 0 n)) == bigsum n f.
Proof.
  rewrite sumQ_bigsum, tab_length. apply bigsum_ext. intros i Hi. now rewrite nth_tab.
Qed.

Lemma dot_bigsum a b n : (Nat.min (length a) (length b) <= n)%nat -> dot a b == bigsum n (fun i => at1 a i * at1 b i).
Proof.
  intros H. unfold dot. rewrite Qred_correct, sumQ_bigsum.
  rewrite (bigsum_extend (length (map2 Qmult a b)) n).
  - apply bigsum_ext. intros i Hi. rewrite map2_length in Hi. rewrite (map2_nth _ _ 0 0) by lia. reflexivity.
  - now rewrite map2_length.
  - intros i Hi. rewrite map2_length in Hi. unfold at1.
    destruct (Nat.lt_ge_cases i (length a)).
    + rewrite (nth_overflow b) by lia. lra.
    + rewrite (nth_overflow a) by lia. lra.
Qed.
Lemma dot_canon a b a' b' : sumQ (map2 Qmult a b) == sumQ (map2 Qmult a' b') -> dot a b = dot a' b'.
Proof. intros H. unfold dot. now apply Qred_complete. Qed.

Lemma col_length j A : length (col j A) = length A.
Proof. apply map_length. Qed.
Lemma col_at j A p : at1 (col j A) p = at2 A p j.
Proof.
  unfold at1, at2, col. destruct (Nat.lt_ge_cases p (length A)) as [H|H].
  - rewrite (nth_indep _ 0 ((fun r => nth j r 0) [])) by now rewrite map_length. now rewrite (map_nth (fun r => nth j r 0)).
  - rewrite nth_overflow by now rewrite map_length. rewrite (nth_overflow A) by lia. now destruct j.
Qed.
Lemma mvec_length A x : length (mvec A x) = length A.
Proof. apply map_length. Qed.
Lemma mvec_at nb A x p : (p < length A)%nat -> length x = nb -> at1 (mvec A x) p == model_at nb A x p.
Proof.
  intros Hp Hx. unfold at1, mvec. rewrite (nth_indep _ 0 ((fun r => dot r x) [])) by now rewrite map_length.
  rewrite (map_nth (fun r => dot r x)). unfold model_at. rewrite (dot_bigsum _ _ nb) by lia. reflexivity.
Qed.
Lemma normal_M_at nb w T j k : (j < nb)%nat -> (k < nb)%nat -> length w = length T ->
  at2 (normal_M nb w T) j k == bigsum (length T) (fun p => at2 T p j * (at1 w p * at2 T p k)).
Proof.
  intros Hj Hk Hw. unfold at2 at 1, normal_M. rewrite nth_tab by exact Hj. rewrite nth_tab by exact Hk.
  rewrite (dot_bigsum _ _ (length T)) by (rewrite col_length; lia).
  apply bigsum_ext. intros p Hp. rewrite col_at. unfold at1 at 1. rewrite (map2_nth _ _ 0 0) by (rewrite ?col_length; lia).
  fold (at1 w p) (at1 (col k T) p). now rewrite col_at.
Qed.
Lemma tdot_at nb T v j : (j < nb)%nat -> length v = length T ->
  at1 (tdot nb T v) j == bigsum (length T) (fun p => at2 T p j * at1 v p).
Proof.
  intros Hj Hv. unfold at1 at 1, tdot. rewrite nth_tab by exact Hj.
  rewrite (dot_bigsum _ _ (length T)) by (rewrite col_length; lia). apply bigsum_ext. intros p _. now rewrite col_at.
Qed.
Lemma tdot_length nb T v : length (tdot nb T v) = nb.
Proof. apply tab_length. Qed.
Lemma normal_M_length nb w T : length (normal_M nb w T) = nb.
Proof. apply tab_length. Qed.
Lemma normal_M_rows nb w T : Forall (fun r => length r = nb) (normal_M nb w T).
Proof. apply Forall_forall. intros r Hr. unfold normal_M in Hr. apply in_map_iff in Hr as (j & <- & _). apply tab_length. Qed.

Lemma chi2_of_chi2 nb f w T c : length c = nb -> length w = length T -> length f = length T ->
  chi2_of f (mvec T c) w == chi2 (length T) nb w f T c.
Proof.
  intros Hc Hw Hf. unfold chi2_of, chi2. rewrite (dot_bigsum _ _ (length T)) by lia.
  apply bigsum_ext. intros p Hp. unfold at1 at 1. rewrite (map2_nth _ _ 0 0) by (rewrite ?mvec_length; lia).
  fold (at1 f p) (at1 (mvec T c) p). rewrite (mvec_at nb) by assumption. lra.
Qed.
Lemma chi2_of_nonneg f m w : nonneg w -> 0 <= chi2_of f m w.
Proof.
  intros Hw. unfold chi2_of, dot. rewrite Qred_correct. apply sumQ_nonneg.
  apply Forall_forall. intros x Hx. apply (In_nth _ _ 0) in Hx as (i & Hi & <-). rewrite map2_length in Hi.
  rewrite (map2_nth _ _ 0 0) by lia. rewrite map2_length in Hi. rewrite (map2_nth _ _ 0 0) by lia.
  apply Qmult_le_0_compat.
  - apply Qsq_nonneg.
  - apply (proj1 (Forall_forall _ _) Hw). apply nth_In. lia.
Qed.

(* least squares: a solution of the (prior-augmented) normal equations minimises
   chi2(c) + c^T P c *)
Section LSQ.
Variables (npix nb : nat) (w f : nat -> Q) (T P : nat -> nat -> Q).
Let mdl (c : nat -> Q) p := bigsum nb (fun j => T p j * c j).
Let c2 (c : nat -> Q) := bigsum npix (fun p => w p * ((f p - mdl c p) * (f p - mdl c p))).
Let qd (c : nat -> Q) := bigsum nb (fun j => bigsum nb (fun k => c j * P j k * c k)).

Lemma mdl_plus x d p : mdl (fun j => x j + d j) p == mdl x p + mdl d p.
Proof.
  unfold mdl. rewrite <- bigsum_plus. apply bigsum_ext. intros; ring.
Qed.
Lemma cross x d : bigsum npix (fun p => w p * (f p - mdl x p) * mdl d p) ==
  bigsum nb (fun j => d j * (bigsum npix (fun p => T p j * (w p * f p)) -
     bigsum nb (fun k => bigsum npix (fun p => T p j * (w p * T p k)) * x k))).
Proof.
  transitivity (bigsum nb (fun j => bigsum npix (fun p => d j * (T p j * (w p * (f p - mdl x p)))))).
  { rewrite bigsum_swap. apply bigsum_ext. intros p Hp. unfold mdl at 2. rewrite <- bigsum_scale. apply bigsum_ext. intros; ring. }
  apply bigsum_ext. intros j Hj. rewrite bigsum_scale. apply Qmult_comp; [reflexivity|].
  transitivity (bigsum npix (fun p => T p j * (w p * f p)) - bigsum npix (fun p => T p j * (w p * mdl x p))).
  { rewrite <- bigsum_minus. apply bigsum_ext. intros; ring. }
  assert (E : bigsum npix (fun p => T p j * (w p * mdl x p)) == bigsum nb (fun k => bigsum npix (fun p => T p j * (w p * T p k)) * x k)).
  { transitivity (bigsum nb (fun k => bigsum npix (fun p => T p j * (w p * T p k) * x k))).
    - rewrite bigsum_swap. apply bigsum_ext. intros p Hp. unfold mdl. rewrite <- !bigsum_scale. apply bigsum_ext. intros; ring.
    - apply bigsum_ext. intros. apply bigsum_scale_r. }
  rewrite E. reflexivity.
Qed.
Hypothesis Hw : forall p, (p < npix)%nat -> 0 <= w p.
Hypothesis Psym : forall j k, (j < nb)%nat -> (k < nb)%nat -> P j k == P k j.
Hypothesis Ppsd : forall c, 0 <= qd c.
Lemma qd_plus x d : qd (fun j => x j + d j) == qd x + qd d + 2 * bigsum nb (fun j => d j * bigsum nb (fun k => P j k * x k)).
Proof.
  unfold qd.
  transitivity (bigsum nb (fun j => bigsum nb (fun k => x j * P j k * x k)) + bigsum nb (fun j => bigsum nb (fun k => d j * P j k * d k))
     + (bigsum nb (fun j => bigsum nb (fun k => d j * P j k * x k)) + bigsum nb (fun j => bigsum nb (fun k => x j * P j k * d k)))).
  { rewrite <- !bigsum_plus. apply bigsum_ext. intros j Hj. rewrite <- !bigsum_plus. apply bigsum_ext. intros; ring. }
  assert (E : bigsum nb (fun j => bigsum nb (fun k => x j * P j k * d k)) == bigsum nb (fun j => bigsum nb (fun k => d j * P j k * x k))).
  { rewrite bigsum_swap. apply bigsum_ext. intros j Hj. apply bigsum_ext. intros k Hk. rewrite (Psym k j) by assumption. ring. }
  rewrite E.
  assert (E2 : bigsum nb (fun j => bigsum nb (fun k => d j * P j k * x k)) == bigsum nb (fun j => d j * bigsum nb (fun k => P j k * x k))).
  { apply bigsum_ext. intros j Hj. rewrite <- bigsum_scale. apply bigsum_ext. intros; ring. }
  rewrite E2. ring.
Qed.
Lemma lsq_optimal x c :
  (forall j, (j < nb)%nat -> bigsum nb (fun k => (bigsum npix (fun p => T p j * (w p * T p k)) + P j k) * x k)
        == bigsum npix (fun p => T p j * (w p * f p))) ->
  c2 x + qd x <= c2 c + qd c.
Proof.
  intros Hn. set (d := fun j => c j - x j).
  assert (Ec : forall p, mdl c p == mdl x p + mdl d p).
  { intros p. rewrite <- mdl_plus. unfold mdl. apply bigsum_ext. intros; unfold d; ring. }
  assert (Eq : qd c == qd (fun j => x j + d j)).
  { unfold qd. apply bigsum_ext. intros. apply bigsum_ext. intros. unfold d. ring. }
  assert (E2 : c2 c == c2 x + bigsum npix (fun p => w p * (mdl d p * mdl d p)) - 2 * bigsum npix (fun p => w p * (f p - mdl x p) * mdl d p)).
  { unfold c2. rewrite <- bigsum_scale, <- bigsum_plus, <- bigsum_minus. apply bigsum_ext. intros p Hp. rewrite Ec. ring. }
  assert (Hz : bigsum npix (fun p => w p * (f p - mdl x p) * mdl d p) == bigsum nb (fun j => d j * bigsum nb (fun k => P j k * x k))).
  { rewrite cross. apply bigsum_ext. intros j Hj. apply Qmult_comp; [reflexivity|]. rewrite <- (Hn j Hj), <- bigsum_minus.
    apply bigsum_ext. intros; ring. }
  assert (0 <= bigsum npix (fun p => w p * (mdl d p * mdl d p))).
  { apply bigsum_nonneg. intros p Hp. apply Qmult_le_0_compat; [now apply Hw|apply Qsq_nonneg]. }
  assert (0 <= qd d) by apply Ppsd.
  rewrite Eq, qd_plus, E2, Hz. lra.
Qed.
End LSQ.
