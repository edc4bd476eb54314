(* Constrained solvers. *)
From Verif Require Import Prelude PreludeFacts Facts2 Model_Fitz Proof_Fitz Proof_Table Model_Dist Proof_Dist3 Proof_Gather Model_Zscan Spec_Zscan Proof_Zscan Proof_Zscan2 Proof_Zscan3.
Local Open Scope Q_scope.

Section Expand.
Variables (npix nb : nat) (w f : nat -> Q) (T : nat -> nat -> Q).
Let mdl (c : nat -> Q) p := bigsum nb (fun j => T p j * c j).
Let c2 (c : nat -> Q) := bigsum npix (fun p => w p * ((f p - mdl c p) * (f p - mdl c p))).
Let g (x : nat -> Q) j := bigsum npix (fun p => T p j * (w p * f p)) - bigsum nb (fun k => bigsum npix (fun p => T p j * (w p * T p k)) * x k).
Lemma c2_expand x d : c2 (fun j => x j + d j) == c2 x + bigsum npix (fun p => w p * (mdl d p * mdl d p)) - 2 * bigsum nb (fun j => d j * g x j).
Proof.
  transitivity (c2 x + bigsum npix (fun p => w p * (mdl d p * mdl d p)) - 2 * bigsum npix (fun p => w p * (f p - mdl x p) * mdl d p)).
  - unfold c2. rewrite <- bigsum_scale, <- bigsum_plus, <- bigsum_minus. apply bigsum_ext. intros p Hp.
    pose proof (mdl_plus nb T x d p) as E. cbn beta zeta in E. unfold mdl. rewrite E. ring.
  - pose proof (cross npix nb w f T x d) as E. cbn beta zeta in E. unfold mdl, g. rewrite E. reflexivity.
Qed.
Hypothesis Hw : forall p, (p < npix)%nat -> 0 <= w p.
Lemma lsq_converse x : (forall c, c2 x <= c2 c) -> forall j, (j < nb)%nat -> g x j == 0.
Proof.
  intros Hmin.
  set (G := bigsum nb (fun j => g x j * g x j)). set (H := bigsum npix (fun p => w p * (mdl (g x) p * mdl (g x) p))).
  assert (HH : 0 <= H) by (apply bigsum_nonneg; intros p Hp; apply Qmult_le_0_compat; [now apply Hw|apply Qsq_nonneg]).
  assert (Hq : forall t, 0 <= t * t * H - 2 * (t * G)).
  { intros t. pose proof (Hmin (fun j => x j + t * g x j)) as Hm. rewrite (c2_expand x (fun j => t * g x j)) in Hm.
    assert (E1 : bigsum npix (fun p => w p * (mdl (fun j => t * g x j) p * mdl (fun j => t * g x j) p)) == t * t * H).
    { unfold H. rewrite <- bigsum_scale. apply bigsum_ext. intros p _.
      assert (Em : mdl (fun j => t * g x j) p == t * mdl (g x) p) by (unfold mdl; rewrite <- bigsum_scale; apply bigsum_ext; intros; ring).
      rewrite Em. ring. }
    assert (E2 : bigsum nb (fun j => t * g x j * g x j) == t * G).
    { unfold G. rewrite <- bigsum_scale. apply bigsum_ext. intros. ring. }
    rewrite E1, E2 in Hm. lra. }
  assert (HG : G <= 0).
  { destruct (Qlt_le_dec 0 G) as [Hp|]; [|assumption]. exfalso. specialize (Hq (G / (H + 1))).
    assert (Hd : 0 < H + 1) by lra.
    set (t := G / (H + 1)) in *. assert (Et : t * (H + 1) == G) by (unfold t; field; intros E0; lra).
    assert (Ht : 0 < t). { unfold t. apply Qlt_shift_div_l; lra. } clearbody t.
    assert (E : t * t * H - 2 * (t * G) == - (t * t * (H + 2))) by (rewrite <- Et; ring).
    rewrite E in Hq. assert (0 < t * t * (H + 2)). { repeat apply Qmult_lt_0_compat; lra. } lra. }
  intros j Hj.
  assert (Hz : g x j * g x j == 0).
  { apply (bigsum_all_zero nb (fun j => g x j * g x j)); [|exact HG|exact Hj]. intros. apply Qsq_nonneg. }
  apply Qmult_integral in Hz. tauto.
Qed.
End Expand.

Lemma resid_zero_solves M y x : length x = length y -> resid2 M y x <= 0 -> solves M y x.
Proof.
  intros Hl Hr. split; [exact Hl|]. intros r Hr'. unfold resid2 in Hr.
  pose proof (bigsum_all_zero (length y) _ (fun i _ => Qsq_nonneg (bigsum (length y) (fun j => at2 M i j * at1 x j) - at1 y i)) Hr r Hr') as E.
  cbn beta zeta in E. apply Qmult_integral in E. destruct E; lra.
Qed.
Lemma solves_resid_zero M y x : solves M y x -> resid2 M y x == 0.
Proof. intros [_ H]. unfold resid2. apply bigsum_zero. intros r Hr. cbn zeta. rewrite (H r Hr). ring. Qed.

(* an unconstrained minimiser of chi2 solves the normal equations *)
Lemma optimum_solves nb w f T x : nonneg w -> length T = length w -> length w = length f -> length x = nb ->
  (forall c, length c = nb -> chi2 (length T) nb w f T x <= chi2 (length T) nb w f T c) ->
  solves (normal_M nb w T) (tdot nb T (map2 (fun w f => Qred (w * f)) w f)) x.
Proof.
  intros Hw HT Hl Hx Hmin. split; [now rewrite tdot_length|]. rewrite tdot_length. intros r Hr.
  assert (Hp : forall p, (p < length T)%nat -> 0 <= at1 w p).
  { intros p Hp. apply (proj1 (Forall_forall _ _) Hw). apply nth_In. lia. }
  pose proof (lsq_converse (length T) nb (at1 w) (at1 f) (at2 T) Hp (at1 x)) as L. cbn beta zeta in L.
  specialize (L (fun c => ltac:(
     rewrite (bigsum_ext _ (fun p => at1 w p * ((at1 f p - bigsum nb (fun j => at2 T p j * c j)) * (at1 f p - bigsum nb (fun j => at2 T p j * c j))))
       (fun p => at1 w p * ((at1 f p - model_at nb T (map c (seq 0 nb)) p) * (at1 f p - model_at nb T (map c (seq 0 nb)) p))));
     [apply (Hmin (map c (seq 0 nb))); apply tab_length|
      intros p _; assert (E : bigsum nb (fun j => at2 T p j * c j) == model_at nb T (map c (seq 0 nb)) p) by
        (unfold model_at; apply bigsum_ext; intros j Hj; unfold at1; rewrite nth_tab by exact Hj; reflexivity); rewrite E; reflexivity])) r Hr).
  rewrite tdot_at by (rewrite ?map2_length; lia).
  rewrite (bigsum_ext _ (fun p => at2 T p r * at1 (map2 (fun w f => Qred (w * f)) w f) p) (fun p => at2 T p r * (at1 w p * at1 f p)))
    by (intros; rewrite wflux_at by exact Hl; reflexivity).
  rewrite (bigsum_ext _ (fun j => at2 (normal_M nb w T) r j * at1 x j) (fun k => bigsum (length T) (fun p => at2 T p r * (at1 w p * at2 T p k)) * at1 x k)).
  - lra.
  - intros k Hk. rewrite normal_M_at by (assumption || lia). reflexivity.
Qed.

(* chi2 for a single coefficient is a parabola *)
Lemma chi2_single w f T c : length T = length w -> length w = length f ->
  chi2 (length T) 1 w f T [c] == chi2 (length T) 1 w f T [0] + c * c * bigsum (length T) (fun p => at2 T p 0 * (at1 w p * at2 T p 0))
     - 2 * (c * bigsum (length T) (fun p => at2 T p 0 * (at1 w p * at1 f p))).
Proof.
  intros _ _. unfold chi2, model_at, at1 at 3 5 8 10. cbn [bigsum nth].
  rewrite <- !bigsum_scale, <- bigsum_plus, <- bigsum_minus. apply bigsum_ext. intros. ring.
Qed.
Lemma nnls_scalar m v x : 0 <= m -> (m == 0 -> v == 0) -> 0 <= x ->
  (forall c, 0 <= c -> (m * x - v) * (m * x - v) <= (m * c - v) * (m * c - v)) ->
  forall c, 0 <= c -> x * x * m - 2 * (x * v) <= c * c * m - 2 * (c * v).
Proof.
  intros Hm Hmv Hx Hmin c Hc. destruct (Qlt_le_dec 0 m) as [Hp|Hz].
  - destruct (Qlt_le_dec v 0) as [Hv|Hv].
    + specialize (Hmin 0 ltac:(lra)).
      assert (x == 0).
      { destruct (Qlt_le_dec 0 x) as [Hxp|]; [|lra]. exfalso.
        assert (0 < m * x) by (apply Qmult_lt_0_compat; assumption). set (u := m * x) in *. nra. }
      rewrite H. assert (0 <= c * c * m) by (apply Qmult_le_0_compat; [apply Qsq_nonneg|lra]).
      assert (0 <= c * (- v)) by (apply Qmult_le_0_compat; lra). lra.
    + assert (Hd : 0 <= v / m) by (apply Qle_shift_div_l; lra).
      specialize (Hmin (v / m) Hd). assert (E : m * (v / m) == v) by (field; intros E0; lra). rewrite E in Hmin.
      assert (Hs := Qsq_nonneg (m * x - v)).
      assert (Ez : (m * x - v) * (m * x - v) == 0) by lra. apply Qmult_integral in Ez.
      assert (Ev : v == m * x) by (destruct Ez; lra). rewrite Ev.
      assert (0 <= m * ((c - x) * (c - x))) by (apply Qmult_le_0_compat; [lra|apply Qsq_nonneg]).
      nra.
  - assert (Em : m == 0) by lra. rewrite (Hmv Em), Em. lra.
Qed.
Lemma zero_norm_zero_cross w f T n : (forall p, (p < n)%nat -> 0 <= at1 w p) ->
  bigsum n (fun p => at2 T p 0 * (at1 w p * at2 T p 0)) == 0 -> bigsum n (fun p => at2 T p 0 * (at1 w p * at1 f p)) == 0.
Proof.
  intros Hw Hz. apply bigsum_zero. intros p Hp.
  assert (Hnn : forall i, (i < n)%nat -> 0 <= at2 T i 0 * (at1 w i * at2 T i 0)).
  { intros i Hi. assert (E : at2 T i 0 * (at1 w i * at2 T i 0) == at1 w i * (at2 T i 0 * at2 T i 0)) by ring. rewrite E.
    apply Qmult_le_0_compat; [now apply Hw|apply Qsq_nonneg]. }
  assert (E := bigsum_all_zero n _ Hnn ltac:(lra) p Hp). cbn beta in E.
  apply Qmult_integral in E. destruct E as [E|E]; [rewrite E; ring|]. apply Qmult_integral in E. destruct E as [E|E]; rewrite E; ring.
Qed.
