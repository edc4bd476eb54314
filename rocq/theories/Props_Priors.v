(* C34, C35: redshift priors. *)
From Coq Require Import Reals Lra Qreals.
From Verif Require Import Prelude PreludeFacts NumX Model_Dist Proof_Dist3 Model_Fitz Spec_Fitz Proof_Fitz Model_Priors Spec_Priors Facts2 Proof_Priors Props_Fitz.
Open Scope nat_scope.

(* ---------------- C34 ---------------- *)
(* a target absent from the table: chi2 unchanged, whatever the prior function *)
Theorem C34_missing_target_unchanged : forall func rows tid z zchi2,
  ~ In tid (map fst rows) ->
  exists out, apply_prior zchi2 (eval func (priors_init rows) tid z) = Ok out /\ Forall2 xeqv zchi2 out.
Proof.
  intros func rows tid z zchi2 H. unfold eval, priors_init. rewrite priors_init_get.
  destruct (find _ (rev rows)) as [[k v]|] eqn:E.
  { exfalso. apply find_some in E as [Hin He]. cbn in He. apply Z.eqb_eq in He as ->.
    apply in_rev in Hin. apply H. apply in_map_iff. exists (tid, v). split; auto. }
  cbn [dget apply_prior]. eexists. split; [reflexivity|].
  induction zchi2 as [|x r IH]; cbn [map]; constructor; [|exact IH].
  destruct x; cbn; auto. ring.
Qed.
(* a target present: exactly its own row is used; when a TARGETID is repeated the last row wins *)
Theorem C34_own_row_used : forall func before tid z0 s0 after z zchi2,
  ~ In tid (map fst after) -> length (func z z0 s0) = length zchi2 ->
  exists out, apply_prior zchi2 (eval func (priors_init (before ++ (tid, (z0, s0)) :: after)) tid z) = Ok out /\
    length out = length zchi2 /\
    forall i, i < length zchi2 -> nth i out NaN = xadd (nth i zchi2 NaN) (nth i (func z z0 s0) NaN).
Proof.
  intros func before tid z0 s0 after z zchi2 H Hl. unfold eval, priors_init. rewrite priors_init_get.
  rewrite rev_app_distr. cbn [rev].
  assert (Hf : forall (f : Z * (Q * Q) -> bool) a b, find f (a ++ b) = match find f a with Some x => Some x | None => find f b end).
  { intros f a b. induction a as [|x a IHa]; [reflexivity|]. cbn. destruct (f x); auto. }
  rewrite !Hf.
  destruct (find _ (rev after)) as [[k v]|] eqn:E.
  { exfalso. apply find_some in E as [Hin He]. cbn in He. apply Z.eqb_eq in He as ->.
    apply in_rev in Hin. apply H. apply in_map_iff. exists (tid, v). split; auto. }
  cbn [find fst]. rewrite Z.eqb_refl. cbn [snd apply_prior]. rewrite Hl, Nat.eqb_refl.
  eexists. split; [reflexivity|]. split; [rewrite map2_length; lia|]. intros i Hi.
  rewrite (map2_nth _ NaN NaN NaN); [reflexivity|lia..].
Qed.
(* applying priors to the scan results: keys, their order and redshift grids are kept *)
Theorem C34_results_keep_shape : forall func p results out, apply_priors func p results = Ok out ->
  map fst out = map fst results /\ map (fun kv => fst (snd kv)) out = map (fun kv => fst (snd kv)) results /\
  (forall i kv kv', nth_error results i = Some kv -> nth_error out i = Some kv' ->
     apply_prior (snd (snd kv)) (eval func p (fst kv) (fst (snd kv))) = Ok (snd (snd kv'))).
Proof.
  intros func p. unfold apply_priors. induction results as [|[k [zz c]] r IH]; intros out H.
  - injection H as <-. split; [reflexivity|]. split; [reflexivity|]. intros [|i] kv kv' H; discriminate.
  - cbn [mapM fst snd] in H. destruct (apply_prior c _) as [c'|e] eqn:E; [|discriminate]. cbn [rbind] in H.
    destruct (mapM _ r) as [r'|e] eqn:Er; [|discriminate]. cbn [rbind] in H. injection H as <-.
    destruct (IH r' eq_refl) as (H1 & H2 & H3). cbn [map fst snd]. rewrite H1, H2.
    split; [reflexivity|]. split; [reflexivity|]. intros [|i] kv kv' Ha Hb; cbn [nth_error] in *.
    + injection Ha as <-. injection Hb as <-. exact E.
    + eapply H3; eassumption.
Qed.
(* gaussian: value, sign, centre, symmetry, growth away from the centre *)
Theorem C34_gaussian : forall z z0 s0, ~ (s0 == 0)%Q ->
  length (gaussian z z0 s0) = length z /\
  forall i, i < length z -> exists v, nth i (gaussian z z0 s0) NaN = Fin v /\
    (0 <= v)%Q /\ (v * (s0 * s0) == (nth i z 0 - z0) * (nth i z 0 - z0))%Q /\
    (v == 0 <-> nth i z 0 == z0)%Q /\
    (forall j w, j < length z -> nth j (gaussian z z0 s0) NaN = Fin w ->
       (Qabs (nth i z 0 - z0) == Qabs (nth j z 0 - z0) -> v == w)%Q).
Proof.
  intros z z0 s0 Hs. split; [apply map_length|].
  assert (Hn : forall i, i < length z -> nth i (gaussian z z0 s0) NaN = Fin ((nth i z 0 - z0) / s0 * ((nth i z 0 - z0) / s0))%Q).
  { intros i Hi. apply nth_error_nth. unfold gaussian. rewrite nth_error_map, (nth_error_nth' z 0%Q Hi). cbn [option_map].
    unfold npdiv. destruct (Qeq_bool s0 0) eqn:E; [apply Qeq_bool_iff in E; contradiction|]. reflexivity. }
  assert (Hv : forall i, (((nth i z 0 - z0) / s0 * ((nth i z 0 - z0) / s0)) * (s0 * s0) == (nth i z 0 - z0) * (nth i z 0 - z0))%Q)
    by (intros; field; exact Hs).
  intros i Hi. eexists. split; [apply Hn; exact Hi|]. split; [apply Qsq_nonneg|]. split; [apply Hv|]. split.
  - split; intros H.
    + specialize (Hv i). rewrite H in Hv. rewrite Qmult_0_l in Hv. symmetry in Hv. apply Qmult_integral in Hv as [Hv|Hv]; lra.
    + rewrite H. field. exact Hs.
  - intros j w Hj Hw Ha. rewrite Hn in Hw by exact Hj. injection Hw as <-.
    assert (Hab : forall a : Q, (a * a == Qabs a * Qabs a)%Q).
    { intros a. destruct (Qlt_le_dec a 0); [rewrite Qabs_neg by lra; ring|rewrite Qabs_pos by lra; reflexivity]. }
    assert (Hsq : ((nth i z 0 - z0) * (nth i z 0 - z0) == (nth j z 0 - z0) * (nth j z 0 - z0))%Q)
      by (rewrite (Hab (nth i z 0 - z0)%Q), Ha, <- Hab; reflexivity).
    transitivity ((nth i z 0 - z0) * (nth i z 0 - z0) / (s0 * s0))%Q; [field; exact Hs|].
    rewrite Hsq. field. exact Hs.
Qed.
(* a zero width destroys chi2 at the centre instead of adding 0 *)
Theorem C34_zero_width_refuted : exists z z0, gaussian z z0 0 = [PInf; NaN; PInf].
Proof. exists [1; 2; 3]%Q, 2%Q. reflexivity. Qed.

(* lorentzien over the reals, priors.py 76-85 (pointwise, s0 <> 0) *)
Definition lorentzien (z z0 s0 : R) : R := (-2 * ln (1 / (1 + ((z - z0) / s0) ^ 2)))%R.
Theorem C34_lorentzien : forall z z0 s0, (s0 <> 0)%R ->
  (0 <= lorentzien z z0 s0)%R /\ (lorentzien z z0 s0 = 0 <-> z = z0)%R /\
  (forall d, lorentzien (z0 + d) z0 s0 = lorentzien (z0 - d) z0 s0)%R /\
  (forall z', Rabs (z - z0) < Rabs (z' - z0) -> lorentzien z z0 s0 < lorentzien z' z0 s0)%R.
Proof.
  intros z z0 s0 Hs.
  assert (E : forall x, lorentzien x z0 s0 = (2 * ln (1 + ((x - z0) / s0) ^ 2))%R).
  { intros x. unfold lorentzien. assert (0 < 1 + ((x - z0) / s0) ^ 2)%R by (pose proof (pow2_ge_0 ((x - z0) / s0)); Lra.lra).
    unfold Rdiv at 1. rewrite Rmult_1_l, ln_Rinv by assumption. ring. }
  assert (Hp : forall x, (0 <= ((x - z0) / s0) ^ 2)%R) by (intros; apply pow2_ge_0).
  assert (Hm : forall a b, (0 <= a -> a < b -> 2 * ln (1 + a) < 2 * ln (1 + b))%R).
  { intros a b Ha Hab. apply Rmult_lt_compat_l; [Lra.lra|]. apply ln_increasing; Lra.lra. }
  assert (Hsq : forall a b, (Rabs (a - z0) < Rabs (b - z0) -> ((a - z0) / s0) ^ 2 < ((b - z0) / s0) ^ 2)%R).
  { intros a b Hab. apply Rsqr_lt_abs_1 in Hab. unfold Rsqr in Hab.
    replace (((a - z0) / s0) ^ 2)%R with ((a - z0) * (a - z0) * (/ s0 * / s0))%R by (field; exact Hs).
    replace (((b - z0) / s0) ^ 2)%R with ((b - z0) * (b - z0) * (/ s0 * / s0))%R by (field; exact Hs).
    apply Rmult_lt_compat_r; [|exact Hab]. assert (/ s0 <> 0)%R by (apply Rinv_neq_0_compat; exact Hs).
    assert (0 < Rsqr (/ s0))%R by (apply Rsqr_pos_lt; assumption). exact H0. }
  assert (H0 : lorentzien z0 z0 s0 = 0%R).
  { rewrite E. replace (((z0 - z0) / s0) ^ 2)%R with 0%R by (field; exact Hs). rewrite Rplus_0_r, ln_1. ring. }
  assert (Hlt : forall z', (Rabs (z - z0) < Rabs (z' - z0) -> lorentzien z z0 s0 < lorentzien z' z0 s0)%R).
  { intros z' H. rewrite !E. apply Hm; [apply Hp|apply Hsq; exact H]. }
  assert (Hpos : (z <> z0 -> 0 < lorentzien z z0 s0)%R).
  { intros Hne. rewrite <- H0. rewrite (E z0), (E z). apply Hm; [apply Hp|]. apply Hsq.
    rewrite Rminus_diag_eq, Rabs_R0 by reflexivity. apply Rabs_pos_lt. Lra.lra. }
  split; [destruct (Req_dec z z0) as [->|Hne]; [rewrite H0; Lra.lra|specialize (Hpos Hne); Lra.lra]|].
  split; [split; [intros Hz; destruct (Req_dec z z0); [assumption|specialize (Hpos H); Lra.lra]|intros ->; exact H0]|].
  split; [|exact Hlt].
  intros d. rewrite !E. do 3 f_equal. field. exact Hs.
Qed.

(* ---------------- C35 ---------------- *)
(* every point that keeps a finite chi2 is inside the window and keeps its own chi2 *)
Theorem C35_finite_points_inside : forall z z0 s0 zchi2 out, increasing z -> length zchi2 = length z ->
  apply_prior zchi2 (PArr (tophat z z0 s0)) = Ok out ->
  forall i q, i < length z -> nth i out NaN = Fin q ->
    in_window z0 s0 (nth i z 0%Q) /\ xeqv (nth i zchi2 NaN) (Fin q).
Proof.
  intros z z0 s0 zchi2 out Hz Hl H i q Hi Hq. unfold apply_prior in H. rewrite tophat_length, Hl, Nat.eqb_refl in H.
  injection H as <-. rewrite (map2_nth _ NaN NaN NaN) in Hq by (rewrite ?tophat_length; lia).
  destruct (tophat_shape z z0 s0 Hz) as [[_ Hn]|(l & r & Hlr & Hw & Hn)].
  - rewrite Hn in Hq by exact Hi. destruct (nth i zchi2 NaN); discriminate.
  - rewrite Hn in Hq by exact Hi.
    destruct ((i =? _) || (i =? _)); [destruct (nth i zchi2 NaN); discriminate|].
    destruct ((l <=? i) && (i <=? r)) eqn:E; [|destruct (nth i zchi2 NaN); discriminate].
    apply andb_prop in E as [E1 E2]. apply Nat.leb_le in E1, E2. split; [apply Hw; [exact Hi|lia]|].
    destruct (nth i zchi2 NaN); try discriminate. injection Hq as <-. cbn. ring.
Qed.

(* When the window lies strictly inside the grid and some grid point is inside it,
   every minimum that find_minima returns lies inside the window, and one of
   them attains the smallest scanned chi2 of the window. *)
Theorem C35_all_minima_inside_partial : forall argsort z z0 s0 zchi2 out,
  argsort_ok argsort -> increasing z -> length zchi2 = length z ->
  (forall c, In c zchi2 -> isfinite c = true) ->
  (exists i, i < length z /\ in_window z0 s0 (nth i z 0%Q)) ->
  ~ in_window z0 s0 (nth 0 z 0%Q) -> ~ in_window z0 s0 (nth (length z - 1) z 0%Q) ->
  apply_prior zchi2 (PArr (tophat z z0 s0)) = Ok out ->
  exists m, find_minima argsort out = Ok m /\ m <> [] /\
    (forall i, In i m -> i < length z /\ in_window z0 s0 (nth i z 0%Q) /\ xeqv (nth i zchi2 NaN) (nth i out NaN)) /\
    (forall j, j < length z -> in_window z0 s0 (nth j z 0%Q) ->
       exists i, In i m /\ xle (nth i zchi2 NaN) (nth j zchi2 NaN) = true).
Proof.
  intros argsort z z0 s0 zchi2 out Ha Hz Hl Hf (i0 & Hi0 & Hw0) Hz0 Hz1 H.
  pose proof H as H'. unfold apply_prior in H. rewrite tophat_length, Hl, Nat.eqb_refl in H. injection H as Ho.
  destruct (tophat_shape z z0 s0 Hz) as [[Hno _]|(l & r & Hlr & Hw & Hn)]; [exfalso; eapply Hno; eassumption|].
  assert (Hl0 : 0 < l). { destruct (Nat.eq_dec l 0) as [->|]; [|lia]. exfalso. apply Hz0. apply Hw; lia. }
  assert (Hr0 : r < length z - 1). { destruct (Nat.eq_dec r (length z - 1)) as [->|]; [|lia]. exfalso. apply Hz1. apply Hw; lia. }
  assert (Hol : length out = length z) by (rewrite <- Ho, map2_length, tophat_length; lia).
  assert (Hfin : forall i, i < length z -> exists q, nth i zchi2 NaN = Fin q).
  { intros i Hi. assert (Hin : In (nth i zchi2 NaN) zchi2) by (apply nth_In; lia). apply Hf in Hin.
    destruct (nth i zchi2 NaN); try discriminate. eauto. }
  assert (Hval : forall i, i < length z ->
    (i < l - 1 -> nth i out NaN = NaN) /\ (i = l - 1 -> nth i out NaN = PInf) /\
    (l <= i <= r -> exists q q', nth i zchi2 NaN = Fin q /\ nth i out NaN = Fin q' /\ (q == q')%Q) /\
    (i = r + 1 -> nth i out NaN = PInf) /\ (r + 1 < i -> nth i out NaN = NaN)).
  { intros i Hi. assert (Eo : nth i out NaN = xadd (nth i zchi2 NaN) (nth i (tophat z z0 s0) NaN)).
    { rewrite <- Ho. apply map2_nth; rewrite ?tophat_length; lia. }
    rewrite Hn in Eo by exact Hi. destruct (Hfin i Hi) as [q Eq]. rewrite Eq in Eo.
    destruct (Nat.eqb_spec r (length z - 1)); [lia|]. destruct (Nat.eqb_spec l 0); [lia|].
    destruct (Nat.eqb_spec i (r + 1)); cbn [orb] in Eo.
    { rewrite Eo. cbn [xadd]. do 4 (split; [first [reflexivity|lia]|]). lia. }
    destruct (Nat.eqb_spec i (l - 1)); cbn [orb] in Eo.
    { rewrite Eo. cbn [xadd]. split; [lia|]. split; [reflexivity|]. split; [lia|]. split; [reflexivity|lia]. }
    destruct (Nat.leb_spec l i); destruct (Nat.leb_spec i r); cbn [andb] in Eo; rewrite Eo; cbn [xadd].
    - split; [lia|]. split; [lia|]. split; [|split; lia]. intros _. rewrite Eq. exists q, (q + 0)%Q. split; [reflexivity|]. split; [reflexivity|ring].
    - split; [lia|]. split; [lia|]. split; [lia|]. split; [lia|reflexivity].
    - split; [reflexivity|]. split; [lia|]. split; [lia|]. split; [lia|reflexivity].
    - lia. }
  destruct (find_minima_ok argsort out Ha) as (m & Em & _ & Hm & _); [intros ->; cbn in Hol; lia|].
  exists m. split; [exact Em|].
  assert (Hins : forall i, In i m -> i < length z /\ l <= i <= r).
  { intros i Hi. apply Hm in Hi as (Hi & Hprev & Hnext). rewrite Hol in Hi. split; [exact Hi|].
    destruct (Hval i Hi) as (V1 & V2 & V3 & V4 & V5).
    assert (Hnn : nth i out NaN <> NaN).
    { intros Ec. rewrite Ec in *. destruct (Nat.eq_dec i 0) as [->|].
      - rewrite Hol in Hnext. specialize (Hnext ltac:(lia)). discriminate.
      - specialize (Hprev ltac:(lia)). discriminate. }
    split.
    - destruct (Nat.lt_trichotomy i (l - 1)) as [A|[A|A]]; [exfalso; auto| |lia]. subst i. exfalso.
      rewrite (V2 eq_refl) in Hnext. replace (l - 1 + 1) with l in Hnext by lia. specialize (Hnext ltac:(lia)).
      destruct (Hval l ltac:(lia)) as (_ & _ & V & _). destruct (V ltac:(lia)) as (q & q' & _ & E & _). rewrite E in Hnext. discriminate.
    - destruct (Nat.lt_trichotomy i (r + 1)) as [A|[A|A]]; [lia| |exfalso; auto]. subst i. exfalso.
      rewrite (V4 eq_refl) in Hprev. replace (r + 1 - 1) with r in Hprev by lia. specialize (Hprev ltac:(lia)).
      destruct (Hval r ltac:(lia)) as (_ & _ & V & _). destruct (V ltac:(lia)) as (q & q' & _ & E & _). rewrite E in Hprev. discriminate. }
  (* the best point of the window is a local minimum *)
  assert (Hbest : forall n, l + n <= r -> exists b, l <= b <= l + n /\ forall j, l <= j <= l + n -> xle (nth b out NaN) (nth j out NaN) = true).
  { induction n as [|n IH]; intros Hn'.
    - exists l. split; [lia|]. intros j Hj. replace j with l by lia. destruct (Hval l ltac:(lia)) as (_ & _ & V & _).
      destruct (V ltac:(lia)) as (q & q' & _ & -> & _). cbn. apply Qle_bool_iff, Qle_refl.
    - destruct (IH ltac:(lia)) as (b & Hb & Hbj).
      destruct (Hval b ltac:(lia)) as (_ & _ & V & _). destruct (V ltac:(lia)) as (qb & qb' & _ & Eb & _).
      destruct (Hval (l + S n) ltac:(lia)) as (_ & _ & V' & _). destruct (V' ltac:(lia)) as (qn & qn' & _ & En & _).
      destruct (Qlt_le_dec qn' qb') as [Hlt|Hle].
      + exists (l + S n). split; [lia|]. intros j Hj. destruct (Nat.eq_dec j (l + S n)) as [->|]; [rewrite En; cbn; apply Qle_bool_iff, Qle_refl|].
        specialize (Hbj j ltac:(lia)). rewrite Eb in Hbj. destruct (Hval j ltac:(lia)) as (_ & _ & V'' & _). destruct (V'' ltac:(lia)) as (qj & qj' & _ & Ej & _).
        rewrite Ej in *. rewrite En. cbn in *. apply Qle_bool_iff in Hbj. apply Qle_bool_iff. lra.
      + exists b. split; [lia|]. intros j Hj. destruct (Nat.eq_dec j (l + S n)) as [->|]; [rewrite Eb, En; cbn; apply Qle_bool_iff; exact Hle|].
        apply Hbj. lia. }
  destruct (Hbest (r - l) ltac:(lia)) as (b & Hb & Hbj). replace (l + (r - l)) with r in * by lia.
  destruct (Hval b ltac:(lia)) as (_ & _ & V & _). destruct (V ltac:(lia)) as (qb & qb' & Ezb & Eb & Eqb).
  assert (Hbm : In b m).
  { apply Hm. split; [lia|]. split; intros Hx.
    - destruct (Nat.eq_dec b l) as [->|].
      + destruct (Hval (l - 1) ltac:(lia)) as (_ & V2 & _). rewrite V2, Eb by reflexivity. reflexivity.
      + apply Hbj. lia.
    - destruct (Nat.eq_dec b r) as [->|].
      + destruct (Hval (r + 1) ltac:(lia)) as (_ & _ & _ & V4 & _). rewrite V4, Eb by reflexivity. reflexivity.
      + apply Hbj. lia. }
  split; [intros Hc; rewrite Hc in Hbm; destruct Hbm|]. split.
  - intros i Hi. destruct (Hins i Hi) as [Hiz Hir]. split; [exact Hiz|]. split; [apply Hw; [exact Hiz|lia]|].
    destruct (Hval i Hiz) as (_ & _ & V' & _). destruct (V' Hir) as (q & q' & -> & -> & Eq). exact Eq.
  - intros j Hj Hwj. apply Hw in Hwj; [|exact Hj]. exists b. split; [exact Hbm|].
    specialize (Hbj j Hwj). destruct (Hval j Hj) as (_ & _ & V' & _). destruct (V' Hwj) as (q & q' & -> & Ej & Eq).
    rewrite Eb, Ej in Hbj. rewrite Ezb. cbn in *. apply Qle_bool_iff in Hbj. apply Qle_bool_iff. lra.
Qed.
(* A window that reaches the first grid point loses it: the best redshift of the
   window (index 0, chi2 1) is overwritten by inf and cannot be found. *)
Theorem C35_edge_point_lost_refuted : exists z z0 s0 zchi2 out,
  increasing z /\ in_window z0 s0 (nth 0 z 0%Q) /\ apply_prior zchi2 (PArr (tophat z z0 s0)) = Ok out /\
  zchi2 = [Fin 1; Fin 2; Fin 3; Fin 4] /\ nth 0 out NaN = PInf /\ find_minima argsort0 out = Ok [1].
Proof.
  exists [0; 1; 2; 3]%Q, (1#2)%Q, 2%Q, [Fin 1; Fin 2; Fin 3; Fin 4]. eexists.
  split; [repeat constructor|]. split; [split; reflexivity|]. split; [reflexivity|]. split; [reflexivity|]. split; reflexivity.
Qed.
(* a single grid point in the window, at the edge: the only minima have chi2 = inf
   and one of them is outside the window *)
Theorem C35_outside_minimum_refuted : exists z z0 s0 zchi2 out,
  increasing z /\ apply_prior zchi2 (PArr (tophat z z0 s0)) = Ok out /\
  find_minima argsort0 out = Ok [0; 1] /\ ~ in_window z0 s0 (nth 1 z 0%Q).
Proof.
  exists [0; 1]%Q, 0%Q, 1%Q, [Fin 1; Fin 2]. eexists. split; [repeat constructor|]. split; [reflexivity|].
  split; [reflexivity|]. intros [_ H]. vm_compute in H. discriminate.
Qed.
(* no grid point in the window: no minimum at all, the template yields no fit *)
Theorem C35_empty_window_no_minimum : forall argsort z z0 s0 zchi2 out, argsort_ok argsort -> increasing z -> 2 <= length z ->
  length zchi2 = length z -> (forall i, i < length z -> ~ in_window z0 s0 (nth i z 0%Q)) ->
  apply_prior zchi2 (PArr (tophat z z0 s0)) = Ok out -> find_minima argsort out = Ok [].
Proof.
  intros argsort z z0 s0 zchi2 out Ha Hz H2 Hl Hno H. unfold apply_prior in H. rewrite tophat_length, Hl, Nat.eqb_refl in H. injection H as Ho.
  assert (Hol : length out = length z) by (rewrite <- Ho, map2_length, tophat_length; lia).
  assert (Hn : forall i, i < length z -> nth i out NaN = NaN).
  { intros i Hi. rewrite <- Ho, (map2_nth _ NaN NaN NaN) by (rewrite ?tophat_length; lia).
    destruct (tophat_shape z z0 s0 Hz) as [[_ Hn]|(l & r & Hlr & Hw & _)].
    - rewrite Hn by exact Hi. destruct (nth i zchi2 NaN); reflexivity.
    - exfalso. apply (Hno l); [lia|]. apply Hw; lia. }
  destruct (find_minima_ok argsort out Ha) as (m & Em & _ & Hm & _); [intros ->; cbn in Hol; lia|].
  rewrite Em. f_equal. destruct m as [|i m]; [reflexivity|]. exfalso.
  destruct (proj1 (Hm i) (or_introl eq_refl)) as (Hi & Hp & Hx). rewrite Hol in *. rewrite Hn in Hp, Hx by exact Hi.
  destruct (Nat.eq_dec i 0) as [->|]; [specialize (Hx ltac:(lia))|specialize (Hp ltac:(lia))]; discriminate.
Qed.
Example C35_ex : exists out, apply_prior [Fin 5; Fin 4; Fin 3; Fin 2; Fin 1] (PArr (tophat [0; 1; 2; 3; 4]%Q 2 3)) = Ok out /\
  out = [PInf; Fin (4 + 0)%Q; Fin (3 + 0)%Q; Fin (2 + 0)%Q; PInf] /\ find_minima argsort0 out = Ok [3].
Proof. eexists. split; [reflexivity|]. split; reflexivity. Qed.

(* ---------------- C28: the error, over the reals ---------------- *)
(* minfit's 1/sqrt(a) is the parabola's width: a = 1/e^2 (C28_recovers_parabola) *)
Theorem C28_error_is_width : forall a e : Q, (0 < e)%Q -> (a == 1 / (e * e))%Q ->
  (/ sqrt (Q2R a) = Q2R e)%R.
Proof.
  intros a e He Ha. apply Qeq_eqR in Ha. rewrite Ha. clear Ha a.
  assert (Hr : (0 < Q2R e)%R) by (apply Qlt_Rlt in He; rewrite RMicromega.Q2R_0 in He; exact He).
  assert (E : Q2R (1 / (e * e)) = (/ Q2R e * / Q2R e)%R).
  { unfold Qdiv. rewrite Q2R_mult, Q2R_inv, Q2R_mult, RMicromega.Q2R_1; [field; Lra.lra|].
    intros Hc. apply Qmult_integral in Hc as [Hc|Hc]; lra. }
  rewrite E, sqrt_square by (left; apply Rinv_0_lt_compat; exact Hr). rewrite Rinv_inv. reflexivity.
Qed.
Print Assumptions C34_missing_target_unchanged.
Print Assumptions C34_gaussian.
Print Assumptions C34_lorentzien.
Print Assumptions C35_finite_points_inside.
Print Assumptions C35_all_minima_inside_partial.
Print Assumptions C35_empty_window_no_minimum.
Print Assumptions C28_error_is_width.
