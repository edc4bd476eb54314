(* Property theorems C27-C33, C82: the refinement stage. *)
From Verif Require Import Prelude PreludeFacts NumX Model_Fitz Spec_Fitz Proof_Zfind Proof_Fitz Proof_Fitz2 Facts2.

(* a concrete argsort and a concrete polyfit, used only to show that the
   hypotheses below can be met and in the counterexamples *)
Definition argsort0 (l : list xq) : list nat := map fst (isort (fun a b : nat * xq => nple (snd a) (snd b)) (enum l)).
Lemma argsort0_ok : argsort_ok argsort0.
Proof.
  intros l. unfold argsort0. split.
  - eapply Permutation_trans; [apply Permutation_map; symmetry; apply isort_perm|].
    unfold enum. rewrite enum_from_fst. reflexivity.
  - apply StronglySorted_map_inv.
    eapply StronglySorted_in_impl; [|apply isort_sorted].
    + cbn. intros [i a] [j b] Ha Hb H. cbn in *.
      assert (G : forall i a, In (i, a) (isort (fun a b : nat * xq => nple (snd a) (snd b)) (enum l)) -> nth i l NaN = a).
      { intros i' a' Hi. eapply Permutation_in in Hi; [|symmetry; apply isort_perm]. 
        apply enum_in in Hi. apply nth_error_nth, Hi. }
      rewrite (G _ _ Ha), (G _ _ Hb). exact H.
    + intros [i a] [j b]. apply nple_total.
    + intros [i a] [j b] [k c]. apply nple_trans.
Qed.

Definition lagrange3 (x y : list Q) : option (Q * Q * Q) :=
  match x, y with
  | [u; v; w], [p; q; r] =>
      let d1 := ((q - p) / (v - u))%Q in
      let a := (((r - p) / (w - u) - d1) / (w - v))%Q in
      let b := (d1 - a * (u + v))%Q in
      Some (Qred a, Qred b, Qred (p - a * (u * u) - b * u))
  | _, _ => None
  end.
Lemma lagrange3_ok : polyfit3_ok lagrange3.
Proof.
  intros [|u [|v [|w [|xx xr]]]] [|p [|q [|r [|yy yr]]]] Hx Hy H3; try discriminate. clear Hx Hy.
  destruct H3 as (i & j & k & Hi & Hj & Hk & D1 & D2 & D3).
  assert (N1 : ~ (v - u == 0)%Q /\ ~ (w - u == 0)%Q /\ ~ (w - v == 0)%Q).
  { cbn in Hi, Hj, Hk. destruct Hi as [<-|[<-|[<-|[]]]], Hj as [<-|[<-|[<-|[]]]], Hk as [<-|[<-|[<-|[]]]];
      try (exfalso; ((apply D1; reflexivity) || (apply D2; reflexivity) || (apply D3; reflexivity)));
      (split; [|split]; intros Hc; ((apply D1; lra) || (apply D2; lra) || (apply D3; lra))). }
  destruct N1 as (N1 & N2 & N3).
  eexists _, _, _. split; [reflexivity|]. intros a' b' c'.
  pose proof (ssr_nonneg a' b' c' [u; v; w] [p; q; r]) as Hn. eapply Qle_trans; [|exact Hn].
  set (d1 := ((q - p) / (v - u))%Q). set (a := (((r - p) / (w - u) - d1) / (w - v))%Q).
  set (b := (d1 - a * (u + v))%Q). set (c := (p - a * (u * u) - b * u)%Q).
  assert (R1 : (Qred a * (u * u) + Qred b * u + Qred c - p == 0)%Q) by (rewrite !Qred_correct; unfold c; ring).
  assert (R2 : (Qred a * (v * v) + Qred b * v + Qred c - q == 0)%Q) by (rewrite !Qred_correct; unfold c, b, a, d1; field; auto).
  assert (R3 : (Qred a * (w * w) + Qred b * w + Qred c - r == 0)%Q) by (rewrite !Qred_correct; unfold c, b, a, d1; field; auto).
  unfold ssr. cbn [combine map sumQ fold_right fst snd]. cbv zeta. rewrite R1, R2, R3. lra.
Qed.

(* ---------------- C27 ---------------- *)
Theorem C27_find_minima_exact : forall argsort x, argsort_ok argsort -> x <> [] ->
  exists out, find_minima argsort x = Ok out /\ NoDup out /\
    (forall i, In i out <-> local_min x i) /\
    StronglySorted (fun i j => nple (nth i x NaN) (nth j x NaN) = true) out.
Proof. exact find_minima_ok. Qed.
Print Assumptions C27_find_minima_exact.

Theorem C27_first_is_global_minimum : forall argsort x, argsort_ok argsort -> x <> [] ->
  (forall i, i < length x -> isnan (nth i x NaN) = false) ->
  exists i rest, find_minima argsort x = Ok (i :: rest) /\
    i < length x /\ forall j, j < length x -> xle (nth i x NaN) (nth j x NaN) = true.
Proof.
  intros argsort x Ha Hx Hn. destruct (find_minima_ok argsort x Ha Hx) as (out & E & _ & Hin & Hs).
  destruct (global_min_exists x Hx Hn) as (m & Hm & Hmin).
  assert (Hl : In m out).
  { apply Hin. split; [exact Hm|]. split; intros; apply Hmin; lia. }
  destruct out as [|i rest]; [destruct Hl|]. exists i, rest. split; [exact E|].
  assert (Hi : i < length x) by (apply (Hin i); left; reflexivity). split; [exact Hi|].
  assert (Him : xle (nth i x NaN) (nth m x NaN) = true).
  { destruct Hl as [->|Hl]; [apply Hmin, Hm|]. inversion Hs as [|? ? _ Hall]; subst.
    rewrite Forall_forall in Hall. specialize (Hall m Hl). rewrite nple_xle in Hall by auto. exact Hall. }
  intros j Hj. specialize (Hmin j Hj).
  destruct (nth i x NaN), (nth m x NaN), (nth j x NaN); cbn in *; auto; try discriminate.
  apply Qle_bool_iff in Him, Hmin. apply Qle_bool_iff. lra.
Qed.
Print Assumptions C27_first_is_global_minimum.

(* NaN is never reported as a minimum, unless it is the only element *)
Theorem C27_nan_is_no_minimum : forall argsort x out i, argsort_ok argsort -> 2 <= length x ->
  find_minima argsort x = Ok out -> In i out -> isnan (nth i x NaN) = false.
Proof.
  intros argsort x out i Ha Hl E Hi. assert (Hx : x <> []) by (intros ->; cbn in Hl; lia).
  destruct (find_minima_ok argsort x Ha Hx) as (o & E' & _ & Hin & _). rewrite E in E'; injection E' as <-.
  apply Hin in Hi as (H1 & H2 & H3). destruct (nth i x NaN) eqn:En; auto.
  destruct i as [|i]; [specialize (H3 ltac:(lia)); discriminate|specialize (H2 ltac:(lia)); discriminate].
Qed.
Print Assumptions C27_nan_is_no_minimum.

Theorem C27_empty_raises : forall argsort, find_minima argsort [] = Err IndexError.
Proof. exact find_minima_empty. Qed.

Example C27_ex : find_minima argsort0 [Fin 1; Fin 1; Fin 1; Fin 2; Fin 2; Fin 2] = Ok [0; 1; 2; 4; 5].
Proof. reflexivity. Qed.
Example C27_ex2 : find_minima argsort0 [Fin 5; Fin 3; Fin 4; NaN; Fin 2; Fin 1; PInf] = Ok [5; 1].
Proof. reflexivity. Qed.

(* ---------------- C28 ---------------- *)
(* s is the reported error: isqrt a' with a' the curvature 1/e^2, see
   C28_error_is_width for isqrt a = 1/sqrt a over the reals *)
Theorem C28_minfit_recovers_parabola : forall E polyfit (isqrt : Q -> E) neg1 x y x0 e y0 a b c,
  (0 < e)%Q -> on_parabola x0 e y0 x y -> three_distinct x ->
  polyfit x y = Some (a, b, c) -> least_squares a b c x y ->
  exists x0' y0' a' w, minfit polyfit isqrt neg1 x y = (x0', isqrt a', y0', w) /\
    (x0' == x0)%Q /\ (y0' == y0)%Q /\ (a' == 1 / (e * e))%Q /\
    (w = 0%Z \/ w = BAD_MINFIT) /\
    (w = 0%Z <-> (exists u, In u x /\ u < x0)%Q /\ (exists u, In u x /\ x0 < u)%Q /\ (0 < y0)%Q).
Proof.
  intros E polyfit isqrt neg1 x y x0 e y0 a b c He Hp H3 Hfit Hl.
  destruct (lsq_exact x0 e y0 x y a b c ltac:(lra) Hp H3 Hl) as (Qa & Qb & Qc).
  assert (Hee : (0 < e * e)%Q) by nra.
  assert (Ha : (0 < a)%Q) by (rewrite Qa; apply Qlt_shift_div_l; lra).
  assert (Hlen : length x <? 3 = false).
  { apply Nat.ltb_ge. destruct H3 as (u & v & w & Hu & Hv & Hw & D1 & D2 & D3).
    destruct x as [|i [|j [|k r]]]; cbn [length]; try lia; cbn in Hu, Hv, Hw; exfalso.
    - tauto.
    - destruct Hu as [<-|[]], Hv as [<-|[]]. apply D1; reflexivity.
    - destruct Hu as [<-|[<-|[]]], Hv as [<-|[<-|[]]], Hw as [<-|[<-|[]]];
        (apply D1; reflexivity) || (apply D2; reflexivity) || (apply D3; reflexivity). }
  assert (X0 : (- b / (2 * a) == x0)%Q).
  { rewrite Qb, Qa. field. intros Hc; lra. }
  assert (Y0 : (- (b * b) / (4 * a) + c == y0)%Q).
  { rewrite Qb, Qa, Qc. field. intros Hc; lra. }
  unfold minfit. rewrite Hlen, Hfit.
  destruct (Qeq_bool a 0) eqn:Ea; [apply Qeq_bool_iff in Ea; lra|].
  assert (Hqa : qlt 0 a = true) by (apply qlt_iff; exact Ha). rewrite Hqa. cbv zeta.
  set (xv := (- b / (2 * a))%Q) in *. set (yv := (- (b * b) / (4 * a) + c)%Q) in *.
  eexists _, _, _, _. split; [reflexivity|]. split; [exact X0|]. split; [exact Y0|]. split; [exact Qa|].
  pose proof (lmin_spec x (hd 0%Q x)) as [_ Mn]. pose proof (lmax_spec x (hd 0%Q x)) as [_ Mx].
  assert (Hx : x <> []) by (intros ->; discriminate).
  assert (Hmn : In (lmin (hd 0%Q x) x) x).
  { destruct (lmin_in x (hd 0%Q x)) as [->|H]; [|exact H]. destruct x; [congruence|left; reflexivity]. }
  assert (Hmx : In (lmax (hd 0%Q x) x) x).
  { destruct (lmax_in x (hd 0%Q x)) as [->|H]; [|exact H]. destruct x; [congruence|left; reflexivity]. }
  destruct (Qle_bool xv (lmin (hd 0%Q x) x)) eqn:E1; cbn [orb].
  { apply Qle_bool_iff in E1. split; [destruct (Qle_bool yv 0); right; reflexivity|]. split.
    - destruct (Qle_bool yv 0); intros Hc; discriminate Hc.
    - intros ((u & Hu & Hlt) & _). specialize (Mn u Hu). lra. }
  apply Qle_bool_false in E1. destruct (Qle_bool (lmax (hd 0%Q x) x) xv) eqn:E2.
  { apply Qle_bool_iff in E2. split; [destruct (Qle_bool yv 0); right; reflexivity|]. split.
    - destruct (Qle_bool yv 0); intros Hc; discriminate Hc.
    - intros (_ & (u & Hu & Hlt) & _). specialize (Mx u Hu). lra. }
  apply Qle_bool_false in E2. destruct (Qle_bool yv 0) eqn:E3.
  - apply Qle_bool_iff in E3. split; [right; reflexivity|]. split; [cbn; discriminate|]. intros (_ & _ & H). lra.
  - apply Qle_bool_false in E3. split; [left; reflexivity|]. split; [|reflexivity]. intros _.
    split; [eexists; split; [exact Hmn|lra]|]. split; [eexists; split; [exact Hmx|lra]|lra].
Qed.
Print Assumptions C28_minfit_recovers_parabola.

(* every way of not being a usable minimum is reported *)
Theorem C28_minfit_flags_bad_fits : forall E polyfit (isqrt : Q -> E) neg1 x y x0 s y0 w,
  minfit polyfit isqrt neg1 x y = (x0, s, y0, w) ->
  (length x < 3 -> (x0, s, y0, w) = ((-1)%Q, neg1, (-1)%Q, BAD_MINFIT)) /\
  (polyfit x y = None -> (x0, s, y0, w) = ((-1)%Q, neg1, (-1)%Q, BAD_MINFIT)) /\
  (forall a b c, polyfit x y = Some (a, b, c) -> (a == 0)%Q -> (x0, s, y0, w) = ((-1)%Q, neg1, (-1)%Q, BAD_MINFIT)) /\
  (w = 0%Z \/ w = BAD_MINFIT) /\
  (w = 0%Z -> exists a b c, polyfit x y = Some (a, b, c) /\ (0 < a)%Q /\ s = isqrt a /\ (0 < y0)%Q /\
     (exists u, In u x /\ u < x0)%Q /\ (exists u, In u x /\ x0 < u)%Q).
Proof.
  intros E polyfit isqrt neg1 x y x0 s y0 w. unfold minfit.
  destruct (Nat.ltb_spec (length x) 3) as [Hl|Hl].
  { intros H. injection H as <- <- <- <-. do 4 (split; [auto|]). intros Hc; discriminate Hc. }
  destruct (polyfit x y) as [[[a b] c]|] eqn:Ep.
  2:{ intros H. injection H as <- <- <- <-. do 4 (split; [auto|]). intros Hc; discriminate Hc. }
  destruct (Qeq_bool a 0) eqn:Ea.
  { intros H. injection H as <- <- <- <-. do 4 (split; [auto|]). intros Hc; discriminate Hc. }
  assert (Hx : x <> []) by (intros ->; cbn in Hl; lia).
  assert (Hmn : In (lmin (hd 0%Q x) x) x).
  { destruct (lmin_in x (hd 0%Q x)) as [->|H]; [|exact H]. destruct x; [congruence|left; reflexivity]. }
  assert (Hmx : In (lmax (hd 0%Q x) x) x).
  { destruct (lmax_in x (hd 0%Q x)) as [->|H]; [|exact H]. destruct x; [congruence|left; reflexivity]. }
  cbv zeta. intros H. split; [intros; lia|]. split; [intros; discriminate|].
  split. { intros a' b' c' H' Hz. injection H' as <- <- <-. apply Qeq_bool_iff in Hz. congruence. }
  destruct (Qle_bool (- b / (2 * a))%Q (lmin (hd 0%Q x) x)) eqn:E1; cbn [orb] in H;
  [|destruct (Qle_bool (lmax (hd 0%Q x) x) (- b / (2 * a))%Q) eqn:E2];
  destruct (Qle_bool (- (b * b) / (4 * a) + c)%Q 0) eqn:E3; destruct (qlt 0 a) eqn:E4;
  injection H as <- <- <- <-; (split; [(left; reflexivity) || (right; reflexivity)|]); try (cbn; discriminate).
  intros _. apply Qle_bool_false in E1, E2, E3. apply qlt_iff in E4. exists a, b, c. do 4 (split; [auto|]).
  split; [exists (lmin (hd 0%Q x) x)|exists (lmax (hd 0%Q x) x)]; split; assumption.
Qed.
Print Assumptions C28_minfit_flags_bad_fits.

(* non-vacuous: three points on 2 + (2(x-1))^2 *)
Example C28_ex : let '(x0, s, y0, w) := minfit lagrange3 (fun a => a) 0%Q [1#2; 1; 2]%Q [3; 2; 6]%Q in
  (Qred x0, Qred s, Qred y0, w) = (1%Q, 4%Q, 2%Q, 0%Z).
Proof. vm_compute. reflexivity. Qed.
Example C28_ex_hyp : on_parabola 1 (1#2) 2 [1#2; 1; 2]%Q [3; 2; 6]%Q /\ three_distinct [1#2; 1; 2]%Q.
Proof.
  split; [repeat constructor|]. exists (1#2)%Q, 1%Q, 2%Q. cbn. repeat split; auto; intros H; discriminate H.
Qed.

(* ---------------- C29 ---------------- *)
Section Contract.
Context {E C : Type}.
Variables (argsort : list xq -> list nat) (polyfit : list Q -> list Q -> option (Q * Q * Q)) (isqrt : Q -> E) (neg1 : E)
  (scan : Q -> res Q) (refit : Q -> res C) (zc : C) (is_star : bool) (nminima nz : nat) (redshifts : list Q)
  (arch : option (bool * (Q -> res (Q * C * string)))).
Notation run := (fitz argsort polyfit isqrt neg1 scan refit zc (velo_limit is_star) nminima nz redshifts arch).

Lemma sorted_nth_le l : nondecreasing l -> forall i j a b, i <= j -> nth_error l i = Some a -> nth_error l j = Some b -> (a <= b)%Q.
Proof.
  induction 1 as [|x l Hs IH Hall]; intros i j a b Hij Ha Hb; [destruct i; discriminate|].
  destruct j as [|j]; [assert (i = 0) as -> by lia; cbn in *; assert (a = b) by congruence; subst; lra|].
  destruct i as [|i]; [|apply (IH i j a b); [lia|exact Ha|exact Hb]].
  cbn in Ha. injection Ha as <-. rewrite Forall_forall in Hall. apply Hall. eapply nth_error_In; exact Hb.
Qed.

Theorem C29_fitz_contract : forall zchi2 out,
  argsort_ok argsort -> nondecreasing redshifts -> Forall (fun z => -1 < z)%Q redshifts ->
  run zchi2 = Ok out ->
  length out <= nminima /\
  StronglySorted (fun a b => f_chi2 a <= f_chi2 b)%Q out /\
  (forall i j a b, nth_error out i = Some a -> nth_error out j = Some b -> i <> j ->
     separated (299792458 # 1000) (if is_star then 100 else 1000)%Q (f_z a) (f_z b)) /\
  (forall r, In r out -> exists i lo hi, local_min zchi2 i /\
     nth_error redshifts (i - 1) = Some lo /\ nth_error redshifts (Nat.min (i + 1) (length redshifts - 1)) = Some hi /\
     (lo <= f_z r /\ f_z r <= hi)%Q).
Proof.
  intros zchi2 out Ha Hso Hpos Hrun.
  change (299792458 # 1000)%Q with c_km. change (if is_star then 100 else 1000)%Q with (velo_limit is_star).
  destruct (fitz_parts _ _ _ _ _ _ _ _ _ _ _ _ zchi2 out Ha Hrun) as (minima & results & Hl & Hne & Hm & Hr & Hp & Hs).
  destruct (fit_loop_inv _ _ _ _ _ _ _ _ _ _ _ minima [] results Hr ltac:(cbn; lia) ltac:(constructor)) as (I1 & I2 & I3 & _).
  destruct (find_minima_ok argsort zchi2 Ha Hne) as (m' & E' & _ & Hin & _). rewrite Hm in E'; injection E' as <-.
  assert (Hrange : forall r, In r results -> exists i lo hi, local_min zchi2 i /\
     nth_error redshifts (i - 1) = Some lo /\ nth_error redshifts (Nat.min (i + 1) (length redshifts - 1)) = Some hi /\
     (lo <= f_z r /\ f_z r <= hi)%Q).
  { intros r Hin'. destruct (I3 r Hin') as [[]|(i & r0 & Hi & H1 & H2)].
    destruct (refine_refined _ _ _ _ _ _ _ _ _ _ H1) as (zlo & zhi & zmin & sg & ym & w0 & HR & _).
    exists i, zlo, zhi. split; [apply Hin, Hi|]. split; [apply HR|]. split; [apply HR|].
    rewrite (proj1 (finish_same _ _ _ H2)). eapply refined_range; [exact HR|].
    eapply sorted_nth_le; [exact Hso| |apply HR|apply HR]. apply Hin in Hi as [Hi _]. lia. }
  assert (Hz : forall r, In r results -> (-1 < f_z r)%Q).
  { intros r Hr'. destruct (Hrange r Hr') as (i & lo & hi & _ & Hlo & _ & H & _).
    rewrite Forall_forall in Hpos. specialize (Hpos lo (nth_error_In _ _ Hlo)). lra. }
  assert (Hmv : (0 <= velo_limit is_star)%Q) by (destruct is_star; discriminate).
  split; [rewrite (Permutation_length Hp); exact I1|]. split; [exact Hs|]. split.
  2:{ intros r Hr'. apply Hrange. eapply Permutation_in; [exact Hp|exact Hr']. }
  (* pairwise separation is symmetric, hence survives the final sort *)
  assert (Hsep : forall i j a b, nth_error results i = Some a -> nth_error results j = Some b -> i <> j ->
     separated c_km (velo_limit is_star) (f_z a) (f_z b)).
  { intros i j a b Hi Hj Hij. destruct (Nat.lt_ge_cases i j) as [Hlt|Hge].
    - apply separated_sym, far_separated; [exact Hmv|apply Hz; eapply nth_error_In; exact Hi|].
      exact (pairwise_nth _ _ I2 i j a b Hlt Hi Hj).
    - apply far_separated; [exact Hmv|apply Hz; eapply nth_error_In; exact Hj|].
      exact (pairwise_nth _ _ I2 j i b a ltac:(lia) Hj Hi). }
  apply Permutation_sym, Permutation_nth_error_bis in Hp as (f & Hinj & _ & Hf).
  intros i j a b Hi Hj Hij. rewrite Hf in Hi. rewrite Hf in Hj. eapply Hsep; [exact Hi|exact Hj|].
  intros Hc. apply Hij. apply Hinj. exact Hc.
Qed.

(* the global minimum of the scan is always among the fitted ones *)
Theorem C29_best_minimum_fitted : forall zchi2 out,
  argsort_ok argsort -> 0 < nminima -> run zchi2 = Ok out ->
  (forall i, i < length zchi2 -> isnan (nth i zchi2 NaN) = false) ->
  exists i r, In r out /\ i < length zchi2 /\
    (forall j, j < length zchi2 -> xle (nth i zchi2 NaN) (nth j zchi2 NaN) = true) /\
    exists lo hi, nth_error redshifts (i - 1) = Some lo /\
      nth_error redshifts (Nat.min (i + 1) (length redshifts - 1)) = Some hi /\ f_zz r = linspace lo hi nz.
Proof.
  intros zchi2 out Ha Hnm Hrun Hnan.
  destruct (fitz_parts _ _ _ _ _ _ _ _ _ _ _ _ zchi2 out Ha Hrun) as (minima & results & Hl & Hne & Hm & Hr & Hp & Hs).
  destruct (C27_first_is_global_minimum argsort zchi2 Ha Hne Hnan) as (i & rest & Em & Hi & Hmin).
  rewrite Hm in Em; injection Em as ->.
  destruct (fit_loop_first _ _ _ _ _ _ _ _ _ _ _ i rest results Hnm Hr) as (r & r' & more & H1 & H2 & H3).
  destruct (refine_refined _ _ _ _ _ _ _ _ _ _ H1) as (zlo & zhi & zmin & sg & ym & w0 & HR & _).
  exists i, r'. split; [eapply Permutation_in; [symmetry; exact Hp|rewrite H3; left; reflexivity]|].
  split; [exact Hi|]. split; [exact Hmin|]. exists zlo, zhi. split; [apply HR|]. split; [apply HR|].
  destruct (finish_same _ _ _ H2) as (_ & _ & _ & -> & _). apply HR.
Qed.

(* ---------------- C30 ---------------- *)
(* For every reported fit r there is a minimum of the scan and a refined grid
   around it; (zmin, ymin) is the vertex of the parabola through the three
   points around the smallest refined chi2 (or the sentinel -1). *)
Theorem C30_flags : forall zchi2 out r,
  argsort_ok argsort -> 3 <= nz -> run zchi2 = Ok out -> In r out ->
  exists zmin sigma ymin w0 k zsec zpen,
    k < length (f_zz r) /\ mapM scan (f_zz r) = Ok (f_zzchi2 r) /\
    (forall j, j < length (f_zz r) -> (nth k (f_zzchi2 r) 0 <= nth j (f_zzchi2 r) 0)%Q) /\
    (forall j, j < k -> (nth k (f_zzchi2 r) 0 < nth j (f_zzchi2 r) 0)%Q) /\
    let i := Nat.min (Nat.max k 1) (nz - 2) in
    minfit polyfit isqrt neg1 (firstn 3 (skipn (i - 1) (f_zz r))) (firstn 3 (skipn (i - 1) (f_zzchi2 r))) = (zmin, sigma, ymin, w0) /\
    nth_error redshifts 1 = Some zsec /\ nth_error redshifts (length redshifts - 2) = Some zpen /\
    (* the vertex is used when it lies in the window, else the scan minimum *)
    (hd 0 (f_zz r) <= zmin -> zmin <= last (f_zz r) 0 -> f_z r = zmin /\ (arch = None -> f_chi2 r = ymin))%Q /\
    (zmin < hd 0 (f_zz r) \/ last (f_zz r) 0 < zmin ->
       f_z r = nth k (f_zz r) 0 /\ (arch = None -> f_chi2 r = nth k (f_zzchi2 r) 0))%Q /\
    (* the two flags, and no other *)
    (Z.testbit (f_zwarn r) 10 = true <->
       w0 = BAD_MINFIT \/ (zmin < hd 0 (f_zz r))%Q \/ (last (f_zz r) 0 < zmin)%Q \/ refit zmin = Err ValueError) /\
    (Z.testbit (f_zwarn r) 5 = true <->
       (f_z r < zsec)%Q \/ (zpen < f_z r)%Q \/ (zmin < zsec)%Q \/ (zpen < zmin)%Q \/ refit zmin = Err ValueError) /\
    (forall b, Z.testbit (f_zwarn r) b = true -> b = 10%Z \/ b = 5%Z).
Proof.
  intros zchi2 out r Ha Hnz Hrun Hin.
  destruct (fitz_parts _ _ _ _ _ _ _ _ _ _ _ _ zchi2 out Ha Hrun) as (minima & results & Hl & Hne & Hm & Hr & Hp & Hs).
  destruct (fit_loop_inv _ _ _ _ _ _ _ _ _ _ _ minima [] results Hr ltac:(cbn; lia) ltac:(constructor)) as (_ & _ & I3 & _).
  eapply Permutation_in in Hin; [|exact Hp]. destruct (I3 r Hin) as [[]|(i & r0 & Hi & H1 & H2)].
  destruct (refine_refined _ _ _ _ _ _ _ _ _ _ H1) as (zlo & zhi & zmin & sg & ym & w0 & HR & _).
  destruct (finish_same _ _ _ H2) as (F1 & F2 & F3 & F4 & F5 & F6).
  destruct HR as [R1 R2 R3 R4 R5 R6 R7 R8 R9 R10 R11 (zsec & zpen & R12 & R13 & R14 & R15)].
  rewrite F1, F3, F4, F5.
  exists zmin, sg, ym, w0, (argmin (f_zzchi2 r0)), zsec, zpen.
  assert (HL : length (f_zzchi2 r0) = length (f_zz r0)) by (eapply mapM_length; exact R5).
  assert (HN : f_zzchi2 r0 <> []).
  { intros Hc. rewrite Hc, R4, linspace_length in HL. cbn in HL. lia. }
  destruct (argmin_spec _ HN) as (A1 & A2 & A3). rewrite HL in A1, A2.
  split; [exact A1|]. split; [exact R5|]. split; [exact A2|]. split; [exact A3|]. cbv zeta.
  split; [apply R6, Hnz|]. split; [exact R13|]. split; [exact R14|].
  split. { intros B1 B2. destruct (R9 B1 B2) as [B3 B4]. split; [exact B3|]. intros Hc. rewrite Hc in F6. rewrite F6; exact B4. }
  split. { intros B1. destruct (R10 B1) as [B3 B4]. split; [exact B3|]. intros Hc. rewrite Hc in F6. rewrite F6; exact B4. }
  assert (W0 : w0 = 0%Z \/ w0 = BAD_MINFIT) by (eapply C28_minfit_flags_bad_fits; apply R6, Hnz).
  assert (RE : (exists e, refit zmin = Err e) <-> refit zmin = Err ValueError).
  { split; [intros [e He]|eauto]. destruct R11 as [R11|[R11 _]]; [congruence|exact R11]. }
  set (o1 := qlt zmin (hd 0%Q (f_zz r0)) || qlt (last (f_zz r0) 0%Q) zmin) in *.
  set (o2 := qlt (f_z r0) zsec || qlt zpen (f_z r0)) in *.
  set (o3 := qlt zmin zsec || qlt zpen zmin) in *.
  set (o0 := match refit zmin with Ok _ => false | Err _ => true end) in *.
  assert (O0 : o0 = true <-> refit zmin = Err ValueError).
  { rewrite <- RE. unfold o0. destruct (refit zmin) as [?|e]; split; try discriminate; eauto. intros [e He]; discriminate. }
  assert (O1 : o1 = true <-> (zmin < hd 0 (f_zz r0))%Q \/ (last (f_zz r0) 0 < zmin)%Q) by (unfold o1; rewrite orb_true_iff, !qlt_iff; tauto).
  assert (O2 : o2 = true <-> (f_z r0 < zsec)%Q \/ (zpen < f_z r0)%Q) by (unfold o2; rewrite orb_true_iff, !qlt_iff; tauto).
  assert (O3 : o3 = true <-> (zmin < zsec)%Q \/ (zpen < zmin)%Q) by (unfold o3; rewrite orb_true_iff, !qlt_iff; tauto).
  rewrite R15. clearbody o0 o1 o2 o3. cbv zeta.
  assert (T : Z.testbit (let wa := if o0 then Z.lor (Z.lor w0 Z_FITLIMIT) BAD_MINFIT else w0 in
        let wb := if o1 then Z.lor wa BAD_MINFIT else wa in
        let wc := if o2 then Z.lor wb Z_FITLIMIT else wb in
        if o3 then Z.lor wc Z_FITLIMIT else wc) 10 = (Z.eqb w0 BAD_MINFIT || o1 || o0) /\
     Z.testbit (let wa := if o0 then Z.lor (Z.lor w0 Z_FITLIMIT) BAD_MINFIT else w0 in
        let wb := if o1 then Z.lor wa BAD_MINFIT else wa in
        let wc := if o2 then Z.lor wb Z_FITLIMIT else wb in
        if o3 then Z.lor wc Z_FITLIMIT else wc) 5 = (o2 || o3 || o0)).
  { destruct W0 as [-> | ->], o0, o1, o2, o3; split; reflexivity. }
  cbv zeta in T. destruct T as [T1 T2]. rewrite T1, T2. split; [|split].
  - rewrite !orb_true_iff, Z.eqb_eq. tauto.
  - rewrite !orb_true_iff. tauto.
  - intros b Hb.
    assert (Hin' : In (if o3 then Z.lor (if o2 then Z.lor (if o1 then Z.lor (if o0 then Z.lor (Z.lor w0 Z_FITLIMIT) BAD_MINFIT else w0) BAD_MINFIT else if o0 then Z.lor (Z.lor w0 Z_FITLIMIT) BAD_MINFIT else w0) Z_FITLIMIT else if o1 then Z.lor (if o0 then Z.lor (Z.lor w0 Z_FITLIMIT) BAD_MINFIT else w0) BAD_MINFIT else if o0 then Z.lor (Z.lor w0 Z_FITLIMIT) BAD_MINFIT else w0) Z_FITLIMIT else if o2 then Z.lor (if o1 then Z.lor (if o0 then Z.lor (Z.lor w0 Z_FITLIMIT) BAD_MINFIT else w0) BAD_MINFIT else if o0 then Z.lor (Z.lor w0 Z_FITLIMIT) BAD_MINFIT else w0) Z_FITLIMIT else if o1 then Z.lor (if o0 then Z.lor (Z.lor w0 Z_FITLIMIT) BAD_MINFIT else w0) BAD_MINFIT else if o0 then Z.lor (Z.lor w0 Z_FITLIMIT) BAD_MINFIT else w0) [0; 32; 1024; 1056]%Z).
    { destruct W0 as [-> | ->], o0, o1, o2, o3; cbn; auto. }
    revert Hb Hin'. match goal with |- Z.testbit ?w b = true -> _ => generalize w end. intros w Hb Hw.
    cbn in Hw. destruct Hw as [<-|[<-|[<-|[<-|[]]]]].
    + rewrite Z.bits_0 in Hb. discriminate.
    + change 32%Z with (2 ^ 5)%Z in Hb. destruct (Z.ltb_spec b 0); [rewrite Z.testbit_neg_r in Hb by lia; discriminate|].
      rewrite Z.pow2_bits_eqb in Hb by lia. apply Z.eqb_eq in Hb. auto.
    + change 1024%Z with (2 ^ 10)%Z in Hb. destruct (Z.ltb_spec b 0); [rewrite Z.testbit_neg_r in Hb by lia; discriminate|].
      rewrite Z.pow2_bits_eqb in Hb by lia. apply Z.eqb_eq in Hb. auto.
    + change 1056%Z with (Z.lor (2 ^ 10) (2 ^ 5))%Z in Hb. destruct (Z.ltb_spec b 0); [rewrite Z.testbit_neg_r in Hb by lia; discriminate|].
      rewrite Z.lor_spec, !Z.pow2_bits_eqb in Hb by lia. apply orb_true_iff in Hb as [Hb|Hb]; apply Z.eqb_eq in Hb; auto.
Qed.

(* ---------------- C31 ---------------- *)
(* without archetypes: if BAD_MINFIT is not set, the coefficients are those of
   the fit at the reported redshift *)
Theorem C31_coefficients_good_fit_partial : forall zchi2 out r,
  argsort_ok argsort -> arch = None -> run zchi2 = Ok out -> In r out ->
  Z.testbit (f_zwarn r) 10 = false -> refit (f_z r) = Ok (f_coeff r).
Proof.
  intros zchi2 out r Ha Harch Hrun Hin Hflag.
  destruct (fitz_parts _ _ _ _ _ _ _ _ _ _ _ _ zchi2 out Ha Hrun) as (minima & results & Hl & Hne & Hm & Hr & Hp & Hs).
  destruct (fit_loop_inv _ _ _ _ _ _ _ _ _ _ _ minima [] results Hr ltac:(cbn; lia) ltac:(constructor)) as (_ & _ & I3 & _).
  eapply Permutation_in in Hin; [|exact Hp]. destruct (I3 r Hin) as [[]|(i & r0 & Hi & H1 & H2)].
  destruct (refine_refined _ _ _ _ _ _ _ _ _ _ H1) as (zlo & zhi & zmin & sg & ym & w0 & HR & _).
  destruct (finish_same _ _ _ H2) as (_ & _ & _ & _ & _ & F6). rewrite Harch in F6. subst r0.
  destruct HR as [R1 R2 R3 R4 R5 R6 R7 R8 R9 R10 R11 (zsec & zpen & R12 & R13 & R14 & R15)].
  assert (Hsub : forall w b, Z.testbit w 10 = true -> Z.testbit (Z.lor w b) 10 = true) by (intros w b H; rewrite Z.lor_spec, H; reflexivity).
  assert (Hset : forall w, Z.testbit (Z.lor w BAD_MINFIT) 10 = true) by (intros w; rewrite Z.lor_spec, orb_true_r; reflexivity).
  rewrite R15 in Hflag. clear R15. cbv zeta in Hflag.
  set (o1 := qlt zmin (hd 0%Q (f_zz r)) || qlt (last (f_zz r) 0%Q) zmin) in *.
  assert (E1 : o1 = false).
  { destruct o1; [|reflexivity]. exfalso. revert Hflag.
    destruct (_ || _), (_ || _); rewrite ?Hset; rewrite ?(Hsub _ _ (Hset _)); rewrite ?(Hsub _ _ (Hsub _ _ (Hset _))); discriminate. }
  unfold o1 in E1. apply orb_false_iff in E1 as [E1 E2]. apply qlt_false in E1, E2.
  destruct (R9 E1 E2) as [-> _].
  destruct R11 as [R11|(R11 & _)]; [exact R11|]. exfalso. rewrite R11 in Hflag. revert Hflag.
  destruct o1, (_ || _), (_ || _); rewrite ?Hset; rewrite ?(Hsub _ _ (Hset _)); rewrite ?(Hsub _ _ (Hsub _ _ (Hset _)));
   rewrite ?(Hsub _ _ (Hsub _ _ (Hsub _ _ (Hset _)))); discriminate.
Qed.

(* with archetypes chi2 and coefficients always belong to the reported redshift *)
Theorem C31_archetype_fit_consistent : forall zchi2 out r p best,
  argsort_ok argsort -> arch = Some (p, best) -> run zchi2 = Ok out -> In r out ->
  exists ft, best (f_z r) = Ok (f_chi2 r, f_coeff r, ft) /\ f_fulltype r = Some ft.
Proof.
  intros zchi2 out r p best Ha Harch Hrun Hin.
  destruct (fitz_parts _ _ _ _ _ _ _ _ _ _ _ _ zchi2 out Ha Hrun) as (minima & results & Hl & Hne & Hm & Hr & Hp & Hs).
  destruct (fit_loop_inv _ _ _ _ _ _ _ _ _ _ _ minima [] results Hr ltac:(cbn; lia) ltac:(constructor)) as (_ & _ & I3 & _).
  eapply Permutation_in in Hin; [|exact Hp]. destruct (I3 r Hin) as [[]|(i & r0 & Hi & H1 & H2)].
  destruct (finish_same _ _ _ H2) as (F1 & _ & _ & _ & _ & F6). rewrite Harch in F6. destruct F6 as [_ (ft & F6 & F7)].
  rewrite F1. exists ft. auto.
Qed.

(* ---------------- C32 ---------------- *)
(* prior_sigma omitted in archetype mode: never a result *)
Theorem C32_no_prior_sigma_refuted : forall zchi2 best out,
  argsort_ok argsort -> 0 < nminima -> arch = Some (false, best) ->
  (forall i, i < length zchi2 -> isnan (nth i zchi2 NaN) = false) -> run zchi2 <> Ok out.
Proof.
  intros zchi2 best out Ha Hnm Harch Hnan Hrun.
  destruct (fitz_parts _ _ _ _ _ _ _ _ _ _ _ _ zchi2 out Ha Hrun) as (minima & results & Hl & Hne & Hm & Hr & Hp & Hs).
  destruct (C27_first_is_global_minimum argsort zchi2 Ha Hne Hnan) as (i & rest & Em & Hi & Hmin).
  rewrite Hm in Em; injection Em as ->.
  destruct (fit_loop_first _ _ _ _ _ _ _ _ _ _ _ i rest results Hnm Hr) as (r & r' & more & H1 & H2 & H3).
  destruct (finish_same _ _ _ H2) as (_ & _ & _ & _ & _ & F6). rewrite Harch in F6. destruct F6 as [F6 _]. discriminate.
Qed.
End Contract.
Print Assumptions C29_fitz_contract.
Print Assumptions C29_best_minimum_fitted.
Print Assumptions C30_flags.
Print Assumptions C31_coefficients_good_fit_partial.
Print Assumptions C31_archetype_fit_consistent.
Print Assumptions C32_no_prior_sigma_refuted.

(* Witness for C31: the coefficient returned by refit is the redshift it was
   computed at.  The parabola vertex is at -1/2, outside the window [0,1]; the
   reported redshift is 0 but the coefficient is the one at -1/2. *)
Definition scan31 (z : Q) : res Q := Ok (Qred ((z + (1#2)) * (z + (1#2)) + 1))%Q.
Definition refit31 (z : Q) : res Q := Ok (Qred z).
Theorem C31_coefficients_elsewhere_refuted :
  exists r, fitz argsort0 lagrange3 (fun a => a) (-1)%Q scan31 refit31 0%Q max_velo_diff 3 3 [0; 1; 2; 3]%Q None
      [Fin 1; Fin 2; Fin 3; Fin 4] = Ok [r] /\
    (f_z r == 0)%Q /\ f_coeff r = (- 1 # 2)%Q /\ refit31 (f_z r) = Ok 0%Q.
Proof. eexists. split; [vm_compute; reflexivity|]. vm_compute. auto. Qed.
Print Assumptions C31_coefficients_elsewhere_refuted.

(* and an unflagged fit whose chi2 is not the chi2 at the reported redshift:
   the vertex value of the parabola is reported *)
Definition scan31b (z : Q) : res Q := Ok (if Qle_bool z 3 then 7 - 2 * z else z - 2)%Q.
Theorem C31_chi2_is_vertex_value_refuted :
  exists r, fitz argsort0 lagrange3 (fun a => a) (-1)%Q scan31b refit31 0%Q max_velo_diff 3 3 [0; 1; 3; 5; 6]%Q None
      [Fin 8; Fin 5; Fin 1; Fin 3; Fin 4] = Ok [r] /\
    f_zwarn r = 0%Z /\ (f_z r == 10 # 3)%Q /\ (f_chi2 r == 11 # 12)%Q /\
    exists c, scan31b (f_z r) = Ok c /\ (c == 4 # 3)%Q.
Proof. eexists. split; [vm_compute; reflexivity|]. vm_compute. repeat split. eexists. split; reflexivity. Qed.
Print Assumptions C31_chi2_is_vertex_value_refuted.

(* several minima, archetypes given with a prior: a normal run *)
Example C29_ex : match fitz argsort0 lagrange3 (fun a => a) (-1)%Q (fun z => Ok ((z - 1) * (z - 1) * (z - 3) * (z - 3) + z)%Q)
    refit31 0%Q max_velo_diff 3 5 [0; 1; 2; 3; 4]%Q None [Fin 9; Fin 1; Fin 3; Fin 3; Fin 13] with
  | Ok out => length out = 2 /\ map f_zwarn out = [0%Z; 1024%Z]
  | Err _ => False end.
Proof. vm_compute. auto. Qed.

(* ---------------- C32: what holds ---------------- *)
(* with prior_sigma given, archetype mode raises only if one of its inputs does *)
Theorem C32_prior_given_partial : forall E C argsort polyfit (isqrt : Q -> E) neg1 scan refit (zc : C) mvd nminima nz redshifts best zchi2,
  argsort_ok argsort -> length zchi2 = length redshifts -> 2 <= length redshifts -> 0 < nz ->
  (forall z, exists c, scan z = Ok c) -> (forall z, exists c, refit z = Ok c) -> (forall z, exists v, best z = Ok v) ->
  exists out, fitz argsort polyfit isqrt neg1 scan refit zc mvd nminima nz redshifts (Some (true, best)) zchi2 = Ok out.
Proof.
  intros E C argsort polyfit isqrt neg1 scan refit zc mvd nminima nz redshifts best zchi2 Ha Hl H2 Hnz Hsc Hrf Hb.
  assert (Hx : zchi2 <> []) by (intros ->; cbn in Hl; lia).
  destruct (find_minima_ok argsort zchi2 Ha Hx) as (m & Em & _ & Hin & _).
  assert (Hrs : forall i, i < length redshifts -> exists z, rs redshifts i = Ok z).
  { intros i Hi. unfold rs. destruct (nth_error redshifts i) eqn:En; [eauto|]. apply nth_error_None in En. lia. }
  assert (Href : forall i, i < length redshifts -> exists r, refine polyfit isqrt neg1 scan refit zc nz redshifts i = Ok r).
  { intros i Hi. unfold refine.
    destruct (Hrs (i - 1) ltac:(lia)) as [zlo ->]. cbn [rbind].
    destruct (Hrs (Nat.min (i + 1) (length redshifts - 1)) ltac:(lia)) as [zhi ->]. cbn [rbind].
    destruct (linspace zlo zhi nz) as [|z0 zr] eqn:Ez.
    { apply (f_equal (@List.length Q)) in Ez. rewrite linspace_length in Ez. cbn in Ez. lia. }
    assert (Hm : exists c, mapM scan (z0 :: zr) = Ok c).
    { generalize (z0 :: zr) as l. induction l as [|a l [c IH]]; [exists []; reflexivity|].
      cbn [mapM]. destruct (Hsc a) as [y ->]. cbn [rbind]. rewrite IH. cbn [rbind]. eauto. }
    destruct Hm as [c ->]. cbn [rbind].
    match goal with |- context [minfit polyfit isqrt neg1 ?a ?b] => destruct (minfit polyfit isqrt neg1 a b) as [[[zmin sigma] ymin] w0] end.
    destruct (Hrf zmin) as [co ->]. cbn [rbind].
    destruct (Hrs 1 ltac:(lia)) as [zsec ->]. cbn [rbind].
    destruct (Nat.ltb_spec (length redshifts) 2); [lia|].
    destruct (Hrs (length redshifts - 2) ltac:(lia)) as [zpen ->]. cbn [rbind]. eauto. }
  assert (Hloop : forall ml acc, (forall i, In i ml -> i < length redshifts) ->
    exists out, fit_loop polyfit isqrt neg1 scan refit zc mvd nminima nz redshifts (Some (true, best)) ml acc = Ok out).
  { induction ml as [|i ml IH]; intros acc Hml; cbn [fit_loop]; [eauto|].
    destruct (length acc =? nminima); [eauto|].
    destruct (Hrs i ltac:(apply Hml; left; reflexivity)) as [z ->]. cbn [rbind].
    assert (Hml' : forall i, In i ml -> i < length redshifts) by (intros; apply Hml; right; assumption).
    destruct (too_close mvd z (map f_z acc)); [auto|].
    destruct (Href i ltac:(apply Hml; left; reflexivity)) as [r ->]. cbn [rbind].
    destruct (too_close mvd (f_z r) (map f_z acc)); [auto|].
    unfold finish at 1. destruct (Hb (f_z r)) as [[[ch co] ft] ->]. cbn [rbind]. auto. }
  destruct (Hloop m [] ) as [results Er]; [intros i Hi; apply Hin in Hi as [Hi _]; lia|].
  unfold fitz. rewrite Hl, Nat.eqb_refl. cbn [negb]. rewrite Em. cbn [rbind]. rewrite Er. cbn [rbind].
  destruct (Ha (map (fun r => Fin (f_chi2 r)) results)) as [Hp _]. rewrite map_length in Hp.
  destruct results as [|d rest].
  - cbn in Hp. apply Permutation_sym, Permutation_nil in Hp. cbn [map] in *. rewrite Hp. exists []. reflexivity.
  - eexists. apply (mapM_get _ d). intros i Hi. eapply Permutation_in in Hi; [|exact Hp]. apply in_seq in Hi. lia.
Qed.
Print Assumptions C32_prior_given_partial.

(* ---------------- C33 ---------------- *)
(* the speed of light times the redshift difference over 1 + the reference redshift, in km/s *)
Theorem C33_get_dv_value : forall z zref, (-1 < zref)%Q -> (1000 * (1 + zref) * get_dv z zref == 299792458 * (z - zref))%Q.
Proof. intros z zref H. unfold get_dv, c_km. field. lra. Qed.
Theorem C33_get_dv_zero_iff_equal : forall z zref, (-1 < zref)%Q -> (get_dv z zref == 0 <-> z == zref)%Q.
Proof.
  intros z zref H. unfold get_dv. split; intros E.
  - assert (Hc : ~ (c_km == 0)%Q) by discriminate.
    assert (E2 : (c_km * (z - zref) == 0)%Q).
    { setoid_replace (c_km * (z - zref))%Q with (c_km * (z - zref) / (1 + zref) * (1 + zref))%Q by (field; lra). rewrite E. ring. }
    apply Qmult_integral in E2 as [E2|E2]; [contradiction|lra].
  - rewrite E. field. lra.
Qed.
Theorem C33_get_dv_monotone : forall z z' zref, (-1 < zref)%Q -> (get_dv z zref < get_dv z' zref <-> z < z')%Q.
Proof.
  intros z z' zref H. unfold get_dv. assert (Hc : (0 < c_km / (1 + zref))%Q) by (apply Qlt_shift_div_l; [lra|]; rewrite Qmult_0_l; reflexivity).
  set (k := (c_km / (1 + zref))%Q) in *.
  assert (E : forall a, (c_km * (a - zref) / (1 + zref) == k * (a - zref))%Q) by (intros a; unfold k; field; lra).
  rewrite !E. split; intros; nra.
Qed.
Theorem C33_get_dv_swapped : forall z zref, (-1 < zref)%Q -> (-1 < z)%Q ->
  (get_dv zref z * (1 + z) == - (get_dv z zref * (1 + zref)))%Q.
Proof. intros z zref H1 H2. unfold get_dv. field. split; lra. Qed.
(* the merge test is not symmetric: one orientation merges, the other does not *)
Theorem C33_merge_test_asymmetric_refuted : exists z1 z2,
  too_close max_velo_diff z1 [z2] = true /\ too_close max_velo_diff z2 [z1] = false.
Proof. exists 0%Q, (334 # 100000)%Q. split; vm_compute; reflexivity. Qed.
(* but outside a factor 1 + mvd/c it is *)
Theorem C33_merge_test_consistent_partial : forall mvd z1 z2, (0 < mvd)%Q -> (-1 < z1)%Q -> (-1 < z2)%Q ->
  too_close mvd z1 [z2] = true -> (Qabs (get_dv z2 z1) < mvd * (1 + mvd / (c_km - mvd)))%Q \/ (c_km <= mvd)%Q.
Proof.
  intros mvd z1 z2 Hm H1 H2 H. destruct (Qlt_le_dec mvd c_km) as [Hc|Hc]; [left|right; exact Hc].
  unfold too_close in H. cbn [existsb] in H. rewrite orb_false_r in H. apply qlt_iff in H. unfold get_dv in *.
  assert (Ab : forall a b, (-1 < b)%Q -> (Qabs (c_km * (a - b) / (1 + b)) == c_km * Qabs (a - b) / (1 + b))%Q).
  { intros a b Hb. unfold Qdiv. rewrite !Qabs_Qmult. rewrite (Qabs_pos c_km) by discriminate.
    rewrite (Qabs_pos (/ (1 + b))); [reflexivity|]. apply Qinv_le_0_compat. lra. }
  rewrite Ab in * by assumption. rewrite (Qabs_Qminus z2 z1). set (d := Qabs (z1 - z2)) in *.
  assert (Hd : (z2 - z1 <= d)%Q) by (unfold d; rewrite Qabs_Qminus; apply Qle_Qabs).
  assert (Hcd : (c_km * d < mvd * (1 + z2))%Q).
  { apply (Qmult_lt_compat_r _ _ (1 + z2)) in H; [|lra].
    setoid_replace (c_km * d / (1 + z2) * (1 + z2))%Q with (c_km * d)%Q in H by (field; lra). exact H. }
  apply Qlt_shift_div_r; [lra|].
  setoid_replace (mvd * (1 + mvd / (c_km - mvd)) * (1 + z1))%Q with (mvd * (1 + z1) * c_km / (c_km - mvd))%Q by (field; lra).
  apply Qlt_shift_div_l; [lra|].
  assert (Hk : (0 < c_km)%Q) by reflexivity.
  assert (Hm2 : (mvd * (1 + z2) <= mvd * (1 + z1 + d))%Q) by (apply Qmult_le_l; [exact Hm|lra]).
  assert (Hf : (d * (c_km - mvd) < mvd * (1 + z1))%Q).
  { setoid_replace (d * (c_km - mvd))%Q with (c_km * d - mvd * d)%Q by ring.
    setoid_replace (mvd * (1 + z1 + d))%Q with (mvd * (1 + z1) + mvd * d)%Q in Hm2 by ring. lra. }
  setoid_replace (c_km * d * (c_km - mvd))%Q with (d * (c_km - mvd) * c_km)%Q by ring.
  apply Qmult_lt_compat_r; assumption.
Qed.
Print Assumptions C33_get_dv_monotone.
Print Assumptions C33_merge_test_consistent_partial.

(* ---------------- C82 ---------------- *)
Theorem C82_prior_matrix : forall n_nbh deg sigma ncamera m, prior_on_coeffs n_nbh deg sigma ncamera = Ok m ->
  let nb := n_nbh + deg * ncamera in
  length m = nb /\ (forall row, In row m -> length row = nb) /\
  (forall i j, i < nb -> j < nb ->
     (i <> j -> nth j (nth i m []) 0%Q = 0%Q) /\
     (i = j -> i < n_nbh -> nth j (nth i m []) 0%Q = 0%Q) /\
     (i = j -> n_nbh <= i -> (nth j (nth i m []) 0 * (sigma * sigma) == 1 /\ 0 < nth j (nth i m []) 0)%Q)).
Proof.
  intros n_nbh deg sigma ncamera m. unfold prior_on_coeffs. destruct (Qeq_bool (sigma * sigma) 0) eqn:Es; [discriminate|].
  intros H; injection H as <-. cbv zeta. set (nb := n_nbh + deg * ncamera).
  split; [rewrite map_length, seq_length; reflexivity|]. split.
  { intros row Hr. apply in_map_iff in Hr as (i & <- & _). rewrite map_length, seq_length. reflexivity. }
  intros i j Hi Hj.
  assert (En : nth j (nth i (map (fun i => map (fun j =>
             if (i =? j) then (if i <? n_nbh then 0%Q else (1 / (sigma * sigma))%Q) else 0%Q) (seq 0 nb)) (seq 0 nb)) []) 0%Q
       = if (i =? j) then (if i <? n_nbh then 0%Q else (1 / (sigma * sigma))%Q) else 0%Q).
  { rewrite nth_tab by exact Hi. rewrite nth_tab by exact Hj. reflexivity. }
  rewrite En. assert (Hs : ~ (sigma * sigma == 0)%Q) by (intros Hc; apply Qeq_bool_iff in Hc; congruence).
  split; [intros Hne; destruct (Nat.eqb_spec i j); [contradiction|reflexivity]|].
  split; [intros -> Hlt; rewrite Nat.eqb_refl; destruct (Nat.ltb_spec j n_nbh); [reflexivity|lia]|].
  intros -> Hge. rewrite Nat.eqb_refl. destruct (Nat.ltb_spec j n_nbh); [lia|].
  assert (Hs' : (0 < sigma * sigma)%Q) by (pose proof (Qsq_nonneg sigma); destruct (Qlt_le_dec 0 (sigma * sigma)); [assumption|exfalso; apply Hs; lra]).
  split; [field; intros Hc; apply Hs; rewrite Hc; ring|]. apply Qlt_shift_div_l; lra.
Qed.
Print Assumptions C82_prior_matrix.
Theorem C82_zero_sigma_raises : forall n deg ncam, prior_on_coeffs n deg 0 ncam = Err ZeroDivisionError.
Proof. reflexivity. Qed.
Example C82_ex : prior_on_coeffs 1 2 (1#2) 1 = Ok [[0; 0; 0]; [0; 1 / (1 # 4); 0]; [0; 0; 1 / (1 # 4)]]%Q.
Proof. reflexivity. Qed.
