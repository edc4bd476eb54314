(* C36-C42, C83: rebinning.  The integral is Coquelicot's is_RInt. *)
From Coq Require Import Reals Qreals Lra Psatz.
From Coquelicot Require Import Coquelicot.
From Verif Require Proof_Table.
From Verif Require Import Prelude PreludeFacts Model_Fitz Proof_Fitz Model_Rebin Spec_Rebin Facts2 Proof_Rebin Proof_Rebin2 Proof_RebinGPU Proof_Rebin3.
Open Scope nat_scope.

(* ---------------- C36 ---------------- *)
Lemma midpoints_length c : length (midpoints c) = length c - 1.
Proof. induction c as [|a [|b c] IH]; [reflexivity|reflexivity|]. cbn [midpoints length] in *. lia. Qed.
Lemma midpoints_nth c : forall i, S i < length c -> nth i (midpoints c) 0%Q = ((nth i c 0 + nth (S i) c 0) / 2)%Q.
Proof.
  induction c as [|a [|b c] IH]; intros i Hi; [cbn in Hi; lia|cbn in Hi; lia|].
  destruct i as [|i]; [reflexivity|]. change (midpoints (a :: b :: c)) with (((a + b) / 2)%Q :: midpoints (b :: c)).
  cbn [nth]. apply IH. cbn in *; lia.
Qed.
Theorem C36_edges : forall c, 2 <= length c -> exists e, centers2edges c = Ok e /\
  length e = S (length c) /\
  (forall i, 0 < i < length c -> (nth i e 0 == (nth (i - 1) c 0 + nth i c 0) / 2)%Q) /\
  (nth 0 e 0 == nth 0 c 0 - (nth 1 c 0 - nth 0 c 0) / 2)%Q /\
  (nth (length c) e 0 == nth (length c - 1) c 0 + (nth (length c - 1) c 0 - nth (length c - 2) c 0) / 2)%Q.
Proof.
  intros c Hc. unfold centers2edges. destruct c as [|c0 [|c1 r]]; [cbn in Hc; lia..|].
  set (c := c0 :: c1 :: r) in *. set (mid := midpoints c).
  assert (Hm : length mid = length c - 1) by apply midpoints_length.
  assert (Hh : hd 0%Q mid = ((c0 + c1) / 2)%Q) by reflexivity.
  assert (Hl : last mid 0%Q = ((nth (length c - 2) c 0 + nth (length c - 1) c 0) / 2)%Q).
  { rewrite <- last_nth. rewrite Hm. replace (length c - 1 - 1) with (length c - 2) by lia. unfold mid. rewrite midpoints_nth by lia.
    replace (S (length c - 2)) with (length c - 1) by lia. reflexivity. }
  rewrite Hh, Hl. rewrite <- last_nth. eexists. split; [reflexivity|]. split; [cbn [length]; rewrite app_length; cbn [length]; lia|]. split.
  - intros [|i] Hi; [lia|]. cbn [nth]. rewrite app_nth1 by lia. unfold mid. rewrite midpoints_nth by lia.
    replace (S i - 1) with i by lia. reflexivity.
  - split; [cbn [nth]; unfold c; cbn [nth]; field|].
    assert (Hlc : length c = S (length mid)) by lia.
    transitivity (nth (length mid) (mid ++ [(nth (length c - 1) c 0 + (nth (length c - 1) c 0 - (nth (length c - 2) c 0 + nth (length c - 1) c 0) / 2))%Q]) 0%Q).
    { rewrite Hlc at 1. reflexivity. }
    rewrite app_nth2 by lia. rewrite Nat.sub_diag. cbn [nth]. field.
Qed.
Lemma Qhalf a : (a / 2 == (1#2) * a)%Q.
Proof. field. Qed.
Theorem C36_brackets : forall c e, strictly_increasing c -> centers2edges c = Ok e ->
  strictly_increasing e /\ forall i, i < length c -> (nth i e 0 < nth i c 0 /\ nth i c 0 < nth (S i) e 0)%Q.
Proof.
  intros c e Hinc E.
  assert (Hc : 2 <= length c). { destruct c as [|a [|b c]]; [discriminate E|discriminate E|cbn; lia]. }
  destruct (C36_edges c Hc) as (e' & E' & Hl & Hmid & H0 & Hlast). rewrite E in E'. injection E' as <-.
  assert (Hb : forall i, i < length c -> (nth i e 0 < nth i c 0 /\ nth i c 0 < nth (S i) e 0)%Q).
  { intros i Hi. split.
    - destruct (Nat.eq_dec i 0) as [->|].
      + rewrite H0, Qhalf. pose proof (Hinc 0 1 ltac:(lia) ltac:(lia)). lra.
      + rewrite Hmid by lia. pose proof (Hinc (i - 1) i ltac:(lia) Hi). rewrite Qhalf. lra.
    - destruct (Nat.eq_dec (S i) (length c)) as [Ei|].
      + rewrite Ei, Hlast, Qhalf. replace (length c - 1) with i by lia.
        pose proof (Hinc (length c - 2) i ltac:(lia) Hi). lra.
      + rewrite Hmid by lia. replace (S i - 1) with i by lia. pose proof (Hinc i (S i) ltac:(lia) ltac:(lia)). rewrite Qhalf. lra. }
  split; [|exact Hb].
  assert (Hstep : forall i, S i < length e -> (nth i e 0 < nth (S i) e 0)%Q).
  { intros i Hi. destruct (Hb i ltac:(lia)). lra. }
  intros i j Hij. induction j as [|j IH]; intros Hj; [lia|].
  destruct (Nat.eq_dec i j) as [->|]; [apply Hstep; exact Hj|]. eapply Qlt_trans; [apply IH; lia|apply Hstep; exact Hj].
Qed.
Theorem C36_short_raises : forall c, length c < 2 -> centers2edges c = Err IndexError.
Proof. intros [|a [|b c]] H; [reflexivity|reflexivity|cbn in H; lia]. Qed.
Example C36_ex : exists e, centers2edges [1; 2; 4]%Q = Ok e /\ Forall2 Qeq e [1#2; 3#2; 3; 5]%Q.
Proof. eexists. split; [reflexivity|]. repeat constructor. Qed.

Lemma qlt_ge a b : (b <= a)%Q -> qlt a b = false.
Proof. intros H. destruct (qlt a b) eqn:E; [|reflexivity]. apply qlt_iff in E. lra. Qed.
(* ---------------- C37 ---------------- *)
Lemma accepted x y edges myz r : trapz_rebin x y edges myz false None None None None = Ok r -> zs_of myz <> [] ->
  x <> [] /\ edges <> [] /\
  (nth 0 x 0 * (1 + amax (zs_of myz)) <= nth 0 edges 0)%Q /\
  (nth (length edges - 1) edges 0 <= nth (length x - 1) x 0 * (1 + amin (zs_of myz)))%Q /\ core x y edges myz false = Ok r.
Proof.
  intros H Hz.
  assert (He : edges <> []) by (intros ->; discriminate H).
  assert (Hx : x <> []).
  { intros ->. unfold trapz_rebin, odef in H. rewrite (get_nth edges 0) in H by (destruct edges; [congruence|cbn; lia]). cbn [rbind] in H.
    rewrite (getm1_0 edges He) in H. cbn [rbind] in H.
    change (match myz with ZNone => [0%Q] | ZScalar z => [z] | ZArray zs => zs end) with (zs_of myz) in H.
    destruct (zs_of myz); [congruence|]. discriminate H. }
  rewrite (trapz_unfold _ _ _ _ _ Hx He Hz) in H.
  destruct (qlt _ _) eqn:E1; [discriminate H|]. cbn [orb] in H. destruct (qlt _ _) eqn:E2 in H; [discriminate H|].
  apply qlt_false in E1, E2. repeat (split; [assumption|]). exact H.
Qed.
Lemma amax1 z : amax [z] = z. Proof. reflexivity. Qed.
Lemma amin1 z : amin [z] = z. Proof. reflexivity. Qed.

(* Every output is the exact average over its bin of the linear interpolant of
   the redshifted samples. *)
Theorem C37_bin_average : forall f x y edges z r,
  strictly_increasing x -> length y = length x -> strictly_increasing edges -> 2 <= length edges -> (0 < 1 + z)%Q ->
  interpolates f (redshifted x z) y ->
  trapz_rebin x (Y1 y) edges (ZScalar z) false None None None None = Ok (V1 r) ->
  length r = length edges - 1 /\
  forall i, i < length edges - 1 ->
    is_RInt f (Q2R (nth i edges 0%Q)) (Q2R (nth (S i) edges 0%Q)) (Q2R (nth i r 0 * (nth (S i) edges 0 - nth i edges 0))%Q).
Proof.
  intros f x y edges z r Hx Hy He H2 Hz Hf H.
  destruct (accepted _ _ _ _ _ H) as (_ & _ & G0 & G1 & Hc); [discriminate|]. cbn [zs_of] in *. rewrite amax1 in G0. rewrite amin1 in G1.
  assert (V : valid x edges z) by (repeat (split; [assumption|]); assumption).
  destruct (rebin_1d_valid f x y edges z V Hy Hf) as (out & Eo & Hl & Hi).
  unfold core in Hc. cbn [zs_of negb andb hd] in Hc. rewrite Eo in Hc. cbn [rbind] in Hc. injection Hc as <-. split; assumption.
Qed.
(* in terms of the rest-frame template g: the redshifted flux is g(lambda/(1+z)), no (1+z) factor *)
Theorem C37_rest_frame : forall g x y z, strictly_increasing x -> (0 < 1 + z)%Q -> interpolates g x y ->
  interpolates (fun t => g (t / Q2R (1 + z))%R) (redshifted x z) y.
Proof.
  intros g x y z Hx Hz Hg k t Hk. rewrite redshifted_length in Hk. cbv zeta. rewrite !redshifted_nth by lia.
  assert (HzR : (0 < Q2R (1 + z))%R) by (apply Qlt_Rlt in Hz; rewrite RMicromega.Q2R_0 in Hz; exact Hz).
  rewrite !Q2R_mult. intros [Ha Hb].
  assert (Hd : (Q2R (nth k x 0%Q) < Q2R (nth (S k) x 0%Q))%R) by (apply Qlt_Rlt, Hx; lia).
  set (w := Q2R (1 + z)) in *. set (a := Q2R (nth k x 0%Q)) in *. set (b := Q2R (nth (S k) x 0%Q)) in *.
  rewrite (Hg k (t / w)%R Hk).
  - assert (Hbw : (0 < (b - a) * w)%R) by (apply Rmult_lt_0_compat; Lra.lra). fold a b. field. repeat split; Lra.lra.
  - fold a b. split.
    + apply (Rmult_le_reg_r w); [exact HzR|]. unfold Rdiv. rewrite Rmult_assoc, Rinv_l, Rmult_1_r by Lra.lra. exact Ha.
    + apply (Rmult_le_reg_r w); [exact HzR|]. unfold Rdiv. rewrite Rmult_assoc, Rinv_l, Rmult_1_r by Lra.lra. exact Hb.
Qed.
(* an interpolant always exists *)
Theorem C37_interpolant_exists : forall x y, strictly_increasing x -> length y = length x -> exists f, interpolates f x y.
Proof. intros x y Hx Hy. exists (itp x y). apply interp_exists; assumption. Qed.

(* ---------------- C38 ---------------- *)
Fixpoint flux (edges r : list Q) : Q :=
  match edges, r with lo :: ((hi :: _) as rest), v :: vs => (v * (hi - lo) + flux rest vs)%Q | _, _ => 0%Q end.
Lemma flux_RInt (f : R -> R) : forall edges r, length r = length edges - 1 -> 1 <= length edges ->
  (forall i, i < length edges - 1 ->
    is_RInt f (Q2R (nth i edges 0%Q)) (Q2R (nth (S i) edges 0%Q)) (Q2R (nth i r 0 * (nth (S i) edges 0 - nth i edges 0))%Q)) ->
  is_RInt f (Q2R (nth 0 edges 0%Q)) (Q2R (nth (length edges - 1) edges 0%Q)) (Q2R (flux edges r)).
Proof.
  induction edges as [|lo edges IH]; intros r Hr H1 Hi; [cbn in H1; lia|].
  destruct edges as [|hi edges].
  - destruct r; cbn [length nth Nat.sub flux] in *; [|cbn in Hr; lia].
    assert (E0 : Q2R 0 = 0%R) by apply RMicromega.Q2R_0. rewrite E0. apply (is_RInt_point f).
  - destruct r as [|v vs]; [cbn in Hr; lia|].
    change (flux (lo :: hi :: edges) (v :: vs)) with (v * (hi - lo) + flux (hi :: edges) vs)%Q. rewrite Q2R_plus.
    eapply (is_RInt_Chasles f); [apply (Hi 0); cbn; lia|].
    replace (length (lo :: hi :: edges) - 1) with (S (length (hi :: edges) - 1)) by (cbn; lia). cbn [nth].
    apply (IH vs); [cbn in *; lia|cbn; lia|]. intros i Hlt. apply (Hi (S i)). cbn in *; lia.
Qed.
(* total flux is the integral over the covered range *)
Theorem C38_flux_conserved : forall f x y edges z r,
  strictly_increasing x -> length y = length x -> strictly_increasing edges -> 2 <= length edges -> (0 < 1 + z)%Q ->
  interpolates f (redshifted x z) y ->
  trapz_rebin x (Y1 y) edges (ZScalar z) false None None None None = Ok (V1 r) ->
  is_RInt f (Q2R (nth 0 edges 0%Q)) (Q2R (nth (length edges - 1) edges 0%Q)) (Q2R (flux edges r)).
Proof.
  intros f x y edges z r Hx Hy He H2 Hz Hf H.
  destruct (C37_bin_average f x y edges z r Hx Hy He H2 Hz Hf H) as [Hl Hi]. apply flux_RInt; [exact Hl|lia|exact Hi].
Qed.
(* so any two binnings of the same range carry the same flux; in particular
   splitting a bin splits its flux *)
Theorem C38_rebinning_range : forall x y edges edges' z r r',
  strictly_increasing x -> length y = length x -> strictly_increasing edges -> strictly_increasing edges' ->
  2 <= length edges -> 2 <= length edges' -> (0 < 1 + z)%Q ->
  nth 0 edges 0%Q = nth 0 edges' 0%Q -> nth (length edges - 1) edges 0%Q = nth (length edges' - 1) edges' 0%Q ->
  trapz_rebin x (Y1 y) edges (ZScalar z) false None None None None = Ok (V1 r) ->
  trapz_rebin x (Y1 y) edges' (ZScalar z) false None None None None = Ok (V1 r') ->
  (flux edges r == flux edges' r')%Q.
Proof.
  intros x y edges edges' z r r' Hx Hy He He' H2 H2' Hz E0 E1 H H'.
  assert (Hf : interpolates (itp (redshifted x z) y) (redshifted x z) y)
    by (apply interp_exists; [apply redshifted_incr; assumption|rewrite redshifted_length; exact Hy]).
  pose proof (C38_flux_conserved _ x y edges z r Hx Hy He H2 Hz Hf H) as A.
  pose proof (C38_flux_conserved _ x y edges' z r' Hx Hy He' H2' Hz Hf H') as B.
  rewrite E0, E1 in A. apply Q2R_inj. rewrite <- (is_RInt_unique _ _ _ _ A). apply is_RInt_unique. exact B.
Qed.
Theorem C38_split_bin : forall x y a b c z v v1 v2,
  strictly_increasing x -> length y = length x -> (a < b)%Q -> (b < c)%Q -> (0 < 1 + z)%Q ->
  trapz_rebin x (Y1 y) [a; c] (ZScalar z) false None None None None = Ok (V1 [v]) ->
  trapz_rebin x (Y1 y) [a; b; c] (ZScalar z) false None None None None = Ok (V1 [v1; v2]) ->
  (v * (c - a) == v1 * (b - a) + v2 * (c - b))%Q.
Proof.
  intros x y a b c z v v1 v2 Hx Hy Hab Hbc Hz H H'.
  assert (I2 : strictly_increasing [a; c]).
  { intros [|[|i]] [|[|j]] Hij Hj; cbn [nth length] in *; try lia. lra. }
  assert (I3 : strictly_increasing [a; b; c]).
  { intros [|[|[|i]]] [|[|[|j]]] Hij Hj; cbn [nth length] in *; try lia; lra. }
  pose proof (C38_rebinning_range x y [a; c] [a; b; c] z _ _ Hx Hy I2 I3 ltac:(cbn; lia) ltac:(cbn; lia) Hz eq_refl eq_refl H H') as E.
  cbn [flux] in E. rewrite !Qplus_0_r in E. exact E.
Qed.

(* ---------------- C39 ---------------- *)
Lemma is_RInt_lin (f g : R -> R) a b u v (p q : R) : is_RInt f a b u -> is_RInt g a b v ->
  is_RInt (fun t => p * f t + q * g t)%R a b (p * u + q * v)%R.
Proof.
  intros Hf Hg. apply (is_RInt_plus (V := R_NormedModule)).
  - apply (is_RInt_scal (V := R_NormedModule)). exact Hf.
  - apply (is_RInt_scal (V := R_NormedModule)). exact Hg.
Qed.
Theorem C39_linear : forall x y1 y2 edges z (p q : Q) r r1 r2,
  strictly_increasing x -> length y1 = length x -> length y2 = length x -> strictly_increasing edges -> 2 <= length edges -> (0 < 1 + z)%Q ->
  trapz_rebin x (Y1 y1) edges (ZScalar z) false None None None None = Ok (V1 r1) ->
  trapz_rebin x (Y1 y2) edges (ZScalar z) false None None None None = Ok (V1 r2) ->
  trapz_rebin x (Y1 (map2 (fun a b => p * a + q * b)%Q y1 y2)) edges (ZScalar z) false None None None None = Ok (V1 r) ->
  forall i, i < length edges - 1 -> (nth i r 0 == p * nth i r1 0 + q * nth i r2 0)%Q.
Proof.
  intros x y1 y2 edges z p q r r1 r2 Hx Hy1 Hy2 He H2 Hz A1 A2 A i Hi.
  set (X := redshifted x z). set (y := map2 (fun a b => p * a + q * b)%Q y1 y2) in *.
  assert (HX : strictly_increasing X) by (apply redshifted_incr; assumption).
  assert (HlX : length X = length x) by apply redshifted_length.
  assert (F1 : interpolates (itp X y1) X y1) by (apply interp_exists; [exact HX|lia]).
  assert (F2 : interpolates (itp X y2) X y2) by (apply interp_exists; [exact HX|lia]).
  assert (Hly : length y = length x) by (unfold y; rewrite map2_length; lia).
  assert (F : interpolates (fun t => Q2R p * itp X y1 t + Q2R q * itp X y2 t)%R X y).
  { intros k t Hk. cbv zeta. intros Ht. rewrite (F1 k t Hk Ht), (F2 k t Hk Ht).
    assert (Hd : (Q2R (nth k X 0%Q) < Q2R (nth (S k) X 0%Q))%R) by (apply Qlt_Rlt, HX; lia).
    unfold y. rewrite !(map2_nth _ _ 0%Q 0%Q) by lia. rewrite !Q2R_plus, !Q2R_mult. field. Lra.lra. }
  destruct (C37_bin_average _ x y1 edges z r1 Hx Hy1 He H2 Hz F1 A1) as [_ I1].
  destruct (C37_bin_average _ x y2 edges z r2 Hx Hy2 He H2 Hz F2 A2) as [_ I2].
  destruct (C37_bin_average _ x y edges z r Hx Hly He H2 Hz F A) as [_ I].
  specialize (I i Hi). pose proof (is_RInt_lin _ _ _ _ _ _ (Q2R p) (Q2R q) (I1 i Hi) (I2 i Hi)) as J.
  assert (Hlh : (nth i edges 0 < nth (S i) edges 0)%Q) by (apply He; lia).
  eapply (average_unique _ _ (nth i edges 0%Q) (nth (S i) edges 0%Q)); [reflexivity|exact Hlh|exact I|].
  match goal with |- is_RInt _ _ _ ?v => match type of J with is_RInt _ _ _ ?w => replace v with w; [exact J|] end end.
  rewrite !Q2R_mult, Q2R_plus, !Q2R_mult, !Q2R_minus. ring.
Qed.
Theorem C39_bounded : forall x y edges z (m M : Q) r,
  strictly_increasing x -> length y = length x -> strictly_increasing edges -> 2 <= length edges -> (0 < 1 + z)%Q ->
  (forall v, In v y -> (m <= v /\ v <= M)%Q) ->
  trapz_rebin x (Y1 y) edges (ZScalar z) false None None None None = Ok (V1 r) ->
  forall i, i < length edges - 1 -> (m <= nth i r 0 /\ nth i r 0 <= M)%Q.
Proof.
  intros x y edges z m M r Hx Hy He H2 Hz Hb A i Hi.
  set (X := redshifted x z).
  assert (HX : strictly_increasing X) by (apply redshifted_incr; assumption).
  assert (HlX : length X = length x) by apply redshifted_length.
  assert (F : interpolates (itp X y) X y) by (apply interp_exists; [exact HX|lia]).
  destruct (C37_bin_average _ x y edges z r Hx Hy He H2 Hz F A) as [_ I]. specialize (I i Hi).
  destruct (accepted _ _ _ _ _ A) as (_ & _ & G0 & G1 & _); [discriminate|]. cbn [zs_of] in G0, G1. rewrite amax1 in G0. rewrite amin1 in G1.
  assert (V : valid x edges z) by (repeat (split; [assumption|]); assumption).
  pose proof (valid_len _ _ _ V) as Hl.
  assert (Hlh : (nth i edges 0 < nth (S i) edges 0)%Q) by (apply He; lia).
  assert (HlhR : (Q2R (nth i edges 0%Q) < Q2R (nth (S i) edges 0%Q))%R) by (apply Qlt_Rlt; exact Hlh).
  assert (Hin : forall t, (Q2R (nth i edges 0%Q) < t < Q2R (nth (S i) edges 0%Q))%R -> (Q2R m <= itp X y t <= Q2R M)%R).
  { intros t [Ta Tb]. apply (interp_bounds _ X y); auto; [lia|lia|]. rewrite HlX. unfold X. rewrite !redshifted_nth by lia.
    assert (B0 : (nth 0 x 0 * (1 + z) <= nth i edges 0)%Q) by (eapply Qle_trans; [exact G0|apply incr_le; [exact He|lia|lia]]).
    assert (B1 : (nth (S i) edges 0 <= nth (length x - 1) x 0 * (1 + z))%Q) by (eapply Qle_trans; [apply incr_le; [exact He| |]|exact G1]; lia).
    apply Qle_Rle in B0, B1. split; Lra.lra. }
  assert (Cst : forall c : Q, is_RInt (fun _ => Q2R c) (Q2R (nth i edges 0%Q)) (Q2R (nth (S i) edges 0%Q)) (Q2R (c * (nth (S i) edges 0 - nth i edges 0))%Q)).
  { intros c. pose proof (is_RInt_const (V := R_NormedModule) (Q2R (nth i edges 0%Q)) (Q2R (nth (S i) edges 0%Q)) (Q2R c)) as Hc.
    unfold scal in Hc. cbn in Hc. unfold mult in Hc. cbn in Hc. rewrite Q2R_mult, Q2R_minus, Rmult_comm. exact Hc. }
  assert (L1 : (Q2R (m * (nth (S i) edges 0 - nth i edges 0))%Q <= Q2R (nth i r 0 * (nth (S i) edges 0 - nth i edges 0))%Q)%R).
  { eapply is_RInt_le; [left; exact HlhR|apply Cst|exact I|]. intros t Ht. apply Hin. exact Ht. }
  assert (L2 : (Q2R (nth i r 0 * (nth (S i) edges 0 - nth i edges 0))%Q <= Q2R (M * (nth (S i) edges 0 - nth i edges 0))%Q)%R).
  { eapply is_RInt_le; [left; exact HlhR|exact I|apply Cst|]. intros t Ht. apply Hin. exact Ht. }
  apply Rle_Qle in L1, L2.
  split; (eapply Qmult_le_r; [|eassumption]); lra.
Qed.
Theorem C39_constant : forall x y edges z (c : Q) r,
  strictly_increasing x -> length y = length x -> strictly_increasing edges -> 2 <= length edges -> (0 < 1 + z)%Q ->
  (forall v, In v y -> (v == c)%Q) ->
  trapz_rebin x (Y1 y) edges (ZScalar z) false None None None None = Ok (V1 r) ->
  forall i, i < length edges - 1 -> (nth i r 0 == c)%Q.
Proof.
  intros x y edges z c r Hx Hy He H2 Hz Hc A i Hi.
  destruct (C39_bounded x y edges z c c r Hx Hy He H2 Hz) with (i := i) as [B1 B2]; auto; [|lra].
  intros v Hv. rewrite (Hc v Hv). split; apply Qle_refl.
Qed.

(* ---------------- C40 ---------------- *)
Theorem C40_outside_raises : forall x y edges myz gpu z, x <> [] -> edges <> [] -> (0 <= nth 0 x 0)%Q -> (0 <= nth (length x - 1) x 0)%Q ->
  In z (zs_of myz) ->
  (nth 0 edges 0 < nth 0 x 0 * (1 + z) \/ nth (length x - 1) x 0 * (1 + z) < nth (length edges - 1) edges 0)%Q ->
  trapz_rebin x y edges myz gpu None None None None = Err ValueError.
Proof.
  intros x y edges myz gpu z Hx He X0 X1 Hin H.
  assert (Hz : zs_of myz <> []) by (intros E; rewrite E in Hin; destruct Hin).
  rewrite (trapz_unfold _ _ _ _ _ Hx He Hz).
  destruct (amax_spec _ Hz) as [_ Hmax]. destruct (amin_spec _ Hz) as [_ Hmin]. specialize (Hmax z Hin). specialize (Hmin z Hin).
  destruct H as [H|H].
  - assert (Hq : qlt (nth 0 edges 0%Q) (nth 0 x 0 * (1 + amax (zs_of myz)))%Q = true).
    { apply qlt_iff. eapply Qlt_le_trans; [exact H|]. rewrite !(Qmult_comm (nth 0 x 0%Q)). apply Qmult_le_compat_r; [lra|exact X0]. }
    rewrite Hq. reflexivity.
  - assert (Hq : qlt (nth (length x - 1) x 0 * (1 + amin (zs_of myz)))%Q (nth (length edges - 1) edges 0%Q) = true).
    { apply qlt_iff. eapply Qle_lt_trans; [|exact H]. rewrite !(Qmult_comm (nth (length x - 1) x 0%Q)). apply Qmult_le_compat_r; [lra|exact X1]. }
    rewrite Hq, orb_true_r. reflexivity.
Qed.
(* inside: the CPU code returns normally (no index error, no division by zero,
   no endless loop) for every shape of y and myz *)
Lemma core_ok x y edges myz : (forall z, In z (zs_of myz) -> valid x edges z) -> (forall l, In l (rows_of y) -> length l = length x) ->
  zs_of myz <> [] -> exists r, core x y edges myz false = Ok r.
Proof.
  intros V Hy Hz. unfold core.
  assert (Hb : forall ls, (forall l, In l ls -> length l = length x) -> exists r, rebin_batch x ls edges (zs_of myz) = Ok r).
  { intros ls Hls. destruct (rebin_batch_spec x ls edges (zs_of myz) V Hls) as (r & Er & _). eauto. }
  destruct y as [l|ls]; cbn [rows_of negb andb] in *.
  - destruct myz as [|z|zs].
    + assert (Vz : valid x edges 0) by (apply V; left; reflexivity).
      destruct (rebin_1d_valid (itp (redshifted x 0) l) x l edges 0 Vz) as (out & Eo & _); [apply Hy; left; reflexivity| |].
      * destruct Vz as (Hx & _ & _ & Hz0 & _). apply interp_exists; [apply redshifted_incr; assumption|rewrite redshifted_length; apply Hy; left; reflexivity].
      * cbn [zs_of hd]. rewrite Eo. cbn [rbind]. eauto.
    + assert (Vz : valid x edges z) by (apply V; left; reflexivity).
      destruct (rebin_1d_valid (itp (redshifted x z) l) x l edges z Vz) as (out & Eo & _); [apply Hy; left; reflexivity| |].
      * destruct Vz as (Hx & _ & _ & Hz0 & _). apply interp_exists; [apply redshifted_incr; assumption|rewrite redshifted_length; apply Hy; left; reflexivity].
      * cbn [zs_of hd]. rewrite Eo. cbn [rbind]. eauto.
    + destruct (Hb [l] Hy) as [r ->]. cbn [rbind]. eauto.
  - destruct (Hb ls Hy) as [r ->]. cbn [rbind]. eauto.
Qed.
Theorem C40_inside_succeeds : forall x y edges myz,
  strictly_increasing x -> (forall l, In l (rows_of y) -> length l = length x) -> strictly_increasing edges -> 2 <= length edges ->
  (forall z, In z (zs_of myz) -> (0 < 1 + z /\ nth 0 x 0 * (1 + z) <= nth 0 edges 0 /\ nth (length edges - 1) edges 0 <= nth (length x - 1) x 0 * (1 + z))%Q) ->
  exists r, trapz_rebin x y edges myz false None None None None = Ok r.
Proof.
  intros x y edges myz Hx Hy He H2 Hzs.
  assert (He' : edges <> []) by (intros ->; cbn in H2; lia).
  destruct (zs_of myz) as [|z0 zr] eqn:Ez.
  { destruct myz; try discriminate. cbn [zs_of] in Ez. subst zs. unfold trapz_rebin, odef.
    rewrite (get_nth edges 0) by lia. cbn [rbind]. rewrite (getm1_0 edges He'). cbn [rbind]. eauto. }
  rewrite <- Ez in Hzs. assert (Hz : zs_of myz <> []) by (rewrite Ez; discriminate).
  assert (V : forall z, In z (zs_of myz) -> valid x edges z) by (intros z Hin; destruct (Hzs z Hin) as (A & B & C); repeat (split; [assumption|]); assumption).
  assert (Hl : 2 <= length x) by (apply (valid_len x edges z0), V; rewrite Ez; left; reflexivity).
  assert (Hx' : x <> []) by (intros ->; cbn in Hl; lia). rewrite (trapz_unfold _ _ _ _ _ Hx' He' Hz).
  destruct (amax_spec _ Hz) as [Hmax _]. destruct (amin_spec _ Hz) as [Hmin _].
  destruct (Hzs _ Hmax) as (_ & A & _). destruct (Hzs _ Hmin) as (_ & _ & B).
  assert (Q1 : qlt (nth 0 edges 0%Q) (nth 0 x 0 * (1 + amax (zs_of myz)))%Q = false).
  { apply qlt_ge. lra. }
  assert (Q2 : qlt (nth (length x - 1) x 0 * (1 + amin (zs_of myz)))%Q (nth (length edges - 1) edges 0%Q) = false).
  { apply qlt_ge. lra. }
  rewrite Q1, Q2. cbn [orb]. apply core_ok; assumption.
Qed.
(* the sequential loops stop on every input whatsoever *)
Theorem C40_terminates : forall x y edges results, rebin_1d x y edges results <> Err RuntimeError.
Proof.
  intros x y edges results.
  assert (Hq : forall a b, qdiv a b <> Err RuntimeError) by (intros a b; unfold qdiv; destruct (Qeq_bool b 0); discriminate).
  assert (Hg : forall l j, get l j <> Err RuntimeError) by (intros l j; unfold get; destruct (nth_error l j); discriminate).
  assert (Hg1 : forall l j, getm1 l j <> Err RuntimeError) by (intros l [|j]; apply Hg).
  assert (Hr : forall {A B} (m : res A) (k : A -> res B), m <> Err RuntimeError -> (forall a, k a <> Err RuntimeError) -> rbind m k <> Err RuntimeError).
  { intros A B [a|e] k Hm Hk; cbn; [apply Hk|]. intros E. apply Hm. congruence. }
  assert (Hbin : forall lo hi j r, bin x y lo hi j r <> Err RuntimeError).
  { intros lo hi j0 r0. unfold bin. apply Hr; [apply seek_no_fuel; lia|]. intros j.
    do 4 (apply Hr; [first [apply Hg|apply Hg1]|intros ?]). apply Hr; [apply Hq|]. intros t. destruct (qlt _ _).
    - apply Hr; [apply interior_no_fuel; lia|]. intros [j' r2]. do 4 (apply Hr; [apply Hg|intros ?]). apply Hr; [apply Hq|]. discriminate.
    - apply Hr; [apply Hq|]. intros t1. apply Hr; [apply Hq|]. discriminate. }
  unfold rebin_1d. apply Hr.
  - assert (Hb : forall edges results j, bins x y edges results j <> Err RuntimeError).
    { induction edges0 as [|lo es IH]; intros rs j; [discriminate|]. destruct es as [|hi es]; [discriminate|]. destruct rs as [|r0 rs]; [discriminate|].
      rewrite bins_cons. apply Hr; [apply Hbin|]. intros p. apply Hr; [apply IH|]. discriminate. }
    apply Hb.
  - revert edges. induction edges as [|lo es IH]; intros rs; [discriminate|]. destruct es as [|hi es]; [discriminate|]. destruct rs as [|r0 rs]; [discriminate|].
    rewrite normalise_cons. apply Hr; [apply Hq|]. intros v. apply Hr; [apply IH|]. discriminate.
Qed.
(* the documented ValueError for len(x) != len(y) is not raised: extra y values
   are ignored, missing ones are read past the end of the array *)
Theorem C40_length_mismatch_refuted :
  (exists r, trapz_rebin [0;1;2]%Q (Y1 [0;1;2;3]%Q) [0;2]%Q ZNone false None None None None = Ok r) /\
  trapz_rebin [0;1;2]%Q (Y1 [0;1]%Q) [0;2]%Q ZNone false None None None None = Err IndexError.
Proof. split; [eexists|]; reflexivity. Qed.
(* a caller-supplied xmin that is too small defeats the guard: the bin below the
   data is filled by wrapping to the last sample *)
Theorem C40_xmin_bypass_refuted :
  exists r, trapz_rebin [2;3;4]%Q (Y1 [0;0;100]%Q) [1;3]%Q ZNone false (Some 0%Q) None None None = Ok (V1 r) /\
    Forall2 Qeq r [-25 # 2]%Q.
Proof. eexists. split; [reflexivity|]. repeat constructor. Qed.

(* ---------------- C41 ---------------- *)
Lemma gpu_cpu_batch x ys edges zs : (forall z, In z zs -> valid_strict x edges z) -> (forall y, In y ys -> length y = length x) ->
  exists g c, rebin_batch_gpu x ys edges zs = Ok g /\ rebin_batch x ys edges zs = Ok c /\ Forall2 (Forall2 (Forall2 Qeq)) g c.
Proof.
  intros Hz Hy. destruct (gpu_batch_spec x ys edges zs Hz Hy) as (g & Eg & Lg & Hg).
  destruct (rebin_batch_spec x ys edges zs (fun z Hin => proj1 (Hz z Hin)) Hy) as (c & Ec & Lc & Hc).
  exists g, c. split; [exact Eg|]. split; [exact Ec|].
  apply (Forall2_nth_intro _ [] []); [lia|]. intros iz Hiz. rewrite Lg in Hiz.
  destruct (Hg iz Hiz) as (G1 & G2 & G3). destruct (Hc iz Hiz) as (C1 & C2 & C3).
  apply (Forall2_nth_intro _ [] []); [lia|]. intros i Hi. rewrite G1 in Hi.
  assert (R1 : length (nth i (nth iz g []) []) = length ys) by (apply G2, nth_In; lia).
  assert (R2 : length (nth i (nth iz c []) []) = length ys) by (apply C2, nth_In; lia).
  apply (Forall2_nth_intro _ 0%Q 0%Q); [lia|]. intros ib Hib. rewrite R1 in Hib.
  set (z := nth iz zs 0%Q) in *. assert (Hzin : In z zs) by (apply nth_In; exact Hiz).
  destruct (Hz z Hzin) as [V _]. pose proof V as V'. destruct V' as (Hx & He & H2 & Hz0 & _).
  set (f := itp (redshifted x z) (nth ib ys [])).
  assert (Hyb : length (nth ib ys []) = length x) by (apply Hy, nth_In; exact Hib).
  assert (Hf : interpolates f (redshifted x z) (nth ib ys [])) by (apply interp_exists; [apply redshifted_incr; assumption|rewrite redshifted_length; exact Hyb]).
  destruct (C3 ib Hib) as (col & Ecol & _ & Hcol). rewrite (Hcol i Hi).
  destruct (rebin_1d_valid f x (nth ib ys []) edges z V Hyb Hf) as (out & Eo & _ & Ho). rewrite Ecol in Eo. injection Eo as <-.
  eapply (average_unique f f); [reflexivity| |apply G3; assumption|apply Ho; exact Hi].
  apply He; lia.
Qed.
Lemma hd_transposed n col g0 : length col = n -> Forall2 (Forall2 Qeq) g0 (transpose_cols n [col]) -> Forall2 Qeq (map (hd 0%Q) g0) col.
Proof.
  intros Hl H. rewrite (list_as_tab col 0%Q), Hl. unfold transpose_cols in H. cbn [map] in H. revert g0 H.
  generalize (seq 0 n). induction l as [|s sq IH]; intros g0 H; inversion H as [|row ? grest ? Hrow Hrest]; subst; cbn [map]; constructor.
  - inversion Hrow; subst. assumption.
  - apply IH. exact Hrest.
Qed.
Theorem C41_gpu_equals_cpu_partial : forall x y edges myz,
  strictly_increasing x -> (forall l, In l (rows_of y) -> length l = length x) -> strictly_increasing edges -> 2 <= length edges ->
  zs_of myz <> [] ->
  (forall z, In z (zs_of myz) -> (0 < 1 + z /\ nth 0 x 0 * (1 + z) <= nth 0 edges 0 /\ nth (length edges - 1) edges 0 < nth (length x - 1) x 0 * (1 + z))%Q) ->
  exists g c, trapz_rebin x y edges myz true None None None None = Ok g /\
    trapz_rebin x y edges myz false None None None None = Ok c /\ arr_eq g c.
Proof.
  intros x y edges myz Hx Hy He H2 Hz Hzs.
  assert (He' : edges <> []) by (intros ->; cbn in H2; lia).
  assert (V : forall z, In z (zs_of myz) -> valid_strict x edges z).
  { intros z Hin. destruct (Hzs z Hin) as (A & B & C). split; [repeat (split; [assumption|]); lra|exact C]. }
  assert (Hl : 2 <= length x).
  { destruct (zs_of myz) as [|z0 zr]; [congruence|]. apply (valid_len x edges z0). apply V. left; reflexivity. }
  assert (Hx' : x <> []) by (intros ->; cbn in Hl; lia). rewrite !(trapz_unfold _ _ _ _ _ Hx' He' Hz).
  destruct (amax_spec _ Hz) as [Hmax _]. destruct (amin_spec _ Hz) as [Hmin _].
  destruct (Hzs _ Hmax) as (_ & A & _). destruct (Hzs _ Hmin) as (_ & _ & B).
  assert (Q1 : qlt (nth 0 edges 0%Q) (nth 0 x 0 * (1 + amax (zs_of myz)))%Q = false).
  { apply qlt_ge. lra. }
  assert (Q2 : qlt (nth (length x - 1) x 0 * (1 + amin (zs_of myz)))%Q (nth (length edges - 1) edges 0%Q) = false).
  { apply qlt_ge. lra. }
  rewrite Q1, Q2. cbn [orb]. unfold core.
  destruct (gpu_cpu_batch x (rows_of y) edges (zs_of myz) V Hy) as (g & c & Eg & Ec & Hgc).
  destruct y as [l|ls]; cbn [rows_of] in *.
  - assert (Hone : forall z, (forall z', In z' [z] -> valid_strict x edges z') ->
      (forall z', In z' [z] -> (0 < 1 + z' /\ nth 0 x 0 * (1 + z') <= nth 0 edges 0 /\ nth (length edges - 1) edges 0 < nth (length x - 1) x 0 * (1 + z'))%Q) ->
      rebin_batch_gpu x [l] edges [z] = Ok g -> rebin_batch x [l] edges [z] = Ok c ->
      exists r, rebin_1d (redshifted x z) l edges (zeros (length edges - 1)) = Ok r /\ Forall2 Qeq (map (hd 0%Q) (hd [] g)) r).
    { intros z Vz Hzs' _ Ecz. destruct (rebin_1d_valid (itp (redshifted x z) l) x l edges z) as (r & Er & Hlr & _).
      - apply Vz. left; reflexivity.
      - apply Hy. left; reflexivity.
      - apply interp_exists; [apply redshifted_incr; [apply Hzs'; left; reflexivity|exact Hx]|]. rewrite redshifted_length. apply Hy. left; reflexivity.
      - exists r. split; [exact Er|]. unfold rebin_batch in Ecz. cbn [mapM] in Ecz. rewrite Er in Ecz. cbn [rbind] in Ecz. injection Ecz as <-.
        inversion Hgc as [|g0 c0 gr cr Hg0 Hgr]; subst. cbn [hd]. apply (hd_transposed (length edges - 1)); assumption. }
    destruct myz as [|z|zs]; cbn [negb andb zs_of] in *.
    1: specialize (Hone 0%Q V Hzs Eg Ec). 2: specialize (Hone z V Hzs Eg Ec).
    1,2: rewrite Eg; cbn [rbind reshape hd]; destruct Hone as (r & -> & Hr); cbn [rbind]; eexists _, _; (split; [reflexivity|]); (split; [reflexivity|]); exact Hr.
    rewrite Eg, Ec. cbn [rbind reshape]. eexists _, _. split; [reflexivity|]. split; [reflexivity|]. cbn [arr_eq].
    clear -Hgc. induction Hgc as [|a b ga cb Hab _ IH]; cbn [map]; constructor; [|exact IH].
    clear -Hab. induction Hab as [|a b ga cb Hab _ IH]; cbn [map]; constructor; [|exact IH].
    destruct Hab; cbn [hd]; [reflexivity|assumption].
  - cbn [negb andb]. rewrite Eg, Ec. cbn [rbind]. eexists _, _. split; [reflexivity|]. split; [reflexivity|].
    destruct myz; cbn [reshape arr_eq]; [| |exact Hgc]; destruct Hgc; cbn [hd]; auto.
Qed.
(* When the last edge coincides with the last sample (accepted by the guard) the
   kernel reads x[nt] and y[nt]; the CPU code does not. *)
Theorem C41_last_edge_refuted : exists r,
  trapz_rebin [0;1;2]%Q (Y2 [[5;6;7]%Q]) [0;2]%Q (ZArray [0%Q]) false None None None None = Ok r /\
  trapz_rebin [0;1;2]%Q (Y2 [[5;6;7]%Q]) [0;2]%Q (ZArray [0%Q]) true None None None None = Err IndexError.
Proof. eexists. split; reflexivity. Qed.
Example C41_ex : exists g, trapz_rebin [0;1;2;3]%Q (Y2 [[5;6;7;1]; [0;1;0;1]]%Q) [0;1;5#2]%Q (ZArray [0; 1#10]%Q) true None None None None = Ok (V3 g) /\
  length g = 2.
Proof. eexists. split; reflexivity. Qed.

(* ---------------- C42 ---------------- *)
Theorem C42_batch_is_pointwise : forall x ys edges zs r,
  strictly_increasing x -> (0 <= nth 0 x 0)%Q -> (forall l, In l ys -> length l = length x) -> strictly_increasing edges -> 2 <= length edges ->
  (forall z, In z zs -> (0 < 1 + z)%Q) -> zs <> [] ->
  trapz_rebin x (Y2 ys) edges (ZArray zs) false None None None None = Ok (V3 r) ->
  length r = length zs /\
  forall iz ib, iz < length zs -> ib < length ys ->
    exists col, trapz_rebin x (Y1 (nth ib ys [])) edges (ZScalar (nth iz zs 0%Q)) false None None None None = Ok (V1 col) /\
      length (nth iz r []) = length edges - 1 /\ length col = length edges - 1 /\
      forall i, i < length edges - 1 -> nth ib (nth i (nth iz r []) []) 0%Q = nth i col 0%Q.
Proof.
  intros x ys edges zs r Hx X0 Hy He H2 Hz Hne H.
  destruct (accepted _ _ _ _ _ H Hne) as (Hx' & He' & G0 & G1 & Hc). cbn [zs_of] in *.
  destruct (amax_spec _ Hne) as [_ Hmax]. destruct (amin_spec _ Hne) as [_ Hmin].
  assert (X1 : (0 <= nth (length x - 1) x 0)%Q).
  { eapply Qle_trans; [exact X0|]. apply incr_le; [exact Hx|lia|]. destruct x; [congruence|cbn; lia]. }
  assert (V : forall z, In z zs -> valid x edges z).
  { intros z Hin. do 3 (split; [assumption|]). split; [apply Hz; exact Hin|]. specialize (Hmax z Hin). specialize (Hmin z Hin). split.
    - eapply Qle_trans; [|exact G0]. rewrite !(Qmult_comm (nth 0 x 0%Q)). apply Qmult_le_compat_r; [lra|exact X0].
    - eapply Qle_trans; [exact G1|]. rewrite !(Qmult_comm (nth (length x - 1) x 0%Q)). apply Qmult_le_compat_r; [lra|exact X1]. }
  destruct (rebin_batch_spec x ys edges zs V Hy) as (r' & Er & Lr & Hr).
  unfold core in Hc. cbn [zs_of] in Hc. rewrite Er in Hc. cbn [rbind reshape] in Hc. injection Hc as ->.
  split; [exact Lr|]. intros iz ib Hiz Hib. destruct (Hr iz Hiz) as (R1 & _ & R3). destruct (R3 ib Hib) as (col & Ecol & Lcol & Hcol).
  exists col. assert (Hin : In (nth iz zs 0%Q) zs) by (apply nth_In; exact Hiz). split; [|split; [exact R1|split; [exact Lcol|exact Hcol]]].
  rewrite (trapz_unfold _ _ _ _ _ Hx' He') by discriminate. cbn [zs_of]. rewrite amax1, amin1.
  destruct (V _ Hin) as (_ & _ & _ & _ & B0 & B1).
  assert (Q1 : qlt (nth 0 edges 0%Q) (nth 0 x 0 * (1 + nth iz zs 0))%Q = false).
  { apply qlt_ge. lra. }
  assert (Q2 : qlt (nth (length x - 1) x 0 * (1 + nth iz zs 0))%Q (nth (length edges - 1) edges 0%Q) = false).
  { apply qlt_ge. lra. }
  rewrite Q1, Q2. cbn [orb core zs_of negb andb hd]. rewrite Ecol. reflexivity.
Qed.

(* shapes: a scalar redshift drops the first axis, no redshift means 0, and a 1-d y drops the last axis *)
Theorem C42_shapes : forall x ys l edges zs z r, x <> [] -> edges <> [] -> zs <> [] ->
  (trapz_rebin x (Y2 ys) edges (ZScalar z) false None None None None = Ok r <->
     exists m, r = V2 m /\ trapz_rebin x (Y2 ys) edges (ZArray [z]) false None None None None = Ok (V3 [m])) /\
  trapz_rebin x (Y2 ys) edges ZNone false None None None None = trapz_rebin x (Y2 ys) edges (ZScalar 0) false None None None None /\
  trapz_rebin x (Y1 l) edges ZNone false None None None None = trapz_rebin x (Y1 l) edges (ZScalar 0) false None None None None /\
  (trapz_rebin x (Y1 l) edges (ZArray zs) false None None None None = Ok r <->
     exists rows, r = V2 rows /\ trapz_rebin x (Y2 [l]) edges (ZArray zs) false None None None None = Ok (V3 (map (map (fun v => [v])) rows))).
Proof.
  intros x ys l edges zs z r Hx He Hz. assert (H1 : zs_of (ZArray [z]) <> []) by discriminate. assert (H2 : zs_of (ZScalar z) <> []) by discriminate.
  split; [|split; [reflexivity|split; [reflexivity|]]].
  - rewrite !trapz_unfold by assumption. cbn [zs_of]. destruct (_ || _); [split; [discriminate|intros (m & _ & Hm); discriminate]|].
    unfold core. cbn [zs_of]. unfold rebin_batch. cbn [mapM]. destruct (mapM _ ys) as [cols|e]; cbn [rbind reshape hd]; [|split; [discriminate|intros (m & _ & Hm); discriminate]].
    split; [intros H; injection H as <-; eauto|]. intros (m & -> & H). injection H as <-. reflexivity.
  - rewrite !trapz_unfold by assumption. cbn [zs_of]. destruct (_ || _); [split; [discriminate|intros (m & _ & Hm); discriminate]|].
    unfold core. cbn [zs_of negb andb]. destruct (rebin_batch x [l] edges zs) as [out|e] eqn:E; cbn [rbind reshape]; [|split; [discriminate|intros (m & _ & Hm); discriminate]].
    assert (Hone : out = map (map (fun v => [v])) (map (map (hd 0%Q)) out)).
    { unfold rebin_batch in E. apply Proof_Table.mapM_Forall2 in E. clear Hz. induction E as [|a b zs' out' Hab _ IH]; [reflexivity|]. cbn [map]. f_equal; [|exact IH].
      cbn [mapM] in Hab. destruct (rebin_1d _ l edges _) as [c|]; [|discriminate]. cbn [rbind] in Hab. injection Hab as <-. unfold transpose_cols. rewrite !map_map. reflexivity. }
    split; [intros H; injection H as <-; exists (map (map (hd 0%Q)) out); split; [reflexivity|]; now rewrite <- Hone|].
    intros (rows & -> & H). injection H as ->. rewrite map_map. f_equal. f_equal. rewrite <- (map_id rows) at 2. apply map_ext. intros row. rewrite map_map. apply map_id.
Qed.

(* ---------------- C83: archetype rebinning on the GPU ---------------- *)
(* rest-frame limits are passed as xmin/xmax, so for z <> 0 the guard tests the
   wrong range: here the CPU call raises ValueError while the GPU call computes
   (its kernel index is 0 and it reads before the array) *)
Theorem C83_guard_differs_refuted : exists wave flux centers edges z,
  centers2edges centers = Ok edges /\ arch_rebin_cpu wave flux centers z = Err ValueError /\
  arch_rebin_gpu wave flux edges z = Err IndexError.
Proof.
  exists [1;2;3;4]%Q, [[1;1;1;1]%Q], [(3#2);2;(5#2)]%Q. eexists. exists 1%Q. split; [reflexivity|]. split; reflexivity.
Qed.
(* and the other way round: data inside the redshifted template are rejected *)
Theorem C83_rejects_valid_refuted : exists wave flux centers edges z r,
  centers2edges centers = Ok edges /\ arch_rebin_cpu wave flux centers z = Ok r /\
  arch_rebin_gpu wave flux edges z = Err ValueError.
Proof.
  exists [1;2;3;4]%Q, [[1;1;1;1]%Q], [4;5;6]%Q. eexists. exists 1%Q. eexists. split; [reflexivity|]. split; reflexivity.
Qed.

Print Assumptions C36_brackets.
Print Assumptions C37_bin_average.
Print Assumptions C38_rebinning_range.
Print Assumptions C39_linear.
Print Assumptions C39_bounded.
Print Assumptions C40_outside_raises.
Print Assumptions C40_inside_succeeds.
Print Assumptions C40_terminates.
Print Assumptions C41_gpu_equals_cpu_partial.
Print Assumptions C42_batch_is_pointwise.
Print Assumptions C42_shapes.
