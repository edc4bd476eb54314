(* IGM transmission: C73, C74, C75, C93, C94. *)
From Verif Require Import Prelude PreludeFacts Model_IGM Spec_IGM Proof_IGM.
Require Import Reals Lra Psatz.
Local Open Scope R_scope.

Definition positive_args (z lo : arr) : Prop :=
  elements z <> [] /\ elements lo <> [] /\ (forall a, In a (elements z) -> 0 < 1 + a) /\ (forall b, In b (elements lo) -> 0 < b).

(* ---------------- C93 ---------------- *)
(* every entry depends on its own redshift and wavelength only, and the result has the dimensions of the arguments *)
Theorem C93_entrywise : forall z lo model, is_model model -> positive_args z lo -> transmission_Lyman z lo model true = Ok (entrywise (T_of model) z lo).
Proof.
  intros z lo model Hm (Hz & Hl & Pz & Pl). rewrite <- shape_entrywise. unfold transmission_Lyman.
  assert (known model = true) as -> by (destruct Hm as [->|[<-|[<-|[<-|[<-|[]]]]]]; reflexivity). cbn [negb]. rewrite andb_false_r.
  change (atleast_1d z) with (elements z). change (atleast_1d lo) with (elements lo).
  destruct (elements z) as [|z0 zs] eqn:Ez; [congruence|]. destruct (elements lo) as [|l0 ls] eqn:El; [congruence|]. cbn [orb].
  rewrite andb_false_r. cbn [andb]. set (Z := z0 :: zs) in *. set (L := l0 :: ls) in *.
  assert (Hones : forall m, is_model m -> (ltb LyA (rmin L / (1 + rmax Z)) = true \/ no_model m = true) -> map (fun _ => map (fun _ => 1) L) Z = map (fun a => map (T_of m a) L) Z).
  { intros m Hm' Hc. apply map_ext_in. intros a Ha. apply map_ext_in. intros b Hb. symmetry. destruct Hc as [Hc|Hc].
    - apply T_red; [now apply Pz| |exact Hm']. apply ltb_iff in Hc.
      pose proof (Pz (rmax Z) (rmax_in Z Hz)) as P1. pose proof (Pl (rmin L) (rmin_in L Hl)) as P2. pose proof (rmax_ge Z a Ha). pose proof (rmin_le L b Hb). pose proof (Pz a Ha).
      assert (rmin L / (1 + rmax Z) <= b / (1 + a)); [|lra]. unfold Rdiv. apply Rmult_le_compat; [lra|left; now apply Rinv_0_lt_compat|assumption|apply Rinv_le_contravar; lra].
    - destruct Hm' as [->|[<-|[<-|[<-|[<-|[]]]]]]; try reflexivity; discriminate. }
  destruct (ltb LyA (rmin L / (1 + rmax Z))) eqn:E; cbn [orb].
  - f_equal. apply Hones; [exact Hm|now left].
  - destruct Hm as [->|[<-|[<-|[<-|[<-|[]]]]]].
    + reflexivity.
    + reflexivity.
    + change (shape z lo (trans_ck calura12 Z L) = shape z lo (map (fun a => map (T_of (Some "Calura12"%string) a) L) Z)). f_equal. apply trans_ck_entries.
    + change (shape z lo (trans_ck kamble20 Z L) = shape z lo (map (fun a => map (T_of (Some "Kamble20"%string) a) L) Z)). f_equal. apply trans_ck_entries.
    + change (shape z lo (trans_inoue Z L) = shape z lo (map (fun a => map (T_of (Some "Inoue14"%string) a) L) Z)). f_equal. apply trans_inoue_entries. exact Pz.
Qed.
Theorem C93_unknown_model : forall z lo model always, ~ is_model model -> transmission_Lyman z lo model always = Err ValueError.
Proof.
  intros z lo model always H. unfold transmission_Lyman. assert (known model = false) as ->; [|reflexivity].
  destruct model as [s|]; [|exfalso; apply H; now left]. unfold known. destruct (existsb _ _) eqn:E; [|reflexivity]. exfalso. apply H. right.
  apply existsb_exists in E as (x & Hx & E). apply String.eqb_eq in E. subst x. cbn in Hx |- *. intuition (subst; auto).
Qed.
Theorem C93_empty : forall z lo model, is_model model -> elements z = [] \/ elements lo = [] -> transmission_Lyman z lo model true = Err ValueError.
Proof.
  intros z lo model Hm He. unfold transmission_Lyman. assert (known model = true) as -> by (destruct Hm as [->|[<-|[<-|[<-|[<-|[]]]]]]; reflexivity). cbn [negb]. rewrite andb_false_r.
  change (atleast_1d z) with (elements z). change (atleast_1d lo) with (elements lo). destruct He as [->| ->]; cbn [orb]; [reflexivity|]. now rewrite orb_true_r.
Qed.
Example C93_nonvacuous : positive_args (Array [2; 3]) (Scalar 4000) /\ entrywise (T_of (Some "Calura12"%string)) (Array [2; 3]) (Scalar 4000) = T1 [T_of (Some "Calura12"%string) 2 4000; T_of (Some "Calura12"%string) 3 4000].
Proof. split; [|reflexivity]. split; [discriminate|]. split; [discriminate|]. split; [intros a [<-|[<-|[]]]; lra|intros b [<-|[]]; lra]. Qed.

(* ---------------- C73 ---------------- *)
Definition lyman_model (m : option string) : Prop := m = Some "Calura12"%string \/ m = Some "Kamble20"%string.
Lemma exp_neg_le1 x : 0 <= x -> exp (- x) <= 1.
Proof. intros H. destruct (Req_dec x 0) as [->|Hn]; [rewrite Ropp_0, exp_0; lra|]. rewrite <- exp_0. left. apply exp_increasing. lra. Qed.
Theorem C73_range : forall m z lo, lyman_model m -> 0 < T_of m z lo <= 1.
Proof. intros m z lo [->| ->]; cbn [T_of]; (split; [apply exp_pos|]); apply exp_neg_le1, depth_nonneg; intros l Hl; left; [now apply calura_ok|now apply kamble_ok]. Qed.
Theorem C73_red : forall m z lo, is_model m -> 0 < 1 + z -> LyA <= lo / (1 + z) -> T_of m z lo = 1.
Proof. intros m z lo Hm Hz Hr. now apply T_red. Qed.
(* at least one line absorbs blueward of Lyman alpha *)
Theorem C73_blue : forall m z lo, lyman_model m -> 0 < 1 + z -> 0 < lo -> lo / (1 + z) < LyA -> T_of m z lo < 1.
Proof.
  intros m z lo Hm Hz Hlo Hb. assert (G : forall s a, ly_line a = LyA -> 0 < ly_A a -> (forall l, In l s -> 0 <= ly_A l) -> 0 < depth (a :: s) z lo).
  { intros s a Ea Ha Hs. unfold depth. cbn [map fold_right]. apply Rplus_lt_le_0_compat; [|now apply depth_nonneg]. unfold line_depth. rewrite Ea. destruct (Rlt_dec (lo / (1 + z)) LyA); [|contradiction]. apply Rmult_lt_0_compat; [exact Ha|apply exp_pos]. }
  destruct Hm as [->| ->]; cbn [T_of]; rewrite <- exp_0; apply exp_increasing, Ropp_lt_gt_0_contravar; apply G; cbn; try lra; intros l Hl; left; [apply calura_ok|apply kamble_ok]; now right.
Qed.
Theorem C73_decreasing_obs : forall m z1 z2 lo, lyman_model m -> 0 < lo -> 0 < 1 + z1 -> z1 <= z2 -> T_of m z2 lo <= T_of m z1 lo.
Proof.
  intros m z1 z2 lo Hm Hlo Hz Hzz. assert (G : forall x y, x <= y -> exp (- y) <= exp (- x)) by (intros x y [H| ->]; [left; apply exp_increasing; lra|lra]).
  destruct Hm as [->| ->]; cbn [T_of]; apply G, depth_mono_obs; try assumption; intros l Hl; left; [now apply calura_ok|now apply kamble_ok].
Qed.
Theorem C73_decreasing_rest : forall m z1 z2 rest, lyman_model m -> 0 < rest -> 0 < 1 + z1 -> z1 <= z2 -> T_of m z2 (rest * (1 + z2)) <= T_of m z1 (rest * (1 + z1)).
Proof.
  intros m z1 z2 rest Hm Hlo Hz Hzz. assert (G : forall x y, x <= y -> exp (- y) <= exp (- x)) by (intros x y [H| ->]; [left; apply exp_increasing; lra|lra]).
  destruct Hm as [->| ->]; cbn [T_of]; apply G, depth_mono_rest; try assumption; intros l Hl; [destruct (calura_ok l Hl) as (A & B & C & D)|destruct (kamble_ok l Hl) as (A & B & C & D)]; repeat split; lra.
Qed.
(* in terms of the function itself, two arrays *)
Theorem C73_array : forall m zs los, lyman_model m -> positive_args (Array zs) (Array los) ->
  exists M, transmission_Lyman (Array zs) (Array los) m true = Ok (T2 M) /\ length M = length zs /\
    forall i z, nth_error zs i = Some z -> exists row, nth_error M i = Some row /\ length row = length los /\
      forall j lo, nth_error los j = Some lo -> exists T, nth_error row j = Some T /\ 0 < T <= 1 /\ (LyA <= lo / (1 + z) <-> T = 1).
Proof.
  intros m zs los Hm Hp. assert (Hm' : is_model m) by (destruct Hm as [->| ->]; right; cbn; tauto). exists (map (fun a => map (T_of m a) los) zs).
  split; [now rewrite C93_entrywise|]. split; [apply map_length|]. intros i z Ez. exists (map (T_of m z) los). split; [now rewrite nth_error_map, Ez|]. split; [apply map_length|].
  intros j lo El. exists (T_of m z lo). split; [now rewrite nth_error_map, El|]. split; [now apply C73_range|].
  destruct Hp as (_ & _ & Pz & Pl). cbn [elements] in *. apply nth_error_In in Ez, El. split; [intros H; apply T_red; auto|]. intros H. destruct (Rlt_le_dec (lo / (1 + z)) LyA) as [Hb|Hb]; [|exact Hb].
  pose proof (C73_blue m z lo Hm (Pz z Ez) (Pl lo El) Hb). lra.
Qed.
Example C73_nonvacuous : lyman_model (Some "Kamble20"%string) /\ T_of (Some "Kamble20"%string) 3 4000 < 1 /\ T_of (Some "Kamble20"%string) 2 4000 = 1.
Proof. split; [now right|]. split; [apply C73_blue; try lra; [now right|unfold LyA; lra]|]. apply C73_red; [right; cbn; tauto|lra|unfold LyA; lra]. Qed.

(* ---------------- C74 ---------------- *)
Theorem C74_skip_is_identity : forall z lo model, is_model model -> positive_args z lo -> transmission_Lyman z lo model false = Ok NoTrans ->
  transmission_Lyman z lo model true = Ok (entrywise (fun _ _ => 1) z lo) /\ forall a b, In a (elements z) -> In b (elements lo) -> T_of model a b = 1.
Proof.
  intros z lo model Hm Hp H.
  assert (A : forall a b, In a (elements z) -> In b (elements lo) -> T_of model a b = 1).
  { intros a b Ha Hb. destruct Hp as (Hz & Hl & Pz & Pl). unfold transmission_Lyman in H.
    assert (known model = true) as Hk by (destruct Hm as [->|[<-|[<-|[<-|[<-|[]]]]]]; reflexivity). rewrite Hk in H. cbn [negb] in H. rewrite !andb_true_r in H.
    change (atleast_1d z) with (elements z) in H. change (atleast_1d lo) with (elements lo) in H.
    destruct (no_model model) eqn:En; [destruct Hm as [->|[<-|[<-|[<-|[<-|[]]]]]]; try reflexivity; discriminate|].
    destruct (elements z) as [|z0 zs] eqn:Ez; [congruence|]. destruct (elements lo) as [|l0 ls] eqn:El; [congruence|]. cbn [orb andb] in H. set (Z := z0 :: zs) in *. set (L := l0 :: ls) in *.
    destruct (ltb LyA (rmin L / (1 + rmax Z))) eqn:E.
    - apply T_red; [now apply Pz| |exact Hm]. apply ltb_iff in E.
      pose proof (Pz (rmax Z) (rmax_in Z Hz)) as P1. pose proof (Pl (rmin L) (rmin_in L Hl)) as P2. pose proof (rmax_ge Z a Ha). pose proof (rmin_le L b Hb). pose proof (Pz a Ha).
      assert (rmin L / (1 + rmax Z) <= b / (1 + a)); [|lra]. unfold Rdiv. apply Rmult_le_compat; [lra|left; now apply Rinv_0_lt_compat|assumption|apply Rinv_le_contravar; lra].
    - exfalso. assert (Hs : forall m, shape z lo m <> Ok NoTrans).
      { intros m. unfold shape. destruct z, lo; try discriminate; try (destruct (mapM _ m); discriminate).
        - destruct m as [|[|? [|? ?]] [|? ?]]; discriminate.
        - destruct m as [|? [|? ?]]; discriminate. }
      destruct model as [s|]; [|discriminate]. destruct (String.eqb s "Calura12"); [now apply Hs in H|]. destruct (String.eqb s "Kamble20"); [now apply Hs in H|]. destruct (String.eqb s "Inoue14"); [now apply Hs in H|discriminate]. }
  split; [|exact A]. rewrite C93_entrywise by assumption. f_equal. destruct z as [a|l], lo as [b|m]; cbn [entrywise elements] in *; f_equal.
  - apply A; now left.
  - apply map_ext_in. intros b Hb. apply A; [now left|exact Hb].
  - apply map_ext_in. intros a Ha. apply A; [exact Ha|now left].
  - apply map_ext_in. intros a Ha. apply map_ext_in. intros b Hb. now apply A.
Qed.
(* otherwise the switch makes no difference *)
Theorem C74_same : forall z lo model, is_model model -> positive_args z lo -> transmission_Lyman z lo model false <> Ok NoTrans -> transmission_Lyman z lo model false = transmission_Lyman z lo model true.
Proof.
  intros z lo model Hm (Hz & Hl & _) H. unfold transmission_Lyman in *. destruct (known model); [|reflexivity]. cbn [negb andb] in *. rewrite ?andb_true_r, ?andb_false_r in *.
  destruct (no_model model) eqn:En; [congruence|]. change (atleast_1d z) with (elements z) in *. change (atleast_1d lo) with (elements lo) in *.
  destruct (elements z) as [|z0 zs]; [congruence|]. destruct (elements lo) as [|l0 ls]; [congruence|]. cbn [orb] in *. destruct (ltb LyA (rmin (l0 :: ls) / (1 + rmax (z0 :: zs)))); [congruence|]. reflexivity.
Qed.
(* and it is skipped exactly when no redshift needs it *)
Theorem C74_when : forall z lo model, is_model model -> positive_args z lo ->
  (transmission_Lyman z lo model false = Ok NoTrans <-> model = None \/ model = Some "None"%string \/ forall a b, In a (elements z) -> In b (elements lo) -> LyA < b / (1 + a)).
Proof.
  intros z lo model Hm (Hz & Hl & Pz & Pl). unfold transmission_Lyman.
  assert (known model = true) as -> by (destruct Hm as [->|[<-|[<-|[<-|[<-|[]]]]]]; reflexivity). cbn [negb]. rewrite !andb_true_r.
  change (atleast_1d z) with (elements z). change (atleast_1d lo) with (elements lo).
  destruct (no_model model) eqn:En; [split; [intros _|reflexivity]; destruct Hm as [->|[<-|[<-|[<-|[<-|[]]]]]]; try discriminate; tauto|].
  destruct (elements z) as [|z0 zs] eqn:Ez; [congruence|]. destruct (elements lo) as [|l0 ls] eqn:El; [congruence|]. cbn [orb andb]. set (Z := z0 :: zs) in *. set (L := l0 :: ls) in *.
  assert (Q : ltb LyA (rmin L / (1 + rmax Z)) = true <-> forall a b, In a Z -> In b L -> LyA < b / (1 + a)).
  { rewrite ltb_iff. split.
    - intros E a b Ha Hb. pose proof (Pz (rmax Z) (rmax_in Z Hz)) as P1. pose proof (Pl (rmin L) (rmin_in L Hl)) as P2. pose proof (rmax_ge Z a Ha). pose proof (rmin_le L b Hb). pose proof (Pz a Ha).
      assert (rmin L / (1 + rmax Z) <= b / (1 + a)); [|lra]. unfold Rdiv. apply Rmult_le_compat; [lra|left; now apply Rinv_0_lt_compat|assumption|apply Rinv_le_contravar; lra].
    - intros H. apply H; [now apply rmax_in|now apply rmin_in]. }
  destruct (ltb LyA (rmin L / (1 + rmax Z))) eqn:E.
  - split; [intros _; right; right; now apply Q|reflexivity].
  - assert (Hs : forall m, shape z lo m <> Ok NoTrans).
    { intros m. unfold shape. destruct z, lo; try discriminate; try (destruct (mapM _ m); discriminate).
      - destruct m as [|[|? [|? ?]] [|? ?]]; discriminate.
      - destruct m as [|? [|? ?]]; discriminate. }
    split; [|intros [->|[->|H]]; [discriminate|discriminate|apply Q in H; discriminate]].
    intros H. exfalso. destruct model as [s|]; [|discriminate]. destruct (String.eqb s "Calura12"); [now apply Hs in H|]. destruct (String.eqb s "Kamble20"); [now apply Hs in H|]. destruct (String.eqb s "Inoue14"); [now apply Hs in H|discriminate].
Qed.
Example C74_nonvacuous : transmission_Lyman (Array [1]) (Array [4000; 5000]) (Some "Inoue14"%string) false = Ok NoTrans.
Proof.
  apply C74_when; [right; cbn; tauto| |].
  - split; [discriminate|]. split; [discriminate|]. split; [intros a [<-|[]]; lra|intros b [<-|[<-|[]]]; lra].
  - right; right. intros a b [<-|[]] [<-|[<-|[]]]; unfold LyA; lra.
Qed.

(* ---------------- C75 ---------------- *)
(* Full statement: the four optical depths are the published piecewise formulas for every z, lambda.
   Proved for three of them; for the Lyman continuum of the LAF only for z >= 1.2 and off one
   wavelength: missing z < 1.2 and lambda_obs = 5.7 lambda_L (both refuted below). *)
Theorem C75_inoue_partial : forall z lo, 0 < 1 + z -> 0 < lo ->
  tLSLAF z lo = rsum (map (pub_LS_LAF z lo) inoue_lines) /\ tLSDLA z lo = rsum (map (pub_LS_DLA z lo) inoue_lines) /\ tLCDLA z lo = pub_LC_DLA z (lo / lamL) /\
  (12/10 <= z -> lo <> lamL * (57/10) -> tLCLAF z lo = pub_LC_LAF z (lo / lamL)).
Proof.
  intros z lo Hz Hlo. split; [|split; [|split]].
  - apply rsum_ext. intros l Hl. destruct (lines_ok l Hl) as (_ & A & _). apply LSLAF_pub; try assumption. pose proof lamL_pos. lra.
  - apply rsum_ext. intros l Hl. destruct (lines_ok l Hl) as (_ & A & _). apply LSDLA_pub; try assumption. pose proof lamL_pos. lra.
  - now apply LCDLA_pub.
  - intros. now apply LCLAF_pub.
Qed.
Lemma Rpower_1_base b : Rpower 1 b = 1. Proof. unfold Rpower. rewrite ln_1, Rmult_0_r. apply exp_0. Qed.
(* for z = 1/2 and every wavelength between the Lyman limit and 1.5 times it, the z < 1.2 formula is
   overwritten by the one for 1.2 <= z < 4.7: too much absorption *)
Theorem C75_low_z_refuted : forall lo, lamL <= lo < lamL * (3/2) -> pub_LC_LAF (1/2) (lo / lamL) < tLCLAF (1/2) lo.
Proof.
  intros lo [H1 H2]. pose proof lamL_pos as HL. unfold tLCLAF, pub_LC_LAF. cbv zeta. unfold ltb, geb.
  replace (1 + 1/2) with (3/2) by lra. replace (1 + 12/10) with (22/10) by lra.
  assert (Hu : lo / lamL < 3/2) by (apply (proj1 (x_lt _ _ _ HL)); exact H2).
  destruct (Rlt_dec lo (lamL * (3/2))); [|lra]. destruct (Rlt_dec (lo / lamL) (3/2)); [|lra]. destruct (Rlt_dec (1/2) (12/10)); [|lra]. destruct (Rlt_dec (1/2) (47/10)); [|lra]. destruct (Rlt_dec lo (lamL * (22/10))); [|nra]. cbn [andb negb].
  set (p := Rpower (lo / lamL) (21/10)). set (q := Rpower (lo / lamL) (12/10)).
  assert (Hp : 0 < p) by apply exp_pos.
  assert (A : 3/2 <= Rpower (3/2) (16/10)) by (rewrite <- (Rpower_1 (3/2)) at 1 by lra; apply Rle_Rpower; lra).
  assert (B : 2/3 <= Rpower (3/2) (-(9/10))).
  { replace (2/3) with (Rpower (3/2) (-(1))); [apply Rle_Rpower; lra|]. rewrite Rpower_Ropp, Rpower_1 by lra. lra. }
  set (a := Rpower (3/2) (16/10)) in *. set (b := Rpower (3/2) (-(9/10))) in *. nra.
Qed.
(* at lambda_obs = 5.7 lambda_L no formula applies for z > 4.7: the term drops to zero *)
Theorem C75_hole_refuted : forall z, 47/10 < z -> tLCLAF z (lamL * (57/10)) = 0 /\ 0 < pub_LC_LAF z (57/10).
Proof.
  intros z Hz. pose proof lamL_pos as HL. split.
  - unfold tLCLAF. cbv zeta. unfold ltb, geb. replace (1 + 12/10) with (22/10) by lra. replace (1 + 47/10) with (57/10) by lra.
    destruct (Rlt_dec (lamL * (57/10)) (lamL * (1 + z))); cbn [andb]; [|reflexivity]. destruct (Rlt_dec z (12/10)); [lra|]. destruct (Rlt_dec z (47/10)); [lra|]. destruct (Rlt_dec (lamL * (57/10)) (lamL * (57/10))); [lra|]. destruct (Rlt_dec (lamL * (57/10)) (lamL * (22/10))); [nra|]. reflexivity.
  - unfold pub_LC_LAF. destruct (Rlt_dec (57/10) (1 + z)); [|lra]. destruct (Rlt_dec z (12/10)); [lra|]. destruct (Rlt_dec z (47/10)); [lra|]. destruct (Rlt_dec (57/10) (22/10)); [lra|]. destruct (Rlt_dec (57/10) (57/10)); [lra|].
    replace (55/10) with (34/10 + 21/10) by lra. rewrite Rpower_plus. pose proof (exp_pos (21/10 * ln (57/10))) as P. change (0 < Rpower (57/10) (21/10)) in P.
    assert (Rpower (57/10) (34/10) < Rpower (1 + z) (34/10)) by (unfold Rpower; apply exp_increasing; apply Rmult_lt_compat_l; [lra|apply ln_increasing; lra]). nra.
Qed.
Example C75_nonvacuous : 12/10 <= 3 /\ 3600 <> lamL * (57/10) /\ length inoue_lines = 39%nat.
Proof. split; [lra|]. split; [unfold lamL; lra|reflexivity]. Qed.

(* ---------------- C94 ---------------- *)
(* Inoue14: always positive; between the Lyman limit and Lyman alpha at most 1; the fits to the Lyman
   continuum are not non-negative, and far below the limit the transmission exceeds 1 *)
Lemma LS_nonneg z lo : 0 <= tLSLAF z lo /\ 0 <= tLSDLA z lo.
Proof.
  split; apply rsum_nonneg; intros l Hl; destruct (lines_ok l Hl) as (_ & HL & A1 & A2 & A3 & D1 & D2); pose proof lamL_pos as Hp.
  - unfold tLSLAF_line. cbv zeta. assert (P : forall b, 0 < / Rpower (Q2R (l_lam l)) b) by (intros b; apply Rinv_0_lt_compat, exp_pos).
    assert (G : forall a b, 0 <= a -> 0 <= a / Rpower (Q2R (l_lam l)) b * Rpower lo b) by (intros a b Ha; apply Rmult_le_pos; [apply Rmult_le_pos; [exact Ha|left; apply P]|left; apply exp_pos]).
    pose proof (G _ (12/10) A1). pose proof (G _ (37/10) A2). pose proof (G _ (55/10) A3).
    repeat match goal with |- context [if ?c then _ else _] => destruct c end; lra.
  - unfold tLSDLA_line. cbv zeta. unfold ltb. set (lam := Q2R (l_lam l)) in *. destruct (Rlt_dec lo (lam * (1 + 2))) as [H|H]; cbn [negb]; rewrite ?andb_true_r, ?andb_false_r.
    + destruct (Rlt_dec (lo / (1 + z)) lam); [|lra]. assert (0 <= Q2R (l_D1 l) / lam ^ 2 * lo ^ 2); [|lra]. apply Rmult_le_pos; [apply Rmult_le_pos; [exact D1|left; apply Rinv_0_lt_compat, pow_lt; lra]|apply pow2_ge_0].
    + destruct (Rlt_dec (lo / (1 + z)) lam); [|lra]. assert (0 <= Q2R (l_D2 l) / lam ^ 3 * lo ^ 3); [|lra]. apply Rmult_le_pos; [apply Rmult_le_pos; [exact D2|left; apply Rinv_0_lt_compat, pow_lt; lra]|apply pow_le; nra].
Qed.
Definition inoue := Some "Inoue14"%string.
(* Full statement: 0 < T <= 1 for every z, lambda. Missing: below the Lyman limit (refuted at very short wavelengths). *)
Theorem C94_inoue_partial : forall z lo, 0 < 1 + z -> 0 < T_of inoue z lo /\ (lamL <= lo / (1 + z) -> T_of inoue z lo <= 1).
Proof.
  intros z lo Hz. split; [apply exp_pos|]. intros H. unfold T_of, inoue.
  assert (Hc : ltb lo (lamL * (1 + z)) = false) by (apply ltb_false, Rnot_lt_le; intros K; apply blue_iff in K; lra).
  assert (tLCLAF z lo = 0) as -> by (unfold tLCLAF; cbv zeta; now rewrite Hc). assert (tLCDLA z lo = 0) as -> by (unfold tLCDLA; cbv zeta; now rewrite Hc).
  destruct (LS_nonneg z lo). apply exp_neg_le1. lra.
Qed.
Print Assumptions C93_entrywise. Print Assumptions C73_array. Print Assumptions C74_when. Print Assumptions C75_inoue_partial. Print Assumptions C75_low_z_refuted. Print Assumptions C94_inoue_partial.
