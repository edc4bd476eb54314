From Verif Require Import Prelude PreludeFacts Model_IGM Spec_IGM.
Require Import Reals Lra Psatz.
Local Open Scope R_scope.

Lemma ltb_iff x y : ltb x y = true <-> x < y.
Proof. unfold ltb. destruct (Rlt_dec x y); split; intros; try discriminate; try lra; auto. Qed.
Lemma ltb_false x y : ltb x y = false <-> y <= x.
Proof. unfold ltb. destruct (Rlt_dec x y); split; intros; try discriminate; try lra; auto. Qed.
Lemma geb_iff x y : geb x y = true <-> y <= x.
Proof. unfold geb. destruct (Rlt_dec x y); split; intros; try discriminate; try lra; auto. Qed.
Lemma geb_false x y : geb x y = false <-> x < y.
Proof. unfold geb. destruct (Rlt_dec x y); split; intros; try discriminate; try lra; auto. Qed.

Lemma fold_min_le l : forall x, fold_left Rmin l x <= x /\ forall y, In y l -> fold_left Rmin l x <= y.
Proof.
  induction l as [|a l IH]; intros x; cbn; [split; [lra|intros y []]|]. destruct (IH (Rmin x a)) as [A B]. split.
  - eapply Rle_trans; [exact A|apply Rmin_l].
  - intros y [<-|H]; [eapply Rle_trans; [exact A|apply Rmin_r]|now apply B].
Qed.
Lemma rmin_le l y : In y l -> rmin l <= y.
Proof. destruct l as [|x l]; [intros []|]. cbn [rmin]. destruct (fold_min_le l x) as [A B]. intros [<-|H]; [exact A|now apply B]. Qed.
Lemma fold_min_in l : forall x, fold_left Rmin l x = x \/ In (fold_left Rmin l x) l.
Proof. induction l as [|a l IH]; intros x; cbn; [now left|]. destruct (IH (Rmin x a)) as [E|E]; [|now right; right]. rewrite E. unfold Rmin. destruct (Rle_dec x a); auto. Qed.
Lemma rmin_in l : l <> [] -> In (rmin l) l.
Proof. destruct l as [|x l]; [congruence|]. intros _. cbn [rmin]. destruct (fold_min_in l x) as [E|E]; [rewrite E; now left|now right]. Qed.
Lemma fold_max_ge l : forall x, x <= fold_left Rmax l x /\ forall y, In y l -> y <= fold_left Rmax l x.
Proof.
  induction l as [|a l IH]; intros x; cbn; [split; [lra|intros y []]|]. destruct (IH (Rmax x a)) as [A B]. split.
  - eapply Rle_trans; [apply Rmax_l|exact A].
  - intros y [<-|H]; [eapply Rle_trans; [apply Rmax_r|exact A]|now apply B].
Qed.
Lemma rmax_ge l y : In y l -> y <= rmax l.
Proof. destruct l as [|x l]; [intros []|]. cbn [rmax]. destruct (fold_max_ge l x) as [A B]. intros [<-|H]; [exact A|now apply B]. Qed.
Lemma fold_max_in l : forall x, fold_left Rmax l x = x \/ In (fold_left Rmax l x) l.
Proof. induction l as [|a l IH]; intros x; cbn; [now left|]. destruct (IH (Rmax x a)) as [E|E]; [|now right; right]. rewrite E. unfold Rmax. destruct (Rle_dec x a); auto. Qed.
Lemma rmax_in l : l <> [] -> In (rmax l) l.
Proof. destruct l as [|x l]; [congruence|]. intros _. cbn [rmax]. destruct (fold_max_in l x) as [E|E]; [rewrite E; now left|now right]. Qed.

(* ---- Calura, Kamble: entries ---- *)
Lemma ck_fold series minw z lo T : (minw <= lo / (1 + z)) -> fold_left (ck_step minw z lo) series T = T * exp (- depth series z lo).
Proof.
  intros Hm. revert T. induction series as [|l s IH]; intros T; [cbn; unfold depth; cbn; rewrite Ropp_0, exp_0; ring|].
  cbn [fold_left]. rewrite IH. unfold depth. cbn [map fold_right]. unfold ck_step at 1, line_depth at 2.
  replace (1 / (1 + z) * lo) with (lo / (1 + z)) by (unfold Rdiv; ring). replace (1 + (lo / ly_line l - 1)) with (lo / ly_line l) by ring.
  destruct (Rlt_dec (lo / (1 + z)) (ly_line l)) as [H|H].
  - assert (ltb (ly_line l) minw = false) as -> by (apply ltb_false; lra). assert (ltb (lo / (1 + z)) (ly_line l) = true) as -> by now apply ltb_iff.
    rewrite Ropp_plus_distr, exp_plus. ring.
  - assert (ltb (lo / (1 + z)) (ly_line l) = false) as -> by (apply ltb_false; lra). rewrite Rplus_0_l. destruct (ltb (ly_line l) minw); reflexivity.
Qed.
Lemma trans_ck_entries series zs los : trans_ck series zs los = map (fun z => map (fun lo => exp (- depth series z lo)) los) zs.
Proof.
  unfold trans_ck. apply map_ext_in. intros z Hz. apply map_ext_in. intros lo Hlo. unfold ck_entry. rewrite ck_fold; [ring|].
  apply rmin_le. apply in_concat. exists (map (fun lo => 1 / (1 + z) * lo) los). split; [apply in_map_iff; now exists z|]. apply in_map_iff. exists lo. split; [unfold Rdiv; ring|exact Hlo].
Qed.
Lemma depth_red series z lo : (forall l, In l series -> ly_line l <= LyA) -> LyA <= lo / (1 + z) -> depth series z lo = 0.
Proof.
  intros H1 H2. unfold depth. induction series as [|l s IH]; [reflexivity|]. cbn [map fold_right]. rewrite IH by (intros; apply H1; now right).
  unfold line_depth. specialize (H1 l (or_introl eq_refl)). destruct (Rlt_dec (lo / (1 + z)) (ly_line l)); lra.
Qed.
Lemma depth_nonneg series z lo : (forall l, In l series -> 0 <= ly_A l) -> 0 <= depth series z lo.
Proof.
  intros H. unfold depth. induction series as [|l s IH]; [cbn; lra|]. cbn [map fold_right]. apply Rplus_le_le_0_compat; [|apply IH; intros; apply H; now right].
  unfold line_depth. destruct (Rlt_dec _ _); [|lra]. apply Rmult_le_pos; [apply H; now left|left; apply exp_pos].
Qed.
Lemma Rpower_le_mono x y b : 0 < x -> x <= y -> 0 <= b -> Rpower x b <= Rpower y b.
Proof. intros. apply Rle_Rpower_l; [assumption|split; assumption]. Qed.
Lemma div_z_mono lo z1 z2 : 0 < lo -> 0 < 1 + z1 -> z1 <= z2 -> lo / (1 + z2) <= lo / (1 + z1).
Proof. intros. unfold Rdiv. apply Rmult_le_compat_l; [lra|]. apply Rinv_le_contravar; lra. Qed.
Lemma depth_mono_obs series z1 z2 lo : (forall l, In l series -> 0 <= ly_A l) -> 0 < lo -> 0 < 1 + z1 -> z1 <= z2 -> depth series z1 lo <= depth series z2 lo.
Proof.
  intros H Hlo Hz Hzz. unfold depth. induction series as [|l s IH]; [cbn; lra|]. cbn [map fold_right]. apply Rplus_le_compat; [|apply IH; intros; apply H; now right].
  unfold line_depth. pose proof (div_z_mono lo z1 z2 Hlo Hz Hzz). destruct (Rlt_dec (lo / (1 + z1)) (ly_line l)), (Rlt_dec (lo / (1 + z2)) (ly_line l)); try lra.
  apply Rmult_le_pos; [apply H; now left|left; apply exp_pos].
Qed.
Lemma depth_mono_rest series z1 z2 rest : (forall l, In l series -> 0 <= ly_A l /\ 0 <= ly_B l /\ 0 < ly_line l) -> 0 < rest -> 0 < 1 + z1 -> z1 <= z2 -> depth series z1 (rest * (1 + z1)) <= depth series z2 (rest * (1 + z2)).
Proof.
  intros H Hr Hz Hzz. unfold depth. induction series as [|l s IH]; [cbn; lra|]. cbn [map fold_right]. apply Rplus_le_compat; [|apply IH; intros; apply H; now right].
  destruct (H l (or_introl eq_refl)) as (HA & HB & HL). unfold line_depth. replace (rest * (1 + z1) / (1 + z1)) with rest by (field; lra). replace (rest * (1 + z2) / (1 + z2)) with rest by (field; lra).
  destruct (Rlt_dec rest (ly_line l)); [|lra]. apply Rmult_le_compat_l; [exact HA|]. apply Rpower_le_mono; [|unfold Rdiv; apply Rmult_le_compat_r; [left; now apply Rinv_0_lt_compat|nra]|exact HB].
  unfold Rdiv. apply Rmult_lt_0_compat; [nra|now apply Rinv_0_lt_compat].
Qed.
Lemma calura_ok l : In l calura12 -> 0 < ly_A l /\ 0 <= ly_B l /\ 0 < ly_line l /\ ly_line l <= LyA.
Proof. unfold calura12. intros H. repeat (destruct H as [<-|H]; [cbn [ly_A ly_B ly_line]; unfold LyA; lra|]). destruct H. Qed.
Lemma kamble_ok l : In l kamble20 -> 0 < ly_A l /\ 0 <= ly_B l /\ 0 < ly_line l /\ ly_line l <= LyA.
Proof. unfold kamble20. intros H. repeat (destruct H as [<-|H]; [cbn [ly_A ly_B ly_line]; unfold LyA; lra|]). destruct H. Qed.

(* ---- Inoue ---- *)
Lemma lines_q : forallb (fun l => Qle_bool (l_lam l) (121567#100) && Qle_bool (9118#10) (l_lam l) && Qle_bool 0 (l_A1 l) && Qle_bool 0 (l_A2 l) && Qle_bool 0 (l_A3 l) && Qle_bool 0 (l_D1 l) && Qle_bool 0 (l_D2 l)) inoue_lines = true.
Proof. vm_compute. reflexivity. Qed.
Lemma Q2R_le x y : Qle_bool x y = true -> Q2R x <= Q2R y.
Proof. intros H. apply Qreals.Qle_Rle. now apply Qle_bool_iff. Qed.
Lemma Q2R_0' : Q2R 0 = 0. Proof. unfold Q2R. cbn. lra. Qed.
Lemma lines_ok l : In l inoue_lines -> Q2R (l_lam l) <= LyA /\ lamL <= Q2R (l_lam l) /\ 0 <= Q2R (l_A1 l) /\ 0 <= Q2R (l_A2 l) /\ 0 <= Q2R (l_A3 l) /\ 0 <= Q2R (l_D1 l) /\ 0 <= Q2R (l_D2 l).
Proof.
  intros H. pose proof (proj1 (forallb_forall _ _) lines_q l H) as B. cbv beta in B. repeat (apply andb_true_iff in B as [B ?]).
  assert (E1 : Q2R (121567 # 100) = LyA) by (unfold Q2R, LyA; cbn; lra). assert (E2 : Q2R (9118 # 10) = lamL) by (unfold Q2R, lamL; cbn; lra).
  rewrite <- E1, <- E2. rewrite <- Q2R_0'. repeat split; now apply Q2R_le.
Qed.
Lemma lamL_pos : 0 < lamL. Proof. unfold lamL. lra. Qed.
Lemma rsum_ext {A} (f g : A -> R) l : (forall x, In x l -> f x = g x) -> rsum (map f l) = rsum (map g l).
Proof. intros H. induction l as [|a l IH]; [reflexivity|]. cbn. rewrite (H a (or_introl eq_refl)). f_equal. apply IH. intros; apply H; now right. Qed.
Lemma rsum_zero {A} (l : list A) : rsum (map (fun _ => 0) l) = 0. Proof. induction l; cbn; [reflexivity|]. unfold rsum in IHl. rewrite IHl. ring. Qed.
Lemma rsum_nonneg {A} (f : A -> R) l : (forall x, In x l -> 0 <= f x) -> 0 <= rsum (map f l).
Proof. intros H. induction l as [|a l IH]; cbn; [lra|]. apply Rplus_le_le_0_compat; [apply H; now left|]. apply IH. intros; apply H; now right. Qed.
Lemma blue_iff z lo l : 0 < 1 + z -> (lo / (1 + z) < l <-> lo < l * (1 + z)).
Proof. intros Hz. split; intros H; [replace lo with (lo / (1 + z) * (1 + z)) by (field; lra); now apply Rmult_lt_compat_r|]. apply (Rmult_lt_reg_r (1 + z)); [exact Hz|]. replace (lo / (1 + z) * (1 + z)) with lo by (field; lra). exact H. Qed.
Lemma x_lt lo l c : 0 < l -> (lo < l * c <-> lo / l < c).
Proof. intros Hl. split; intros H; [apply (Rmult_lt_reg_r l); [exact Hl|]; replace (lo / l * l) with lo by (field; lra); lra|]. replace lo with (lo / l * l) by (field; lra). rewrite (Rmult_comm l c). now apply Rmult_lt_compat_r. Qed.
Lemma pow_div a l lo b : 0 < l -> 0 < lo -> a / Rpower l b * Rpower lo b = a * Rpower (lo / l) b.
Proof.
  intros Hl Hlo. unfold Rdiv. rewrite Rmult_assoc. f_equal. rewrite Rmult_comm. unfold Rpower. rewrite <- exp_Ropp, <- exp_plus. f_equal.
  rewrite ln_mult, ln_Rinv by (try apply Rinv_0_lt_compat; assumption). ring.
Qed.
Lemma LSLAF_pub z lo l : 0 < 1 + z -> 0 < lo -> 0 < Q2R (l_lam l) -> tLSLAF_line z lo l = pub_LS_LAF z lo l.
Proof.
  intros Hz Hlo Hl. unfold tLSLAF_line, pub_LS_LAF. set (lam := Q2R (l_lam l)) in *. cbv zeta.
  replace (1 + 12/10) with (22/10) by lra. replace (1 + 47/10) with (57/10) by lra.
  assert (B : ltb (lo / (1 + z)) lam = (if Rlt_dec lo (lam * (1 + z)) then true else false)).
  { destruct (Rlt_dec lo (lam * (1 + z))); [apply ltb_iff; now apply blue_iff|apply ltb_false; apply Rnot_lt_le; intros H; apply blue_iff in H; [contradiction|exact Hz]]. }
  rewrite B. unfold ltb, geb. destruct (Rlt_dec lo (lam * (1 + z))); cbn [andb]; [|reflexivity].
  destruct (Rlt_dec lo (lam * (22/10))) as [H1|H1], (Rlt_dec (lo / lam) (22/10)) as [K1|K1]; try (exfalso; first [apply K1; exact (proj1 (x_lt _ _ _ Hl) H1)|apply H1; exact (proj2 (x_lt _ _ _ Hl) K1)]);
  destruct (Rlt_dec lo (lam * (57/10))) as [H2|H2], (Rlt_dec (lo / lam) (57/10)) as [K2|K2]; try (exfalso; first [apply K2; exact (proj1 (x_lt _ _ _ Hl) H2)|apply H2; exact (proj2 (x_lt _ _ _ Hl) K2)]); cbn [andb negb]; rewrite ?pow_div by assumption; try ring; exfalso; try (apply Rnot_lt_le in H1); try (apply Rnot_lt_le in H2); nra.
Qed.
Lemma LSDLA_pub z lo l : 0 < 1 + z -> 0 < Q2R (l_lam l) -> tLSDLA_line z lo l = pub_LS_DLA z lo l.
Proof.
  intros Hz Hl. unfold tLSDLA_line, pub_LS_DLA. set (lam := Q2R (l_lam l)) in *. cbv zeta. replace (1 + 2) with 3 by ring.
  assert (B : ltb (lo / (1 + z)) lam = (if Rlt_dec lo (lam * (1 + z)) then true else false)).
  { destruct (Rlt_dec lo (lam * (1 + z))); [apply ltb_iff; now apply blue_iff|apply ltb_false; apply Rnot_lt_le; intros H; apply blue_iff in H; [contradiction|exact Hz]]. }
  rewrite B. unfold ltb, geb. destruct (Rlt_dec lo (lam * (1 + z))); cbn [andb]; [|reflexivity].
  destruct (Rlt_dec lo (lam * 3)) as [H1|H1], (Rlt_dec (lo / lam) 3) as [K1|K1]; try (exfalso; first [apply K1; exact (proj1 (x_lt _ _ _ Hl) H1)|apply H1; exact (proj2 (x_lt _ _ _ Hl) K1)]); cbn [andb negb]; field; lra.
Qed.
Lemma LCDLA_pub z lo : 0 < lo -> tLCDLA z lo = pub_LC_DLA z (lo / lamL).
Proof.
  intros Hlo. pose proof lamL_pos as HL. unfold tLCDLA, pub_LC_DLA. cbv zeta. replace (1 + 2) with 3 by ring. unfold ltb, geb.
  destruct (Rlt_dec lo (lamL * (1 + z))) as [H0|H0], (Rlt_dec (lo / lamL) (1 + z)) as [K0|K0]; try (exfalso; first [apply K0; exact (proj1 (x_lt _ _ _ HL) H0)|apply H0; exact (proj2 (x_lt _ _ _ HL) K0)]); cbn [andb]; [|reflexivity].
  destruct (Rlt_dec lo (lamL * 3)) as [H1|H1], (Rlt_dec (lo / lamL) 3) as [K1|K1]; try (exfalso; first [apply K1; exact (proj1 (x_lt _ _ _ HL) H1)|apply H1; exact (proj2 (x_lt _ _ _ HL) K1)]); destruct (Rlt_dec z 2); cbn [andb negb]; reflexivity.
Qed.
(* the code's LAF continuum is the published one for z >= 1.2 except on lambda_obs = 5.7 lambda_L *)
Lemma LCLAF_pub z lo : 0 < lo -> 12/10 <= z -> lo <> lamL * (57/10) -> tLCLAF z lo = pub_LC_LAF z (lo / lamL).
Proof.
  intros Hlo Hz Hne. pose proof lamL_pos as HL. unfold tLCLAF, pub_LC_LAF. cbv zeta. replace (1 + 12/10) with (22/10) by lra. replace (1 + 47/10) with (57/10) by lra. unfold ltb, geb.
  destruct (Rlt_dec lo (lamL * (1 + z))) as [H0|H0], (Rlt_dec (lo / lamL) (1 + z)) as [K0|K0]; try (exfalso; first [apply K0; exact (proj1 (x_lt _ _ _ HL) H0)|apply H0; exact (proj2 (x_lt _ _ _ HL) K0)]); cbn [andb]; [|reflexivity].
  destruct (Rlt_dec z (12/10)) as [L|_]; [lra|].
  destruct (Rlt_dec lo (lamL * (22/10))) as [H1|H1], (Rlt_dec (lo / lamL) (22/10)) as [K1|K1]; try (exfalso; first [apply K1; exact (proj1 (x_lt _ _ _ HL) H1)|apply H1; exact (proj2 (x_lt _ _ _ HL) K1)]);
  destruct (Rlt_dec lo (lamL * (57/10))) as [H2|H2], (Rlt_dec (lo / lamL) (57/10)) as [K2|K2]; try (exfalso; first [apply K2; exact (proj1 (x_lt _ _ _ HL) H2)|apply H2; exact (proj2 (x_lt _ _ _ HL) K2)]);
  destruct (Rlt_dec (lamL * (57/10)) lo) as [H3|H3]; try lra; destruct (Rlt_dec z (47/10)); cbn [andb negb]; try reflexivity; exfalso; nra.
Qed.
Lemma inoue_red z lo : 0 < 1 + z -> LyA <= lo / (1 + z) -> tLCLAF z lo = 0 /\ tLCDLA z lo = 0 /\ tLSLAF z lo = 0 /\ tLSDLA z lo = 0.
Proof.
  intros Hz Hr. assert (Hb : forall l, l <= LyA -> ltb (lo / (1 + z)) l = false) by (intros l Hl; apply ltb_false; lra).
  assert (Hc : ltb lo (lamL * (1 + z)) = false).
  { apply ltb_false. apply Rnot_lt_le. intros H. apply blue_iff in H; [|exact Hz]. unfold lamL, LyA in *. lra. }
  split; [unfold tLCLAF; cbv zeta; rewrite Hc; reflexivity|]. split; [unfold tLCDLA; cbv zeta; rewrite Hc; reflexivity|]. split.
  - unfold tLSLAF. rewrite <- (rsum_zero inoue_lines). apply rsum_ext. intros l Hl. destruct (lines_ok l Hl) as (A & _). unfold tLSLAF_line. cbv zeta. rewrite (Hb _ A). reflexivity.
  - unfold tLSDLA. rewrite <- (rsum_zero inoue_lines). apply rsum_ext. intros l Hl. destruct (lines_ok l Hl) as (A & _). unfold tLSDLA_line. cbv zeta. rewrite (Hb _ A). reflexivity.
Qed.
Lemma full_T z lo : full_IGM z lo = T_of (Some "Inoue14"%string) z lo.
Proof. unfold full_IGM, T_of. f_equal. ring. Qed.
Lemma trans_inoue_entries zs los : (forall z, In z zs -> 0 < 1 + z) -> trans_inoue zs los = map (fun z => map (T_of (Some "Inoue14"%string) z) los) zs.
Proof.
  intros Hz. unfold trans_inoue. apply map_ext_in. intros z Hin. specialize (Hz z Hin). destruct (ltb (rmin los / (1 + z)) LyA) eqn:E.
  - apply map_ext. intros lo. apply full_T.
  - apply map_ext_in. intros lo Hlo. apply ltb_false in E. assert (Hr : LyA <= lo / (1 + z)).
    { eapply Rle_trans; [exact E|]. unfold Rdiv. apply Rmult_le_compat_r; [left; now apply Rinv_0_lt_compat|]. now apply rmin_le. }
    destruct (inoue_red z lo Hz Hr) as (A & B & C & D). unfold T_of. rewrite A, B, C, D. replace (- (0 + 0 + 0 + 0)) with 0 by ring. now rewrite exp_0.
Qed.
Lemma T_red model z lo : 0 < 1 + z -> LyA <= lo / (1 + z) -> is_model model -> T_of model z lo = 1.
Proof.
  intros Hz Hr Hm. destruct Hm as [->|[<-|[<-|[<-|[<-|[]]]]]]; cbn [T_of]; try reflexivity.
  - rewrite depth_red; [now rewrite Ropp_0, exp_0|intros l Hl; now apply calura_ok|exact Hr].
  - rewrite depth_red; [now rewrite Ropp_0, exp_0|intros l Hl; now apply kamble_ok|exact Hr].
  - destruct (inoue_red z lo Hz Hr) as (A & B & C & D). rewrite A, B, C, D. replace (- (0 + 0 + 0 + 0)) with 0 by ring. apply exp_0.
Qed.
Lemma shape_entrywise f z lo : shape z lo (map (fun a => map (f a) (atleast_1d lo)) (atleast_1d z)) = Ok (entrywise f z lo).
Proof.
  destruct z as [a|l], lo as [b|m]; cbn; try reflexivity. induction l as [|a l IH]; [reflexivity|]. cbn [map mapM rbind]. destruct (mapM _ (map (fun a => [f a b]) l)) as [c|] eqn:E; cbn [rbind] in *; [|discriminate]. congruence.
Qed.
