(* Lemmas for the viewer. *)
From Verif Require Import Prelude PreludeFacts Facts2 NumX Model_Dist Proof_Dist3 Model_Fitz Model_Zscan Proof_Zscan3 Model_IO Model_Rebin Model_Targets2 Model_Arch Model_Plot Spec_Plot.
Open Scope nat_scope.

(* ---------- ZWARN ---------- *)
Lemma land_bit z b : (0 <= b)%Z -> negb (Z.land z (2 ^ b) =? 0)%Z = Z.testbit z b.
Proof.
  intro Hb. destruct (Z.testbit z b) eqn:T.
  - destruct (Z.eqb_spec (Z.land z (2 ^ b)) 0) as [E|]; [|reflexivity]. exfalso. apply (f_equal (fun x => Z.testbit x b)) in E. rewrite Z.land_spec, Z.bits_0, T, Z.pow2_bits_true in E by exact Hb. discriminate.
  - destruct (Z.eqb_spec (Z.land z (2 ^ b)) 0) as [|E]; [reflexivity|]. exfalso. apply E. apply Z.bits_inj'. intros n Hn. rewrite Z.land_spec, Z.bits_0. destruct (Z.eq_dec n b) as [->|D]; [now rewrite T|].
    rewrite Z.pow2_bits_false by congruence. now rewrite andb_false_r.
Qed.
Lemma flags_val : flags = [("SKY", 2^0); ("LITTLE_COVERAGE", 2^1); ("SMALL_DELTA_CHI2", 2^2); ("NEGATIVE_MODEL", 2^3); ("MANY_OUTLIERS", 2^4); ("Z_FITLIMIT", 2^5);
   ("NEGATIVE_EMISSION", 2^6); ("UNPLUGGED", 2^7); ("BAD_TARGET", 2^8); ("NODATA", 2^9); ("BAD_MINFIT", 2^10); ("POORDATA", 2^11);
   ("RESERVED16", 2^16); ("RESERVED17", 2^17); ("RESERVED18", 2^18); ("RESERVED19", 2^19); ("RESERVED20", 2^20); ("RESERVED21", 2^21);
   ("RESERVED22", 2^22); ("RESERVED23", 2^23)]%string%Z.
Proof. vm_compute. reflexivity. Qed.

(* ---------- navigation ---------- *)
Definition nfit (E : penv) (i : nat) : nat := match nth_error (v_targets E) i with Some t => length (rows_of (v_zfit E) (q_id t)) | None => 0 end.
(* the fit can be drawn on every spectrum of the target *)
Definition drawable (E : penv) (t : ptarget) (zz : prow) : Prop :=
  exists m, find_model E zz = Ok m /\ forall s, In s (q_spectra t) -> exists mx R, eval_row m zz (s_wave s) = Ok mx /\ s_R s = Some R /\ length mx = r_ncol R.
(* what rrplot needs: every kept target was scanned, its fits are numbered 0, 1, ..., n-1, and can be drawn *)
Record viewable (E : penv) : Prop := {
  vw_ids : NoDup (map q_id (v_targets E));
  vw_scan : forall t, In t (v_targets E) -> dget (v_zscan E) (q_id t) <> None;
  vw_rows : forall t, In t (v_targets E) -> Permutation (map r_znum (rows_of (v_zfit E) (q_id t))) (map Z.of_nat (seq 0 (length (rows_of (v_zfit E) (q_id t)))));
  vw_draw : forall t r, In t (v_targets E) -> In r (rows_of (v_zfit E) (q_id t)) -> drawable E t r }.

Lemma draw_all m zz (l : list pspec) : (forall s, In s l -> exists mx R, eval_row m zz (s_wave s) = Ok mx /\ s_R s = Some R /\ length mx = r_ncol R) ->
  forall a, exists b, fold_left (fun acc s => do a <- acc; draw_spec m zz a s) l (Ok a) = Ok b.
Proof.
  induction l as [|s l IH]; intros H a; [now exists a|]. cbn [fold_left rbind]. destruct (H s (or_introl eq_refl)) as (mx & R & E1 & E2 & E3).
  destruct a as [ds [y0 y1]]. unfold draw_spec at 2. rewrite E1, E2. cbn [rbind]. unfold csr_vec. rewrite E3, Nat.eqb_refl. cbn [rbind]. apply IH. intros s' Hs. apply H. now right.
Qed.

Lemma row_unique (l : list prow) k : Permutation (map r_znum l) (map Z.of_nat (seq 0 (length l))) -> k < length l ->
  exists r, filter (fun r => (r_znum r =? Z.of_nat k)%Z) l = [r] /\ In r l /\ r_znum r = Z.of_nat k.
Proof.
  intros P Hk. assert (N : NoDup (map r_znum l)). { eapply Permutation_NoDup; [symmetry; exact P|]. apply FinFun.Injective_map_NoDup; [intros a b; apply Nat2Z.inj|apply seq_NoDup]. }
  assert (I : In (Z.of_nat k) (map r_znum l)). { eapply Permutation_in; [symmetry; exact P|]. apply in_map, in_seq. lia. }
  clear P Hk. induction l as [|x l IH]; [destruct I|]. cbn in *. inversion_clear N as [|? ? N1 N2]. destruct I as [E|I].
  - exists x. rewrite E, Z.eqb_refl. split; [|split; [now left|reflexivity]]. f_equal. rewrite E in N1. clear -N1. induction l as [|y l IH]; [reflexivity|]. cbn in *. destruct (Z.eqb_spec (r_znum y) (Z.of_nat k)); [exfalso; apply N1; now left|]. apply IH. tauto.
  - destruct (IH N2 I) as (r & E1 & E2 & E3). destruct (Z.eqb_spec (r_znum x) (Z.of_nat k)) as [E|_]; [rewrite E in N1; tauto|]. exists r. auto.
Qed.

Lemma plot_ok E : viewable E -> forall i k t n yl kz, nth_error (v_targets E) i = Some t -> k < nfit E i ->
  exists pic, plot E {| p_itarget := i; p_znum := Z.of_nat k; p_nznum := n; p_ylim := yl |} kz
     = ({| p_itarget := i; p_znum := Z.of_nat k; p_nznum := nfit E i; p_ylim := k_ylim pic |}, Ok pic) /\
    k_target pic = q_id t /\ k_itarget pic = i /\ k_znum pic = Z.of_nat k /\ In (k_row pic) (v_zfit E) /\ r_tid (k_row pic) = q_id t /\ r_znum (k_row pic) = Z.of_nat k.
Proof.
  intros V i k t n yl kz Et Hk. pose proof (nth_error_In _ _ Et) as It. unfold plot. cbn [p_itarget p_znum p_nznum p_ylim]. rewrite Et. unfold nfit in *. rewrite Et in *.
  destruct (row_unique _ _ (vw_rows E V t It) Hk) as (r & E1 & E2 & E3). cbv zeta. rewrite E1. destruct (vw_draw E V t r It E2) as (m & Em & Hd). rewrite Em. cbn [rbind].
  destruct (dget (v_zscan E) (q_id t)) as [sc|] eqn:Es; [|exfalso; exact (vw_scan E V t It Es)].
  destruct (draw_all m r (q_spectra t) Hd ([], (0%Q, 0%Q))) as ((ds & lim) & Ed). rewrite Ed. cbn [rbind fst snd]. eexists. split; [reflexivity|]. cbn [k_target k_itarget k_znum k_row].
  apply filter_In in E2 as [A B]. apply Z.eqb_eq in B. auto 8.
Qed.

Definition shows (E : penv) (p : place) (pic : picture) : Prop :=
  exists t, nth_error (v_targets E) (fst p) = Some t /\ k_target pic = q_id t /\ k_itarget pic = fst p /\ k_znum pic = Z.of_nat (snd p) /\
    In (k_row pic) (v_zfit E) /\ r_tid (k_row pic) = q_id t /\ r_znum (k_row pic) = Z.of_nat (snd p).
Definition at_place (E : penv) (st : pstate) (p : place) : Prop :=
  p_itarget st = fst p /\ p_znum st = Z.of_nat (snd p) /\ p_nznum st = nfit E (fst p) /\ snd p < nfit E (fst p).

Lemma plot_at E i k n yl kz : viewable E -> k < nfit E i -> exists st pic,
  plot E {| p_itarget := i; p_znum := Z.of_nat k; p_nznum := n; p_ylim := yl |} kz = (st, Ok pic) /\ at_place E st (i, k) /\ shows E (i, k) pic.
Proof.
  intros V Hk. destruct (nth_error (v_targets E) i) as [t|] eqn:Et; [|unfold nfit in Hk; rewrite Et in Hk; lia].
  destruct (plot_ok E V i k t n yl kz Et Hk) as (pic & Ep & H). eexists _, pic. split; [exact Ep|]. split; [repeat (split; [reflexivity|]); exact Hk|]. exists t. cbn [fst snd]. tauto.
Qed.
Lemma nfit_pos E i : viewable E -> (forall t, In t (v_targets E) -> rows_of (v_zfit E) (q_id t) <> []) -> i < length (v_targets E) -> 0 < nfit E i.
Proof. intros V Hr Hi. destruct (nth_error_lt_ex (v_targets E) i Hi) as (t & Et). unfold nfit. rewrite Et. pose proof (Hr t (nth_error_In _ _ Et)). destruct (rows_of _ _); [congruence|cbn; lia]. Qed.

Lemma keys_len E : viewable E -> length (v_targets E) <= length (v_zscan E).
Proof.
  intro V. rewrite <- (map_length q_id), <- (map_length fst (v_zscan E)). apply NoDup_incl_length; [exact (vw_ids E V)|]. intros x Hx. apply in_map_iff in Hx as (t & <- & It).
  pose proof (vw_scan E V t It) as D. destruct (dget (v_zscan E) (q_id t)) as [s|] eqn:Ed; [|congruence]. apply dget_In in Ed. now apply (in_map fst) in Ed.
Qed.
Lemma turn_nat k d n : k < n -> (d = 1 \/ d = -1)%Z -> ((Z.of_nat k + d) mod Z.of_nat n)%Z = Z.of_nat (if (d =? 1)%Z then (if S k =? n then 0 else S k) else (if k =? 0 then n - 1 else k - 1)).
Proof.
  intros Hk [->| ->].
  - change (1 =? 1)%Z with true. cbv iota. destruct (Nat.eqb_spec (S k) n) as [E|E].
    + replace (Z.of_nat k + 1)%Z with (Z.of_nat n) by lia. rewrite Z.mod_same by lia. reflexivity.
    + rewrite Z.mod_small by lia. lia.
  - change (-1 =? 1)%Z with false. cbv iota. destruct (Nat.eqb_spec k 0) as [->|E].
    + symmetry. apply Z.mod_unique with (q := (-1)%Z); lia.
    + rewrite Z.mod_small by lia. lia.
Qed.
