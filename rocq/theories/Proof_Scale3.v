(* The files in other units of flux. *)
From Verif Require Import Prelude PreludeFacts NumX Facts2 Model_Fitz Proof_Fitz Model_Rebin Model_Dist Model_Zscan Spec_Zscan Proof_Zscan3 Model_Piece Model_IO Model_Zfind Model_Targets Model_Desi Spec_Desi Proof_Desi4 Proof_Table
  Model_Run Proof_Run Proof_Run2 Proof_Run3 Model_RunMPI Model_RunDesi Spec_RunDesi Proof_RunDesi Proof_Dead Proof_Dead2 Spec_Scale Proof_Scale Proof_Scale2.
Open Scope nat_scope.
Local Arguments Qred : simpl never.

Lemma nth_map2_0 (f : Q -> Q -> Q) a : forall b j, nth j (map2 f a b) 0%Q = if (j <? length a) && (j <? length b) then f (nth j a 0%Q) (nth j b 0%Q) else 0%Q.
Proof.
  induction a as [|x a IH]; intros [|y b] [|j]; try reflexivity.
  - cbn [map2 length]. rewrite andb_false_r. reflexivity.
  - cbn [map2 nth length]. rewrite IH. reflexivity.
Qed.
Lemma map2_len {A B C} (f : A -> B -> C) a : forall b, length (map2 f a b) = Nat.min (length a) (length b).
Proof. induction a; intros [|y b]; cbn; auto. Qed.
Lemma times_nth c l l' j : times c l l' -> (nth j l' 0 == c * nth j l 0)%Q.
Proof. intro H. revert j. induction H as [|x y l l' E _ IH]; intros [|j]; cbn [nth]; try ring; auto. Qed.
Lemma times_of_nth c l l' : length l' = length l -> (forall j, j < length l -> (nth j l' 0 == c * nth j l 0)%Q) -> times c l l'.
Proof. revert l'. induction l as [|x l IH]; intros [|y l'] L H; try discriminate; constructor; [exact (H 0 (Nat.lt_0_succ _))|]. apply IH; [now injection L|]. intros j Hj. apply (H (S j)). cbn. lia. Qed.

(* spectra before the coadd *)
Definition pscale (c : Q) (s s' : Model_Targets.spec) : Prop :=
  sp_wave s = sp_wave s' /\ sp_R s = sp_R s' /\ sp_Rcsr s = sp_Rcsr s' /\ sp_band s = sp_band s' /\ sp_hash s = sp_hash s' /\ times c (sp_flux s) (sp_flux s') /\ times (1 / (c * c)) (sp_ivar s) (sp_ivar s').
Definition inonneg (s : Model_Targets.spec) : Prop := Forall (fun v => 0 <= v)%Q (sp_ivar s).

Section P.
Variables (hashf : hash_arg -> Z) (tocsr : dia -> csr).
Variable c : Q.
Hypothesis cpos : (0 < c)%Q.
Notation k := (1 / (c * c))%Q.
Let kp := kpos c cpos.
Let cn := cne c cpos.

(* rows of the resolution data *)
Definition rrow (Z : nat -> Prop) (row row' : list Q) : Prop := length row' = length row /\ forall j, (nth j row' 0 == k * nth j row 0)%Q /\ (Z j -> nth j row 0 == 0)%Q.
Lemma scale_data_rel (Z : nat -> Prop) R iv iv' : times k iv iv' -> (forall j, Z j -> nth j iv 0 == 0)%Q -> rrel (Forall2 (rrow Z)) (scale_data R iv) (scale_data R iv').
Proof.
  intros T H. unfold scale_data. rewrite (times_len _ _ _ T). destruct (_ =? _); [|reflexivity]. cbn [rrel]. induction (d_data R) as [|row l IH]; cbn [map]; constructor; [|exact IH].
  split; [now rewrite !map2_len, (times_len _ _ _ T)|]. intro j. rewrite !nth_map2_0, (times_len _ _ _ T). destruct (_ && _); [|split; [ring|reflexivity]]. rewrite !Qred_correct. split; [rewrite (times_nth _ _ _ j T); ring|intro Zj; rewrite (H j Zj); ring].
Qed.
Lemma add_data_rel (Z : nat -> Prop) A A' B B' : Forall2 (rrow Z) A A' -> Forall2 (rrow Z) B B' -> rrel (Forall2 (rrow Z)) (add_data A B) (add_data A' B').
Proof.
  intros HA HB. unfold add_data. assert (E : same_shape A' B' = same_shape A B).
  { unfold same_shape. rewrite <- (Forall2_len _ _ _ HA), <- (Forall2_len _ _ _ HB). f_equal. revert B B' HB. induction HA as [|a a' A A' [La _] _ IH]; intros B B' HB; [reflexivity|]. destruct HB as [|b b' B B' [Lb _] HB]; [reflexivity|]. cbn [combine forallb fst snd]. now rewrite La, Lb, (IH B B' HB). }
  rewrite E. destruct (same_shape A B); [|reflexivity]. cbn [rrel]. clear E. revert B B' HB. induction HA as [|a a' A A' [La Ha] _ IH]; intros B B' HB; [constructor|]. destruct HB as [|b b' B B' [Lb Hb] HB]; [constructor|]. cbn [map2]. constructor; [|now apply IH].
  split; [rewrite !map2_len; lia|]. intro j. rewrite !nth_map2_0, La, Lb. destruct (_ && _); [|split; [ring|reflexivity]]. destruct (Ha j) as [H1 H2], (Hb j) as [H3 H4]. rewrite !Qred_correct. split; [rewrite H1, H3; ring|intro Zj; rewrite (H2 Zj), (H4 Zj); ring].
Qed.
Lemma accR_rel (Z : nat -> Prop) n l l' : Forall2 (pscale c) l l' -> (forall s j, In s l -> Z j -> nth j (sp_ivar s) 0 == 0)%Q -> forall Rd Rd', Forall2 (rrow Z) Rd Rd' -> rrel (Forall2 (rrow Z)) (acc_R n Rd l) (acc_R n Rd' l').
Proof.
  induction 1 as [|s s' l l' (Ew & ER & _ & _ & _ & _ & Ti) _ IH]; intros HZ Rd Rd' HR; [exact HR|]. cbn [acc_R]. rewrite <- Ew, <- ER. destruct (_ =? n); [|reflexivity]. destruct (sp_R s) as [m|]; [|reflexivity].
  eapply rrel_bind; [apply (scale_data_rel Z m _ _ Ti); intros j Zj; apply HZ; [now left|exact Zj]|]. intros x y Hxy. eapply rrel_bind; [apply (add_data_rel Z _ _ _ _ HR Hxy)|]. intros u v Huv. apply IH; [|exact Huv]. intros t j It; apply HZ; now right.
Qed.
Lemma sum0_times n a A A' : Forall2 (times a) A A' -> times a (sum0 n A) (sum0 n A').
Proof.
  intro F. unfold sum0. apply times_of_nth; [now rewrite !tab_length|]. rewrite tab_length. intros j Hj. rewrite !(nth_tab _ _ _ _ Hj), !Qred_correct. unfold sumQ. induction F as [|x y A A' H _ IH]; cbn [map fold_right]; [ring|]. rewrite IH, (times_nth _ _ _ j H). ring.
Qed.
Lemma zero_times x y : (y == k * x)%Q -> Qeq_bool y 0 = Qeq_bool x 0.
Proof.
  intro E. destruct (Qeq_bool x 0) eqn:B.
  - apply Qeq_bool_iff in B. apply Qeq_bool_iff. rewrite E, B. ring.
  - apply Qeq_bool_neq in B. destruct (Qeq_bool y 0) eqn:B'; [|reflexivity]. exfalso. apply Qeq_bool_iff in B'. apply B. rewrite B' in E. assert (X : (x == c * c * (k * x))%Q) by (field; exact cn). rewrite X, <- E. ring.
Qed.
Lemma nonneg_sum l : Forall (fun v => 0 <= v)%Q l -> (0 <= sumQ l)%Q /\ ((sumQ l == 0)%Q -> Forall (fun v => v == 0)%Q l).
Proof.
  unfold sumQ. induction 1 as [|v l Hv _ [I1 I2]]; cbn [fold_right]; [split; [lra|constructor]|]. split; [lra|]. intro E. assert (Ev : (v == 0)%Q) by lra. constructor; [exact Ev|]. apply I2. lra.
Qed.
Lemma coadd_scale cache nsig l l' : qlt 0 nsig = false -> Forall2 (pscale c) l l' -> Forall inonneg l -> rrel (pscale c) (coadd_group hashf cache nsig l) (coadd_group hashf cache nsig l').
Proof.
  intros Hn F NN. unfold coadd_group. destruct F as [|s0 s0' rest rest' P0 F]; [reflexivity|]. pose proof P0 as (Ew & ER & Ec & Eb & Eh & Tf & Ti). rewrite <- Ew, <- ER. destruct (sp_R s0) as [R0|]; [|reflexivity]. cbv zeta. rewrite Hn. cbn [rbind].
  set (n := length (sp_wave s0)). assert (G : Forall2 (pscale c) (s0 :: rest) (s0' :: rest')) by (constructor; assumption). remember (s0 :: rest) as l eqn:El. remember (s0' :: rest') as l' eqn:El'.
  set (W := sum0 n (map sp_ivar l)). set (Z := fun j => (j < n)%nat /\ (nth j W 0 == 0)%Q).
  assert (HZ : forall s j, In s l -> Z j -> (nth j (sp_ivar s) 0 == 0)%Q).
  { intros s j Is [Hj Ez]. unfold W, sum0 in Ez. rewrite (nth_tab _ _ _ _ Hj), Qred_correct in Ez. rewrite map_map in Ez. assert (NS : Forall (fun v => 0 <= v)%Q (map (fun x => nth j (sp_ivar x) 0%Q) l)). { apply Forall_forall. intros v Hv. apply in_map_iff in Hv as (x & <- & Ix). rewrite Forall_forall in NN. specialize (NN x Ix). unfold inonneg in NN. rewrite Forall_forall in NN. destruct (le_lt_dec (length (sp_ivar x)) j) as [Le|Lt]; [rewrite (nth_overflow _ 0%Q Le); apply Qle_refl|apply NN, nth_In, Lt]. }
    apply (proj2 (nonneg_sum _ NS)) in Ez. rewrite Forall_forall in Ez. apply Ez. apply in_map_iff. exists s. now split. }
  apply (rrel_bind (Forall2 (rrow Z))).
  { apply scale_data_rel; [exact Ti|]. intros j Zj. apply HZ; [rewrite El; now left|exact Zj]. }
  intros Rd0 Rd0' H0. apply (rrel_bind (Forall2 (rrow Z))).
  { apply accR_rel; [exact F| |exact H0]. intros s j Is. apply HZ. rewrite El. now right. }
  clear H0 Rd0 Rd0'. intros Rd Rd' HR.
  assert (TF : Forall2 (times c) (map sp_flux l) (map sp_flux l')) by (clear -G; induction G as [|? ? ? ? (_ & _ & _ & _ & _ & E & _) _ IH]; cbn [map]; constructor; assumption).
  assert (TI : Forall2 (times k) (map sp_ivar l) (map sp_ivar l')) by (clear -G; induction G as [|? ? ? ? (_ & _ & _ & _ & _ & _ & E) _ IH]; cbn [map]; constructor; assumption).
  assert (Ln : forallb (fun f => length f =? n) (map sp_flux l' ++ map sp_ivar l') = forallb (fun f => length f =? n) (map sp_flux l ++ map sp_ivar l)).
  { assert (X : forall a A A', Forall2 (times a) A A' -> forallb (fun f => length f =? n) A' = forallb (fun f => length f =? n) A) by (induction 1 as [|x y A A' H _ IH]; [reflexivity|]; cbn [forallb]; now rewrite (times_len _ _ _ H), IH). now rewrite !forallb_app, (X _ _ _ TF), (X _ _ _ TI). }
  rewrite Ln. destruct (negb _); [reflexivity|].
  assert (TU : times c (sum0 n (map sp_flux l)) (sum0 n (map sp_flux l'))) by (now apply sum0_times). assert (TW : times k W (sum0 n (map sp_ivar l'))) by (now apply sum0_times).
  assert (TWF : times (1 / c) (sum0 n (map2 (map2 Qmult) (map sp_ivar l) (map sp_flux l))) (sum0 n (map2 (map2 Qmult) (map sp_ivar l') (map sp_flux l')))).
  { apply sum0_times. clear -TF TI cpos cn. revert TF. generalize (map sp_flux l) as a, (map sp_flux l') as a'. induction TI as [|x x' I I' Hx _ IH]; intros a a' TF; [destruct TF; constructor|]. destruct TF as [|y y' a a' Hy TF]; [constructor|]. cbn [map2]. constructor; [|now apply IH]. eapply times_map2; [exact Hx|exact Hy|]. intros u v u' v' E1 E2. rewrite E1, E2. field. exact cn. }
  set (W' := sum0 n (map sp_ivar l')) in *. set (U := sum0 n (map sp_flux l)) in *. set (U' := sum0 n (map sp_flux l')) in *. set (WF := sum0 n (map2 (map2 Qmult) (map sp_ivar l) (map sp_flux l))) in *. set (WF' := sum0 n (map2 (map2 Qmult) (map sp_ivar l') (map sp_flux l'))) in *.
  assert (LW : length W = n) by (unfold W, sum0; apply tab_length). assert (LW' : length W' = n) by (unfold W', sum0; apply tab_length).
  set (b := fun w : Q => if Qeq_bool w 0 then 1%Q else w).
  assert (ERd : map (fun row => map2 (fun d w => Qred (d / w)) row (map b W')) Rd' = map (fun row => map2 (fun d w => Qred (d / w)) row (map b W)) Rd).
  { clear -HR TW LW LW' cn. induction HR as [|r r' A A' [Lr Hr] _ IH]; [reflexivity|]. cbn [map]. rewrite IH. f_equal. apply (nth_ext _ _ 0%Q 0%Q); [rewrite !map2_len, !map_length; lia|]. intros j Hj. rewrite map2_len, map_length in Hj. rewrite !nth_map2_0, !map_length, Lr, LW, LW'. assert (Hjn : j < n) by lia. assert (Hjr : j < length r) by lia. rewrite (proj2 (Nat.ltb_lt _ _) Hjn), (proj2 (Nat.ltb_lt _ _) Hjr). cbn [andb].
    rewrite (nth_indep (map b W') 0%Q (b 0%Q)), (nth_indep (map b W) 0%Q (b 0%Q)) by (rewrite map_length; lia). rewrite !map_nth. unfold b. pose proof (times_nth _ _ _ j TW) as Ej. rewrite (zero_times _ _ Ej). destruct (Hr j) as [H1 H2]. apply Qred_complete. destruct (Qeq_bool (nth j W 0%Q) 0) eqn:Ez.
    - apply Qeq_bool_iff in Ez. pose proof (H2 (conj Hjn Ez)) as H3. apply Qdiv_comp; [|reflexivity]. rewrite H3 in H1. rewrite H1, H3. ring.
    - apply Qeq_bool_neq in Ez. rewrite H1, Ej. field. split; [exact Ez|exact cn]. }
  assert (Ll : length l' = length l) by (symmetry; exact (Forall2_len _ _ _ G)).
  fold b. rewrite ERd, Ll.
  assert (TFl : forall q : Q, times c (map (fun j => if Qeq_bool (nth j W 0%Q) 0 then Qred (nth j U 0%Q / q) else Qred (nth j WF 0%Q / nth j (map b W) 1%Q)) (seq 0 n)) (map (fun j => if Qeq_bool (nth j W' 0%Q) 0 then Qred (nth j U' 0%Q / q) else Qred (nth j WF' 0%Q / nth j (map b W') 1%Q)) (seq 0 n))).
  { intro q. apply times_of_nth; [now rewrite !tab_length|]. rewrite tab_length. intros j Hj. rewrite !(nth_tab _ _ _ _ Hj). pose proof (times_nth _ _ _ j TW) as Ej. rewrite (zero_times _ _ Ej). destruct (Qeq_bool (nth j W 0%Q) 0) eqn:Ez.
    - rewrite !Qred_correct, (times_nth _ _ _ j TU). unfold Qdiv. ring.
    - rewrite (nth_indep (map b W') 1%Q (b 0%Q)), (nth_indep (map b W) 1%Q (b 0%Q)) by (rewrite map_length; lia). rewrite !map_nth. unfold b. rewrite (zero_times _ _ Ej), Ez. apply Qeq_bool_neq in Ez. rewrite !Qred_correct, (times_nth _ _ _ j TWF), Ej. field. split; [exact Ez|exact cn]. }
  match goal with |- context [spectrum_init hashf (sp_wave s0) _ W (Some ?r) ?cc _] => set (R1 := r) end.
  assert (Lb : sp_band (last l' s0') = sp_band (last l s0)). { assert (X : forall a e d d', Forall2 (pscale c) a e -> a <> [] -> sp_band (last a d) = sp_band (last e d')). { clear. induction a as [|x a IH]; intros e d d' F N; [congruence|]. inversion F as [|? y ? e' (_ & _ & _ & E & _) F']; subst. destruct F' as [|u v a e' Huv F']; [exact E|]. change (last (x :: u :: a) d) with (last (u :: a) d). change (last (y :: v :: e') d') with (last (v :: e') d'). apply IH; [now constructor|discriminate]. } symmetry. apply X; [exact G|rewrite El; discriminate]. }
  rewrite Lb. unfold spectrum_init.
  assert (Em : rrel (times k) (mask_lowres (Some R1) W) (mask_lowres (Some R1) W')).
  { clearbody R1. unfold mask_lowres. rewrite LW, LW'. destruct (n =? _); [|reflexivity]. cbn [rrel]. unfold enum. clear -TW. generalize 0 as i. unfold times in *. induction TW as [|x y A A' E _ IH]; intro i; cbn [enum_from map]; constructor; [|apply IH]. cbn [fst snd]. destruct (qlt _ _); [ring|exact E]. }
  destruct (mask_lowres (Some R1) W) as [iw|], (mask_lowres (Some R1) W') as [iw'|]; cbn [rrel rbind] in *; try contradiction; [|exact Em]. destruct (wavehash _ _ _ _) as [hh|]; cbn [rbind rrel fst]; [|reflexivity]. repeat split; cbn [sp_flux sp_ivar]; [apply TFl|exact Em].
Qed.
Lemma compute_scale cache nsig l l' : qlt 0 nsig = false -> Forall2 (pscale c) l l' -> Forall inonneg l -> rrel (Forall2 (pscale c)) (compute_coadd hashf cache nsig l) (compute_coadd hashf cache nsig l').
Proof.
  intros Hn F NN. unfold compute_coadd. assert (E : map sp_hash l = map sp_hash l') by (clear NN; induction F as [|? ? ? ? (_ & _ & _ & _ & E & _) _ IH]; [reflexivity|]; cbn [map]; now rewrite E, IH). rewrite <- E. apply (rrel_mapM eq); [|induction (first_seen _); constructor; auto].
  intros a a' <-. apply coadd_scale; [exact Hn| |].
  - unfold group_of. apply F2_filter; [|exact F]. intros x y (_ & _ & _ & _ & H & _). now rewrite H.
  - unfold group_of. rewrite Forall_forall in *. intros x Hx. apply filter_In in Hx as [Hx _]. now apply NN.
Qed.
End P.
