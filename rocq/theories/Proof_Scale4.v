(* Reading of files in other units of flux. *)
From Verif Require Import Prelude PreludeFacts NumX Facts2 Model_Fitz Proof_Fitz Model_Rebin Model_Dist Model_Zscan Spec_Zscan Proof_Zscan3 Model_Piece Model_IO Model_Zfind Model_Targets Model_Desi Spec_Desi Proof_Desi4 Proof_Table
  Model_Run Proof_Run Proof_Run2 Proof_Run3 Model_RunMPI Model_RunDesi Spec_RunDesi Proof_RunDesi Proof_Dead Proof_Dead2 Spec_Scale Proof_Scale Proof_Scale2 Proof_Scale3.
Open Scope nat_scope.
Local Arguments Qred : simpl never.

Lemma xt_nth c l l' i : Forall2 (xtimes c) l l' -> xtimes c (nth i l NaN) (nth i l' NaN).
Proof. intro H. revert i. induction H; intros [|i]; cbn [nth]; auto; reflexivity. Qed.
Lemma xt_fin c x y : xtimes c x y -> (fin y == c * fin x)%Q.
Proof. destruct x, y; cbn; intro H; try discriminate; try (exact H); ring. Qed.

Section P.
Variables (hashf : hash_arg -> Z) (tocsr : dia -> csr).
Variable c : Q.
Hypothesis cpos : (0 < c)%Q.
Notation k := (1 / (c * c))%Q.
Let kp := kpos c cpos.
Let cn := cne c cpos.

Lemma cc2 f v : ((c * f) * (c * f) * (k * v) == f * f * v)%Q.
Proof. field. exact cn. Qed.
Lemma neg_scale n f v f' v' : (f' == c * f)%Q -> (v' == k * v)%Q -> (too_negative n f v <-> too_negative n f' v').
Proof.
  intros E1 E2. unfold too_negative. assert (X : (f' * f' * v' == f * f * v)%Q) by (rewrite E1, E2; apply cc2). rewrite X.
  assert (A : (0 <= v <-> 0 <= v')%Q). { rewrite E2. split; intro H; [apply Qmult_le_0_compat; [apply Qlt_le_weak, kp|exact H]|]. assert (Y : (v == (k * v) / k)%Q) by (field; exact cn). rewrite Y. apply Qle_shift_div_l; [exact kp|]. rewrite Qmult_0_l. exact H. }
  assert (B : (f < 0 <-> f' < 0)%Q). { rewrite E1. split; intro H; [|destruct (Qlt_le_dec f 0) as [L|L]; [exact L|]; exfalso; assert (0 <= c * f)%Q by (apply Qmult_le_0_compat; [apply Qlt_le_weak, cpos|exact L]); lra]. assert (0 < c * (- f))%Q by (apply Qmult_lt_0_compat; lra). lra. }
  tauto.
Qed.
Lemma used_scale n f v f' v' m : xtimes c f f' -> xtimes k v v' -> (used n f v m <-> used n f' v' m).
Proof.
  intros E1 E2. split; intros (a & b & -> & -> & T & M).
  - destruct f' as [a'| | |]; cbn in E1; try discriminate. destruct v' as [b'| | |]; cbn in E2; try discriminate. exists a', b'. repeat split; try assumption. now rewrite <- (neg_scale n a b a' b' E1 E2).
  - destruct f as [a'| | |]; cbn in E1; try discriminate. destruct v as [b'| | |]; cbn in E2; try discriminate. exists a', b'. repeat split; try assumption. now rewrite (neg_scale n a' b' a b E1 E2).
Qed.

Definition good (o : dopts) (a b : Model_Targets.spec) : Prop := pscale c a b /\ (o_allspec o = false -> inonneg a).
Lemma slot_scale n (r r' : fullrow dia) (s s' : slot dia) o : row_rescaled c r r' -> (o_allspec o = false -> ivar_nonneg r) -> slot_of n s r -> slot_of n s' r' -> rrel (good o) (spec_of o s) (spec_of o s').
Proof.
  intros (W & B & R & Mk & Tf & Ti) NN (A1 & A2 & A3 & fl & iv & A4 & A5 & A6 & A7 & A8) (B1 & B2 & B3 & fl' & iv' & B4 & B5 & B6 & B7 & B8). unfold spec_of. rewrite A4, A5, A3, B4, B5, B3. cbn [rrel]. unfold good.
  pose proof (Forall2_len _ _ _ Tf) as Lf.
  assert (X : forall i, i < length (r_flux r) -> xtimes c (pix NaN fl i) (pix NaN fl' i) /\ xtimes k (pix NaN iv i) (pix NaN iv' i) /\ (o_allspec o = false -> (0 <= fin (pix NaN iv i))%Q)).
  { intros i Hi. destruct (A8 i Hi) as (F1 & F2 & F3 & F4). destruct (B8 i ltac:(lia)) as (G1 & G2 & G3 & G4). pose proof (xt_nth c _ _ i Tf) as Xf. pose proof (xt_nth k _ _ i Ti) as Xi. fold (pix NaN (r_flux r) i) (pix NaN (r_flux r') i) in Xf. fold (pix NaN (r_ivar r) i) (pix NaN (r_ivar r') i) in Xi. split; [|split].
    - destruct (pix NaN (r_flux r) i) as [a| | |] eqn:Ea; destruct (pix NaN (r_flux r') i) as [a'| | |] eqn:Ea'; cbn in Xf; try discriminate; [rewrite (F1 a eq_refl), (G1 a' eq_refl); exact Xf|rewrite F2, G2 by (intros q Hq; discriminate); cbn; ring..].
    - pose proof (used_scale n _ _ _ _ (pix 0%Z (r_mask r) i) Xf Xi) as U. rewrite Mk in U at 2. destruct (used_dec n (pix NaN (r_flux r) i) (pix NaN (r_ivar r) i) (pix 0%Z (r_mask r) i)) as [D|D]; [rewrite (F3 D), (G3 (proj1 U D)); exact Xi|]. rewrite (F4 D), G4 by (intro D'; apply D, U, D'). cbn. ring.
    - intro Ho. destruct (used_dec n (pix NaN (r_flux r) i) (pix NaN (r_ivar r) i) (pix 0%Z (r_mask r) i)) as [D|D]; [|rewrite (F4 D); apply Qle_refl]. rewrite (F3 D). destruct D as (a & b & _ & Eb & _). rewrite Eb. cbn [fin]. apply (NN Ho). rewrite <- Eb. unfold pix. apply nth_In. destruct (le_lt_dec (length (r_ivar r)) i) as [Le|Lt]; [|exact Lt]. exfalso. unfold pix in Eb. rewrite (nth_overflow _ NaN Le) in Eb. discriminate. }
  split.
  - unfold pscale. cbn. rewrite A1, A2, B1, B2, W, B, R. repeat split; apply times_of_nth; rewrite ?map_length; try congruence; intros i Hi; change 0%Q with (fin NaN); rewrite !map_nth; apply xt_fin; apply X; congruence.
  - intro Ho. unfold inonneg. cbn [sp_ivar]. apply Forall_forall. intros v Hv. apply (In_nth _ _ (fin NaN)) in Hv as (i & Hi & <-). rewrite map_nth. rewrite map_length in Hi. apply (X i); [congruence|exact Ho].
Qed.
Lemma sky_scale o wave w w' : times k w w' -> times k (mask_sky o wave w) (mask_sky o wave w').
Proof.
  intro V. unfold mask_sky. destruct (o_skymask o); [|exact V]. unfold skymask. rewrite !map_map. revert wave. unfold times in *. induction V as [|a b w w' H _ IH]; intros [|x wave]; cbn [map combine]; constructor; [|apply IH].
  cbn [fst snd]. destruct (_ || _); cbn [fin]; [ring|exact H].
Qed.
Lemma prepare_scale o t l l' : (o_allspec o = false -> qlt 0 (o_cosmics o) = false) -> rrel (Forall2 (good o)) (mapM (spec_of o) l) (mapM (spec_of o) l') -> rrel (rescaled_target c) (prepare hashf tocsr o t l) (prepare hashf tocsr o t l').
Proof.
  intros Hc H. unfold prepare. eapply rrel_bind; [exact H|]. intros m m' F. cbv beta in F. assert (F' : Forall2 (pscale c) m m') by (eapply Forall2_impl; [|exact F]; intros a b [P _]; exact P).
  apply (rrel_bind (Forall2 (pscale c))).
  - destruct (o_allspec o) eqn:Ho; [exact F'|]. apply (compute_scale hashf c cpos true (o_cosmics o) m m' (Hc eq_refl) F'). clear -F Ho. induction F as [|a b m m' [_ P] _ IH]; constructor; [now apply P|exact IH].
  - intros x y Fx. eapply (rrel_bind (Forall2 (fun s s' => q_wave s = q_wave s' /\ rescaled c (q_spec s) (q_spec s')))).
    + eapply rrel_mapM; [|exact Fx]. intros a b (P1 & P2 & P3 & P4 & P5 & P6 & P7). unfold seen. rewrite <- P2. destruct (sp_R a) as [r|]; [|reflexivity]. cbn [rrel q_wave q_spec]. split; [exact P1|]. unfold rescaled. cbn. rewrite <- P5, <- P1. repeat split; [exact P6|now apply sky_scale].
    + intros u v Fu. cbn [rrel]. split; [reflexivity|exact Fu].
Qed.
Lemma reads_scale o fs fs' g : (o_allspec o = false -> qlt 0 (o_cosmics o) = false) -> Forall2 (row_rescaled c) (target_rows fs (g_id g)) (target_rows fs' (g_id g)) -> (o_allspec o = false -> forall r, In r (target_rows fs (g_id g)) -> ivar_nonneg r) ->
  (forall r', In r' (target_rows fs' (g_id g)) -> exists s', slot_of (o_negflux o) s' r') -> reads hashf tocsr o fs g -> exists g', reads hashf tocsr o fs' g' /\ rescaled_target c g g'.
Proof.
  intros Hc F NN Ex (sl & Fs & Hp). assert (Y : exists sl', Forall2 (slot_of (o_negflux o)) sl' (target_rows fs' (g_id g))). { clear -Ex. induction (target_rows fs' (g_id g)) as [|r l IH]; [now exists []|]. destruct IH as [m Hm]; [intros; apply Ex; now right|]. destruct (Ex r (or_introl eq_refl)) as [s Hs]. exists (s :: m). now constructor. }
  destruct Y as [sl' Fs']. assert (Z : rrel (Forall2 (good o)) (mapM (spec_of o) sl) (mapM (spec_of o) sl')).
  { apply (rrel_mapM (fun s s' => exists r r', row_rescaled c r r' /\ (o_allspec o = false -> ivar_nonneg r) /\ slot_of (o_negflux o) s r /\ slot_of (o_negflux o) s' r')); [intros a b (r & r' & H1 & H2 & H3 & H4); eapply slot_scale; eassumption|]. clear -F Fs Fs' NN. revert sl sl' Fs Fs' NN. induction F as [|r r' l l' H F IH]; intros sl sl' Fs Fs' NN; inversion Fs; inversion Fs'; subst; [constructor|]. constructor; [exists r, r'; split; [assumption|]; split; [intro Ho; apply (NN Ho); now left|]; split; assumption|]. apply IH; try assumption. intros Ho rr Hx. apply (NN Ho). now right. }
  pose proof (prepare_scale o (g_id g) sl sl' Hc Z) as P. rewrite Hp in P. destruct (prepare hashf tocsr o (g_id g) sl') as [g'|] eqn:E; cbn [rrel] in P; [|contradiction]. exists g'. split; [|exact P]. exists sl'. rewrite <- (proj1 P). now split.
Qed.
End P.
