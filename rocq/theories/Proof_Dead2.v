(* The coadd and the reader do not depend on dead pixels. *)
From Verif Require Import Prelude PreludeFacts NumX Facts2 Model_Fitz Proof_Fitz Model_Rebin Model_Dist Model_Zscan Proof_Zscan3 Model_Piece Model_IO Model_Zfind Model_Targets Model_Desi Spec_Desi Proof_Desi4 Proof_Table
  Model_Run Proof_Run Proof_Run2 Proof_Run3 Model_RunMPI Model_RunDesi Spec_RunDesi Proof_RunDesi Spec_Dead Proof_Dead.
Open Scope nat_scope.

Definition rrel {A B} (R : A -> B -> Prop) (a : res A) (b : res B) : Prop := match a, b with Ok x, Ok y => R x y | Err e, Err e' => e = e' | _, _ => False end.
Lemma rrel_bind {A B C D} (R : A -> B -> Prop) (S : C -> D -> Prop) m m' k k' : rrel R m m' -> (forall x y, R x y -> rrel S (k x) (k' y)) -> rrel S (rbind m k) (rbind m' k').
Proof. destruct m, m'; cbn; intros H K; try contradiction; auto. Qed.
Lemma rrel_mapM {A B C D} (P : A -> B -> Prop) (R : C -> D -> Prop) f h l m : (forall a b, P a b -> rrel R (f a) (h b)) -> Forall2 P l m -> rrel (Forall2 R) (mapM f l) (mapM h m).
Proof.
  intros H. induction 1 as [|a b l m Hab _ IH]; [constructor|]. cbn [mapM]. eapply rrel_bind; [exact (H a b Hab)|]. intros x y Hxy. eapply rrel_bind; [exact IH|]. intros xs ys Hs. cbn. now constructor.
Qed.
Lemma rrel_refl {A} (m : res A) : rrel eq m m. Proof. destruct m; cbn; reflexivity. Qed.

Definition pveq (s s' : Model_Targets.spec) : Prop := sp_wave s = sp_wave s' /\ sp_ivar s = sp_ivar s' /\ sp_R s = sp_R s' /\ sp_Rcsr s = sp_Rcsr s' /\ sp_band s = sp_band s' /\ sp_hash s = sp_hash s' /\ veq (sp_ivar s) (sp_flux s) (sp_flux s').
Lemma pveq_accR n l l' : Forall2 pveq l l' -> forall Rd, acc_R n Rd l = acc_R n Rd l'.
Proof.
  induction 1 as [|s s' l l' (Ew & Ei & ER & _) _ IH]; intro Rd; [reflexivity|]. cbn [acc_R]. rewrite Ew, ER, Ei. destruct (_ =? n); [|reflexivity]. destruct (sp_R s'); [|reflexivity]. destruct (scale_data _ _); cbn [rbind]; [|reflexivity]. destruct (add_data _ _); cbn [rbind]; [apply IH|reflexivity].
Qed.
Lemma veq_select w f f' : veq w f f' -> select (map (fun v => qlt 0 v) w) f = select (map (fun v => qlt 0 v) w) f'.
Proof. induction 1 as [|a b c w f f' H _ IH]; [reflexivity|]. unfold select in *. cbn [map combine filter fst]. destruct H as [->| ->]; [exact IH|]. destruct (qlt 0 a); cbn [map snd]; now rewrite IH. Qed.
Lemma veq_fill w f f' wave (k : Q -> Q) : veq w f f' ->
  map (fun p => if Qeq_bool (snd (fst p)) 0 then k (snd p) else fst (fst p)) (combine (combine f w) wave) = map (fun p => if Qeq_bool (snd (fst p)) 0 then k (snd p) else fst (fst p)) (combine (combine f' w) wave).
Proof. intro V. revert wave. induction V as [|a b c w f f' H _ IH]; intro wave; [reflexivity|]. destruct wave as [|x wave]; [reflexivity|]. cbn [combine map fst snd]. rewrite IH. destruct H as [->| ->]; reflexivity. Qed.
Lemma pveq_gradient wave s s' : pveq s s' -> cosmic_gradient wave s = cosmic_gradient wave s'.
Proof.
  intros (_ & Ei & _ & _ & _ & _ & V). unfold cosmic_gradient. rewrite <- Ei. destruct (existsb _ _); [|reflexivity]. cbv zeta. rewrite <- (veq_select _ _ _ V). rewrite <- (veq_fill _ _ _ wave _ V). reflexivity.
Qed.

(* the weights of all exposures *)
Inductive veqs : list (list Q) -> list (list Q) -> list (list Q) -> Prop :=
| veqs_nil : veqs [] [] []
| veqs_cons w f f' ws fs fs' : veq w f f' -> veqs ws fs fs' -> veqs (w :: ws) (f :: fs) (f' :: fs').
Lemma veqs_nth ws fs fs' : length fs = length ws -> length fs' = length ws -> (forall k, k < length ws -> veq (nth k ws []) (nth k fs []) (nth k fs' [])) -> veqs ws fs fs'.
Proof.
  revert fs fs'. induction ws as [|a w IH]; intros [|b f] [|c f'] L L' H; try discriminate; constructor; [exact (H 0 (Nat.lt_0_succ _))|]. apply IH; [now injection L|now injection L'|]. intros k Hk. apply (H (S k)). cbn. lia.
Qed.
Lemma veq_mul w f f' j : veq w f f' -> (nth j (map2 Qmult w f) 0 == nth j (map2 Qmult w f') 0)%Q.
Proof. intro V. revert j. induction V as [|a b c w f f' H _ IH]; intro j; [reflexivity|]. destruct j as [|j]; cbn [map2 nth]; [|apply IH]. destruct H as [->| ->]; [ring|reflexivity]. Qed.
Lemma veqs_sum n ws fs fs' : veqs ws fs fs' -> sum0 n (map2 (map2 Qmult) ws fs) = sum0 n (map2 (map2 Qmult) ws fs').
Proof.
  intro V. unfold sum0. apply map_ext. intro j. apply Qred_complete. induction V as [|w f f' ws fs fs' V _ IH]; [reflexivity|]. cbn [map2 map]. unfold sumQ in *. cbn [fold_right]. rewrite IH, (veq_mul _ _ _ j V). reflexivity.
Qed.
Lemma red_zero x : (Qred x == 0)%Q -> Qred x = 0%Q.
Proof. intro H. rewrite Qred_correct in H. now apply Qred_complete in H. Qed.
Lemma nth_enum {A B} (k : nat * A -> B) l n i d d0 : i < length l -> nth i (map k (enum_from n l)) d = k (n + i, nth i l d0).
Proof. revert n i. induction l as [|a l IH]; intros n i H; [cbn in H; lia|]. destruct i as [|i]; cbn [enum_from map nth]; [now rewrite Nat.add_0_r|]. rewrite IH by (cbn in H; lia). f_equal. f_equal. lia. Qed.

Section P.
Variables (hashf : hash_arg -> Z) (tocsr : dia -> csr).
Lemma pveq_coadd cache nsig l l' : Forall2 pveq l l' -> rrel pveq (coadd_group hashf cache nsig l) (coadd_group hashf cache nsig l').
Proof.
  intro F. unfold coadd_group. destruct F as [|s0 s0' rest rest' P0 F]; [reflexivity|]. pose proof P0 as (Ew & Ei & ER & Ec & Eb & Eh & V0). rewrite <- Ew, <- ER, <- Ei. destruct (sp_R s0) as [R0|]; [|reflexivity]. cbv zeta.
  set (n := length (sp_wave s0)). destruct (scale_data R0 (sp_ivar s0)) as [Rd0|]; cbn [rbind]; [|reflexivity]. rewrite <- (pveq_accR n rest rest' F). destruct (acc_R n Rd0 rest) as [Rd|]; cbn [rbind]; [|reflexivity].
  assert (G : Forall2 pveq (s0 :: rest) (s0' :: rest')) by (constructor; assumption). remember (s0 :: rest) as l eqn:El. remember (s0' :: rest') as l' eqn:El'.
  assert (Iv : map sp_ivar l = map sp_ivar l') by (clear -G; induction G as [|? ? ? ? (_ & E & _) _ IH]; [reflexivity|]; cbn [map]; now rewrite E, IH). rewrite <- Iv.
  assert (Gr : mapM (cosmic_gradient (sp_wave s0)) l = mapM (cosmic_gradient (sp_wave s0)) l') by (apply mapM_F2eq; eapply Forall2_impl; [|exact G]; intros a b H; now apply pveq_gradient). rewrite <- Gr.
  destruct (if qlt 0 nsig then _ else _) as [iv|] eqn:Eiv; cbn [rbind]; [|reflexivity].
  assert (Ln : forallb (fun f => length f =? n) (map sp_flux l ++ map sp_ivar l) = forallb (fun f => length f =? n) (map sp_flux l' ++ map sp_ivar l)).
  { rewrite !forallb_app. f_equal. clear -G. induction G as [|a b l l' (_ & _ & _ & _ & _ & _ & V) _ IH]; [reflexivity|]. cbn [map forallb]. destruct (veq_len _ _ _ V) as [L L']. now rewrite L, L', IH. }
  rewrite <- Ln. destruct (negb _) eqn:Hn; [reflexivity|]. apply negb_false_iff in Hn. rewrite forallb_app in Hn. apply andb_true_iff in Hn as [Hf Hi]. rewrite forallb_forall in Hf, Hi.
  assert (LG : length l = length l') by (exact (Forall2_len _ _ _ G)).
  assert (VS : veqs iv (map sp_flux l) (map sp_flux l')).
  { assert (V1 : veqs (map sp_ivar l) (map sp_flux l) (map sp_flux l')) by (clear -G; induction G as [|a b l l' (_ & _ & _ & _ & _ & _ & V) _ IH]; cbn [map]; constructor; assumption).
    destruct (qlt 0 nsig) eqn:Hq; [|injection Eiv as <-; exact V1]. destruct (mapM (cosmic_gradient (sp_wave s0)) l) as [gs|] eqn:Eg; cbn [rbind] in Eiv; [|discriminate]. assert (Lg : length gs = length l) by (apply mapM_Forall2 in Eg; symmetry; exact (Forall2_len _ _ _ Eg)).
    destruct (1 <? length gs); injection Eiv as <-; [|exact V1]. unfold cosmic_mask. rewrite Lg. apply veqs_nth; rewrite ?map_length, ?seq_length; [reflexivity|now rewrite LG|]. intros k Hk. rewrite (nth_tab _ _ _ _ Hk).
    assert (Vk : veq (nth k (map sp_ivar l) []) (nth k (map sp_flux l) []) (nth k (map sp_flux l') [])). { clear -V1 Hk. revert k Hk. assert (Lw : length (map sp_ivar l) = length l) by apply map_length. rewrite <- Lw. clear Lw. induction V1 as [|? ? ? ? ? ? V _ IH]; intros k Hk; [cbn in Hk; lia|]. destruct k as [|k]; [exact V|]. cbn [nth]. apply IH. cbn in Hk. lia. }
    destruct (veq_len _ _ _ Vk) as [L1 L2]. assert (Lk : length (nth k (map sp_ivar l) []) = n) by (apply Nat.eqb_eq, Hi, nth_In; now rewrite map_length).
    apply veq_nth; rewrite ?tab_length; [congruence|congruence|]. intros j Hj. rewrite (nth_tab _ _ _ _ Hj). destruct (_ && _); [now left|]. unfold cos_at. exact (veq_at _ _ _ j Vk). }
  rewrite <- (veqs_sum n _ _ _ VS).
  match goal with |- context [spectrum_init hashf (sp_wave s0) ?f ?W ?R ?c (sp_band (last l s0))] => set (F1 := f); set (W0 := W) end. match goal with |- context [spectrum_init hashf (sp_wave s0) F1 W0 ?R _ _] => set (R1 := R) end.
  match goal with |- context [spectrum_init hashf (sp_wave s0) ?f W0 R1 ?c (sp_band (last l' ?d))] => set (F1' := f) end.
  assert (VW : veq W0 F1 F1').
  { apply veq_nth; unfold F1, F1', W0, sum0; rewrite ?tab_length; [reflexivity|reflexivity|]. intros j Hj. rewrite !(nth_tab _ _ _ _ Hj). destruct (Qeq_bool _ 0) eqn:Hz; [left; apply red_zero; now apply Qeq_bool_iff|now right]. }
  assert (Lb : sp_band (last l s0) = sp_band (last l' s0')). { assert (X : forall a b d d', Forall2 pveq a b -> a <> [] -> sp_band (last a d) = sp_band (last b d')). { clear. induction a as [|x a IH]; intros b d d' F N; [congruence|]. inversion F as [|? y ? b' (_ & _ & _ & _ & E & _) F']; subst. destruct F' as [|u v a b' Huv F']; [exact E|]. change (last (x :: u :: a) d) with (last (u :: a) d). change (last (y :: v :: b') d') with (last (v :: b') d'). apply IH; [now constructor|discriminate]. } apply X; [exact G|rewrite El; discriminate]. }
  rewrite <- Lb. unfold spectrum_init. destruct (mask_lowres R1 W0) as [iw|] eqn:Em; cbn [rbind]; [|reflexivity]. destruct (wavehash _ _ _ _) as [h|]; cbn [rbind]; [|reflexivity]. cbn [rrel fst]. repeat split. cbn [sp_ivar sp_flux].
  destruct (veq_len _ _ _ VW) as [L1 L2]. unfold mask_lowres, R1 in Em. destruct (_ =? _); [|discriminate]. injection Em as <-. apply veq_nth; unfold enum; rewrite ?map_length, ?enum_from_length; [exact L1|exact L2|].
  intros i Hi'. rewrite (nth_enum _ _ _ _ _ 0%Q) by exact Hi'. cbn [fst snd]. match goal with |- (if ?b then _ else _) = _ \/ _ => destruct b end; [left; reflexivity|exact (veq_at _ _ _ i VW)].
Qed.
Lemma pveq_compute cache nsig l l' : Forall2 pveq l l' -> rrel (Forall2 pveq) (compute_coadd hashf cache nsig l) (compute_coadd hashf cache nsig l').
Proof.
  intro F. unfold compute_coadd. assert (E : map sp_hash l = map sp_hash l') by (induction F as [|? ? ? ? (_ & _ & _ & _ & _ & E & _) _ IH]; [reflexivity|]; cbn [map]; now rewrite E, IH). rewrite <- E. apply (rrel_mapM eq); [|induction (first_seen _); constructor; auto].
  intros k k' <-. apply pveq_coadd. unfold group_of. apply F2_filter; [|exact F]. intros a b (_ & _ & _ & _ & _ & H & _). now rewrite H.
Qed.

Lemma coadd_len cache nsig l s : coadd_group hashf cache nsig l = Ok s -> length (sp_ivar s) = length (sp_wave s).
Proof.
  unfold coadd_group. destruct l as [|s0 rest]; [discriminate|]. destruct (sp_R s0) as [R0|]; [|discriminate]. cbv zeta. destruct (scale_data _ _); cbn [rbind]; [|discriminate]. destruct (acc_R _ _ _); cbn [rbind]; [|discriminate]. destruct (if qlt 0 nsig then _ else _) as [iv|]; cbn [rbind]; [|discriminate]. destruct (negb _); [discriminate|].
  unfold spectrum_init. match goal with |- context [mask_lowres ?a ?b] => destruct (mask_lowres a b) as [iw|] eqn:Em end; cbn [rbind]; [|discriminate]. destruct (wavehash _ _ _ _); cbn [rbind]; [|discriminate]. cbn [fst]. intro H. injection H as <-. cbn [sp_ivar sp_wave].
  unfold mask_lowres in Em. destruct (_ =? _); [|discriminate]. injection Em as <-. unfold enum, sum0. now rewrite map_length, enum_from_length, tab_length.
Qed.
Lemma compute_len cache nsig l m s : compute_coadd hashf cache nsig l = Ok m -> In s m -> length (sp_ivar s) = length (sp_wave s).
Proof. intros H I. apply mapM_Forall2 in H. destruct (Forall2_in_r _ _ _ _ H I) as (k & _ & E). eapply coadd_len, E. Qed.

(* a spectrum read from a row *)
Lemma slot_dead n (r r' : fullrow dia) (s s' : slot dia) o : same_live n r r' -> slot_of n s r -> slot_of n s' r' -> rrel (fun a b => pveq a b /\ length (sp_ivar a) = length (sp_wave a)) (spec_of o s) (spec_of o s').
Proof.
  intros (W & B & R & L & L' & P) (A1 & A2 & A3 & fl & iv & A4 & A5 & A6 & A7 & A8) (B1 & B2 & B3 & fl' & iv' & B4 & B5 & B6 & B7 & B8). unfold spec_of. rewrite A4, A5, A3, B4, B5, B3. cbn [rrel].
  assert (LL : length (r_flux r') = length (r_flux r)) by congruence.
  assert (X : forall i, i < length (r_flux r) -> pix NaN iv i = pix NaN iv' i /\ (pix NaN iv i = Fin 0 \/ pix NaN fl i = pix NaN fl' i)).
  { intros i Hi. destruct (P i Hi) as [Lv Eq]. destruct (A8 i Hi) as (F1 & F2 & F3 & F4). destruct (B8 i ltac:(lia)) as (G1 & G2 & G3 & G4).
    destruct (used_dec n (pix NaN (r_flux r) i) (pix NaN (r_ivar r) i) (pix 0%Z (r_mask r) i)) as [U|U].
    - assert (Dz : {pix NaN (r_ivar r) i = Fin 0} + {pix NaN (r_ivar r) i <> Fin 0}) by (repeat decide equality). destruct Dz as [E0|E0].
      + assert (NL : ~ live n r' i) by (rewrite <- Lv; intros [_ H]; contradiction). rewrite (F3 U), E0. assert (Z : pix NaN iv' i = Fin 0). { destruct (used_dec n (pix NaN (r_flux r') i) (pix NaN (r_ivar r') i) (pix 0%Z (r_mask r') i)) as [U'|U']; [|exact (G4 U')]. rewrite (G3 U'). assert (Dz : {pix NaN (r_ivar r') i = Fin 0} + {pix NaN (r_ivar r') i <> Fin 0}) by (repeat decide equality). destruct Dz as [E'|E']; [exact E'|]. exfalso. apply NL. now split. }
        rewrite Z. split; [reflexivity|now left].
      + assert (Li : live n r i) by (now split). destruct (Eq Li) as [Ef Ev]. destruct (proj1 Lv Li) as [U' _]. rewrite (F3 U), (G3 U'). split; [exact Ev|]. right. destruct U as (a & b & Ha & _). rewrite (F1 a Ha). rewrite Ef in Ha. now rewrite (G1 a Ha).
    - assert (NL : ~ live n r' i) by (rewrite <- Lv; intros [H _]; contradiction). rewrite (F4 U). assert (Z : pix NaN iv' i = Fin 0). { destruct (used_dec n (pix NaN (r_flux r') i) (pix NaN (r_ivar r') i) (pix 0%Z (r_mask r') i)) as [U'|U']; [|exact (G4 U')]. rewrite (G3 U'). assert (Dz : {pix NaN (r_ivar r') i = Fin 0} + {pix NaN (r_ivar r') i <> Fin 0}) by (repeat decide equality). destruct Dz as [E'|E']; [exact E'|]. exfalso. apply NL. now split. }
      rewrite Z. split; [reflexivity|now left]. }
  assert (Ei : iv = iv') by (apply (nth_ext _ _ NaN NaN); [congruence|]; intros i Hi; apply X; congruence). subst iv'.
  split; [|cbn [sp_ivar sp_wave]; rewrite map_length; congruence]. unfold pveq. cbn. rewrite A1, A2, B1, B2, W, B, R. repeat split.
  apply veq_nth; rewrite ?map_length; [congruence|congruence|]. intros i Hi. assert (Hi' : i < length (r_flux r)) by congruence. destruct (X i Hi') as [_ Y]. unfold pix in Y. change 0%Q with (fin NaN). rewrite !map_nth. destruct Y as [->| ->]; [now left|now right].
Qed.
Lemma sky_veq o wave w f f' : length w = length wave -> veq w f f' -> veq (mask_sky o wave w) f f'.
Proof.
  intros L V. unfold mask_sky. destruct (o_skymask o); [|exact V]. unfold skymask. rewrite map_map. revert wave L. induction V as [|a b c w f f' H _ IH]; intros [|x wave] L; try discriminate; cbn [map combine]; constructor.
  - cbn [fst snd]. destruct (_ || _); [now left|exact H].
  - apply IH. now injection L.
Qed.
Lemma prepare_dead o t l l' : rrel (Forall2 (fun a b => pveq a b /\ length (sp_ivar a) = length (sp_wave a))) (mapM (spec_of o) l) (mapM (spec_of o) l') -> rrel gveq (prepare hashf tocsr o t l) (prepare hashf tocsr o t l').
Proof.
  intro H. unfold prepare. eapply rrel_bind; [exact H|]. intros m m' F. cbv beta in F.
  apply (rrel_bind (Forall2 (fun a b => pveq a b /\ length (sp_ivar a) = length (sp_wave a)))).
  - destruct (o_allspec o); [exact F|]. assert (F' : Forall2 pveq m m') by (eapply Forall2_impl; [|exact F]; intros a b [P _]; exact P). pose proof (pveq_compute true (o_cosmics o) m m' F') as C. destruct (compute_coadd hashf true (o_cosmics o) m) as [c|] eqn:E, (compute_coadd hashf true (o_cosmics o) m') as [c'|]; cbn [rrel] in *; try assumption.
    pose proof (fun s => compute_len _ _ _ _ s E) as Ln. clear -C Ln. induction C as [|a b c c' P _ IH]; constructor; [split; [exact P|apply Ln; now left]|]. apply IH. intros; apply Ln; now right.
  - intros x y Fx. eapply (rrel_bind (Forall2 (fun s s' => q_wave s = q_wave s' /\ sveq (q_spec s) (q_spec s')))).
    + eapply rrel_mapM; [|exact Fx]. intros a b [(P1 & P2 & P3 & P4 & P5 & P6 & P7) Ln]. unfold seen. rewrite <- P3. destruct (sp_R a) as [r|]; [|reflexivity]. cbn [rrel q_wave q_spec]. split; [exact P1|]. unfold sveq. cbn. rewrite <- P6, <- P1, <- P2. repeat split. now apply sky_veq.
    + intros u v Fu. cbn [rrel]. split; [reflexivity|exact Fu].
Qed.
Lemma reads_dead o fs fs' g : Forall2 (same_live (o_negflux o)) (target_rows fs (g_id g)) (target_rows fs' (g_id g)) -> (forall r', In r' (target_rows fs' (g_id g)) -> exists s', slot_of (o_negflux o) s' r') -> reads hashf tocsr o fs g -> exists g', reads hashf tocsr o fs' g' /\ gveq g g'.
Proof.
  intros F Ex (sl & Fs & Hp). assert (Y : exists sl', Forall2 (slot_of (o_negflux o)) sl' (target_rows fs' (g_id g))). { clear -Ex. induction (target_rows fs' (g_id g)) as [|r l IH]; [now exists []|]. destruct IH as [m Hm]; [intros; apply Ex; now right|]. destruct (Ex r (or_introl eq_refl)) as [s Hs]. exists (s :: m). now constructor. }
  destruct Y as [sl' Fs']. assert (Z : rrel (Forall2 (fun a b => pveq a b /\ length (sp_ivar a) = length (sp_wave a))) (mapM (spec_of o) sl) (mapM (spec_of o) sl')).
  { apply (rrel_mapM (fun s s' => exists r r', same_live (o_negflux o) r r' /\ slot_of (o_negflux o) s r /\ slot_of (o_negflux o) s' r')); [intros a b (r & r' & H1 & H2 & H3); eapply slot_dead; eassumption|]. clear -F Fs Fs'. revert sl sl' Fs Fs'. induction F as [|r r' l l' H F IH]; intros sl sl' Fs Fs'; inversion Fs; inversion Fs'; subst; constructor; [now exists r, r'|now apply IH]. }
  pose proof (prepare_dead o (g_id g) sl sl' Z) as P. rewrite Hp in P. destruct (prepare hashf tocsr o (g_id g) sl') as [g'|] eqn:E; cbn [rrel] in P; [|contradiction]. exists g'. split; [|exact P]. exists sl'. rewrite <- (proj1 P). now split.
Qed.
End P.
