(* Duplicate names, targets without data, and several targets. *)
From Verif Require Import Prelude PreludeFacts NumX Facts2 Model_Fitz Spec_Fitz Proof_Fitz Proof_Fitz2 Props_Fitz Model_Rebin Model_Dist Proof_Dist3 Model_Rank Spec_Rank Spec_Zfind Proof_Table Model_Zscan Spec_Zscan Proof_Zscan Proof_Zscan2 Proof_Zscan3 Proof_Zscan4
  Model_Piece Model_IO Model_Zfind Proof_Zfind Model_Run Spec_Run Proof_Run Proof_Run2 Proof_Run3 Proof_Run5 Proof_Run6.
Open Scope nat_scope.
Local Notation dget := Model_Dist.dget. Local Notation dset := Model_Dist.dset.

Lemma same_sym a b : same_row a b -> same_row b a.
Proof. unfold same_row. intros (H1 & H2 & H3 & H4 & H5 & H6 & H7 & H8 & H9 & H10 & H11 & H12 & H13). repeat split; auto. Qed.
Lemma same_trans a b c : same_row a b -> same_row b c -> same_row a c.
Proof.
  unfold same_row. intros (H1 & H2 & H3 & H4 & H5 & H6 & H7 & H8 & H9 & H10 & H11 & H12 & H13) (K1 & K2 & K3 & K4 & K5 & K6 & K7 & K8 & K9 & K10 & K11 & K12 & K13).
  repeat split; congruence.
Qed.
Lemma F2_sym {A} (R : A -> A -> Prop) l m : (forall a b, R a b -> R b a) -> Forall2 R l m -> Forall2 R m l.
Proof. intros H F. induction F; constructor; auto. Qed.
Lemma F2_app_l {A B} (R : A -> B -> Prop) a b c d : Forall2 R a c -> Forall2 R b d -> Forall2 R (a ++ b) (c ++ d).
Proof. intros H1 H2. induction H1; cbn; [exact H2|now constructor]. Qed.

Section R.
Variables (slv : solvers) (argsort : list xq -> list nat) (polyfit : list Q -> list Q -> option (Q * Q * Q)) (isqrt : Q -> Q).
Variable trans : option string -> Q -> Q -> Q.
Variables (nminima nz : nat).
Hypothesis Hsort : argsort_ok argsort.
Notation tdata := (tdata trans).
Notation fit_target := (fit_target slv argsort polyfit isqrt trans nminima nz).
Notation tscan := (tscan slv). Notation tfit := (tfit slv argsort polyfit isqrt trans nminima nz).
Notation solo := (solo slv argsort polyfit isqrt trans nminima nz).
Notation run := (run slv argsort polyfit isqrt trans nminima nz).

(* the same target in two runs *)
Lemma neighbours ps tgs tgs' tab tab' g : NoDup (map g_id tgs) -> NoDup (map g_id tgs') -> hashes_tell_grids tgs -> hashes_tell_grids tgs' -> run ps tgs = Ok tab -> run ps tgs' = Ok tab' ->
  In g tgs -> In g tgs' -> Forall2 same_row (rows_of (g_id g) tab) (rows_of (g_id g) tab').
Proof.
  intros N N' C C' H H' I I'. destruct (run_alone _ _ _ _ _ _ _ Hsort _ _ _ _ N C H I) as (t1 & R1 & F1). destruct (run_alone _ _ _ _ _ _ _ Hsort _ _ _ _ N' C' H' I') as (t2 & R2 & F2).
  assert (t2 = t1) by congruence. subst t2. eapply F2_trans; [|exact F1|apply F2_sym; [exact same_sym|exact F2]]. exact same_trans.
Qed.
Lemma run_perm ps ps' tgs tab : NoDup (map g_id tgs) -> hashes_tell_grids tgs -> NoDup (map full_type ps) -> (forall p, In p ps -> full_type p <> "meta"%string) -> Permutation ps ps' -> run ps tgs = Ok tab ->
  (forall g p p' t t' o o', In g tgs -> In p ps -> In p' ps -> full_type p <> full_type p' -> run [p] [g] = Ok t -> run [p'] [g] = Ok t' -> In o t -> In o' t' -> ~ ties o o') ->
  exists tab', run ps' tgs = Ok tab' /\ Forall2 same_row tab tab'.
Proof.
  intros N C Nf M P H T.
  assert (Each : forall g, In g tgs -> exists t1, run ps [g] = Ok t1 /\ run ps' [g] = Ok t1 /\ Forall2 same_row (rows_of (g_id g) tab) t1).
  { intros g I. destruct (run_alone _ _ _ _ _ _ _ Hsort _ _ _ _ N C H I) as (t1 & R1 & F1). exists t1. split; [exact R1|]. split; [|exact F1]. apply (run_perm_one _ _ _ _ _ _ _ Hsort ps ps'); auto. intros p p' t t' o o' Hp Hp'. apply T; assumption. }
  assert (NE : tgs <> []). { intros ->. destruct (run_parts _ _ _ _ _ _ _ Hsort _ _ _ N H) as (tds & bss & ts & cut & _ & _ & F & _). inversion F; subst. clear -H N. apply run_ok in H; [|exact N]. destruct H as (tds & bss & _ & _ & E). cbn in E. discriminate. }
  destruct (run_all slv argsort polyfit isqrt trans nminima nz Hsort ps' tgs N C NE) as [tab' H']; [intros g I; destruct (Each g I) as (t1 & _ & R & _); now exists t1|].
  exists tab'. split; [exact H'|]. rewrite (run_order _ _ _ _ _ _ _ Hsort _ _ _ N H), (run_order _ _ _ _ _ _ _ Hsort _ _ _ N H').
  assert (G : forall l, (forall g, In g l -> In g tgs) -> Forall2 same_row (flat_map (fun g => rows_of (g_id g) tab) l) (flat_map (fun g => rows_of (g_id g) tab') l)); [|apply G; auto].
  induction l as [|g l IH]; intro Hl; [constructor|]. cbn [flat_map]. apply F2_app_l; [|apply IH; intros; apply Hl; now right]. pose proof (Hl g (or_introl eq_refl)) as I. destruct (Each g I) as (t1 & _ & R & F1).
  destruct (run_alone _ _ _ _ _ _ _ Hsort _ _ _ _ N C H' I) as (t2 & R2 & F2). assert (t2 = t1) by congruence. subst t2. eapply F2_trans; [|exact F1|apply F2_sym; [exact same_sym|exact F2]]. exact same_trans.
Qed.

(* every template is fitted on the scan of its full type *)
Lemma fit_each g l : forall d d', foldM (tfit g) d l = Ok d' -> forall p, In p l -> exists e fs, sget d (full_type p) = Some e /\ fit_target p g (map2 Qplus (e_zchi2 e) (e_penalty e)) = Ok fs.
Proof.
  induction l as [|q l IH]; intros d d' H p Hp; [destruct Hp|]. cbn [foldM] in H. destruct (tfit g d q) as [d1|] eqn:E; cbn [rbind] in H; [|discriminate]. unfold Proof_Run.tfit in E. destruct (sget d (full_type q)) as [e|] eqn:Eg; [|discriminate].
  destruct (fit_target q g _) as [fs|] eqn:Ef; cbn [rbind] in E; [|discriminate]. destruct Hp as [<-|Hp]; [now exists e, fs|].
  destruct (IH _ _ H p Hp) as (e' & fs' & He & Hf). injection E as <-. rewrite sget_sset in He. destruct (String.eqb_spec (full_type q) (full_type p)) as [Et|_]; [|now exists e', fs'].
  assert (e' = {| e_zchi2 := e_zchi2 e; e_penalty := e_penalty e; e_fits := Some (npixels g, fs) |}) by congruence. subst e'. cbn [e_zchi2 e_penalty] in Hf. exists e, fs'. split; [now rewrite <- Et|exact Hf].
Qed.
Lemma scan_len p td g row : scan_of slv (p, td) g = Ok row -> length (fst (fst row)) = length (p_zs p) /\ length (snd row) = length (p_zs p).
Proof.
  unfold scan_of, zchi2_target. cbn [fst snd]. destruct (spectral_data (data_of g)) as [[[w f] wf]|]; cbn [rbind]; [|discriminate]. destruct (Qeq_bool (sumQ w) 0) eqn:E.
  - intro H. injection H as <-. cbn [fst snd]. now rewrite !repeat_length.
  - destruct (calc_zchi2_batch _ _ _ _ _ _ _ _ _ _ _) as [[z c]|] eqn:Eb; cbn [rbind]; [|discriminate]. intro H. injection H as <-. cbn [fst snd].
    destruct (batch_inv _ _ _ _ _ _ _ _ _ _ _ _ _ (Qeq_bool_neq _ _ E) Eb) as (r & Hr & -> & ->). apply mapM_length in Hr. rewrite seq_length in Hr. rewrite map_length. split; [exact Hr|].
    destruct (OIItemplate (p_core p)); [unfold calc_negOII_penalty; now rewrite !map_length|apply repeat_length].
Qed.
Lemma dup_lengths ps tgs tab p q : NoDup (map g_id tgs) -> run ps tgs = Ok tab -> In p ps -> In q ps -> full_type p = full_type q -> length (p_zs p) = length (p_zs q).
Proof.
  intros N H Hp Hq E. destruct tgs as [|g tgs]. { apply run_ok in H; [|exact N]. destruct H as (tds & bss & _ & _ & E'). cbn in E'. discriminate. }
  apply run_ok in H as (tds & bss & Ht & F & _); [|exact N]. inversion F as [|? bs ? ? Hs _]; subst. unfold Proof_Run.solo in Hs.
  destruct (foldM (tscan g) [] (combine ps tds)) as [d1|] eqn:E1; cbn [rbind] in Hs; [|discriminate]. destruct (foldM (tfit g) d1 (by_type ps)) as [d2|] eqn:E2; cbn [rbind] in Hs; [|discriminate].
  assert (L : length tds = length ps) by (apply mapM_Forall2 in Ht; now apply Forall2_len in Ht).
  destruct (scan_inv _ _ _ _ _ E1) as [_ P1]. specialize (P1 (full_type p)). pose proof (pickt_pick (full_type p) ps tds L) as Q. destruct (pickt (full_type p) (combine ps tds)) as [[p0 td]|]; [|apply pick_none in Q; exfalso; apply Q; now apply in_map].
  destruct P1 as (row & Hr & Sg). apply scan_len in Hr as [L1 L2]. cbn [fst] in Q.
  assert (G : forall x, In x ps -> full_type x = full_type p -> length (p_zs x) = length (p_zs p0)).
  { intros x Hx Ex. destruct (fit_each _ _ _ _ E2 x) as (e & fs & He & Hf); [unfold by_type; now apply isort_in|]. rewrite Ex, Sg in He. injection He as <-. cbn [e_zchi2 e_penalty] in Hf. unfold Model_Run.fit_target in Hf.
    destruct (spectral_data (data_of g)) as [[[w f] wf]|]; cbn [rbind] in Hf; [|discriminate]. destruct (fitz_parts _ _ _ _ _ _ _ _ _ _ _ _ _ _ Hsort Hf) as (_ & _ & Hl & _). rewrite map_length, map2_length in Hl. unfold vec in *. lia. }
  rewrite (G p Hp eq_refl), (G q Hq) by now symmetry. reflexivity.
Qed.

(* two lists of templates that agree on the last one of every name *)
Lemma run_picks_one ps ps' g tab tab' : keys_of ps = keys_of ps' -> (forall ft, pick ft ps = pick ft ps') -> run ps [g] = Ok tab -> run ps' [g] = Ok tab' -> Forall2 same_row tab tab'.
Proof.
  intros K P H H'. destruct (run_parts _ _ _ _ _ _ _ Hsort _ _ _ (one_nodup g) H) as (_ & _ & _ & _ & _ & Pos & _).
  apply run_one in H as (tds & bs & t & Ht & Hs & A & St). apply run_one in H' as (tds' & bs' & t' & Ht' & Hs' & A' & St').
  assert (L : length tds = length ps) by (apply mapM_Forall2 in Ht; now apply Forall2_len in Ht). assert (L' : length tds' = length ps') by (apply mapM_Forall2 in Ht'; now apply Forall2_len in Ht').
  pose proof (solo_inv _ _ _ _ _ _ _ _ _ _ _ L Hs) as F. pose proof (solo_inv _ _ _ _ _ _ _ _ _ _ _ L' Hs') as F'.
  assert (U : forall p td td', In (p, td) (combine ps tds) -> In (p, td') (combine ps' tds') -> td = td') by (intros p td td' I I'; apply (mapM_combine _ _ _ Ht) in I; apply (mapM_combine _ _ _ Ht') in I'; congruence).
  assert (E : bs = bs'). { unfold typed in F'. rewrite <- K in F'. eapply F2_fun; [|exact F|exact F']. intros ft b b' _ Hb Hb'. eapply fitted_same; [exact U|apply P|exact Hb|exact Hb']. }
  subst bs'. assert (t' = t) by congruence. subst t'. destruct (blocks_width _ _ _ _ _ _ _ Hsort _ _ _ _ Pos F) as (Wf & _ & _).
  destruct (standardise_eq _ _ _ St) as (_ & cut & -> & Hc). destruct (standardise_eq _ _ _ St') as (_ & cut' & -> & Hc').
  assert (G : forall l, (forall o, In o l -> In o t) -> Forall2 same_row (map (finalised (list_max_nat (map nbasis ps)) cut) l) (map (finalised (list_max_nat (map nbasis ps')) cut') l)); [|now apply G].
  induction l as [|o l IH]; intro Hl; [constructor|]. cbn [map]. constructor; [|apply IH; intros; apply Hl; now right]. apply (final_same nminima (g_id g) bs t); auto; [apply Hl; now left|..]; intros n En; [apply (Hc n En)|apply (Hc' n En)]; apply Hl; now left.
Qed.
Lemma run_picks ps ps' tgs tab tab' : NoDup (map g_id tgs) -> hashes_tell_grids tgs -> keys_of ps = keys_of ps' -> (forall ft, pick ft ps = pick ft ps') -> run ps tgs = Ok tab -> run ps' tgs = Ok tab' -> Forall2 same_row tab tab'.
Proof.
  intros N C K P H H'. rewrite (run_order _ _ _ _ _ _ _ Hsort _ _ _ N H), (run_order _ _ _ _ _ _ _ Hsort _ _ _ N H').
  assert (G : forall l, (forall g, In g l -> In g tgs) -> Forall2 same_row (flat_map (fun g => rows_of (g_id g) tab) l) (flat_map (fun g => rows_of (g_id g) tab') l)); [|apply G; auto].
  induction l as [|g l IH]; intro Hl; [constructor|]. cbn [flat_map]. apply F2_app_l; [|apply IH; intros; apply Hl; now right]. pose proof (Hl g (or_introl eq_refl)) as I.
  destruct (run_alone _ _ _ _ _ _ _ Hsort _ _ _ _ N C H I) as (t1 & R1 & F1). destruct (run_alone _ _ _ _ _ _ _ Hsort _ _ _ _ N C H' I) as (t2 & R2 & F2). pose proof (run_picks_one _ _ _ _ _ K P R1 R2) as F.
  eapply F2_trans; [exact same_trans|exact F1|]. eapply F2_trans; [exact same_trans|exact F|]. apply F2_sym; [exact same_sym|exact F2].
Qed.
Lemma pick_shadow a q q' b p c : full_type q = full_type p -> full_type q' = full_type p -> keys_of (a ++ q :: b ++ p :: c) = keys_of (a ++ q' :: b ++ p :: c) /\ forall ft, pick ft (a ++ q :: b ++ p :: c) = pick ft (a ++ q' :: b ++ p :: c).
Proof.
  intros E E'. split; [unfold keys_of; rewrite !map_app; cbn [map]; now rewrite E, E'|]. intro ft. unfold pick.
  assert (R : forall x, rev (a ++ x :: b ++ p :: c) = rev c ++ p :: rev b ++ x :: rev a). { intro x. rewrite rev_app_distr. cbn [rev]. rewrite rev_app_distr. cbn [rev]. rewrite <- !app_assoc. reflexivity. }
  rewrite !R, !find_app_o. destruct (find _ (rev c)); [reflexivity|]. cbn [find]. destruct (String.eqb_spec (full_type p) ft) as [|Ne]; [reflexivity|]. rewrite !find_app_o. destruct (find _ (rev b)); [reflexivity|]. cbn [find]. rewrite E, E'. destruct (String.eqb_spec (full_type p) ft); [contradiction|reflexivity].
Qed.

(* a target without weights *)
Lemma nodata_coeff p g zc fs x : Forall (fun s => Forall (fun v => v == 0)%Q (s_ivar s)) (data_of g) -> fit_target p g zc = Ok fs -> In x fs -> Model_Fitz.f_coeff x = repeat 0%Q (nbasis p).
Proof.
  intros Z0. unfold Model_Run.fit_target. destruct (spectral_data (data_of g)) as [[[w f] wf]|] eqn:Ed; cbn [rbind]; [|discriminate]. intros H Hx.
  assert (Hs : Qeq_bool (sumQ w) 0 = true).
  { apply Qeq_bool_iff. apply spectral_data_inv in Ed as (-> & _). clear -Z0. induction (data_of g) as [|s l IH]; [reflexivity|]. inversion Z0 as [|? ? H1 H2]; subst. cbn [map concat]. rewrite sumQ_app, IH by exact H2. clear -H1. induction H1 as [|v l Hv _ IH]; [reflexivity|]. unfold sumQ in *. cbn [fold_right] in *. lra. }
  assert (K : forall z v, coeff_at slv trans p g w f wf z = Ok v -> v = repeat 0%Q (nbasis p)).
  { intros z v. unfold coeff_at, chi2_at. destruct (tdata p (own_grids g) [z]) as [td|]; cbn [rbind]; [|discriminate]. unfold calc_zchi2_batch. rewrite Hs. cbn [rbind fst snd repeat hd]. intro E. now injection E. }
  destruct (fitz_parts _ _ _ _ _ _ _ _ _ _ _ _ _ _ Hsort H) as (minima & results & Hl & Hne & Hm & Hr & Hp & _).
  destruct (fit_loop_inv _ _ _ _ _ _ _ _ _ _ _ minima [] results Hr (Nat.le_0_l _) (pw_nil _)) as (_ & _ & I3 & _).
  eapply Permutation_in in Hx; [|exact Hp]. destruct (I3 x Hx) as [[]|(i & r0 & _ & H1 & H2)].
  destruct (finish_same _ _ _ H2) as (_ & _ & _ & _ & _ & F6). subst r0. destruct (refine_refined _ _ _ _ _ _ _ _ _ _ H1) as (zlo & zhi & zmin & sg & ym & w0 & HR & _).
  destruct (rf_coeff _ _ _ _ _ _ _ _ _ _ _ _ _ _ _ _ HR) as [E|(_ & E & _)]; [exact (K _ _ E)|exact E].
Qed.
End R.
