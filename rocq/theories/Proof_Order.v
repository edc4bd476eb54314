(* A run does not depend on the order of the spectra of a target. *)
From Verif Require Import Prelude PreludeFacts NumX Proof_Targets3 Facts2 Model_Fitz Proof_Fitz Model_Rebin Model_Dist Proof_Dist3 Model_Zscan Proof_Zscan3 Model_Piece Model_IO Model_Zfind Proof_Table
  Model_Run Spec_Run Proof_Run Proof_Run2 Proof_Run3 Proof_Run5 Proof_Run6 Proof_Run9 Model_RunMPI Proof_RunMPI3 Proof_RunMP Model_RunDesi Proof_RunDesi Spec_Order Proof_Dead.
Open Scope nat_scope.
Local Arguments Qred : simpl never.

(* pixels of all the spectra *)
Definition cm {A B} (f : A -> list B) (l : list A) : list B := concat (map f l).
Lemma cm_perm {A B} (f : A -> list B) l l' : Permutation l l' -> Permutation (cm f l) (cm f l').
Proof. intro P. unfold cm. rewrite <- !flat_map_concat_map. now apply Permutation_flat_map. Qed.
Lemma cm_ext {A B} (f h : A -> list B) l : (forall s, In s l -> f s = h s) -> cm f l = cm h l.
Proof. intro H. unfold cm. f_equal. now apply map_ext_in. Qed.
Lemma cm_map {A B C} (h : B -> C) (f : A -> list B) l : map h (cm f l) = cm (fun s => map h (f s)) l.
Proof. unfold cm. rewrite concat_map, map_map. reflexivity. Qed.
Lemma map2_app {A B C} (h : A -> B -> C) a a' b b' : length a = length b -> map2 h (a ++ a') (b ++ b') = map2 h a b ++ map2 h a' b'.
Proof. revert b. induction a as [|x a IH]; intros [|y b] L; try discriminate; [reflexivity|]. cbn [app map2]. now rewrite (IH b ltac:(cbn in L; lia)). Qed.
Lemma cm_map2 {A B C D} (h : B -> C -> D) (a : A -> list B) (b : A -> list C) l : (forall s, In s l -> length (a s) = length (b s)) -> map2 h (cm a l) (cm b l) = cm (fun s => map2 h (a s) (b s)) l.
Proof. unfold cm. induction l as [|s l IH]; intro H; [reflexivity|]. cbn [map concat]. rewrite map2_app by (apply H; now left). now rewrite IH by (intros; apply H; now right). Qed.
Lemma cm_len {A B C} (a : A -> list B) (b : A -> list C) l : (forall s, In s l -> length (a s) = length (b s)) -> length (cm a l) = length (cm b l).
Proof. unfold cm. induction l as [|s l IH]; intro H; [reflexivity|]. cbn [map concat]. rewrite !app_length, (H s (or_introl eq_refl)), IH; [reflexivity|]. intros; apply H; now right. Qed.
Lemma map2_length {A B C} (h : A -> B -> C) a b : length a = length b -> length (map2 h a b) = length a.
Proof. revert b. induction a as [|x a IH]; intros [|y b] L; try discriminate; [reflexivity|]. cbn. f_equal. apply IH. now injection L. Qed.
Lemma dot_cm {A} (a b : A -> vec) l l' : Permutation l l' -> (forall s, In s l -> length (a s) = length (b s)) -> dot (cm a l) (cm b l) = dot (cm a l') (cm b l').
Proof.
  intros P H. unfold dot. apply Qred_complete. rewrite !cm_map2; [|intros s Hs; apply H; eapply Permutation_in; [symmetry; exact P|exact Hs]|exact H]. apply sumQ_perm. now apply cm_perm.
Qed.

(* results on success *)
Definition rle {A} (m m' : res A) : Prop := forall v, m = Ok v -> m' = Ok v.
Lemma rle_refl {A} (m : res A) : rle m m. Proof. intros v H. exact H. Qed.
Lemma rle_bind {A B} (m m' : res A) (k k' : A -> res B) : rle m m' -> (forall x, m = Ok x -> rle (k x) (k' x)) -> rle (rbind m k) (rbind m' k').
Proof. intros H K v E. destruct m as [x|]; cbn [rbind] in E; [|discriminate]. rewrite (H x eq_refl). cbn [rbind]. now apply (K x eq_refl). Qed.
Lemma rle_mapM {A B C} (f : A -> res C) (h : B -> res C) l m : Forall2 (fun a b => rle (f a) (h b)) l m -> rle (mapM f l) (mapM h m).
Proof. induction 1 as [|a b l m E _ IH]; [apply rle_refl|]. cbn [mapM]. apply rle_bind; [exact E|]. intros x _. apply rle_bind; [exact IH|]. intros y _. apply rle_refl. Qed.
Lemma rle_mapM_in {A C} (f h : A -> res C) l : (forall a, In a l -> rle (f a) (h a)) -> rle (mapM f l) (mapM h l).
Proof. intro H. apply rle_mapM. induction l; constructor; [apply H; now left|apply IHl; intros; apply H; now right]. Qed.

(* the block of one spectrum in the design matrix *)
Definition blockf (nb : nat) (td : tdict) (i : nat) (s : spectrum) : res mat :=
  match dget td (s_hash s) with None => Err KeyError | Some T => match nth_error T i with None => Err IndexError | Some A => csr_dot (s_R s) nb A end end.
Definition blk0 nb td i s : mat := match blockf nb td i s with Ok B => B | Err _ => [] end.
Lemma blockf_len nb td i s B : blockf nb td i s = Ok B -> length B = r_nrow (s_R s).
Proof.
  unfold blockf, csr_dot. destruct (dget td (s_hash s)) as [T|]; [|discriminate]. destruct (nth_error T i) as [A|]; [|discriminate]. destruct (length A =? r_ncol (s_R s)); [|discriminate]. intro E. injection E as <-. now rewrite map_length, seq_length.
Qed.
Lemma mapM_blk nb td i l bs : mapM (blockf nb td i) l = Ok bs <-> (forall s, In s l -> exists B, blockf nb td i s = Ok B) /\ bs = map (blk0 nb td i) l.
Proof.
  revert bs. induction l as [|s l IH]; intro bs; cbn [mapM map].
  - split; [intro E; split; [intros s []|congruence]|intros [_ ->]; reflexivity].
  - destruct (blockf nb td i s) as [B|] eqn:E; cbn [rbind].
    + split.
      * intro H. destruct (mapM (blockf nb td i) l) as [r|]; cbn [rbind] in H; [|discriminate]. destruct (proj1 (IH r) eq_refl) as [K ->]. split; [intros s' [<-|Hs]; [now exists B|now apply K]|]. unfold blk0 at 1. rewrite E. congruence.
      * intros [K ->]. rewrite (proj2 (IH (map (blk0 nb td i) l))); [|split; [intros; apply K; now right|reflexivity]]. cbn [rbind]. unfold blk0 at 2. now rewrite E.
    + split; [discriminate|]. intros [K _]. destruct (K s (or_introl eq_refl)) as [B HB]. congruence.
Qed.
Lemma design_cm nb l td i Tb : dot_product_sparse_one nb l td i = Ok Tb <-> l <> [] /\ (forall s, In s l -> exists B, blockf nb td i s = Ok B) /\ Tb = cm (blk0 nb td i) l.
Proof.
  unfold dot_product_sparse_one. change (mapM _ l) with (mapM (blockf nb td i) l). destruct (mapM (blockf nb td i) l) as [bs|] eqn:E; cbn [rbind].
  - apply mapM_blk in E as [K ->]. destruct l as [|s l]; [cbn [map]; split; [discriminate|intros [H _]; congruence]|]. cbn [map]. split; [intro H; split; [discriminate|split; [exact K|]]; unfold cm; cbn [map]; now inversion H|intros (_ & _ & ->); reflexivity].
  - split; [discriminate|]. intros (_ & K & _). assert (X := proj2 (mapM_blk nb td i l _) (conj K eq_refl)). congruence.
Qed.

Section R.
Variables (slv : solvers) (argsort : list xq -> list nat) (polyfit : list Q -> list Q -> option (Q * Q * Q)) (isqrt : Q -> Q).
Variable trans : option string -> Q -> Q -> Q.
Variables (nminima nz : nat).
Notation run := (run slv argsort polyfit isqrt trans nminima nz).

Definition fitting (l : list spectrum) : Prop := forall s, In s l -> length (Model_Zscan.s_ivar s) = r_nrow (s_R s) /\ length (Model_Zscan.s_flux s) = r_nrow (s_R s).
Definition prodf (s : spectrum) : vec := map2 (fun w f => Qred (w * f)) (Model_Zscan.s_ivar s) (Model_Zscan.s_flux s).
Lemma spectral_cm l : fitting l -> l <> [] -> spectral_data l = Ok (cm Model_Zscan.s_ivar l, cm Model_Zscan.s_flux l, cm prodf l).
Proof.
  intros F Ne. unfold spectral_data. destruct l as [|s0 l0]; [congruence|]. cbv zeta. set (l := s0 :: l0) in *. change (concat (map Model_Zscan.s_ivar l)) with (cm Model_Zscan.s_ivar l). change (concat (map Model_Zscan.s_flux l)) with (cm Model_Zscan.s_flux l).
  assert (L : forall s, In s l -> length (Model_Zscan.s_ivar s) = length (Model_Zscan.s_flux s)) by (intros s Hs; destruct (F s Hs); congruence).
  rewrite (cm_len _ _ l L), Nat.eqb_refl. rewrite (cm_map2 _ _ _ l L). reflexivity.
Qed.
Lemma at_perm alg args prior nb l l' td td' i : fitting l -> l <> [] -> Permutation l l' -> (forall s, In s l -> dget td (s_hash s) = dget td' (s_hash s)) -> (forall s, In s l -> exists B, blockf nb td i s = Ok B) ->
  zchi2_at slv alg args prior nb l td (cm Model_Zscan.s_ivar l) (cm Model_Zscan.s_flux l) (cm prodf l) i = zchi2_at slv alg args prior nb l' td' (cm Model_Zscan.s_ivar l') (cm Model_Zscan.s_flux l') (cm prodf l') i.
Proof.
  intros F Ne P D K. unfold zchi2_at. rewrite (proj2 (design_cm nb l td i _) (conj Ne (conj K eq_refl))).
  assert (Bl : forall s, In s l -> blockf nb td i s = blockf nb td' i s) by (intros s Hs; unfold blockf; now rewrite (D s Hs)).
  assert (B0 : forall s, In s l -> blk0 nb td i s = blk0 nb td' i s) by (intros s Hs; unfold blk0; now rewrite (Bl s Hs)).
  assert (Bk : forall s, In s l -> length (blk0 nb td i s) = r_nrow (s_R s)) by (intros s Hs; destruct (K s Hs) as [B HB]; unfold blk0; rewrite HB; exact (blockf_len _ _ _ _ _ HB)).
  assert (F' : fitting l') by (intros s Hs; apply F; eapply Permutation_in; [symmetry; exact P|exact Hs]).
  assert (I' : forall s, In s l' -> In s l) by (intros s Hs; eapply Permutation_in; [symmetry; exact P|exact Hs]).
  rewrite (proj2 (design_cm nb l' td' i (cm (blk0 nb td i) l'))).
  2:{ split; [intro E; rewrite E in P; apply Permutation_sym, Permutation_nil in P; contradiction|]. split; [intros s Hs; destruct (K s (I' s Hs)) as [B HB]; exists B; rewrite <- (Bl s (I' s Hs)); exact HB|]. apply cm_ext. intros s Hs. apply B0. now apply I'. }
  cbn [rbind].
  assert (Lp : forall s, In s l -> length (prodf s) = r_nrow (s_R s)) by (intros s Hs; destruct (F s Hs); unfold prodf; rewrite map2_length; congruence).
  rewrite <- !(Permutation_length (cm_perm _ _ _ P)). destruct (negb _); [reflexivity|].
  assert (Cj : forall j m, col j (cm (blk0 nb td i) m) = cm (fun s => col j (blk0 nb td i s)) m) by (intros; unfold col; apply cm_map).
  assert (Lc : forall j s, length (col j (blk0 nb td i s)) = length (blk0 nb td i s)) by (intros; unfold col; apply map_length).
  assert (EM : normal_M nb (cm Model_Zscan.s_ivar l) (cm (blk0 nb td i) l) = normal_M nb (cm Model_Zscan.s_ivar l') (cm (blk0 nb td i) l')).
  { unfold normal_M. apply map_ext. intro j. apply map_ext. intro k. rewrite !Cj. rewrite !cm_map2.
    - apply dot_cm; [exact P|]. intros s Hs. destruct (F s Hs) as [F1 F2]. rewrite map2_length; rewrite ?Lc, ?(Bk s Hs); congruence.
    - intros s Hs. rewrite Lc, (Bk s (I' s Hs)). now destruct (F' s Hs).
    - intros s Hs. rewrite Lc, (Bk s Hs). now destruct (F s Hs). }
  assert (Ey : tdot nb (cm (blk0 nb td i) l) (cm prodf l) = tdot nb (cm (blk0 nb td i) l') (cm prodf l')).
  { unfold tdot. apply map_ext. intro j. rewrite !Cj. apply dot_cm; [exact P|]. intros s Hs. rewrite Lc, (Bk s Hs), (Lp s Hs). reflexivity. }
  rewrite <- EM, <- Ey. destruct (add_prior _ _ _) as [M|]; cbn [rbind]; [|reflexivity]. cbv zeta. destruct (solve_matrices _ _ _ _ _) as [c|]; [|reflexivity]. destruct (length c =? nb); [|reflexivity]. f_equal. f_equal.
  unfold chi2_of. assert (Em : forall m, mvec (cm (blk0 nb td i) m) c = cm (fun s => mvec (blk0 nb td i s) c) m) by (intro; unfold mvec; apply cm_map). rewrite !Em.
  assert (Lm : forall s, length (mvec (blk0 nb td i s) c) = length (blk0 nb td i s)) by (intro; unfold mvec; apply map_length).
  rewrite !cm_map2.
  - apply dot_cm; [exact P|]. intros s Hs. destruct (F s Hs) as [F1 F2]. rewrite map2_length; rewrite ?Lm, ?(Bk s Hs); congruence.
  - intros s Hs. rewrite Lm, (Bk s (I' s Hs)). now destruct (F' s Hs).
  - intros s Hs. rewrite Lm, (Bk s Hs). now destruct (F s Hs).
Qed.
Lemma at_rle alg args prior nb l l' td td' i : fitting l -> Permutation l l' -> (forall s, In s l -> dget td (s_hash s) = dget td' (s_hash s)) ->
  rle (zchi2_at slv alg args prior nb l td (cm Model_Zscan.s_ivar l) (cm Model_Zscan.s_flux l) (cm prodf l) i) (zchi2_at slv alg args prior nb l' td' (cm Model_Zscan.s_ivar l') (cm Model_Zscan.s_flux l') (cm prodf l') i).
Proof.
  intros F P D v H. pose proof H as H0. unfold zchi2_at in H0. destruct (dot_product_sparse_one nb l td i) as [Tb|] eqn:E; cbn [rbind] in H0; [|discriminate]. apply design_cm in E as (Ne & K & _). rewrite <- (at_perm alg args prior nb l l' td td' i F Ne P D K). exact H.
Qed.
Lemma sum_perm l l' : Permutation l l' -> Qeq_bool (sumQ l) 0 = Qeq_bool (sumQ l') 0.
Proof.
  intro P. pose proof (sumQ_perm _ _ P) as E. destruct (Qeq_bool (sumQ l) 0) eqn:A, (Qeq_bool (sumQ l') 0) eqn:B; try reflexivity.
  - apply Qeq_bool_iff in A. assert (X : (sumQ l' == 0)%Q) by (rewrite <- E; exact A). apply Qeq_bool_iff in X. congruence.
  - apply Qeq_bool_iff in B. assert (X : (sumQ l == 0)%Q) by (rewrite E; exact B). apply Qeq_bool_iff in X. congruence.
Qed.
Lemma batch_perm alg args prior nb l l' td td' n : fitting l -> Permutation l l' -> (forall s, In s l -> dget td (s_hash s) = dget td' (s_hash s)) ->
  rle (calc_zchi2_batch slv alg args prior l td (cm Model_Zscan.s_ivar l) (cm Model_Zscan.s_flux l) (cm prodf l) n nb) (calc_zchi2_batch slv alg args prior l' td' (cm Model_Zscan.s_ivar l') (cm Model_Zscan.s_flux l') (cm prodf l') n nb).
Proof.
  intros F P D. unfold calc_zchi2_batch. rewrite <- (sum_perm _ _ (cm_perm Model_Zscan.s_ivar _ _ P)). destruct (Qeq_bool _ 0); [apply rle_refl|]. apply rle_bind; [|intros; apply rle_refl]. apply rle_mapM_in. intros i _. now apply at_rle.
Qed.
Lemma target_perm t l l' td td' n : fitting l -> Permutation l l' -> (forall s, In s l -> dget td (s_hash s) = dget td' (s_hash s)) -> rle (zchi2_target slv t td n l) (zchi2_target slv t td' n l').
Proof.
  intros F P D. unfold zchi2_target. destruct l as [|s0 l0] eqn:El; [apply Permutation_nil in P; subst; apply rle_refl|]. rewrite <- El in *. assert (Ne : l <> []) by (rewrite El; discriminate). clear El.
  assert (F' : fitting l') by (intros s Hs; apply F; eapply Permutation_in; [symmetry; exact P|exact Hs]).
  assert (Ne' : l' <> []) by (intro E; rewrite E in P; apply Permutation_sym, Permutation_nil in P; contradiction).
  rewrite (spectral_cm l F Ne), (spectral_cm l' F' Ne'). cbn [rbind]. rewrite <- (sum_perm _ _ (cm_perm Model_Zscan.s_ivar _ _ P)). destruct (Qeq_bool _ 0); [apply rle_refl|]. apply rle_bind; [now apply batch_perm|]. intros; apply rle_refl.
Qed.

(* targets *)
Lemma own_nodup g : NoDup (map fst (own_grids g)).
Proof.
  unfold own_grids. assert (X : forall ss d, NoDup (map fst d) -> NoDup (map fst (fold_left (fun (d : dict (list Q)) s => dset d (q_hash s) (q_wave s)) ss d))); [|apply X; constructor].
  induction ss as [|s ss IH]; intros d N; [exact N|]. cbn [fold_left]. apply IH. now apply Proof_RunMP.dset_nodup.
Qed.
Lemma own_none g h : (forall s, In s (g_spectra g) -> q_hash s <> h) -> dget (own_grids g) h = None.
Proof.
  intro H. unfold own_grids. assert (X : forall ss d, (forall s, In s ss -> q_hash s <> h) -> dget d h = None -> dget (fold_left (fun (d : dict (list Q)) s => dset d (q_hash s) (q_wave s)) ss d) h = None); [|now apply X].
  induction ss as [|s ss IH]; intros d N E; [exact E|]. cbn [fold_left]. apply IH; [intros; apply N; now right|]. rewrite dget_dset. destruct (Z.eqb_spec (q_hash s) h) as [e|_]; [exfalso; exact (N s (or_introl eq_refl) e)|exact E].
Qed.
Lemma reord_in g g' s : reordered g g' -> (In s (g_spectra g) <-> In s (g_spectra g')).
Proof. intros [_ P]. split; apply Permutation_in; [exact P|symmetry; exact P]. Qed.
Lemma reord_tell1 g g' : reordered g g' -> hashes_tell_grids [g] -> hashes_tell_grids [g'].
Proof. intros P H a b s s' [<-|[]] [<-|[]] Hs Hs'. apply (H g g); [now left|now left|now apply (reord_in g g')|now apply (reord_in g g')]. Qed.
Lemma own_perm g g' : hashes_tell_grids [g] -> reordered g g' -> forall h, dget (own_grids g) h = dget (own_grids g') h.
Proof.
  intros C P h. destruct (in_dec Z.eq_dec h (map q_hash (g_spectra g))) as [I|I].
  - apply in_map_iff in I as (s & <- & Hs). rewrite (own_get g s C Hs). symmetry. apply own_get; [now apply (reord_tell1 g g')|now apply (reord_in g g')].
  - rewrite (own_none g h), (own_none g' h); [reflexivity| |]; intros s Hs E; apply I; apply in_map_iff; exists s; (split; [exact E|]); [now apply (reord_in g g')|exact Hs].
Qed.
Lemma reord_data g g' : reordered g g' -> Permutation (data_of g) (data_of g').
Proof. intros [_ P]. unfold data_of. now apply Permutation_map. Qed.
Lemma reord_npix g g' : reordered g g' -> npixels g = npixels g'.
Proof. intro P. unfold npixels. f_equal. apply Permutation_length. apply Permutation_filter'. exact (cm_perm Model_Zscan.s_ivar _ _ (reord_data _ _ P)). Qed.
Lemma reord_all tgs tgs' : Forall2 reordered tgs tgs' -> forall s, In s (flat_map g_spectra tgs) <-> In s (flat_map g_spectra tgs').
Proof.
  intros F s. rewrite !in_flat_map. split.
  - intros (g & Hg & Hs). destruct (Proof_RunDesi.F2_left _ _ _ F g Hg) as (g' & Hg' & R). exists g'. split; [exact Hg'|]. now apply (reord_in g g').
  - intros (g' & Hg' & Hs). destruct (Forall2_in_r _ _ _ _ F Hg') as (g & Hg & R). exists g. split; [exact Hg|]. now apply (reord_in g g').
Qed.
Lemma reord_tell tgs tgs' : Forall2 reordered tgs tgs' -> hashes_tell_grids tgs -> hashes_tell_grids tgs'.
Proof.
  intros F C g g' s s' Hg Hg' Hs Hs'. destruct (Forall2_in_r _ _ _ _ F Hg) as (a & Ha & R). destruct (Forall2_in_r _ _ _ _ F Hg') as (a' & Ha' & R'). apply (C a a' s s' Ha Ha'); [now apply (reord_in a g)|now apply (reord_in a' g')].
Qed.
Lemma grids_reord tgs tgs' : hashes_tell_grids tgs -> Forall2 reordered tgs tgs' -> forall h, dget (grids tgs) h = dget (grids tgs') h.
Proof.
  intros C F h. pose proof (grids_once _ C) as O. pose proof (grids_once _ (reord_tell _ _ F C)) as O'.
  destruct (dget (grids tgs) h) as [w|] eqn:E.
  - symmetry. apply (grids_get _ _ _ O'). apply (grids_get _ _ _ O) in E as (s & Hs & A & B). exists s. split; [now apply (reord_all _ _ F)|now split].
  - destruct (dget (grids tgs') h) as [w|] eqn:E'; [|reflexivity]. apply (grids_get _ _ _ O') in E' as (s & Hs & A & B). assert (X : dget (grids tgs) h = Some w) by (apply (grids_get _ _ _ O); exists s; split; [now apply (reord_all _ _ F)|now split]). congruence.
Qed.
Lemma reord_sym tgs tgs' : Forall2 reordered tgs tgs' -> Forall2 reordered tgs' tgs.
Proof. induction 1 as [|? ? ? ? [A B] _ IH]; constructor; [split; now symmetry|exact IH]. Qed.
Lemma reord_ids tgs tgs' : Forall2 reordered tgs tgs' -> map g_id tgs = map g_id tgs'.
Proof. induction 1 as [|? ? ? ? [E _] _ IH]; [reflexivity|]. cbn [map]. now rewrite E, IH. Qed.
Lemma reord_empty tgs tgs' : Forall2 reordered tgs tgs' -> empty_scans tgs = empty_scans tgs'.
Proof. intro F. unfold empty_scans. generalize (@nil (Z * list (string * entry))) as d. induction F as [|? ? ? ? [E _] _ IH]; intro d; [reflexivity|]. cbn [fold_left]. rewrite E. apply IH. Qed.


Lemma block_there p dw z td g s : sound_template p -> sound_target g -> tdata trans p dw [z] = Ok td -> (forall s, In s (g_spectra g) -> dget dw (q_hash s) = Some (q_wave s)) -> In s (data_of g) -> exists B, blockf (nbasis p) td 0 s = Ok B.
Proof.
  intros Sp Sg Ht Own Hs. apply in_map_iff in Hs as (q & <- & Hq). destruct (rows_of_tdata trans g p dw [z] td Sp ltac:(discriminate) Ht Own q Hq) as (m & Hm & L & Fm). unfold blockf. change (s_hash (q_spec q)) with (q_hash q). rewrite Hm. destruct m as [|A m]; [discriminate|]. cbn [nth_error]. inversion Fm as [|? ? LA _]; subst.
  unfold csr_dot. destruct Sg as [_ Sg]. rewrite Forall_forall in Sg. destruct (Sg q Hq) as (_ & _ & _ & E & _). rewrite LA, E, Nat.eqb_refl. eauto.
Qed.
Lemma sound_fitting g : sound_target g -> fitting (data_of g) /\ data_of g <> [].
Proof.
  intros [Ne F]. split; [|unfold data_of; destruct (g_spectra g); [congruence|discriminate]]. intros s Hs. apply in_map_iff in Hs as (q & <- & Hq). rewrite Forall_forall in F. destruct (F q Hq) as (_ & _ & _ & _ & A & B). now split.
Qed.
Lemma reord_sound g g' : reordered g g' -> sound_target g -> sound_target g'.
Proof. intros [_ P] [Ne F]. split; [intro E; rewrite E in P; apply Permutation_sym, Permutation_nil in P; contradiction|]. eapply Permutation_Forall; [exact P|exact F]. Qed.
Lemma chi2_at_perm p g g' z : sound_template p -> sound_target g -> hashes_tell_grids [g] -> reordered g g' ->
  chi2_at slv trans p g (cm Model_Zscan.s_ivar (data_of g)) (cm Model_Zscan.s_flux (data_of g)) (cm prodf (data_of g)) z = chi2_at slv trans p g' (cm Model_Zscan.s_ivar (data_of g')) (cm Model_Zscan.s_flux (data_of g')) (cm prodf (data_of g')) z.
Proof.
  intros Sp Sg C P. pose proof (own_perm g g' C P) as Eo. pose proof (reord_sound _ _ P Sg) as Sg'. pose proof (reord_tell1 _ _ P C) as C'. destruct (sound_fitting g Sg) as [F Ne]. pose proof (reord_data _ _ P) as Pd. unfold chi2_at.
  destruct (tdata_two trans p (own_grids g) z Sp (own_sound g Sg C)) as [[td Ht]|[Ht _]].
  - destruct (tdata_map trans p _ _ _ _ (own_nodup g') Eo Ht) as (td' & Ht' & Ed). rewrite Ht, Ht'. cbn [rbind].
    assert (K : forall s, In s (data_of g) -> exists B, blockf (nbasis p) td 0 s = Ok B) by (intros s; eapply block_there; eauto; intros q; now apply own_get).
    unfold calc_zchi2_batch. rewrite <- (sum_perm _ _ (cm_perm Model_Zscan.s_ivar _ _ Pd)). destruct (Qeq_bool _ 0); [reflexivity|]. cbn [seq mapM]. rewrite (at_perm (t_method (p_core p)) None None (nbasis p) _ _ td td' 0 F Ne Pd ltac:(intros s _; apply Ed) K). reflexivity.
  - destruct (tdata_two trans p (own_grids g') z Sp (own_sound g' Sg' C')) as [[td' Ht']|[Ht' _]].
    + exfalso. destruct (tdata_map trans p (own_grids g') (own_grids g) _ _ (own_nodup g) ltac:(intro h; symmetry; apply Eo) Ht') as (td & E & _). rewrite Ht in E. discriminate.
    + rewrite Ht, Ht'. reflexivity.
Qed.
Lemma fit_perm p g g' zc : sound_template p -> sound_target g -> hashes_tell_grids [g] -> reordered g g' -> fit_target slv argsort polyfit isqrt trans nminima nz p g zc = fit_target slv argsort polyfit isqrt trans nminima nz p g' zc.
Proof.
  intros Sp Sg C P. unfold fit_target. destruct (sound_fitting g Sg) as [F Ne]. destruct (sound_fitting g' (reord_sound _ _ P Sg)) as [F' Ne']. rewrite (spectral_cm _ F Ne), (spectral_cm _ F' Ne'). cbn [rbind].
  pose proof (fun z => chi2_at_perm p g g' z Sp Sg C P) as X. apply fitz_ext; intro z; [unfold fine_scan|unfold coeff_at]; now rewrite X.
Qed.
Lemma fit_one_perm p r g g' : sound_template p -> sound_target g -> hashes_tell_grids [g] -> reordered g g' -> fit_one slv argsort polyfit isqrt trans nminima nz p r g = fit_one slv argsort polyfit isqrt trans nminima nz p r g'.
Proof. intros Sp Sg C P. unfold fit_one. rewrite (proj1 P). destruct (dget r (g_id g')); [|reflexivity]. destruct (sget _ _); [|reflexivity]. rewrite (fit_perm p g g' _ Sp Sg C P), (reord_npix g g' P). reflexivity. Qed.
Lemma scan_perm tgs tgs' p td td' r : Forall sound_target tgs -> Forall2 reordered tgs tgs' -> (forall h, dget td h = dget td' h) -> rle (scan_template slv tgs r p td) (scan_template slv tgs' r p td').
Proof.
  intros Sg F D. unfold scan_template, calc_zchi2. apply rle_bind.
  - apply rle_mapM. revert Sg. induction F as [|g g' l l' G _ IH]; intro Sg; cbn [map]; constructor; inversion Sg; subst; [|now apply IH]. apply target_perm; [now apply sound_fitting|now apply reord_data|intros; apply D].
  - intros rows _ v H. rewrite <- H. f_equal. clear -F. revert rows. induction F as [|g g' l l' [E _] _ IH]; intro rows; [reflexivity|]. destruct rows as [|[[a b] c] rows]; [reflexivity|]. cbn [combine map]. now rewrite E, IH.
Qed.
Lemma run_spectra_le ps tgs tgs' : Forall sound_template ps -> Forall sound_target tgs -> hashes_tell_grids tgs -> Forall2 reordered tgs tgs' -> rle (run ps tgs) (run ps tgs').
Proof.
  intros Sp Sg C F. unfold Model_Run.run. pose proof (grids_reord tgs tgs' C F) as Eg. rewrite (reord_empty _ _ F), (reord_ids _ _ F).
  intros v H. destruct (mapM (fun p => tdata trans p (grids tgs) (p_zs p)) ps) as [tds|] eqn:Et; cbn [rbind] in H; [|discriminate].
  assert (T : exists tds', mapM (fun p => tdata trans p (grids tgs') (p_zs p)) ps = Ok tds' /\ Forall2 (fun td td' => forall h, dget td h = dget td' h) tds tds').
  { clear -Et Eg. revert tds Et. induction ps as [|p ps IH]; intros tds Et; cbn [mapM] in *; [exists []; split; [reflexivity|]; injection Et as <-; constructor|]. destruct (tdata trans p (grids tgs) (p_zs p)) as [td|] eqn:E1; cbn [rbind] in Et; [|discriminate]. destruct (mapM (fun p => tdata trans p (grids tgs) (p_zs p)) ps) as [r|] eqn:E2; cbn [rbind] in Et; [|discriminate].
    destruct (tdata_map trans p _ _ _ _ (grids_nodup tgs') Eg E1) as (td' & E1' & D). destruct (IH r eq_refl) as (r' & E2' & FD). exists (td' :: r'). rewrite E1', E2'. split; [reflexivity|]. injection Et as <-. now constructor. }
  destruct T as (tds' & Et' & FD). rewrite Et'. cbn [rbind].
  assert (X : forall l l' r, Forall2 (fun x y => fst x = fst y /\ forall h, dget (snd x) h = dget (snd y) h) l l' -> rle (scan_all slv tgs r l) (scan_all slv tgs' r l')).
  { intros l l' r FL. revert r. induction FL as [|[p td] [p' td'] l l' [E D] _ IH]; intro r; [apply rle_refl|]. cbn [fst snd] in *. subst p'. cbn [scan_all]. apply rle_bind; [now apply scan_perm|]. intros; apply IH. }
  assert (FL : Forall2 (fun x y => fst x = fst y /\ forall h, dget (snd x) h = dget (snd y) h) (combine ps tds) (combine ps tds')).
  { clear -FD. revert ps. induction FD as [|td td' l l' D _ IH]; intros [|p ps]; cbn [combine]; constructor; [now split|apply IH]. }
  specialize (X _ _ (empty_scans tgs') FL). destruct (scan_all slv tgs _ _) as [r|]; cbn [rbind] in H; [|discriminate]. rewrite (X r eq_refl). cbn [rbind]. rewrite <- H.
  assert (Z : fit_all slv argsort polyfit isqrt trans nminima nz tgs r ps = fit_all slv argsort polyfit isqrt trans nminima nz tgs' r ps); [|now rewrite Z].
  unfold fit_all. assert (Sb : Forall sound_template (by_type ps)) by (apply Forall_forall; intros p Hp; unfold by_type in Hp; apply isort_in in Hp; rewrite Forall_forall in Sp; now apply Sp).
  generalize (Ok r) as acc. induction Sb as [|p l Hp _ IH]; intro acc; [reflexivity|]. cbn [fold_left]. destruct acc as [r0|e]; cbn [rbind]; [|apply IH]. unfold fit_template at 2 4.
  assert (Y : forall acc, fold_left (fun acc g => do r <- acc; fit_one slv argsort polyfit isqrt trans nminima nz p r g) tgs acc = fold_left (fun acc g => do r <- acc; fit_one slv argsort polyfit isqrt trans nminima nz p r g) tgs' acc).
  { assert (C1 : Forall (fun g => hashes_tell_grids [g]) tgs) by (apply Forall_forall; intros g Hg; apply (hashes_incl tgs); [intros a [<-|[]]; exact Hg|exact C]). clear -Hp Sg C1 F. revert Sg C1. induction F as [|g g' l l' G _ IH]; intros Sg C1 acc; [reflexivity|]. inversion Sg; inversion C1; subst. cbn [fold_left]. destruct acc as [r|e]; cbn [rbind]; [rewrite (fit_one_perm p r g g') by assumption|]; now apply IH. }
  rewrite Y. apply IH.
Qed.
Lemma run_spectra ps tgs tgs' tab : Forall sound_template ps -> Forall sound_target tgs -> hashes_tell_grids tgs -> Forall2 reordered tgs tgs' -> (run ps tgs = Ok tab <-> run ps tgs' = Ok tab).
Proof.
  intros Sp Sg C F. split; [now apply run_spectra_le|]. apply run_spectra_le; [exact Sp| |now apply (reord_tell tgs)|now apply reord_sym].
  clear -Sg F. induction F as [|g g' l l' G _ IH]; inversion Sg; subst; constructor; [eapply reord_sound; eassumption|now apply IH].
Qed.
End R.
