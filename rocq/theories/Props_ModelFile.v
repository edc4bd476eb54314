(* C181: the model file of a run. *)
From Verif Require Import Prelude PreludeFacts NumX Facts2 Proof_Table Model_Fitz Spec_Fitz Props_Fitz Model_Rebin Spec_Rebin Model_Dist Proof_Dist3 Model_Rank Model_Zscan Spec_Zscan Proof_Zscan Props_Zscan2 Props_GPU Model_Piece Proof_Piece Proof_Piece2 Model_IO Spec_IO Model_Targets Model_Targets2 Proof_Eval Props_Eval Model_Desi Proof_Desi4 Model_Zfind
  Model_Run Spec_Run Proof_Run Proof_Run3 Proof_Run9 Props_Run Props_Run2 Model_RunDesi Spec_RunDesi Proof_RunDesi Props_RunDesi Model_RunMP Props_RunMP Model_RunDesiMP Props_RunDesiMP Model_Models Spec_Models Proof_Models Props_Models Model_ModelFile Spec_ModelFile Proof_ModelFile.
Open Scope nat_scope.
Local Notation dget := Model_Dist.dget. Local Notation dset := Model_Dist.dset.

Section Props.
Variables (slv : solvers) (argsort : list xq -> list nat) (polyfit : list Q -> list Q -> option (Q * Q * Q)) (isqrt : Q -> Q).
Variable trans : option string -> Q -> Q -> Q.
Variables (nminima nz : nat).
Variables (hashf : hash_arg -> Z) (tocsr : dia -> csr) (fb : fbits).
Notation run := (run slv argsort polyfit isqrt trans nminima nz).
Notation rrdesi := (rrdesi slv argsort polyfit isqrt trans nminima nz hashf tocsr fb).
Notation rrdesi_files := (rrdesi_files slv argsort polyfit isqrt trans nminima nz hashf tocsr fb).

(* the redshift file does not depend on --model *)
Theorem C181_table : forall o ps ds tab, rrdesi o ps ds = Ok tab <-> exists m, rrdesi_files o ps ds = Ok (tab, m).
Proof.
  intros o ps ds tab. unfold Model_RunDesi.rrdesi, Model_ModelFile.rrdesi_files. destruct (open_files o ds) as [fs|]; cbn [rbind]; [|split; [discriminate|now intros [m H]]].
  destruct (read_targets hashf tocsr o fs) as [tgs|]; cbn [rbind]; [|split; [discriminate|now intros [m H]]].
  destruct (run_local _ _ _ _ _ _ _ ps tgs (all_ids fs)) as [tab0|]; cbn [rbind]; [|split; [discriminate|now intros [m H]]]. split; [intro H; injection H as <-; now eexists|intros [m H]; congruence].
Qed.
(* Row i of every model HDU is the model of row i of REDSHIFTS, whenever every target has spectra of all bands, nothing is absorbed, and type names have at most six
   characters. *)
Theorem C181_model_file_partial : forall o ps ds fs tgs tab m, argsort_ok argsort -> solvers_return slv -> 0 < nz -> 0 < nminima -> ps <> [] -> NoDup (map full_type ps) ->
  (forall p, In p ps -> sound_template p /\ plain_names p /\ full_type p <> "meta"%string /\ String.length (t_rrtype (p_core p)) <= 6) ->
  open_files o ds = Ok fs -> in_order fs -> read_targets hashf tocsr o fs = Ok tgs -> tgs <> [] ->
  (forall g, In g tgs -> sound_target g /\ plain_resolution g) -> (forall p g, In p ps -> In g tgs -> transparent trans p g) -> all_bands tgs ->
  rrdesi_files o ps ds = Ok (tab, m) ->
  exists hdus, m = Ok hdus /\ NoDup (map fst hdus) /\
    (forall h w, (exists rows, In (h, (w, rows)) hdus) <-> exists g s, In g tgs /\ In s (g_spectra g) /\ q_hash s = h /\ q_wave s = w) /\
    forall h w rows, In (h, (w, rows)) hdus ->
      Forall2 (fun r model => exists g s, In g tgs /\ g_id g = f_tid r /\ In s (g_spectra g) /\ q_hash s = h /\ shows trans ps r s model) (zbest tab) rows.
Proof.
  intros o ps ds fs tgs tab m A HS Hnz Hnm Pne Nf HP E Or Et Tne HG HT HB H. unfold Model_ModelFile.rrdesi_files in H. rewrite E in H. cbn [rbind] in H. rewrite Et in H. cbn [rbind] in H.
  destruct (run_local _ _ _ _ _ _ _ ps tgs (all_ids fs)) as [tab0|] eqn:El; cbn [rbind] in H; [|discriminate]. injection H as <- <-.
  destruct (read_ok hashf tocsr o fs Or tgs Et) as (tgs' & P & Ei & R). assert (T' : hashes_tell_grids tgs') by (eapply reads_tell; [exact Or|exact R]).
  assert (Iff : forall g, In g tgs <-> In g tgs') by (intro g; split; apply Permutation_in; [exact P|now symmetry]).
  assert (T : hashes_tell_grids tgs) by (intros g g' s s' I I'; apply T'; now apply Iff).
  assert (N' : NoDup (map g_id tgs')) by (rewrite Ei; apply ids_nodup).
  assert (N : NoDup (map g_id tgs)) by (eapply Permutation_NoDup; [apply Permutation_map; symmetry; exact P|exact N']).
  assert (Hr : run ps tgs' = Ok tab0) by (rewrite <- Ei in El; apply run_local_run in El; [exact El|exact P|exact N'|exact T']).
  destruct (C179_models_partial slv argsort polyfit isqrt trans nminima nz ps tgs' tab0 A HS Hnz Hnm Pne) as (ds' & Rd & F); [intro X; subst tgs'; apply Permutation_sym, Permutation_nil in P; congruence|exact Nf|exact N'|exact T'|exact HP|intros g Ig; now apply HG, Iff|intros p g Ip Ig; apply HT; [exact Ip|now apply Iff]|exact Hr|].
  unfold render_all in Rd. apply mapM_Forall2 in Rd. pose proof (F2_and _ _ _ _ Rd F) as RF. clear Rd F.
  set (f := reflag fb (fibermap ds fs)). pose proof (run_best _ _ _ _ _ _ _ _ _ _ A N' Hr) as B.
  assert (Zm : zbest (map f tab0) = map f (zbest tab0)) by (apply zbest_map; reflexivity).
  assert (Bm : map f_tid (zbest (map f tab0)) = map f_tid (zbest tab0)) by (rewrite Zm, map_map; apply map_ext; reflexivity).
  assert (Nb : NoDup (map f_tid (zbest tab0))) by (rewrite B; exact N').
  (* the models of a target *)
  assert (One : forall g, In g tgs -> exists d r, render_target ps (zbest (map f tab0)) g = Ok d /\ In r (zbest (map f tab0)) /\ f_tid r = g_id g /\ forall s, In s (g_spectra g) -> exists u, dget d (q_hash s) = Some u /\ shows trans ps r s u).
  { intros g Ig. destruct (F2_left _ _ _ RF g (proj1 (Iff g) Ig)) as (d & _ & Rg & o0 & p & Io & Eid & Ez & Ip & Ey & Es & Hren). unfold render_target in *. rewrite Bm.
    destruct (bestfit_row (map f_tid (zbest tab0)) (g_id g)) as [i|] eqn:Eb; cbn [rbind] in *; [|discriminate]. destruct (nth_error (zbest tab0) i) as [r|] eqn:Er; [|discriminate].
    assert (Idr : f_tid r = g_id g). { destruct (proj1 (C58_row_of_target (map f_tid (zbest tab0)) (g_id g))) as (i' & Ei' & Hi' & _); [rewrite B; apply in_map; now apply Iff|]. assert (i' = i) by congruence. subst i'. rewrite nth_error_map, Er in Hi'. cbn in Hi'. congruence. }
    assert (Io' : In o0 (zbest tab0)) by (unfold zbest; apply filter_In; split; [exact Io|now apply Nat.eqb_eq]). assert (Ir : In r (zbest tab0)) by (eapply nth_error_In; exact Er).
    assert (Eo : o0 = r). { clear -Nb Io' Ir Eid Idr. assert (X : f_tid o0 = f_tid r) by congruence. clear Eid Idr. induction (zbest tab0) as [|y l IH]; [destruct Ir|]. cbn in Nb. inversion Nb as [|? ? N1 N2]; subst. destruct Io' as [->|I1]; destruct Ir as [->|I2].
      - reflexivity. - exfalso. apply N1. rewrite X. now apply in_map. - exfalso. apply N1. rewrite <- X. now apply in_map. - now apply IH. }
    subst o0. rewrite Zm, nth_error_map, Er. cbn [option_map].
    destruct (HG g Ig) as (_ & _ & Nh). destruct (reflag_cases fb (fibermap ds fs) r) as [(Q1 & Q2 & Q3 & Q4)|Z0].
    - exists d, (f r). split; [rewrite <- Rg; now apply render_same|]. split; [now apply in_map|]. split; [exact Idr|]. intros s Is. destruct (Hren s Is) as (M & u & HM & Du & Lu & Hu). exists u. split; [exact Du|]. split; [exact Lu|]. right. exists p, M.
      split; [exact Ip|]. split; [unfold f; congruence|]. split; [unfold f; congruence|]. unfold f. rewrite Q3, Q4. split; [exact HM|exact Hu].
    - eexists. exists (f r). split; [apply render_zero; exact Z0|]. split; [now apply in_map|]. split; [exact Idr|]. intros s Is. exists (repeat 0%Q (Datatypes.length (q_wave s))). split; [exact (fill0 (fun s => repeat 0%Q (Datatypes.length (q_wave s))) (g_spectra g) Nh s Is)|].
      split; [apply repeat_length|]. left. split; [intros c Hc; rewrite Forall_forall in Z0; now rewrite (Z0 c Hc)|intros x Hx; apply repeat_spec in Hx; now subst x]. }
  destruct (F2_build (fun g d => render_target ps (zbest (map f tab0)) g = Ok d /\ exists r, In r (zbest (map f tab0)) /\ f_tid r = g_id g /\ forall s, In s (g_spectra g) -> exists u, dget d (q_hash s) = Some u /\ shows trans ps r s u) tgs) as [ms Fm];
    [intros g Ig; destruct (One g Ig) as (d & r & K1 & K2); exists d; split; [exact K1|exists r; exact K2]|].
  assert (Lm : Datatypes.length ms = Datatypes.length tgs) by (clear -Fm; induction Fm; cbn; congruence).
  assert (Em : render_all ps (map f tab0) tgs = Ok ms) by (unfold render_all; apply mapM_Forall2; eapply Forall2_impl; [|exact Fm]; intros g d [K _]; exact K).
  unfold model_hdus. rewrite Em. cbn [rbind].
  destruct (sort_indices_ok (map g_id tgs) (map f_tid (zbest (map f tab0)))) as (idx & Ex & Fi); [rewrite Bm, B; intros t Ht; apply in_map_iff in Ht as (g & <- & Ig); apply in_map; now apply Iff|]. rewrite Ex. cbn [rbind].
  assert (Hi : forall i, In i idx -> i < Datatypes.length ms). { intros i Ii. rewrite Lm. clear -Fi Ii. induction Fi as [|t j l l' Hj Fi IH]; [destruct Ii|]. destruct Ii as [<-|Ii]; [apply nth_error_Some_lt in Hj; now rewrite map_length in Hj|now apply IH]. }
  assert (Nm : ms <> []) by (intro X; subst ms; destruct tgs; [congruence|discriminate Lm]).
  (* one HDU *)
  assert (Col : forall h w, In (h, w) (grids tgs) -> exists rows, column ms idx h = Ok rows /\
     Forall2 (fun r u => exists g s, In g tgs /\ g_id g = f_tid r /\ In s (g_spectra g) /\ q_hash s = h /\ shows trans ps r s u) (zbest (map f tab0)) rows).
  { intros h w Ih. apply dget_in in Ih; [|apply grids_nodup]. apply (grids_get _ _ _ (grids_once _ T)) in Ih as (s0 & Is0 & Eh & Ew). apply in_flat_map in Is0 as (g0 & Ig0 & Is0).
    assert (Fu : exists us, Forall2 (fun gd u => exists r s, In r (zbest (map f tab0)) /\ f_tid r = g_id (fst gd) /\ In s (g_spectra (fst gd)) /\ q_hash s = h /\ dget (snd gd) h = Some u /\ shows trans ps r s u) (combine tgs ms) us /\ Forall2 (fun d u => dget d h = Some u /\ Datatypes.length u = Datatypes.length w) ms us).
    { assert (Sub : forall g, In g tgs -> exists s, In s (g_spectra g) /\ q_hash s = h /\ q_wave s = w). { intros g Ig. destruct (HB g0 g s0 Ig0 Ig Is0) as (s & Is & Es). exists s. split; [exact Is|]. split; [congruence|]. rewrite <- Ew. apply (T g g0 s s0 Ig Ig0 Is Is0 Es). }
      clear -Fm Sub. induction Fm as [|g d l ms (K & r & Ir & Eid & Hs) Fm IH]; [exists []; split; constructor|]. destruct IH as (us & F1 & F2); [intros x Ix; apply Sub; now right|]. destruct (Sub g (or_introl eq_refl)) as (s & Is & Es & Ew). destruct (Hs s Is) as (u & Du & Su). rewrite Es in Du.
      exists (u :: us). split; constructor; try assumption; [exists r, s; cbn [fst snd]; do 5 (split; [assumption|]); exact Su|]. split; [exact Du|]. destruct Su as [Lu _]. now rewrite Lu, Ew. }
    destruct Fu as (us & F1 & F2). destruct (column_ok ms idx h us (Datatypes.length w) Nm F2 Hi) as (rows & Ec & Fr). exists rows. split; [exact Ec|].
    assert (Nz : NoDup (map f_tid (zbest (map f tab0)))) by now rewrite Bm.
    assert (G : forall zs : list frow, incl zs (zbest (map f tab0)) -> forall idx0 rows0, Forall2 (fun t i => nth_error (map g_id tgs) i = Some t) (map f_tid zs) idx0 -> Forall2 (fun i row => nth_error us i = Some row) idx0 rows0 ->
      Forall2 (fun r u => exists g s, In g tgs /\ g_id g = f_tid r /\ In s (g_spectra g) /\ q_hash s = h /\ shows trans ps r s u) zs rows0); [|exact (G _ (incl_refl _) idx rows Fi Fr)].
    clear Fi Fr Hi Ex Ec. induction zs as [|r zs IH]; intros In0 idx0 rows0 X Y; cbn [map] in X; inversion X as [|? i ? idx1 Hi1 X1]; subst; inversion Y as [|? u ? rows1 Hu Y1]; subst; constructor; [|apply (IH (fun x Hx => In0 x (or_intror Hx)) idx1); assumption].
    rewrite nth_error_map in Hi1. destruct (nth_error tgs i) as [g|] eqn:Eg; [|discriminate]. cbn in Hi1.
    destruct (F2_nth_error _ _ _ Fm i g Eg) as (d & Ed & _). assert (Ec : nth_error (combine tgs ms) i = Some (g, d)).
    { clear -Eg Ed. revert tgs ms Eg Ed. induction i as [|i IH]; intros [|a l] [|b l2] E1 E2; cbn in *; try discriminate; [congruence|now apply IH]. }
    destruct (F2_nth_error _ _ _ F1 i (g, d) Ec) as (u' & Eu & r' & s & Ir & Eid & Is & Es & _ & Sh). cbn [fst snd] in *. assert (u' = u) by congruence. subst u'.
    assert (Er : r' = r). { assert (X0 : f_tid r' = f_tid r) by congruence. pose proof (In0 r (or_introl eq_refl)) as Jr. clear -Nz Ir Jr X0. induction (zbest (map f tab0)) as [|y l IH]; [destruct Ir|]. cbn in Nz. inversion Nz as [|? ? N1 N2]; subst. destruct Ir as [->|I1]; destruct Jr as [->|I2].
      - reflexivity. - exfalso. apply N1. rewrite X0. now apply in_map. - exfalso. apply N1. rewrite <- X0. now apply in_map. - now apply IH. }
    subst r'. exists g, s. split; [eapply nth_error_In; exact Eg|]. split; [congruence|]. split; [exact Is|]. split; [exact Es|exact Sh]. }
  destruct (F2_build (fun hw hd => fst hd = fst hw /\ fst (snd hd) = snd hw /\ (do rows <- column ms idx (fst hw); Ok (fst hw, (snd hw, rows))) = Ok hd /\
     Forall2 (fun r u => exists g s, In g tgs /\ g_id g = f_tid r /\ In s (g_spectra g) /\ q_hash s = fst hw /\ shows trans ps r s u) (zbest (map f tab0)) (snd (snd hd))) (grids tgs)) as [hdus Fh].
  { intros [h w] Ih. destruct (Col h w Ih) as (rows & Ec & Fr). exists (h, (w, rows)). cbn [fst snd]. rewrite Ec. cbn [rbind]. do 3 (split; [reflexivity|]). exact Fr. }
  exists hdus. split; [apply mapM_Forall2; eapply Forall2_impl; [|exact Fh]; intros hw hd (_ & _ & K & _); exact K|].
  assert (Ek : map fst hdus = map fst (grids tgs)) by (clear -Fh; induction Fh as [|a b l l' (K & _) Fh IH]; cbn; congruence).
  assert (Ew : map (fun hd => (fst hd, fst (snd hd))) hdus = grids tgs) by (clear -Fh; induction Fh as [|[h w] b l l' (K1 & K2 & _) Fh IH]; cbn in *; [reflexivity|]; rewrite IH; subst; reflexivity).
  split; [rewrite Ek; apply grids_nodup|]. split.
  - intros h w. split.
    + intros [rows I]. apply (in_map (fun hd => (fst hd, fst (snd hd)))) in I. rewrite Ew in I. cbn [fst snd] in I. apply dget_in in I; [|apply grids_nodup]. apply (grids_get _ _ _ (grids_once _ T)) in I as (s & Is & Eh & Es). apply in_flat_map in Is as (g & Ig & Is). now exists g, s.
    + intros (g & s & Ig & Is & Eh & Es). assert (I : In (h, w) (grids tgs)). { apply dget_in; [apply grids_nodup|]. apply (grids_get _ _ _ (grids_once _ T)). exists s. split; [apply in_flat_map; now exists g|now split]. }
      rewrite <- Ew in I. apply in_map_iff in I as ([h' [w' rows]] & I1 & I2). cbn [fst snd] in I1. injection I1 as -> ->. now exists rows.
  - intros h w rows I. clear -Fh I. induction Fh as [|[h0 w0] hd l l' (K1 & _ & _ & K) Fh IH]; [destruct I|]. destruct I as [->|I]; [|now apply IH]. cbn [fst snd] in *. subst h0. exact K.
Qed.
(* whatever the templates and solvers: when a target has no spectrum of one of the bands, there is no model file *)
Theorem C181_needs_all_bands : forall o ps ds fs tgs tab hdus, open_files o ds = Ok fs -> in_order fs -> read_targets hashf tocsr o fs = Ok tgs -> rrdesi_files o ps ds = Ok (tab, Ok hdus) -> all_bands tgs.
Proof.
  intros o ps ds fs tgs tab hdus E Or Et H. unfold Model_ModelFile.rrdesi_files in H. rewrite E in H. cbn [rbind] in H. rewrite Et in H. cbn [rbind] in H.
  destruct (run_local _ _ _ _ _ _ _ ps tgs (all_ids fs)) as [tab0|]; cbn [rbind] in H; [|discriminate]. injection H as <- H.
  destruct (read_ok hashf tocsr o fs Or tgs Et) as (tgs' & P & Ei & R). assert (T' : hashes_tell_grids tgs') by (eapply reads_tell; [exact Or|exact R]).
  eapply model_needs; [|exact H]. intros g g' s s' I I'. apply T'; eapply Permutation_in; eauto.
Qed.
End Props.

(* ---------------- concrete runs ---------------- *)
Local Notation drun := (Model_RunDesi.rrdesi demo argsort0 lagrange3 (fun x => x) no_igm 2 3 (fun _ => 3%Z) (fun r => idcsr (d_n r)) dbits).
Local Notation dfiles := (Model_ModelFile.rrdesi_files demo argsort0 lagrange3 (fun x => x) no_igm 2 3 (fun _ => 3%Z) (fun r => idcsr (d_n r)) dbits).
Local Notation dread := (read_targets (fun _ => 3%Z) (fun r => idcsr (d_n r))).
Definition three : list targ := [tg 5 198 [20; 30] [2; 2] [9 # 2; 2]; tg 7 198 [20; 30] [2; 2] [5 # 2; 1]; tg 8 198 [20; 30] [1; 1] [6; 3]]%Q.
Lemma three_read : dread oall (opened oall [fA; fB]) = Ok three. Proof. vm_compute. reflexivity. Qed.
Definition written (m : res (list (Z * (list Q * list (list Q))))) : list (Z * list Q * list nat) := match m with Ok l => map (fun h => (fst h, fst (snd h), map (@Datatypes.length Q) (snd (snd h)))) l | Err _ => [] end.
Lemma three_written : match dfiles oall [ga; st] [fA; fB] with Ok (_, m) => written m | Err _ => [] end = [(198%Z, [20; 30]%Q, [2; 2; 2])]. Proof. vm_compute. reflexivity. Qed.
(* the hypotheses of C181_model_file_partial hold for the files of Props_RunDesi.v; the file has one HDU with a row of two pixels for each of the three targets *)
Example C181_nonvacuous : exists fs tgs tab hdus, open_files oall [fA; fB] = Ok fs /\ in_order fs /\ dread oall fs = Ok tgs /\ tgs <> [] /\ solvers_return demo /\ NoDup (map full_type [ga; st]) /\
  (forall p, In p [ga; st] -> sound_template p /\ plain_names p /\ full_type p <> "meta"%string /\ String.length (t_rrtype (p_core p)) <= 6) /\
  (forall g, In g tgs -> sound_target g /\ plain_resolution g) /\ (forall p g, In p [ga; st] -> In g tgs -> transparent no_igm p g) /\ all_bands tgs /\
  dfiles oall [ga; st] [fA; fB] = Ok (tab, Ok hdus) /\ map (fun h => (fst h, fst (snd h), map (@Datatypes.length Q) (snd (snd h)))) hdus = [(198%Z, [20; 30]%Q, [2; 2; 2])].
Proof.
  destruct (ex_order oall ltac:(now repeat split) [fA; fB] (incl_refl _)) as (fs & E & Or). pose proof three_read as Et. unfold opened in Et. rewrite E in Et.
  pose proof three_written as W. destruct (dfiles oall [ga; st] [fA; fB]) as [[tab m]|]; [|discriminate W]. destruct m as [hdus|]; [|discriminate W]. cbn [written] in W.
  exists fs, three, tab, hdus. split; [exact E|]. split; [exact Or|]. split; [exact Et|]. split; [discriminate|]. split; [exact (proj1 C145_nonvacuous)|]. split; [cbn; repeat constructor; cbn; intuition discriminate|]. split; [|split; [|split; [|split; [|split]]]].
  - intros p Hp. split; [now apply ga_sound|]. destruct Hp as [<-|[<-|[]]]; (split; [split; [apply name_of; reflexivity|split; [apply name_of; reflexivity|]]|split; [discriminate|cbn; lia]]); [now left|right]. intros [a X]. destruct a as [|? [|? [|? [|? [|? ?]]]]]; discriminate.
  - intros g [<-|[<-|[<-|[]]]]; (split; [apply tg_sound; reflexivity|apply tg_plain]).
  - intros p g _ _. apply clear.
  - intros g g' s Ig Ig' Is. destruct Ig as [<-|[<-|[<-|[]]]]; destruct Is as [<-|[]]; destruct Ig' as [<-|[<-|[<-|[]]]]; (eexists; split; [left; reflexivity|reflexivity]).
  - reflexivity.
  - exact W.
Qed.
Lemma some_written : match dfiles oall [ga5] some_cameras with Ok (t, Err KeyError) => Some (rowz t) | _ => None end = Some [(1%Z, 2757161877 # 5498108392, 2%N); (2%Z, 0%Q, 1058%N); (2%Z, 1%Q, 1058%N); (3%Z, 299609787 # 597354392, 2%N)]. Proof. vm_compute. reflexivity. Qed.
(* the three files of C180: the redshifts are found and written, then the model file of none of the targets *)
Theorem C181_some_bands_refuted : exists tab, drun oall [ga5] some_cameras = Ok tab /\ dfiles oall [ga5] some_cameras = Ok (tab, Err KeyError) /\
  rowz tab = [(1%Z, 2757161877 # 5498108392, 2%N); (2%Z, 0%Q, 1058%N); (2%Z, 1%Q, 1058%N); (3%Z, 299609787 # 597354392, 2%N)].
Proof.
  pose proof some_written as W. destruct (dfiles oall [ga5] some_cameras) as [[tab m]|] eqn:E; [|discriminate W]. exists tab. split; [apply (C181_table demo argsort0 lagrange3 (fun x => x) no_igm 2 3 (fun _ => 3%Z) (fun r => idcsr (d_n r)) dbits oall [ga5] some_cameras tab); eexists; exact E|].
  destruct m as [hdus|e]; [discriminate W|]. destruct e; try discriminate W. split; [reflexivity|]. injection W as W. exact W.
Qed.
Print Assumptions C181_table. Print Assumptions C181_model_file_partial. Print Assumptions C181_needs_all_bands. Print Assumptions C181_some_bands_refuted.
