(* A run with MPI gives what the serial run gives: the ranks together. *)
From Verif Require Import Prelude PreludeFacts NumX Facts2 Model_Fitz Proof_Fitz Model_Rebin Model_Dist Proof_Dist2 Proof_Dist3 Model_MPI Proof_Gather Proof_Table Model_Zscan Spec_Zscan Proof_Zscan2 Proof_Zscan3 Proof_Zscan4
  Model_Piece Model_IO Model_Zfind Model_Run Proof_Run Spec_Run Proof_Run2 Proof_Run3 Proof_Run4 Model_RunMPI Proof_RunMPI Proof_RunMPI2 Props_Par.
Open Scope nat_scope.

Section S.
Variables (slv : solvers) (argsort : list xq -> list nat) (polyfit : list Q -> list Q -> option (Q * Q * Q)) (isqrt : Q -> Q).
Variable trans : option string -> Q -> Q -> Q.
Variables (nminima nz : nat).
Notation tdata := (tdata trans).
Notation run := (run slv argsort polyfit isqrt trans nminima nz).
Notation ranks_run := (ranks_run slv argsort polyfit isqrt trans nminima nz).
Notation rank_run := (rank_run slv argsort polyfit isqrt trans nminima nz).
Notation table := (table nminima).
Notation edict := (list (string * entry)).

(* ---------- template data depend on the grids as a map only ---------- *)
Lemma tdata_map p dw dw' zs td : NoDup (map fst dw') -> (forall h, dget dw h = dget dw' h) -> tdata p dw zs = Ok td -> exists td', tdata p dw' zs = Ok td' /\ forall h, dget td h = dget td' h.
Proof.
  intros N' E H. apply tdata_ok in H as (x & Hx & F). pose proof (F2_dget (fun w c => one_grid trans p zs x w = Ok c) _ _ F) as Dg.
  assert (X : forall kw, In kw dw' -> exists kd : Z * list mat, fst kd = fst kw /\ one_grid trans p zs x (snd kw) = Ok (snd kd)).
  { intros [k w] Hin. apply dget_in in Hin; [|exact N']. specialize (Dg k). rewrite E, Hin in Dg. destruct Dg as (c & _ & Hc). now exists (k, c). }
  assert (B : exists td', Forall2 (fun kw (kd : Z * list mat) => fst kd = fst kw /\ one_grid trans p zs x (snd kw) = Ok (snd kd)) dw' td').
  { clear -X. induction dw' as [|a l IH]; [exists []; constructor|]. destruct (X a (or_introl eq_refl)) as [b Hb]. destruct IH as [m Hm]; [intros; apply X; now right|]. exists (b :: m). now constructor. }
  destruct B as (td' & F'). exists td'. split; [apply tdata_ok; now exists x|]. intro h. pose proof (F2_dget (fun w c => one_grid trans p zs x w = Ok c) _ _ F' h) as D'. specialize (Dg h). rewrite E in Dg.
  destruct (dget dw' h) as [w|]; [|congruence]. destruct Dg as (c & -> & Hc), D' as (c' & -> & Hc'). congruence.
Qed.
Lemma grids_perm tgs tgs' : hashes_tell_grids tgs -> Permutation tgs tgs' -> forall h, dget (grids tgs) h = dget (grids tgs') h.
Proof.
  intros C P h. assert (C' : hashes_tell_grids tgs') by (apply (hashes_incl tgs); [intros g Hg; eapply Permutation_in; [symmetry; exact P|exact Hg]|exact C]).
  assert (M : forall s, In s (flat_map g_spectra tgs) <-> In s (flat_map g_spectra tgs')). { intro s. rewrite !in_flat_map. split; intros (g & Hg & Hs); exists g; (split; [|exact Hs]); [eapply Permutation_in; [exact P|exact Hg]|eapply Permutation_in; [symmetry; exact P|exact Hg]]. }
  destruct (dget (grids tgs) h) as [w|] eqn:E.
  - apply (grids_get _ _ _ (grids_once _ C)) in E as (s & Hs & H). symmetry. apply (grids_get _ _ _ (grids_once _ C')). exists s. split; [now apply M|exact H].
  - destruct (dget (grids tgs') h) as [w|] eqn:E'; [|reflexivity]. apply (grids_get _ _ _ (grids_once _ C')) in E' as (s & Hs & H). assert (X : dget (grids tgs) h = Some w) by (apply (grids_get _ _ _ (grids_once _ C)); exists s; split; [now apply M|exact H]). congruence.
Qed.
Definition same_data (td td' : tdict) : Prop := forall h, dget td h = dget td' h.
Lemma data_map ps dw dw' tds : NoDup (map fst dw') -> (forall h, dget dw h = dget dw' h) -> mapM (fun p => tdata p dw (p_zs p)) ps = Ok tds ->
  exists tds', mapM (fun p => tdata p dw' (p_zs p)) ps = Ok tds' /\ Forall2 same_data tds tds'.
Proof.
  intros N' E H. apply mapM_Forall2 in H. induction H as [|p td ps tds Hp _ (tds' & IH & F)]; [exists []; split; [reflexivity|constructor]|].
  destruct (tdata_map p dw dw' (p_zs p) td N' E Hp) as (td' & Ht & Hd). exists (td' :: tds'). split; [|now constructor]. cbn [mapM]. rewrite Ht. cbn [rbind]. now rewrite IH.
Qed.

(* ---------- what one target gets on a rank ---------- *)
Definition trec (ps : list tmpl) (l : list (tmpl * tdict)) (g : targ) : res edict := do d <- foldM (tscan slv g) [] l; foldM (tfit slv argsort polyfit isqrt trans nminima nz g) d (by_type ps).
Lemma trec_ext ps tds tds' g : length tds = length ps -> Forall2 same_data tds tds' -> trec ps (combine ps tds) g = trec ps (combine ps tds') g.
Proof.
  intros L F. unfold trec. assert (E : forall l ts ts' d, length ts = length l -> Forall2 same_data ts ts' -> foldM (tscan slv g) d (combine l ts) = foldM (tscan slv g) d (combine l ts')).
  { clear. induction l as [|p l IH]; intros ts ts' d L F; [reflexivity|]. destruct F as [|t t' ts ts' Ht F]; [discriminate|]. cbn [combine foldM]. unfold Proof_Run.tscan at 1 3. cbn [fst snd].
    rewrite (target_ext slv (p_core p) t t' (length (p_zs p)) (data_of g)) by (intros s _; apply Ht). destruct (zchi2_target _ _ _ _ _); cbn [rbind]; [|reflexivity]. apply IH; [cbn in L; lia|exact F]. }
  now rewrite (E ps tds tds' [] L F).
Qed.
Definition local_run (ps : list tmpl) (tds : list tdict) (tgs : list targ) : res scans :=
  do r <- scan_all slv tgs (empty_scans tgs) (combine ps tds); fit_all slv argsort polyfit isqrt trans nminima nz tgs r ps.
Lemma run_split ps tgs : run ps tgs = do tds <- mapM (fun p => tdata p (grids tgs) (p_zs p)) ps; do s <- local_run ps tds tgs; table ps (map g_id tgs) s.
Proof.
  unfold Model_Run.run, local_run, Model_RunMPI.table. destruct (mapM _ ps) as [tds|]; cbn [rbind]; [|reflexivity]. destruct (scan_all _ _ _ _); cbn [rbind]; reflexivity.
Qed.
Lemma local_ok ps tds tgs s : NoDup (map g_id tgs) -> (local_run ps tds tgs = Ok s <-> exists gds, map fst gds = tgs /\ s = enc gds /\ Forall (fun x => trec ps (combine ps tds) (fst x) = Ok (snd x)) gds).
Proof.
  intro N. unfold local_run, trec. rewrite scan_all_foldM, (empty_enc tgs N).
  assert (Hm : map fst (map (fun g : targ => (g, @nil (string * entry))) tgs) = tgs) by (rewrite map_map; apply map_id).
  assert (Nf : forall gds : list (targ * edict), map fst gds = tgs -> NoDup (map (fun x => g_id (fst x)) gds)) by (intros gds Hg; rewrite <- (map_map fst g_id), Hg; exact N).
  pose proof (enc_fold (tscan slv) (fun r pt => scan_template slv tgs r (fst pt) (snd pt)) tgs N) as HS.
  pose proof (enc_fold (tfit slv argsort polyfit isqrt trans nminima nz) (fit_template slv argsort polyfit isqrt trans nminima nz tgs) tgs N) as HF.
  assert (S1 : forall (b : tmpl * tdict) gds, map fst gds = tgs -> scan_template slv tgs (enc gds) (fst b) (snd b) = do new <- mapM (fun x => do d <- tscan slv (fst x) (snd x) b; Ok (fst x, d)) gds; Ok (enc new)).
  { intros b gds Hg. rewrite <- Hg. apply scan_template_eq. now apply Nf. }
  assert (F1 : forall (b : tmpl) gds, map fst gds = tgs -> fit_template slv argsort polyfit isqrt trans nminima nz tgs (enc gds) b = do new <- mapM (fun x => do d <- tfit slv argsort polyfit isqrt trans nminima nz (fst x) (snd x) b; Ok (fst x, d)) gds; Ok (enc new)).
  { intros b gds Hg. rewrite <- Hg. apply fit_template_eq. now apply Nf. }
  specialize (HS S1). specialize (HF F1). clear S1 F1.
  assert (FM : forall gds gds' (P : targ * edict -> edict -> Prop), map fst gds = tgs -> Forall2 (fun x x' => fst x' = fst x /\ P x (snd x')) gds gds' -> map fst gds' = tgs).
  { intros gds gds' P <- F. clear -F. induction F as [|x x' l l' [H1 _] _ IH]; [reflexivity|]. cbn [map]. now rewrite IH, H1. }
  split.
  - destruct (foldM _ _ (combine ps tds)) as [r1|] eqn:E1; cbn [rbind]; [|discriminate]. apply HS in E1 as (g1 & -> & F1); [|exact Hm]. assert (M1 := FM _ _ (fun x d => foldM (tscan slv (fst x)) (snd x) (combine ps tds) = Ok d) Hm F1).
    unfold fit_all. rewrite (fold_foldM (fit_template slv argsort polyfit isqrt trans nminima nz tgs)). intro E2. apply HF in E2 as (g2 & -> & F2); [|exact M1]. assert (M2 := FM _ _ (fun x d => foldM (tfit slv argsort polyfit isqrt trans nminima nz (fst x)) (snd x) (by_type ps) = Ok d) M1 F2).
    exists g2. split; [exact M2|]. split; [reflexivity|].
    apply F2_map_l in F1. cbn [fst snd] in *.
    assert (F12 : Forall2 (fun g (x : targ * edict) => fst x = g /\ exists d, foldM (tscan slv g) [] (combine ps tds) = Ok d /\ foldM (tfit slv argsort polyfit isqrt trans nminima nz g) d (by_type ps) = Ok (snd x)) tgs g2).
    { eapply F2_trans; [|exact F1|exact F2]. intros g [g' d'] [g'' d'']. cbn [fst snd]. intros [-> H1] [-> H2]. split; [reflexivity|]. exists d'. now split. }
    clear -F12. induction F12 as [|g x l l' [<- (d & H1 & H2)] _ IH]; constructor; auto. rewrite H1. exact H2.
  - intros (gds & Hg & -> & F).
    assert (X : exists g1, Forall2 (fun (x x' : targ * edict) => fst x' = fst x /\ foldM (tscan slv (fst x)) (snd x) (combine ps tds) = Ok (snd x')) (map (fun g => (g, [])) tgs) g1 /\
      Forall2 (fun (x x' : targ * edict) => fst x' = fst x /\ foldM (tfit slv argsort polyfit isqrt trans nminima nz (fst x)) (snd x) (by_type ps) = Ok (snd x')) g1 gds).
    { rewrite <- Hg. clear -F. induction F as [|[g d2] gds H _ (g1 & H1 & H2)]; [exists []; split; constructor|]. cbn [fst snd] in H. destruct (foldM (tscan slv g) [] (combine ps tds)) as [d1|] eqn:E1; cbn [rbind] in H; [|discriminate].
      exists ((g, d1) :: g1). split; constructor; auto. }
    destruct X as (g1 & F1 & F2). assert (M1 := FM _ _ (fun x d => foldM (tscan slv (fst x)) (snd x) (combine ps tds) = Ok d) Hm F1).
    rewrite (proj2 (HS (combine ps tds) _ (enc g1) Hm)); [|exists g1; split; [reflexivity|exact F1]]. cbn [rbind]. unfold fit_all. rewrite (fold_foldM (fit_template slv argsort polyfit isqrt trans nminima nz tgs)). apply (proj2 (HF (by_type ps) _ (enc gds) M1)). exists gds. split; [reflexivity|exact F2].
Qed.

(* ---------- the loop over the templates on one rank ---------- *)
Definition good (dw : dict (list Q)) (P : nat) (p : tmpl) (td : tdict) (pcs : list (nat * tdict)) : Prop :=
  usable p /\ tdata p dw (p_zs p) = Ok td /\ exists sl, concat sl = p_zs p /\ sl <> [] /\ Forall (fun z => z <> []) sl /\ length sl = P /\ Forall2 (piece_ok trans p dw) sl pcs.
Lemma mscan_all_eq dw P tgs log : NoDup (map g_id tgs) -> forall ps tds pcss k r r', length tds = length ps -> length pcss = length ps ->
  (forall p td pcs, In (p, (td, pcs)) (combine ps (combine tds pcss)) -> good dw P p td pcs) -> (forall t, t < k + length ps -> Permutation (idxs_of t log) (seq 0 P)) ->
  (fold_left (fun a tx => do r <- a; mscan_template slv tgs r (fst (snd tx)) (snd (snd tx)) (idxs_of (fst tx) log)) (enum_from k (combine ps pcss)) (Ok r) = Ok r' <-> scan_all slv tgs r (combine ps tds) = Ok r').
Proof.
  intro N. induction ps as [|p ps IH]; intros [|td tds] [|pcs pcss] k r r' Lt Lp G Pm; try discriminate; [reflexivity|]. cbn [combine enum_from fold_left fst snd scan_all rbind].
  destruct (G p td pcs (or_introl eq_refl)) as (U & Ht & sl & Cs & Hsl & Hnn & Ll & F).
  pose proof (mscan_template_eq slv trans p dw sl pcs td tgs r (idxs_of k log) U N Cs Hsl Hnn Ht F) as E. rewrite Ll in E. specialize (E (Pm k ltac:(cbn; lia))).
  destruct (scan_template slv tgs r p td) as [r1|e] eqn:E1.
  - rewrite (proj2 (E r1) eq_refl). cbn [rbind]. apply IH; [cbn in Lt; lia|cbn in Lp; lia|intros; apply G; now right|intros t Hlt; apply Pm; cbn; lia].
  - split; [|discriminate]. intro C. exfalso. destruct (mscan_template slv tgs r p pcs (idxs_of k log)) as [r1|] eqn:E2.
    + pose proof (proj1 (E r1) eq_refl). discriminate.
    + rewrite (fold_foldM (fun r tx => mscan_template slv tgs r (fst (snd tx)) (snd (snd tx)) (idxs_of (fst tx) log))) in C || idtac. clear -C. revert C. generalize (enum_from (S k) (combine ps pcss)) as l. induction l as [|a l IH]; cbn; [discriminate|exact IH].
Qed.

Lemma rank_run_eq dw P ps tds pcss log tgs s : NoDup (map g_id tgs) -> length tds = length ps -> length pcss = length ps ->
  (forall p td pcs, In (p, (td, pcs)) (combine ps (combine tds pcss)) -> good dw P p td pcs) -> (forall t, t < length ps -> Permutation (idxs_of t log) (seq 0 P)) ->
  (rank_run ps pcss log tgs = Ok s <-> local_run ps tds tgs = Ok s).
Proof.
  intros N Lt Lp G Pm. pose proof (mscan_all_eq dw P tgs log N ps tds pcss 0 (empty_scans tgs)) as E. unfold Model_RunMPI.rank_run, local_run, mscan_all. unfold enum.
  split.
  - destruct (fold_left _ _ _) as [r1|] eqn:E1; cbn [rbind]; [|discriminate]. rewrite (proj1 (E r1 Lt Lp G Pm) eq_refl). cbn [rbind]. auto.
  - destruct (scan_all _ _ _ _) as [r1|] eqn:E1; cbn [rbind]; [|discriminate]. rewrite (proj2 (E r1 Lt Lp G Pm) eq_refl). cbn [rbind]. auto.
Qed.

(* ---------- the pieces of all templates ---------- *)
Lemma pieces_good dw P ps : 0 < P -> Forall usable ps -> Forall (fun p => P <= length (p_zs p)) ps ->
  (forall pcss, mapM (fun p => pieces trans p dw P) ps = Ok pcss -> exists tds, mapM (fun p => tdata p dw (p_zs p)) ps = Ok tds) /\
  (forall tds, mapM (fun p => tdata p dw (p_zs p)) ps = Ok tds -> exists pcss, mapM (fun p => pieces trans p dw P) ps = Ok pcss) /\
  (forall pcss tds, mapM (fun p => pieces trans p dw P) ps = Ok pcss -> mapM (fun p => tdata p dw (p_zs p)) ps = Ok tds -> forall p td pcs, In (p, (td, pcs)) (combine ps (combine tds pcss)) -> good dw P p td pcs).
Proof.
  intros HP U L.
  assert (W : forall p, In p ps -> _) by (intros p Hp; exact (pieces_whole trans p dw P (proj1 (Forall_forall _ _) U p Hp) (conj HP (proj1 (Forall_forall _ _) L p Hp)))).
  split; [|split].
  - intros pcss H. apply mapM_all_ok. intros p Hp. destruct (In_nth _ _ p Hp) as (i & Hi & Ei). pose proof (mapM_nth _ _ _ i p [] H Hi) as E. cbv beta in E. rewrite Ei in E. destruct (proj1 (W p Hp) _ E) as (sl & td & _ & _ & _ & _ & Ht). now exists td.
  - intros tds H. apply mapM_all_ok. intros p Hp. destruct (In_nth _ _ p Hp) as (i & Hi & Ei). pose proof (mapM_nth _ _ _ i p [] H Hi) as E. cbv beta in E. rewrite Ei in E. exact (proj2 (W p Hp) _ E).
  - intros pcss tds Hp Ht p td pcs Hin. apply mapM_Forall2 in Hp, Ht.
    assert (X : In p ps /\ pieces trans p dw P = Ok pcs /\ tdata p dw (p_zs p) = Ok td).
    { clear -Hp Ht Hin. revert tds Ht Hin. induction Hp as [|q c ps pcss Hq _ IH]; intros tds Ht Hin; [destruct Hin|]. inversion Ht as [|? t ? tds' H1 H2]; subst. cbn [combine] in Hin. destruct Hin as [Hin|Hin].
      - assert (q = p /\ t = td /\ c = pcs) as (-> & -> & ->) by (repeat split; congruence). split; [now left|]. now split.
      - destruct (IH tds' H2 Hin) as (I1 & I2 & I3). split; [now right|]. now split. }
    destruct X as (Ip & Hpc & Htd). split; [exact (proj1 (Forall_forall _ _) U p Ip)|]. split; [exact Htd|]. destruct (proj1 (W p Ip) pcs Hpc) as (sl & td' & Cs & Hnn & Ll & F & _). exists sl.
    split; [exact Cs|]. split; [intros ->; cbn in Ll; lia|]. now repeat split.
Qed.

(* ---------- the table depends on the results as a map only ---------- *)
Lemma rget_perm : forall (d d' : results), NoDup (map fst d) -> Permutation d d' -> forall t, rget d t = rget d' t.
Proof.
  intros d d' N P. assert (N' : NoDup (map fst d')) by (eapply Permutation_NoDup; [apply Permutation_map; exact P|exact N]).
  assert (X : forall (e : results) t b, NoDup (map fst e) -> (rget e t = Some b <-> In (t, b) e)).
  { clear. induction e as [|[k v] e IH]; intros t b N; cbn; [split; [discriminate|intros []]|]. inversion N as [|? ? N1 N2]; subst. destruct (Z.eqb_spec t k) as [->|Ne].
    - split; [intro H; left; congruence|]. intros [H|H]; [congruence|]. exfalso. apply N1. apply in_map_iff. now exists (k, b).
    - rewrite IH by exact N2. split; [now right|]. intros [H|H]; [congruence|exact H]. }
  intro t. destruct (rget d t) as [b|] eqn:E.
  - symmetry. apply X; [exact N'|]. eapply Permutation_in; [exact P|]. now apply X.
  - destruct (rget d' t) as [b|] eqn:E'; [|reflexivity]. apply X in E'; [|exact N']. eapply Permutation_in in E'; [|symmetry; exact P]. apply X in E'; [congruence|exact N].
Qed.
Lemma table_map m ids (d d' : results) : (forall t, rget d t = rget d' t) -> zfind_table nminima None m ids d = zfind_table nminima None m ids d'.
Proof.
  intro H. unfold zfind_table. assert (E : tables nminima None ids d = tables nminima None ids d'); [|now rewrite E]. unfold tables. apply mapM_ext. intros t _. now rewrite H.
Qed.
Lemma mapM_perm_ok {A B} (f : A -> res B) l l' : Permutation l l' -> forall m, mapM f l = Ok m -> exists m', mapM f l' = Ok m' /\ Permutation m m'.
Proof.
  induction 1 as [|a l l' P IH|a b l|l l' l'' P1 IH1 P2 IH2]; intros m H.
  - exists m. now split.
  - cbn [mapM] in *. destruct (f a) as [x|]; cbn [rbind] in *; [|discriminate]. destruct (mapM f l) as [n|] eqn:En; cbn [rbind] in H; [|discriminate]. destruct (IH n eq_refl) as (n' & -> & P'). cbn [rbind]. exists (x :: n'). split; [reflexivity|]. injection H as <-. now constructor.
  - cbn [mapM] in *. destruct (f b) as [y|]; cbn [rbind] in *; [|discriminate]. destruct (f a) as [x|]; cbn [rbind] in *; [|discriminate]. destruct (mapM f l) as [n|]; cbn [rbind] in *; [|discriminate]. exists (x :: y :: n). split; [reflexivity|]. injection H as <-. constructor.
  - destruct (IH1 m H) as (m1 & H1 & Q1). destruct (IH2 m1 H1) as (m2 & H2 & Q2). exists m2. split; [exact H2|now transitivity m1].
Qed.
Lemma results_keys r d : results_of r = Ok d -> map fst d = map fst r.
Proof. intro H. unfold results_of in H. apply mapM_Forall2 in H. induction H as [|[k x] [k' b] l l' H _ IH]; [reflexivity|]. cbn [map fst snd] in *. destruct (blocks_of x); cbn [rbind] in H; [|discriminate]. rewrite IH. f_equal. congruence. Qed.
Lemma table_perm ps ids (r r' : scans) tab : NoDup (map fst r) -> Permutation r r' -> table ps ids r = Ok tab -> table ps ids r' = Ok tab.
Proof.
  intros N P H. unfold Model_RunMPI.table in *. destruct (results_of r) as [d|] eqn:Ed; cbn [rbind] in H; [|discriminate]. unfold results_of in *. destruct (mapM_perm_ok _ _ _ P d Ed) as (d' & -> & Pd). cbn [rbind].
  destruct (distinct_ids ids); [|discriminate]. rewrite <- H. symmetry. apply table_map. apply rget_perm; [|exact Pd]. rewrite (results_keys r d) by exact Ed. exact N.
Qed.

(* ---------- all ranks ---------- *)
Lemma mapM_seq_list {A B} (f : nat -> A -> res B) (l : list A) (d : A) m : mapM (fun i => f i (nth i l d)) (seq 0 (length l)) = Ok m -> length m = length l /\ forall i, i < length l -> exists b, nth_error m i = Some b /\ f i (nth i l d) = Ok b.
Proof.
  intro H. apply mapM_Forall2 in H. pose proof (Forall2_len _ _ _ H) as L. rewrite seq_length in L. split; [now symmetry|]. intros i Hi. pose proof (Forall2_nth _ _ _ i i H) as G. rewrite nth_error_nth' with (d := 0) in G by (rewrite seq_length; lia). rewrite seq_nth in G by lia. exact (G eq_refl).
Qed.
Definition ring_ok (P T : nat) (sr : ring) : Prop := forall r t, r < P -> t < T -> Permutation (idxs_of t (k_log (g_rk sr r))) (seq 0 P).
Section All.
Variables (ps : list tmpl) (locals : list (list targ)) (tgs : list targ) (sr : ring).
Notation P := (length locals).
Hypotheses (HP : 0 < P) (Perm : Permutation (concat locals) tgs) (N : NoDup (map g_id tgs)) (C : hashes_tell_grids tgs) (U : Forall usable ps) (L : Forall (fun p => P <= length (p_zs p)) ps) (R : ring_ok P (length ps) sr).
Notation dw := (grids (concat locals)).
Lemma Nc : NoDup (map g_id (concat locals)).
Proof. eapply Permutation_NoDup; [apply Permutation_map; symmetry; exact Perm|exact N]. Qed.
Lemma Nl r : NoDup (map g_id (nth r locals [])).
Proof.
  pose proof Nc as X. clear -X. revert r. induction locals as [|l ls IH]; intro r; [destruct r; constructor|]. cbn [concat] in X. rewrite map_app in X. destruct r as [|r]; [exact (NoDup_app_l _ _ X)|]. exact (IH (NoDup_app_r _ _ X) r).
Qed.
(* the dictionaries of all the ranks: one entry per target *)
Lemma gather_local tds ress : (forall r, r < P -> exists s, nth_error ress r = Some s /\ local_run ps tds (nth r locals []) = Ok s) -> length ress = P ->
  exists gds, map fst gds = concat locals /\ concat ress = enc gds /\ Forall (fun x => trec ps (combine ps tds) (fst x) = Ok (snd x)) gds.
Proof.
  pose proof Nl as NL. clear -NL. revert ress. induction locals as [|l ls IH]; intros ress H Lr.
  - destruct ress; [|discriminate]. exists []. repeat split. constructor.
  - destruct ress as [|s ress]; [discriminate|]. destruct (H 0 ltac:(cbn; lia)) as (s0 & E0 & H0). cbn in E0. injection E0 as <-. cbn [nth] in H0. apply local_ok in H0 as (g0 & M0 & -> & F0); [|exact (NL 0)].
    destruct (IH (fun r => NL (S r)) ress) as (g1 & M1 & E1 & F1); [|cbn in Lr; lia|].
    + intros r Hr. destruct (H (S r) ltac:(cbn; lia)) as (s1 & Es & Hs). now exists s1.
    + exists (g0 ++ g1). split; [now rewrite map_app, M0, M1|]. split; [cbn [concat]; rewrite E1; unfold enc; now rewrite map_app|]. apply Forall_app. now split.
Qed.
Lemma ranks_local tds pcss : mapM (fun p => tdata p dw (p_zs p)) ps = Ok tds -> mapM (fun p => pieces trans p dw P) ps = Ok pcss ->
  forall r s, r < P -> (rank_run ps pcss (k_log (g_rk sr r)) (nth r locals []) = Ok s <-> local_run ps tds (nth r locals []) = Ok s).
Proof.
  intros Ht Hp r s Hr. pose proof (mapM_Forall2 (fun p => tdata p dw (p_zs p)) ps tds) as A. apply (proj1 A) in Ht as Ft. pose proof (mapM_Forall2 (fun p => pieces trans p dw P) ps pcss) as B. apply (proj1 B) in Hp as Fp.
  apply (rank_run_eq dw P ps tds pcss).
  - apply Nl.
  - symmetry. exact (Forall2_len _ _ _ Ft).
  - symmetry. exact (Forall2_len _ _ _ Fp).
  - exact (proj2 (proj2 (pieces_good dw P ps HP U L)) pcss tds Hp Ht).
  - intros t Hlt. now apply R.
Qed.
Lemma enc_perm gds gds' tds : map fst gds = concat locals -> map fst gds' = tgs -> Forall (fun x => trec ps (combine ps tds) (fst x) = Ok (snd x)) gds -> Forall (fun x => trec ps (combine ps tds) (fst x) = Ok (snd x)) gds' -> Permutation (enc gds) (enc gds').
Proof.
  intros M M' F F'. unfold enc. apply Permutation_map. apply NoDup_Permutation.
  - eapply (NoDup_map_inv fst). rewrite M. exact (NoDup_map_inv g_id _ Nc).
  - eapply (NoDup_map_inv fst). rewrite M'. exact (NoDup_map_inv g_id _ N).
  - intros [g d]. assert (K : forall a b : list (targ * edict), (forall g, In g (map fst a) -> In g (map fst b)) -> Forall (fun x => trec ps (combine ps tds) (fst x) = Ok (snd x)) a -> Forall (fun x => trec ps (combine ps tds) (fst x) = Ok (snd x)) b -> In (g, d) a -> In (g, d) b).
    { intros a b I Fa Fb Ha. pose proof (proj1 (Forall_forall _ _) Fa _ Ha) as Ea. cbn [fst snd] in Ea. assert (In g (map fst b)) as Hb by (apply I; apply in_map_iff; now exists (g, d)). apply in_map_iff in Hb as ([g' d'] & Eg & Hb). cbn in Eg. subst g'.
      pose proof (proj1 (Forall_forall _ _) Fb _ Hb) as Eb. cbn [fst snd] in Eb. assert (d' = d) by congruence. now subst. }
    split; apply K; auto; rewrite M, M'; intro g'; apply Permutation_in; [exact Perm|symmetry; exact Perm].
Qed.
Lemma enc_keys gds tg : map fst gds = tg -> map fst (enc gds) = map g_id tg.
Proof. intros <-. unfold enc. now rewrite !map_map. Qed.
Lemma dicts_ok tds : (forall s, local_run ps tds tgs = Ok s -> exists ress, length ress = P /\ forall r, r < P -> exists s, nth_error ress r = Some s /\ local_run ps tds (nth r locals []) = Ok s) /\
  (forall ress, length ress = P -> (forall r, r < P -> exists s, nth_error ress r = Some s /\ local_run ps tds (nth r locals []) = Ok s) -> exists s, local_run ps tds tgs = Ok s /\ Permutation (concat ress) s /\ NoDup (map fst s) /\ NoDup (map fst (concat ress)) /\ Forall (fun d => NoDup (map fst d)) ress).
Proof.
  split.
  - intros s H. apply (local_ok ps tds tgs s N) in H as (gds & M & -> & F).
    destruct (mapM_all_ok (fun r => local_run ps tds (nth r locals [])) (seq 0 P)) as [ress Hr].
    { intros r Hr. apply in_seq in Hr. destruct (mapM_all_ok (fun g => do d <- trec ps (combine ps tds) g; Ok (g, d)) (nth r locals [])) as [gr Hg].
      { intros g Hg. assert (I : In g tgs). { eapply Permutation_in; [exact Perm|]. apply in_concat. exists (nth r locals []). split; [apply nth_In; lia|exact Hg]. }
        rewrite <- M in I. apply in_map_iff in I as ([g' d] & E & I). cbn in E. subst g'. pose proof (proj1 (Forall_forall _ _) F _ I) as Ed. cbn [fst snd] in Ed. rewrite Ed. cbn [rbind]. now eexists. }
      exists (enc gr). apply (local_ok _ _ _ _ (Nl r)). exists gr. apply mapM_Forall2 in Hg.
      assert (X : map fst gr = nth r locals [] /\ Forall (fun x => trec ps (combine ps tds) (fst x) = Ok (snd x)) gr). { clear -Hg. induction Hg as [|g [g' d] l l' H _ [I1 I2]]; [split; [reflexivity|constructor]|]. destruct (trec ps (combine ps tds) g) as [x|] eqn:E; cbn [rbind] in H; [|discriminate]. assert (g' = g /\ d = x) as [-> ->] by (split; congruence). split; [cbn; now rewrite I1|constructor; [exact E|exact I2]]. }
      destruct X as [X1 X2]. now repeat split. }
    destruct (mapM_seq_list (fun _ l => local_run ps tds l) locals [] ress Hr) as [Lr Hr']. exists ress. split; [exact Lr|exact Hr'].
  - intros ress Lr Hr. destruct (gather_local tds ress Hr Lr) as (gds & M & Ec & F).
    assert (X : exists gds', map fst gds' = tgs /\ Forall (fun x => trec ps (combine ps tds) (fst x) = Ok (snd x)) gds').
    { destruct (mapM_all_ok (fun g => do d <- trec ps (combine ps tds) g; Ok (g, d)) tgs) as [g' Hg].
      - intros g Hg. assert (I : In g (map fst gds)) by (rewrite M; eapply Permutation_in; [symmetry; exact Perm|exact Hg]). apply in_map_iff in I as ([g' d] & E & I). cbn in E. subst g'. pose proof (proj1 (Forall_forall _ _) F _ I) as Ed. cbn [fst snd] in Ed. rewrite Ed. cbn [rbind]. now eexists.
      - exists g'. apply mapM_Forall2 in Hg. clear -Hg. induction Hg as [|g [g1 d] l l' H _ [I1 I2]]; [split; [reflexivity|constructor]|]. destruct (trec ps (combine ps tds) g) as [x|] eqn:E; cbn [rbind] in H; [|discriminate]. assert (g1 = g /\ d = x) as [-> ->] by (split; congruence). split; [cbn; now rewrite I1|constructor; [exact E|exact I2]]. }
    destruct X as (gds' & M' & F'). exists (enc gds'). split; [apply (local_ok _ _ _ _ N); now exists gds'|]. split; [rewrite Ec; exact (enc_perm gds gds' tds M M' F F')|].
    split; [rewrite (enc_keys _ _ M'); exact N|]. assert (K : NoDup (map fst (concat ress))) by (rewrite Ec, (enc_keys _ _ M); exact Nc). split; [exact K|].
    clear -K. induction ress as [|d ress IH]; [constructor|]. cbn [concat] in K. rewrite map_app in K. constructor; [exact (NoDup_app_l _ _ K)|exact (IH (NoDup_app_r _ _ K))].
Qed.
Lemma mpi_serial : 
  (forall tab, run ps tgs = Ok tab -> exists ress, ranks_run ps locals sr = Ok ress) /\
  (forall ress, ranks_run ps locals sr = Ok ress -> length ress = P /\ Forall (fun d => NoDup (map fst d)) ress /\ NoDup (map fst (concat ress)) /\ forall tab, table ps (map g_id tgs) (concat ress) = Ok tab <-> run ps tgs = Ok tab).
Proof.
  assert (Pg : forall h, dget dw h = dget (grids tgs) h) by (intro h; symmetry; apply grids_perm; [exact C|symmetry; exact Perm]).
  destruct (pieces_good dw P ps HP U L) as (G1 & G2 & _).
  split.
  - intros tab H. rewrite run_split in H. destruct (mapM (fun p => tdata p (grids tgs) (p_zs p)) ps) as [tds0|] eqn:E0; cbn [rbind] in H; [|discriminate].
    destruct (data_map ps (grids tgs) dw tds0 (grids_nodup _) (fun h => eq_sym (Pg h)) E0) as (tds & Ht & Sd). destruct (local_run ps tds0 tgs) as [s0|] eqn:El; cbn [rbind] in H; [|discriminate].
    assert (L0 : length tds0 = length ps) by (apply mapM_Forall2 in E0; symmetry; exact (Forall2_len _ _ _ E0)).
    assert (El' : local_run ps tds tgs = Ok s0). { apply (local_ok _ _ _ _ N) in El as (gds & M & -> & F). apply (local_ok _ _ _ _ N). exists gds. split; [exact M|]. split; [reflexivity|]. eapply Forall_impl; [|exact F]. intros x Hx. cbv beta in *. rewrite <- Hx. symmetry. now apply trec_ext. }
    destruct (proj1 (dicts_ok tds) s0 El') as (ress & Lr & Hr). destruct (G2 tds Ht) as [pcss Hp]. unfold Model_RunMPI.ranks_run. rewrite wavegrids_mpi_eq, Hp. cbn [rbind].
    apply mapM_all_ok. intros r Hin. apply in_seq in Hin. destruct (Hr r ltac:(lia)) as (s & _ & Hs). exists s. apply (ranks_local tds pcss Ht Hp); [lia|exact Hs].
  - intros ress H. unfold Model_RunMPI.ranks_run in H. rewrite wavegrids_mpi_eq in H. destruct (mapM (fun p => pieces trans p dw P) ps) as [pcss|] eqn:Hp; cbn [rbind] in H; [|discriminate].
    destruct (G1 pcss eq_refl) as [tds Ht]. destruct (mapM_seq_list (fun r l => rank_run ps pcss (k_log (g_rk sr r)) l) locals [] ress H) as [Lr Hr].
    assert (Hr' : forall r, r < P -> exists s, nth_error ress r = Some s /\ local_run ps tds (nth r locals []) = Ok s). { intros r Hlt. destruct (Hr r Hlt) as (s & E1 & E2). exists s. split; [exact E1|]. now apply (ranks_local tds pcss Ht Hp). }
    destruct (proj2 (dicts_ok tds) ress Lr Hr') as (s & Hs & Pm & N1 & N2 & N3). split; [exact Lr|]. split; [exact N3|]. split; [exact N2|]. intro tab.
    destruct (data_map ps dw (grids tgs) tds (grids_nodup _) Pg Ht) as (tds0 & E0 & Sd). rewrite run_split, E0. cbn [rbind].
    assert (L0 : length tds = length ps) by (apply mapM_Forall2 in Ht; symmetry; exact (Forall2_len _ _ _ Ht)).
    assert (El : local_run ps tds0 tgs = Ok s). { apply (local_ok _ _ _ _ N) in Hs as (gds & M & -> & F). apply (local_ok _ _ _ _ N). exists gds. split; [exact M|]. split; [reflexivity|]. eapply Forall_impl; [|exact F]. intros x Hx. cbv beta in *. rewrite <- Hx. symmetry. now apply trec_ext. }
    rewrite El. cbn [rbind]. split; apply table_perm; [exact N2|exact Pm|exact N1|symmetry; exact Pm].
Qed.
End All.
End S.
