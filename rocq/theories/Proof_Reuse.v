(* Proofs about zfind with a scan read from a file and with priors. *)
From Verif Require Import Prelude PreludeFacts NumX Facts2 Model_Fitz Model_Rebin Model_Dist Proof_Dist3 Proof_Table Model_Zscan Proof_Zscan2 Proof_Zscan3 Proof_Zscan4
  Model_Piece Model_IO Model_Zfind Model_Run Proof_Run Proof_Run2 Spec_Run Proof_Run3 Proof_RunMPI2 Model_Reuse.
Open Scope nat_scope.
Local Notation dget := Model_Dist.dget.
Local Notation dset := Model_Dist.dset.

Lemma Forall2_in_impl {A B} (P R : A -> B -> Prop) l m : (forall a b, In a l -> P a b -> R a b) -> Forall2 P l m -> Forall2 R l m.
Proof. intros H F. induction F as [|a b l m Hab F IH]; constructor; [apply H; [now left|exact Hab]|]. apply IH. intros x y I. apply H. now right. Qed.
Lemma Forall2_in_l {A B} (P : A -> B -> Prop) l m : Forall2 P l m -> forall a, In a l -> exists b, In b m /\ P a b.
Proof. intro F. induction F as [|a b l m H F IH]; intros x I; [destruct I|]. destruct I as [<-|I]; [exists b; split; [now left|exact H]|]. destruct (IH x I) as (c & Ic & Hc). exists c. split; [now right|exact Hc]. Qed.

Section R.
Variables (slv : solvers) (argsort : list xq -> list nat) (polyfit : list Q -> list Q -> option (Q * Q * Q)) (isqrt : Q -> Q).
Variable trans : option string -> Q -> Q -> Q.
Variables (nminima nz : nat).
Notation tfit := (tfit slv argsort polyfit isqrt trans nminima nz).
Notation fit_one := (fit_one slv argsort polyfit isqrt trans nminima nz).
Notation fit_template := (fit_template slv argsort polyfit isqrt trans nminima nz).
Notation fit_all := (fit_all slv argsort polyfit isqrt trans nminima nz).
Notation run := (run slv argsort polyfit isqrt trans nminima nz).
Notation zfind := (zfind slv argsort polyfit isqrt trans nminima nz).
Notation tdata := (tdata trans).
Notation edict := (list (string * Model_Run.entry)).

(* ---------- the refinement, one target at a time ---------- *)
Lemma fit_one_eq p r g : fit_one p r g = match dget r (g_id g) with None => Err KeyError | Some d => do d' <- tfit g d p; Ok (dset r (g_id g) d') end.
Proof.
  unfold Model_Run.fit_one, Proof_Run.tfit, put. destruct (dget r (g_id g)) as [d|]; [|reflexivity]. destruct (sget d (full_type p)) as [e|]; [|reflexivity].
  destruct (fit_target _ _ _ _ _ _ _ p g _) as [fs|]; reflexivity.
Qed.
Lemma foldM_app {A B} (f : A -> B -> res A) l m : forall a, foldM f a (l ++ m) = do b <- foldM f a l; foldM f b m.
Proof. induction l as [|x l IH]; intro a; [reflexivity|]. cbn [app foldM]. destruct (f a x); cbn [rbind]; [apply IH|reflexivity]. Qed.
Lemma fit_template_get p : forall tgs r r', NoDup (map g_id tgs) -> foldM (fit_one p) r tgs = Ok r' ->
  (forall g, In g tgs -> exists d d', dget r (g_id g) = Some d /\ tfit g d p = Ok d' /\ dget r' (g_id g) = Some d') /\ (forall k, ~ In k (map g_id tgs) -> dget r' k = dget r k).
Proof.
  induction tgs as [|g tgs IH]; intros r r' N H; cbn [foldM] in H.
  - assert (r' = r) by congruence. subst. split; [intros g []|reflexivity].
  - rewrite fit_one_eq in H. destruct (dget r (g_id g)) as [d|] eqn:Ed; [|discriminate]. destruct (tfit g d p) as [d'|] eqn:Ef; cbn [rbind] in H; [|discriminate].
    inversion N as [|? ? N1 N2]; subst. destruct (IH _ _ N2 H) as [H1 H2]. split.
    + intros x [<-|I].
      * exists d, d'. split; [exact Ed|]. split; [exact Ef|]. rewrite H2 by exact N1. now rewrite dget_dset, Z.eqb_refl.
      * destruct (H1 x I) as (c & c' & E1 & E2 & E3). exists c, c'. split; [|now split]. rewrite dget_dset in E1. destruct (Z.eqb_spec (g_id g) (g_id x)) as [E|_]; [|exact E1]. exfalso. apply N1. rewrite E. now apply in_map.
    + intros k Hk. cbn [map In] in Hk. rewrite H2 by tauto. rewrite dget_dset. destruct (Z.eqb_spec (g_id g) k); [tauto|reflexivity].
Qed.
Lemma fit_template_ok p : forall tgs r, NoDup (map g_id tgs) -> (forall g, In g tgs -> exists d d', dget r (g_id g) = Some d /\ tfit g d p = Ok d') -> exists r', foldM (fit_one p) r tgs = Ok r'.
Proof.
  induction tgs as [|g tgs IH]; intros r N H; [now exists r|]. cbn [foldM]. rewrite fit_one_eq. destruct (H g (or_introl eq_refl)) as (d & d' & Ed & Ef). rewrite Ed, Ef. cbn [rbind].
  inversion N as [|? ? N1 N2]; subst. apply IH; [exact N2|]. intros x I. destruct (H x (or_intror I)) as (c & c' & E1 & E2). exists c, c'. split; [|exact E2].
  rewrite dget_dset. destruct (Z.eqb_spec (g_id g) (g_id x)) as [E|_]; [|exact E1]. exfalso. apply N1. rewrite E. now apply in_map.
Qed.
Lemma fold_get tgs : NoDup (map g_id tgs) -> forall l r r', foldM (fun r p => foldM (fit_one p) r tgs) r l = Ok r' ->
  (forall g, In g tgs -> l <> [] \/ dget r (g_id g) <> None -> exists d d', dget r (g_id g) = Some d /\ foldM (tfit g) d l = Ok d' /\ dget r' (g_id g) = Some d') /\ (forall k, ~ In k (map g_id tgs) -> dget r' k = dget r k).
Proof.
  intro N. induction l as [|p l IH]; intros r r' H; cbn [foldM] in H.
  - assert (r' = r) by congruence. subst. split; [|reflexivity]. intros g I [C|C]; [congruence|]. destruct (dget r (g_id g)) as [d|]; [|congruence]. exists d, d. now repeat split.
  - destruct (foldM (fit_one p) r tgs) as [r1|] eqn:E1; cbn [rbind] in H; [|discriminate]. destruct (fit_template_get p tgs r r1 N E1) as [A1 A2]. destruct (IH _ _ H) as [B1 B2]. split.
    + intros g I _. destruct (A1 g I) as (d & d' & E & F & G). destruct (B1 g I) as (c & c' & E' & F' & G'); [right; congruence|].
      exists d, c'. split; [exact E|]. split; [|exact G']. cbn [foldM]. rewrite F. cbn [rbind]. assert (c = d') by congruence. now subst.
    + intros k Hk. now rewrite B2, A2.
Qed.
Lemma fold_ok tgs : NoDup (map g_id tgs) -> forall l r, (forall g, In g tgs -> exists d d', dget r (g_id g) = Some d /\ foldM (tfit g) d l = Ok d') -> exists r', foldM (fun r p => foldM (fit_one p) r tgs) r l = Ok r'.
Proof.
  intro N. induction l as [|p l IH]; intros r H; [now exists r|]. cbn [foldM].
  destruct (fit_template_ok p tgs r N) as [r1 E1]. { intros g I. destruct (H g I) as (d & d' & E & F). cbn [foldM] in F. destruct (tfit g d p) as [c|] eqn:Ec; [|discriminate]. now exists d, c. }
  rewrite E1. cbn [rbind]. apply IH. intros g I. destruct (fit_template_get p tgs r r1 N E1) as [A1 _]. destruct (A1 g I) as (d & d' & E & F & G). destruct (H g I) as (c & c' & E' & F'). assert (c = d) by congruence. subst c.
  cbn [foldM] in F'. rewrite F in F'. cbn [rbind] in F'. now exists d', c'.
Qed.
Lemma fit_all_fold tgs r ps : fit_all tgs r ps = foldM (fun r p => foldM (fit_one p) r tgs) r (by_type ps).
Proof.
  unfold Model_Run.fit_all. rewrite (fold_foldM (fit_template tgs)). generalize (by_type ps) as l. intro l. revert r. induction l as [|p l IH]; intro r; [reflexivity|]. cbn [foldM].
  unfold Model_Run.fit_template at 1. rewrite fold_foldM. destruct (foldM (fit_one p) r tgs); cbn [rbind]; [apply IH|reflexivity].
Qed.

(* ---------- zfind ---------- *)
Definition fits_of (ps : list tmpl) (zs : zscan_t) (g : targ) (bs : list Model_Zfind.block) : Prop :=
  exists d d', dget zs (g_id g) = Some d /\ foldM (tfit g) (ents d) (by_type ps) = Ok d' /\ blocks_of d' = Ok bs.
Lemma as_scans_get zs k : dget (as_scans zs) k = option_map ents (dget zs k).
Proof. unfold as_scans. induction zs as [|[a d] zs IH]; [reflexivity|]. cbn [map Model_Dist.dget fst snd]. destruct (Z.eqb a k); [reflexivity|exact IH]. Qed.
Lemma results_at_ok ids r rs : results_at ids r = Ok rs <-> exists bss, rs = combine ids bss /\ Forall2 (fun tid bs => exists d, dget r tid = Some d /\ blocks_of d = Ok bs) ids bss.
Proof.
  unfold results_at. split.
  - intro F. apply mapM_Forall2 in F. exists (map snd rs). induction F as [|tid [k bs] ids rs H F [IH1 IH2]]; [split; [reflexivity|constructor]|]. destruct (dget r tid) as [d|] eqn:Ed; [|discriminate]. destruct (blocks_of d) as [b|] eqn:Eb; cbn [rbind] in H; [|discriminate].
    assert (k = tid /\ bs = b) as [-> ->] by (split; congruence). cbn [map combine snd]. split; [now rewrite <- IH1|]. constructor; [|exact IH2]. now exists d.
  - intros (bss & -> & F). apply mapM_Forall2. induction F as [|tid bs ids bss (d & Ed & Eb) F IH]; [constructor|]. cbn [combine]. constructor; [|exact IH]. now rewrite Ed, Eb.
Qed.
Lemma distinct_true ids : NoDup ids -> distinct_ids ids = true.
Proof. intro N. unfold distinct_ids. destruct (list_eq_dec Z.eq_dec (nodup Z.eq_dec ids) ids) as [|C]; [reflexivity|]. exfalso. apply C. now apply nodup_fixed_point. Qed.
Lemma zfind_ok file pr ps tgs zs tab : NoDup (map g_id tgs) -> (zfind file pr ps tgs = Ok (zs, tab) <->
  exists tds z0 bss, mapM (fun p => tdata p (grids tgs) (p_zs p)) ps = Ok tds /\ match file with None => calc_scan slv ps tds tgs = Ok z0 | Some f => z0 = f end /\ zs = add_prior pr z0 /\
    Forall2 (fits_of ps zs) tgs bss /\ zfind_table nminima None (list_max_nat (map nbasis ps)) (map g_id tgs) (combine (map g_id tgs) bss) = Ok tab).
Proof.
  intro N. unfold Model_Reuse.zfind, table_at. rewrite (distinct_true _ N). split.
  - destruct (mapM _ ps) as [tds|]; cbn [rbind]; [|discriminate]. intro H.
    assert (Z0 : exists z0, match file with None => calc_scan slv ps tds tgs | Some f => Ok f end = Ok z0). { destruct file; [now eexists|]. destruct (calc_scan slv ps tds tgs); [now eexists|discriminate]. }
    destruct Z0 as [z0 Ez]. rewrite Ez in H. cbn [rbind] in H. destruct (fit_all tgs _ ps) as [r|] eqn:Er; cbn [rbind] in H; [|discriminate].
    destruct (results_at (map g_id tgs) r) as [rs|] eqn:Ea; cbn [rbind] in H; [|discriminate]. destruct (zfind_table _ _ _ _ rs) as [tb|] eqn:Et; cbn [rbind] in H; [|discriminate].
    assert (zs = add_prior pr z0 /\ tab = tb) as [-> ->] by (split; congruence). apply results_at_ok in Ea as (bss & -> & F). exists tds, z0, bss. split; [reflexivity|]. split; [destruct file; congruence|]. split; [reflexivity|]. split; [|exact Et].
    rewrite fit_all_fold in Er. destruct (fold_get tgs N _ _ _ Er) as [G1 _]. apply F2_map_l in F. eapply Forall2_in_impl; [|exact F]. intros g bs I (d' & E' & Eb).
    destruct (by_type ps) as [|p l] eqn:Ep.
    + cbn [foldM] in Er. assert (r = as_scans (add_prior pr z0)) by congruence. subst r. rewrite as_scans_get in E'. unfold fits_of. rewrite Ep. destruct (dget (add_prior pr z0) (g_id g)) as [d|]; [|discriminate]. exists d, d'. cbn [option_map foldM] in *. split; [reflexivity|]. split; [congruence|exact Eb].
    + destruct (G1 g I) as (d & d1 & E1 & E2 & E3); [left; discriminate|]. rewrite as_scans_get in E1. unfold fits_of. rewrite Ep. destruct (dget (add_prior pr z0) (g_id g)) as [dz|]; [|discriminate]. cbn [option_map] in E1. exists dz, d1. split; [reflexivity|]. split; [congruence|]. congruence.
  - intros (tds & z0 & bss & Et & Ez & -> & F & Eb). rewrite Et. cbn [rbind]. assert (Ez' : match file with None => calc_scan slv ps tds tgs | Some f => Ok f end = Ok z0) by (destruct file; congruence). rewrite Ez'. cbn [rbind].
    destruct (fold_ok tgs N (by_type ps) (as_scans (add_prior pr z0))) as [r Er]. { intros g I. destruct (Forall2_in_l _ _ _ F g I) as (bs & _ & d & d' & E1 & E2 & _). exists (ents d), d'. split; [|exact E2]. rewrite as_scans_get, E1. reflexivity. }
    rewrite fit_all_fold, Er. cbn [rbind]. destruct (fold_get tgs N _ _ _ Er) as [G1 _].
    assert (Ea : results_at (map g_id tgs) r = Ok (combine (map g_id tgs) bss)).
    { apply results_at_ok. exists bss. split; [reflexivity|]. apply F2_map_l. eapply Forall2_in_impl; [|exact F]. intros g bs I (d & d' & E1 & E2 & E3).
      destruct (G1 g I) as (c & c' & E4 & E5 & E6); [right; rewrite as_scans_get, E1; discriminate|]. rewrite as_scans_get, E1 in E4. cbn [option_map] in E4. assert (c = ents d) by congruence. subst c. exists c'. split; [exact E6|]. congruence. }
    rewrite Ea. cbn [rbind]. rewrite Eb. reflexivity.
Qed.

(* ---------- the scan, one target at a time ---------- *)
Definition mkscan (pt : tmpl * tdict) (row : vec * list vec * vec) : string * scan :=
  (full_type (fst pt), {| sc_z := p_zs (fst pt); sc_chi2 := fst (fst row); sc_pen := snd row; sc_coeff := snd (fst row) |}).
Definition srow (g : targ) (pt : tmpl * tdict) : res (string * scan) := do row <- scan_of slv pt g; Ok (mkscan pt row).
Definition zstep (g : targ) (d : list (string * scan)) (pt : tmpl * tdict) : res (list (string * scan)) := do x <- srow g pt; Ok (sset d (fst x) (snd x)).
Lemma put_rows pt : forall tgs (rows : list (vec * list vec * vec)) ds (dn : zscan_t), NoDup (map fst dn ++ map g_id tgs) -> length ds = length tgs -> length rows = length tgs ->
  fold_left (fun acc (x : targ * (vec * list vec * vec)) => do r <- acc; let '(g, (zc, co, pen)) := x in
      putz r (g_id g) (full_type (fst pt)) {| sc_z := p_zs (fst pt); sc_chi2 := zc; sc_pen := pen; sc_coeff := co |}) (combine tgs rows) (Ok (dn ++ combine (map g_id tgs) ds))
  = Ok (dn ++ combine (map g_id tgs) (map2 (fun d row => sset d (fst (mkscan pt row)) (snd (mkscan pt row))) ds rows)).
Proof.
  induction tgs as [|g tgs IH]; intros [|[[zc co] pen] rows] [|d ds] dn N L1 L2; cbn [length] in *; try discriminate; [reflexivity|].
  cbn [map combine map2 fold_left rbind fst snd]. unfold putz.
  assert (Ni : ~ In (g_id g) (map fst dn)). { intro C. cbn [map] in N. apply NoDup_remove_2 in N. apply N. apply in_app_iff. now left. }
  rewrite dget_mid, dset_mid by exact Ni. 
  replace (dn ++ (g_id g, sset d (full_type (fst pt)) {| sc_z := p_zs (fst pt); sc_chi2 := zc; sc_pen := pen; sc_coeff := co |}) :: combine (map g_id tgs) ds)
    with ((dn ++ [(g_id g, sset d (full_type (fst pt)) {| sc_z := p_zs (fst pt); sc_chi2 := zc; sc_pen := pen; sc_coeff := co |})]) ++ combine (map g_id tgs) ds) by (now rewrite <- app_assoc).
  rewrite IH; [|rewrite map_app, <- app_assoc; exact N|lia|lia]. rewrite <- app_assoc. reflexivity.
Qed.
Lemma template_z pt tgs ds r' : NoDup (map g_id tgs) -> length ds = length tgs ->
  (scan_template_z slv tgs (combine (map g_id tgs) ds) (fst pt) (snd pt) = Ok r' <-> exists ds', Forall2 (fun gd d' => zstep (fst gd) (snd gd) pt = Ok d') (combine tgs ds) ds' /\ r' = combine (map g_id tgs) ds').
Proof.
  intros N L. unfold scan_template_z, calc_zchi2. rewrite mapM_map_in. split.
  - destruct (mapM _ tgs) as [rows|] eqn:Er; cbn [rbind]; [|discriminate]. assert (Lr : length rows = length tgs) by (apply mapM_Forall2 in Er; now apply Forall2_len in Er).
    intro H. exists (map2 (fun d row => sset d (fst (mkscan pt row)) (snd (mkscan pt row))) ds rows). split.
    2:{ pose proof (eq_trans (eq_sym (put_rows pt tgs rows ds [] N L Lr)) H) as X. exact (eq_sym (f_equal (fun x => match x with Ok y => y | Err _ => [] end) X)). }
    apply mapM_Forall2 in Er. clear -Er L. revert ds L. induction Er as [|g row tgs rows Hr F IH]; intros [|d ds] L; cbn [length combine map2] in *; try discriminate; constructor; [|apply IH; lia].
    unfold zstep, srow, scan_of. cbn [fst snd]. rewrite Hr. reflexivity.
  - intros (ds' & F & ->).
    assert (X : exists rows, mapM (fun x => zchi2_target slv (p_core (fst pt)) (snd pt) (length (p_zs (fst pt))) (data_of x)) tgs = Ok rows /\ ds' = map2 (fun d row => sset d (fst (mkscan pt row)) (snd (mkscan pt row))) ds rows).
    { clear N. revert ds ds' L F. induction tgs as [|g tgs IH]; intros [|d ds] ds' L F; cbn [length combine] in *; try discriminate; inversion F as [|? d' ? ds1 H1 H2]; subst; [now exists []|].
      unfold zstep, srow, scan_of in H1. cbn [fst snd mapM] in *. destruct (zchi2_target _ _ _ _ (data_of g)) as [row|] eqn:Er; cbn [rbind] in H1; [|discriminate]. destruct (IH ds ds1) as (rows & Em & ->); [lia|exact H2|].
      exists (row :: rows). rewrite Em. cbn [rbind map2 fst snd]. split; [reflexivity|]. f_equal. exact (eq_sym (f_equal (fun x => match x with Ok y => y | Err _ => d' end) H1)). }
    destruct X as (rows & Em & ->). rewrite Em. cbn [rbind]. assert (Lr : length rows = length tgs) by (apply mapM_Forall2 in Em; now apply Forall2_len in Em). exact (put_rows pt tgs rows ds [] N L Lr).
Qed.
Lemma map2_len_r {A B C} (f : A -> B -> C) l : forall m, length l = length m -> length (map2 f l m) = length m.
Proof. induction l as [|a l IH]; intros [|b m] H; cbn in *; try discriminate; [reflexivity|]. f_equal. apply IH. lia. Qed.
Lemma fold_z tgs : NoDup (map g_id tgs) -> forall l ds r', length ds = length tgs ->
  (foldM (fun r pt => scan_template_z slv tgs r (fst pt) (snd pt)) (combine (map g_id tgs) ds) l = Ok r' <-> exists ds', Forall2 (fun gd d' => foldM (zstep (fst gd)) (snd gd) l = Ok d') (combine tgs ds) ds' /\ r' = combine (map g_id tgs) ds').
Proof.
  intro N. induction l as [|pt l IH]; intros ds r' L; cbn [foldM].
  - split.
    + intro H. exists ds. split; [|congruence]. clear -L. revert ds L. induction tgs as [|g tgs IH]; intros [|d ds] L; cbn in *; try discriminate; constructor; [reflexivity|apply IH; lia].
    + intros (ds' & F & ->). f_equal. f_equal. clear -F L. revert ds ds' L F. induction tgs as [|g tgs IH]; intros [|d ds] ds' L F; cbn in *; try discriminate; inversion F as [|? ? ? ? H1 H2]; subst; [reflexivity|]. f_equal; [exact (f_equal (fun x => match x with Ok y => y | Err _ => [] end) H1)|]. apply IH; [lia|exact H2].
  - split.
    + destruct (scan_template_z slv tgs (combine (map g_id tgs) ds) (fst pt) (snd pt)) as [r1|] eqn:E; cbn [rbind]; [|discriminate]. apply (template_z pt tgs ds r1 N L) in E as (d1 & F1 & ->). intro H.
      assert (L1 : length d1 = length tgs) by (apply Forall2_len in F1; rewrite combine_length, L, Nat.min_id in F1; lia). apply (IH d1 r' L1) in H as (d2 & F2 & ->). exists d2. split; [|reflexivity].
      clear -F1 F2 L L1. revert ds d1 d2 L L1 F1 F2. induction tgs as [|g tgs IH]; intros [|d ds] [|x d1] d2 L L1 F1 F2; cbn in *; try discriminate; inversion F1 as [|? ? ? ? A1 A2]; subst; inversion F2 as [|? ? ? ? B1 B2]; subst; constructor.
      * cbn [fst snd] in *. rewrite A1. exact B1.
      * apply (IH ds d1); try lia; assumption.
    + intros (d2 & F & ->).
      assert (X : exists d1, Forall2 (fun gd d' => zstep (fst gd) (snd gd) pt = Ok d') (combine tgs ds) d1 /\ Forall2 (fun gd d' => foldM (zstep (fst gd)) (snd gd) l = Ok d') (combine tgs d1) d2).
      { clear -F L. revert ds d2 L F. induction tgs as [|g tgs IH]; intros [|d ds] d2 L F; cbn in *; try discriminate; inversion F as [|? y ? d3 A1 A2]; subst; [exists []; split; constructor|].
        cbn [fst snd] in A1. destruct (zstep g d pt) as [x|] eqn:Ex; cbn [rbind] in A1; [|discriminate]. destruct (IH ds d3) as (d1 & B1 & B2); [lia|exact A2|]. exists (x :: d1). split; constructor; assumption. }
      destruct X as (d1 & F1 & F2). assert (L1 : length d1 = length tgs) by (apply Forall2_len in F1; rewrite combine_length, L, Nat.min_id in F1; lia).
      assert (E : scan_template_z slv tgs (combine (map g_id tgs) ds) (fst pt) (snd pt) = Ok (combine (map g_id tgs) d1)) by (apply (template_z pt tgs ds _ N L); now exists d1). rewrite E. cbn [rbind]. apply (IH d1 _ L1). now exists d2.
Qed.
Lemma steps_rows g l : forall d, NoDup (map fst d ++ map (fun pt => full_type (fst pt)) l) -> foldM (zstep g) d l = do rows <- mapM (srow g) l; Ok (d ++ rows).
Proof.
  induction l as [|pt l IH]; intros d N; cbn [foldM mapM]; [cbn [rbind]; now rewrite app_nil_r|]. unfold zstep at 1. destruct (srow g pt) as [x|] eqn:Ex; cbn [rbind]; [|reflexivity].
  assert (Fx : fst x = full_type (fst pt)) by (unfold srow in Ex; destruct (scan_of slv pt g) as [v|]; cbn [rbind] in Ex; [|discriminate]; exact (eq_sym (f_equal (fun y => match y with Ok z => fst z | Err _ => ""%string end) Ex))).
  cbn [map] in N. assert (Ni : ~ In (full_type (fst pt)) (map fst d)). { intro C. apply NoDup_remove_2 in N. apply N. apply in_app_iff. now left. }
  assert (Es : sset d (fst x) (snd x) = d ++ [x]). { transitivity (d ++ [(fst x, snd x)]); [apply sset_fresh; rewrite Fx; exact Ni|]. now rewrite <- surjective_pairing. }
  rewrite Es, IH; [|rewrite map_app, <- app_assoc; cbn [map app fst]; rewrite Fx; exact N]. destruct (mapM (srow g) l); cbn [rbind]; [|reflexivity]. now rewrite <- app_assoc.
Qed.
Lemma empty_z tgs : NoDup (map g_id tgs) -> fold_left (fun (d : zscan_t) g => dset d (g_id g) []) tgs [] = combine (map g_id tgs) (repeat [] (length tgs)).
Proof.
  assert (G : forall todo (dn : zscan_t), NoDup (map fst dn ++ map g_id todo) -> fold_left (fun (d : zscan_t) g => dset d (g_id g) []) todo dn = dn ++ combine (map g_id todo) (repeat [] (length todo))).
  { induction todo as [|g todo IH]; intros dn N; cbn [fold_left]; [cbn; now rewrite app_nil_r|]. rewrite dset_fresh_keys.
    - rewrite IH; [rewrite <- app_assoc; reflexivity|]. rewrite map_app, <- app_assoc. exact N.
    - apply dget_none. intro C. cbn [map] in N. apply NoDup_remove_2 in N. apply N. apply in_app_iff. now left. }
  intro N. exact (G tgs [] N).
Qed.
Lemma calc_scan_ok ps tds tgs zs : NoDup (map g_id tgs) -> NoDup (map full_type ps) -> length tds = length ps ->
  (calc_scan slv ps tds tgs = Ok zs <-> exists dss, Forall2 (fun g ds => mapM (srow g) (combine ps tds) = Ok ds) tgs dss /\ zs = combine (map g_id tgs) dss).
Proof.
  intros N Nt L. unfold calc_scan. rewrite (fold_foldM (fun r pt => scan_template_z slv tgs r (fst pt) (snd pt))), (empty_z tgs N), (fold_z tgs N) by apply repeat_length.
  assert (Nc : NoDup (map (fun pt : tmpl * tdict => full_type (fst pt)) (combine ps tds))). { replace (map (fun pt : tmpl * tdict => full_type (fst pt)) (combine ps tds)) with (map full_type ps); [exact Nt|]. clear -L. revert tds L. induction ps as [|p ps IH]; intros [|t tds] L; cbn in *; try discriminate; [reflexivity|]. f_equal. apply IH. lia. }
  split; intros (dss & F & ->); exists dss; (split; [|reflexivity]).
  - clear N. revert dss F. induction tgs as [|g tgs IH]; intros dss F; cbn [length repeat combine] in F; inversion F as [|? ? ? ? H1 H2]; subst; constructor; [|now apply IH]. cbn [fst snd] in H1. rewrite steps_rows in H1 by exact Nc. destruct (mapM (srow g) (combine ps tds)); cbn [rbind app] in H1; congruence.
  - clear N. revert dss F. induction tgs as [|g tgs IH]; intros dss F; inversion F as [|? ? ? ? H1 H2]; subst; cbn [length repeat combine]; constructor; [|now apply IH]. cbn [fst snd]. rewrite steps_rows by exact Nc. rewrite H1. reflexivity.
Qed.
End R.
