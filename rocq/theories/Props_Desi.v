(* Reading DESI files: C66-C70. *)
From Verif Require Import Prelude PreludeFacts NumX Model_Dist Model_Zscan Model_IO Model_Desi Spec_Desi Proof_Desi Proof_Desi2 Proof_Desi3 Proof_Desi4 Proof_Gather.
Require Import Reals.
Local Close Scope R_scope.
Local Open Scope nat_scope.

(* ---------------- C66 ---------------- *)
(* Every mixture of files, bands and rows; masks in all tables or in none: every target gets one
   spectrum per row with its id, in file, band and row order, holding that row's data. *)
Theorem C66_target_rows {R} : forall (d0 : R) nsig (files : list (sfile R)) (my_targets : list Z) (mk : bool),
  (forall f, In f files -> table_ok f) ->
  (forall f b, In f files -> In b (sf_bands f) -> (sf_mask f b <> None <-> mk = true)) ->
  exists out, load_proc nsig files my_targets = Ok out /\
    Forall2 (fun t p => fst p = t /\ Forall2 (slot_of nsig) (t_slots (snd p)) (target_rows files t)) my_targets out.
Proof.
  intros d0 nsig files ts mk H1 H2.
  set (out := fun (t : Z) (_ : tst R) => st_at (concat (map (expect_file d0 nsig t) files)) [] mk).
  exists (map (fun t => (t, out t (init_target files t))) ts). split.
  - unfold load_proc.
    rewrite (proc_ok nsig files (map (fun t => (t, init_target files t)) ts) out).
    + now rewrite map_map.
    + intros t st Hin. apply in_map_iff in Hin as (u & E & _). injection E as <- <-. exact (load_ok d0 nsig files u mk H1 H2).
  - clear -H1. induction ts as [|t ts IH]; cbn [map]; constructor; [|exact IH]. cbn [fst snd]. split; [reflexivity|].
    unfold out, st_at. cbn [t_slots]. rewrite app_nil_r. now apply expect_rows.
Qed.
(* Any mixture of files with and without masks: when the load succeeds, wavelengths, band, flux and
   resolution are those of the target's rows (inverse variances: see C67). *)
Theorem C66_any_masks {R} : forall (d0 : R) nsig (files : list (sfile R)) t st,
  (forall f, In f files -> table_ok f) -> load_target nsig files t = Ok st ->
  Forall2 (fun s r => s_wave s = r_wave r /\ s_band s = r_band r /\ s_res s = Some (r_res r) /\
             exists fl, s_flux s = Some fl /\ length fl = length (r_flux r) /\
               forall i, i < length (r_flux r) ->
                 (forall q, pix NaN (r_flux r) i = Fin q -> pix NaN fl i = Fin q) /\
                 ((forall q, pix NaN (r_flux r) i <> Fin q) -> pix NaN fl i = Fin 0))
    (t_slots st) (target_rows files t).
Proof.
  intros d0 nsig files t st H E. pose proof (load_any d0 nsig files t st H E) as A. pose proof (expect_rows d0 nsig files t H) as B.
  revert A B. generalize (concat (map (expect_file d0 nsig t) files)) as mid. generalize (target_rows files t) as rows. generalize (t_slots st) as ss. clear.
  induction ss as [|s ss IH]; intros rows mid A B; inversion A; subst; inversion B; subst; constructor.
  - match goal with H1 : sim s ?y, H2 : slot_of nsig ?y ?r |- _ => destruct H1 as (a1 & a2 & a3 & a4); destruct H2 as (b1 & b2 & b3 & fl & iv & b4 & b5 & b6 & b7 & b8) end.
    split; [congruence|]. split; [congruence|]. split; [congruence|]. exists fl. split; [congruence|]. split; [exact b6|]. intros i Hi. destruct (b8 i Hi) as (c1 & c2 & _). auto.
  - eapply IH; eassumption.
Qed.

(* ---------------- C67 ---------------- *)
(* Full statement: for every file mixture, a mask row is applied to the flux row of the same file row.
   Proved when all tables have masks (or none); missing: mixtures, which break it (next theorem). *)
Theorem C67_masks_partial {R} : forall (d0 : R) nsig (files : list (sfile R)) t,
  (forall f, In f files -> table_ok f) -> (forall f b, In f files -> In b (sf_bands f) -> sf_mask f b <> None) ->
  exists st, load_target nsig files t = Ok st /\
    Forall2 (fun s r => exists iv, s_ivar s = Some iv /\ forall i, i < length (r_flux r) ->
               (pix 0%Z (r_mask r) i <> 0%Z -> pix NaN iv i = Fin 0) /\
               (used nsig (pix NaN (r_flux r) i) (pix NaN (r_ivar r) i) (pix 0%Z (r_mask r) i) -> pix NaN iv i = pix NaN (r_ivar r) i))
      (t_slots st) (target_rows files t).
Proof.
  intros d0 nsig files t H1 H2. eexists. split; [apply (load_ok d0 nsig files t true H1)|].
  - intros f b Hf Hb. split; [reflexivity|intros _; now apply H2].
  - cbn [t_slots st_at]. rewrite app_nil_r. eapply Forall2_impl; [|now apply expect_rows].
    intros s r (_ & _ & _ & fl & iv & _ & E & _ & _ & K). exists iv. split; [exact E|]. intros i Hi. destruct (K i Hi) as (_ & _ & K1 & K2). split; [|exact K1].
    intros Hm. apply K2. intros (a & b & _ & _ & _ & Hz). contradiction.
Qed.
(* one file, one target, two bands, a mask for the second band only: it is applied to the first band *)
Definition mix_file : sfile nat := {| sf_ids := [5%Z]; sf_keep := [5%Z]; sf_bands := ["b"; "r"]%string; sf_wave := fun _ => [3600; 3601]%Q;
  sf_flux := fun _ => [[Fin 1; Fin 2]]; sf_ivar := fun _ => [[Fin 1; Fin 1]];
  sf_mask := fun b => if String.eqb b "r" then Some [[0; 1]]%Z else None; sf_res := fun _ => [0] |}.
Theorem C67_mixed_masks_refuted : table_ok mix_file /\ exists st sb sr,
  load_target 5 [mix_file] 5 = Ok st /\ t_slots st = [sb; sr] /\
  s_band sb = "b"%string /\ sf_mask mix_file "b" = None /\ s_ivar sb = Some [Fin 1; Fin 0] /\
  s_band sr = "r"%string /\ sf_mask mix_file "r" = Some [[0; 1]]%Z /\ s_ivar sr = Some [Fin 1; Fin 1].
Proof.
  split.
  - intros b Hb. cbn [sf_bands mix_file] in Hb. destruct Hb as [<-|[<-|[]]]; cbn [sf_flux sf_ivar sf_res sf_mask sf_ids mix_file]; (split; [reflexivity|]); (split; [reflexivity|]); (split; [reflexivity|]).
    + change (String.eqb "b" "r") with false. cbn iota. split; [intros md E; discriminate|]. split; [intros [|[|j]]; reflexivity|]. intros md j E; discriminate.
    + change (String.eqb "r" "r") with true. cbn iota. split; [intros md E; injection E as <-; reflexivity|]. split; [intros [|[|j]]; reflexivity|].
      intros md j E. injection E as <-. destruct j as [|[|j]]; reflexivity.
  - eexists _, _, _. vm_compute. repeat (split; [reflexivity|]). reflexivity.
Qed.

Definition demo_file : sfile nat := {| sf_ids := [5; 9; 5; 7]%Z; sf_keep := [5; 7]%Z; sf_bands := ["b"; "r"]%string; sf_wave := fun _ => [3600; 3601]%Q;
  sf_flux := fun _ => [[Fin 1; NaN]; [Fin 2; Fin 2]; [Fin (-10); Fin 3]; [Fin 4; Fin 4]]; sf_ivar := fun _ => [[Fin 1; Fin 1]; [Fin 1; Fin 1]; [Fin 1; PInf]; [Fin 1; Fin 1]];
  sf_mask := fun b => Some [[0; 0]; [0; 0]; [0; 0]; [0; 4]]%Z; sf_res := fun _ => [0; 1; 2; 3] |}.
Example C66_nonvacuous : table_ok demo_file /\ map (map r_flux) (map (target_rows [demo_file]) [5; 7]%Z) = [[[Fin 1; NaN]; [Fin (-10); Fin 3]; [Fin 1; NaN]; [Fin (-10); Fin 3]]; [[Fin 4; Fin 4]; [Fin 4; Fin 4]]] /\
  match load_proc 5 [demo_file] [5; 7]%Z with
  | Ok out => map (fun p => map s_ivar (t_slots (snd p))) out = [[Some [Fin 1; Fin 0]; Some [Fin 0; Fin 0]; Some [Fin 1; Fin 0]; Some [Fin 0; Fin 0]]; [Some [Fin 1; Fin 0]; Some [Fin 1; Fin 0]]]
  | Err _ => False end.
Proof.
  split; [|split; vm_compute; reflexivity]. intros b Hb. cbn [sf_flux sf_ivar sf_res sf_mask sf_ids demo_file]. split; [reflexivity|]. split; [reflexivity|]. split; [reflexivity|]. split; [intros md E; injection E as <-; reflexivity|].
  split; [intros [|[|[|[|[|j]]]]]; reflexivity|]. intros md j E. injection E as <-. destruct j as [|[|[|[|[|j]]]]]; reflexivity.
Qed.
Example C67_nonvacuous : forall f b, In f [demo_file] -> In b (sf_bands f) -> sf_mask f b <> None.
Proof. intros f b [<-|[]] _. discriminate. Qed.

(* ---------------- C68 ---------------- *)
Theorem C68_target_list : forall l,
  NoDup (unique_targets l) /\ (forall t, In t (unique_targets l) <-> In t l) /\
  (* order of first appearance: an id comes before another iff its first occurrence does *)
  unique_targets l = first_occurrences l [].
Proof.
  intros l. rewrite unique_targets_ok. destruct (first_occ_spec l []) as [A B]. split; [exact A|]. split; [|reflexivity]. intros t. rewrite B. cbn. tauto.
Qed.
Theorem C68_weights {R} : forall (files : list (sfile R)) t,
  target_weight files t = list_sum (map (fun f => count_occ Z.eq_dec (sf_ids f) t) (filter (fun f => zmem t (sf_keep f)) files)).
Proof.
  intros files t. unfold target_weight. enough (forall w, fold_left (fun w f => match target_specs f t with Some l => w + length l | None => w end) files w = w + list_sum (map (fun f => count_occ Z.eq_dec (sf_ids f) t) (filter (fun f => zmem t (sf_keep f)) files))) by (rewrite H; reflexivity).
  induction files as [|f fs IH]; intros w; [cbn; lia|]. cbn [fold_left filter]. destruct (zmem t (sf_keep f)) eqn:E.
  - destruct (specs_rows f t E) as (tr & E1 & _ & _ & E2). rewrite E1, E2, IH. cbn [map list_sum fold_right]. change (fold_right Nat.add 0) with list_sum.
    assert (length (rows_t f t) = count_occ Z.eq_dec (sf_ids f) t) as ->; [|lia].
    unfold rows_t. rewrite map_length. unfold enum. generalize 0. induction (sf_ids f) as [|x l IHl]; intros n; [reflexivity|]. cbn [enum_from filter snd count_occ]. destruct (Z.eqb_spec x t), (Z.eq_dec x t); try contradiction; cbn [length]; now rewrite IHl.
  - assert (target_specs f t = None) as -> by (unfold target_specs; now rewrite E). apply IH.
Qed.
Example C68_nonvacuous : unique_targets [7; 3; 7; 9; 3; 1]%Z = [7; 3; 9; 1]%Z /\ target_weight [demo_file] 5 = 2.
Proof. split; reflexivity. Qed.

(* ---------------- C69 ---------------- *)
(* Full statement: --mintarget m -n k select targets m .. m+k-1 for each documented combination.
   Proved for 0 <= m, 0 <= k, m + k within the list of the file; missing: -m alone (error), several
   files (the window is cut in each of them), negative values (below). *)
Theorem C69_window_partial : forall l (first n : Z), (0 <= first)%Z -> (0 <= n)%Z -> (first + n <= Z.of_nat (length l))%Z ->
  let w := cli_window (Some first) (Some n) in
  window l (fst w) (snd w) = Ok (firstn (Z.to_nat n) (skipn (Z.to_nat first) l)).
Proof.
  intros l first n H1 H2 H3. cbn [cli_window fst snd window]. unfold window. destruct (Z.ltb_spec (Z.of_nat (length l)) first); [lia|]. destruct (Z.ltb_spec (Z.of_nat (length l)) (first + n)); [lia|].
  f_equal. unfold pyslice, clampi. destruct (Z.ltb_spec first 0); [lia|]. destruct (Z.ltb_spec (first + n) 0); [lia|].
  f_equal; [lia|]. f_equal. lia.
Qed.
Theorem C69_only_n : forall l (n : Z), (0 <= n <= Z.of_nat (length l))%Z -> let w := cli_window None (Some n) in window l (fst w) (snd w) = Ok (firstn (Z.to_nat n) l).
Proof. intros l n H. exact (C69_window_partial l 0 n (Z.le_refl _) (proj1 H) (proj2 H)). Qed.
Theorem C69_no_options : forall l, let w := cli_window None None in window l (fst w) (snd w) = Ok l.
Proof.
  intros l. cbn [cli_window fst snd]. unfold window. destruct (Z.ltb_spec (Z.of_nat (length l)) 0); [lia|]. destruct (Z.ltb_spec (Z.of_nat (length l)) (0 + Z.of_nat (length l))); [lia|].
  f_equal. unfold pyslice, clampi. change (0 <? 0)%Z with false. destruct (Z.ltb_spec (0 + Z.of_nat (length l)) 0); [lia|].
  replace (Z.to_nat (Z.min _ (Z.max 0 0))) with 0 by lia. cbn [skipn]. apply firstn_all2. lia.
Qed.
Theorem C69_outside : forall l (first n : Z), (0 <= n)%Z -> (Z.of_nat (length l) < first + n)%Z -> let w := cli_window (Some first) (Some n) in window l (fst w) (snd w) = Err RuntimeError.
Proof. intros l first n H0 H. cbn [cli_window fst snd]. unfold window. destruct (Z.ltb_spec (Z.of_nat (length l)) first); [reflexivity|]. destruct (Z.ltb_spec (Z.of_nat (length l)) (first + n)); [reflexivity|lia]. Qed.
(* --mintarget m with no -n fails for every m > 0 and every list: the default count is the whole list *)
Theorem C69_mintarget_alone_refuted : forall l m, (0 < m)%Z -> let w := cli_window (Some m) None in window l (fst w) (snd w) = Err RuntimeError.
Proof. intros l m H. cbn [cli_window fst snd]. unfold window. destruct (Z.ltb_spec (Z.of_nat (length l)) m); [reflexivity|]. destruct (Z.ltb_spec (Z.of_nat (length l)) (m + Z.of_nat (length l))); [reflexivity|lia]. Qed.
(* the window is cut in every file: -n 1 with k files of distinct ids selects k targets *)
Theorem C69_per_file_refuted : forall l1 l2 a b, a <> b ->
  exists w1 w2, window (a :: l1) (Some 0%Z) (Some 1%Z) = Ok w1 /\ window (b :: l2) (Some 0%Z) (Some 1%Z) = Ok w2 /\ length (unique_targets (w1 ++ w2)) = 2.
Proof.
  intros l1 l2 a b Hne. exists [a], [b]. split; [|split].
  - exact (C69_window_partial (a :: l1) 0 1 ltac:(lia) ltac:(lia) ltac:(cbn [length]; lia)).
  - exact (C69_window_partial (b :: l2) 0 1 ltac:(lia) ltac:(lia) ltac:(cbn [length]; lia)).
  - rewrite unique_targets_ok. cbn [app first_occurrences]. destruct (in_dec Z.eq_dec a []) as [[]|]. destruct (in_dec Z.eq_dec b [a]) as [[H|[]]|]; [contradiction|reflexivity].
Qed.
(* a negative --mintarget is accepted and selects nothing *)
Theorem C69_negative_refuted : forall l m n, (m < 0)%Z -> (0 <= n)%Z -> (m + n < 0)%Z -> (Z.of_nat (length l) + m + n <= 0)%Z -> window l (Some m) (Some n) = Ok [].
Proof.
  intros l m n H1 H2 H3 H4. unfold window. destruct (Z.ltb_spec (Z.of_nat (length l)) m); [lia|]. destruct (Z.ltb_spec (Z.of_nat (length l)) (m + n)); [lia|].
  f_equal. unfold pyslice, clampi. destruct (Z.ltb_spec m 0); [|lia]. destruct (Z.ltb_spec (m + n) 0); [|lia]. replace (Z.to_nat (Z.min _ (Z.max 0 (m + n + _)))) with 0 by lia. reflexivity.
Qed.
Theorem C69_negative_few_refuted : window [1; 2; 3]%Z (Some (-1)%Z) (Some 2%Z) = Ok [].
Proof. reflexivity. Qed.
Example C69_nonvacuous : window [10; 20; 30; 40]%Z (Some 1%Z) (Some 2%Z) = Ok [20; 30]%Z /\ window [10; 20]%Z (Some 1%Z) None = Err RuntimeError.
Proof. split; reflexivity. Qed.

(* ---------------- C70 ---------------- *)
(* Full statement: NaN/inf flux or ivar pixels and negative ivar get ivar 0 and finite flux.
   Missing: negative ivar (refuted below). *)
Theorem C70_pixels_partial {R} : forall (d0 : R) nsig (files : list (sfile R)) t (mk : bool),
  (forall f, In f files -> table_ok f) -> (forall f b, In f files -> In b (sf_bands f) -> (sf_mask f b <> None <-> mk = true)) ->
  exists st, load_target nsig files t = Ok st /\
    Forall2 (fun s r => exists fl iv, s_flux s = Some fl /\ s_ivar s = Some iv /\ length fl = length (r_flux r) /\ length iv = length (r_flux r) /\
      forall i, i < length (r_flux r) ->
        (exists a v, pix NaN fl i = Fin a /\ pix NaN iv i = Fin v) /\
        ((forall q, pix NaN (r_flux r) i <> Fin q) \/ (forall q, pix NaN (r_ivar r) i <> Fin q) \/ pix 0%Z (r_mask r) i <> 0%Z -> pix NaN iv i = Fin 0) /\
        (forall a v, pix NaN (r_flux r) i = Fin a -> pix NaN (r_ivar r) i = Fin v -> too_negative nsig a v -> pix NaN iv i = Fin 0))
      (t_slots st) (target_rows files t).
Proof.
  intros d0 nsig files t mk H1 H2. eexists. split; [apply (load_ok d0 nsig files t mk H1 H2)|].
  cbn [t_slots st_at]. rewrite app_nil_r. eapply Forall2_impl; [|now apply expect_rows].
  intros s r (_ & _ & _ & fl & iv & E1 & E2 & L1 & L2 & K). exists fl, iv. split; [exact E1|]. split; [exact E2|]. split; [exact L1|]. split; [exact L2|].
  intros i Hi. destruct (K i Hi) as (K1 & K2 & K3 & K4).
  assert (D : used nsig (pix NaN (r_flux r) i) (pix NaN (r_ivar r) i) (pix 0%Z (r_mask r) i) \/ ~ used nsig (pix NaN (r_flux r) i) (pix NaN (r_ivar r) i) (pix 0%Z (r_mask r) i)).
  { unfold used. destruct (pix NaN (r_flux r) i) as [a| | |]; try (right; intros (x & y & E & _); discriminate).
    destruct (pix NaN (r_ivar r) i) as [v| | |]; try (right; intros (x & y & _ & E & _); discriminate).
    destruct (bigneg nsig (Fin a) (Fin v)) eqn:Eb; [right|].
    - intros (x & y & Ex & Ey & Hn & _). injection Ex as <-. injection Ey as <-. apply Hn. now apply bigneg_iff.
    - destruct (Z.eq_dec (pix 0%Z (r_mask r) i) 0) as [Ez|Ez]; [left|right; intros (x & y & _ & _ & _ & E); contradiction].
      exists a, v. split; [reflexivity|]. split; [reflexivity|]. split; [|exact Ez]. intros Ht. apply bigneg_iff in Ht. congruence. }
  split; [|split].
  - assert (F : exists a, pix NaN fl i = Fin a) by (destruct (pix NaN (r_flux r) i) as [a| | |]; [exists a; now apply K1|exists 0%Q; apply K2; discriminate..]).
    destruct F as (a & Ha). destruct D as [D|D]; [|exists a, 0%Q; auto]. pose proof (K3 D) as E. destruct D as (x & y & _ & Ey & _). exists a, y. split; [exact Ha|congruence].
  - intros H. apply K4. intros (a & b & Ea & Eb & _ & Hm). destruct H as [H|[H|H]]; [now apply (H a)|now apply (H b)|contradiction].
  - intros a v Ea Ev Ht. apply K4. intros (x & y & Ex & Ey & Hn & _). rewrite Ea in Ex. rewrite Ev in Ey. injection Ex as <-. injection Ey as <-. contradiction.
Qed.
(* the sigma test with the real square root *)
Theorem C70_sigma_test : forall n a v : Q, too_negative n a v <-> (0 <= v)%Q /\ (Q2R a * sqrt (Q2R v) < - Rabs (Q2R n))%R.
Proof.
  intros n a v. unfold too_negative. split.
  - intros (H1 & H2 & H3). split; [exact H1|].
    assert (V : (0 <= Q2R v)%R) by (replace 0%R with (Q2R 0) by (unfold Q2R; cbn; apply Rmult_0_l); now apply Qreals.Qle_Rle).
    assert (A : (Q2R a < 0)%R) by (replace 0%R with (Q2R 0) by (unfold Q2R; cbn; apply Rmult_0_l); now apply Qreals.Qlt_Rlt).
    apply Qreals.Qlt_Rlt in H3. rewrite !Qreals.Q2R_mult in H3.
    rewrite <- (Ropp_involutive (Q2R a * sqrt (Q2R v))). apply Ropp_lt_contravar.
    rewrite Ropp_mult_distr_l. rewrite <- (Rabs_pos_eq (- Q2R a * sqrt (Q2R v))) by (apply Rmult_le_pos; [Lra.lra|apply sqrt_pos]).
    apply Rsqr_lt_abs_0. unfold Rsqr. replace (- Q2R a * sqrt (Q2R v) * (- Q2R a * sqrt (Q2R v)))%R with (Q2R a * Q2R a * (sqrt (Q2R v) * sqrt (Q2R v)))%R by ring. now rewrite sqrt_sqrt.
  - intros (H1 & H2).
    assert (V : (0 <= Q2R v)%R) by (replace 0%R with (Q2R 0) by (unfold Q2R; cbn; apply Rmult_0_l); now apply Qreals.Qle_Rle).
    pose proof (sqrt_pos (Q2R v)) as S. pose proof (Rabs_pos (Q2R n)) as N.
    assert (A : (Q2R a < 0)%R) by (destruct (Rlt_le_dec (Q2R a) 0); [assumption|exfalso; pose proof (Rmult_le_pos _ _ r S); Lra.lra]).
    split; [exact H1|]. split; [apply Qreals.Rlt_Qlt; replace (Q2R 0) with 0%R by (unfold Q2R; cbn; symmetry; apply Rmult_0_l); exact A|].
    apply Qreals.Rlt_Qlt. rewrite !Qreals.Q2R_mult. rewrite <- (sqrt_sqrt (Q2R v) V) at 1.
    replace (Q2R a * Q2R a * (sqrt (Q2R v) * sqrt (Q2R v)))%R with (Rsqr (- (Q2R a * sqrt (Q2R v)))) by (unfold Rsqr; ring).
    change (Rsqr (Q2R n) < Rsqr (- (Q2R a * sqrt (Q2R v))))%R. rewrite (Rsqr_abs (Q2R n)). apply Rsqr_incrst_1; [Lra.lra|exact N|Lra.lra].
Qed.
Theorem C70_negative_ivar_refuted : exists f : sfile nat, table_ok f /\ exists st s, load_target 5 [f] 5%Z = Ok st /\ t_slots st = [s] /\ s_ivar s = Some [Fin (-1)].
Proof.
  exists ({| sf_ids := [5%Z]; sf_keep := [5%Z]; sf_bands := ["b"%string]; sf_wave := fun _ => [3600]; sf_flux := fun _ => [[Fin 1]]; sf_ivar := fun _ => [[Fin (-1)]]; sf_mask := fun _ => None; sf_res := fun _ => [0%nat] |} : sfile nat)%Q.
  split; [|eexists _, _; vm_compute; split; [reflexivity|]; split; reflexivity].
  intros b Hb. cbn [sf_flux sf_ivar sf_res sf_mask sf_ids]. split; [reflexivity|]. split; [reflexivity|]. split; [reflexivity|]. split; [intros md E; discriminate|]. split; [intros j; destruct j; reflexivity|intros md j E; discriminate].
Qed.
Example C70_nonvacuous : too_negative 5 (-10) 1 /\ ~ too_negative 5 (-10) (1#5).
Proof. unfold too_negative. split; [split; [lra|]; split; lra|]. intros (_ & _ & H). lra. Qed.

Print Assumptions C66_target_rows. Print Assumptions C67_mixed_masks_refuted. Print Assumptions C68_weights. Print Assumptions C69_window_partial. Print Assumptions C70_pixels_partial. Print Assumptions C70_sigma_test.
