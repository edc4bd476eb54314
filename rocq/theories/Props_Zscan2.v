(* C47-C49: constrained solvers, per-camera fits, one redshift at a time. *)
From Verif Require Import Prelude PreludeFacts Facts2 NumX Model_Fitz Proof_Fitz Proof_Table Model_Dist Proof_Dist3
  Model_Zscan Spec_Zscan Proof_Zscan Proof_Zscan2 Proof_Zscan3 Proof_Zscan4 Proof_Zscan5 Props_Zscan.
Local Open Scope Q_scope.

(* ================= C47 ================= *)
Theorem C47_nnls_nonnegative S alg args prior spectra tdata w f wf nz nb z c :
  nnls_ok S -> upper alg = "NMF"%string \/ upper alg = "NNLS"%string ->
  calc_zchi2_batch S alg args prior spectra tdata w f wf nz nb = Ok (z, c) -> Forall nonneg c.
Proof.
  intros HS Ha H. destruct (Qeq_dec (sumQ w) 0) as [E|E].
  - unfold calc_zchi2_batch in H. apply Qeq_bool_iff in E. rewrite E in H. injection H as <- <-.
    apply Forall_forall. intros x Hx. apply repeat_spec in Hx. subst. apply Forall_forall. intros v Hv. apply repeat_spec in Hv. subst. lra.
  - destruct (batch_inv _ _ _ _ _ _ _ _ _ _ _ _ _ E H) as (r & Hr & -> & ->). apply mapM_Forall2 in Hr.
    apply Forall_map. apply Forall_forall. intros x Hx. destruct (Forall2_in_r _ _ _ x Hr Hx) as (i & _ & Hi).
    apply zchi2_at_inv in Hi. inversion Hi as [Tb M c0 E1 L1 L2 L3 EM Es Hc Ez|Tb M e E1 L1 L2 L3 EM Es He Ez]; cbn [snd].
    + unfold solve_matrices in Es. destruct Ha as [Ha|Ha]; rewrite Ha in Es; cbn [String.eqb Ascii.eqb Bool.eqb orb] in Es.
      * change (match nnls S M (tdot nb Tb wf) with Ok x => Ok x | Err _ => Err LinAlgError end = Ok c0) in Es.
        destruct (nnls S M (tdot nb Tb wf)) as [x0|] eqn:En; [|discriminate]. injection Es as ->. apply HS in En. tauto.
      * change (match nnls S M (tdot nb Tb wf) with Ok x => Ok x | Err _ => Err LinAlgError end = Ok c0) in Es.
        destruct (nnls S M (tdot nb Tb wf)) as [x0|] eqn:En; [|discriminate]. injection Es as ->. apply HS in En. tauto.
    + apply Forall_forall. intros v Hv. apply repeat_spec in Hv. subst. lra.
Qed.
Theorem C47_bvls_in_bounds S b prior spectra tdata w f wf nz nb z c i :
  bvls_ok S -> ~ sumQ w == 0 -> (i < nz)%nat ->
  calc_zchi2_batch S "bvls" (Some b) prior spectra tdata w f wf nz nb = Ok (z, c) ->
  in_bounds b (nth i c []) \/ (nth i z 0 = HUGE_CHI2 /\ nth i c [] = repeat 0 nb).
Proof.
  intros HS E Hi H. eapply batch_at in H; [|exact E|exact Hi]. apply zchi2_at_cases in H.
  destruct H as (Tb & M & E1 & L1 & L2 & L3 & EM & [(Es & Hc & Ez)|Hfail]); [left|right; exact Hfail].
  change (bvls S M (tdot nb Tb wf) b = Ok (nth i c [])) in Es. apply HS in Es. tauto.
Qed.

(* the bounded optimum is found whenever the unconstrained optimum is feasible *)
Lemma feasible_optimum S alg args spectra tdata w f wf nb i T z c copt (feas : vec -> Prop) :
  (forall M y x, solve_matrices S alg args M y = Ok x -> length y = nb ->
      length x = nb /\ feas x /\ forall c', length c' = nb -> feas c' -> resid2 M y x <= resid2 M y c') ->
  spectral_data spectra = Ok (w, f, wf) -> nonneg w -> Forall (fun s => wf_csr (s_R s)) spectra ->
  zchi2_at S alg args None nb spectra tdata w f wf i = Ok (z, c) -> is_design nb spectra tdata i T ->
  length copt = nb -> feas copt -> (forall c', length c' = nb -> chi2 (length T) nb w f T copt <= chi2 (length T) nb w f T c') ->
  (feas c /\ z == chi2 (length T) nb w f T c /\ forall c', length c' = nb -> chi2 (length T) nb w f T c <= chi2 (length T) nb w f T c')
  \/ (z = HUGE_CHI2 /\ c = repeat 0 nb).
Proof.
  intros HS Hd Hw Hwf H HT Hlo Hfo Hopt. apply spectral_data_inv in Hd as (_ & _ & Hl & Ewf). apply zchi2_at_cases in H.
  destruct H as (Tb & M & E1 & L1 & L2 & L3 & EM & [(Es & Hc & Ez)|Hfail]); [left|right; exact Hfail]. rewrite Ez.
  injection EM as <-. rewrite Ewf in Es. destruct (HS _ _ _ Es (tdot_length _ _ _)) as (_ & Hf & Hmin).
  assert (He : mat_eqv nb Tb T) by (eapply design_unique; [apply dpso_design|]; eassumption).
  assert (Ho : solves (normal_M nb w Tb) (tdot nb Tb (map2 (fun w f => Qred (w * f)) w f)) copt).
  { apply optimum_solves; auto. intros c' Hc'. rewrite !(chi2_eqv _ w f Tb T) by exact He. auto. }
  assert (Hs : solves (normal_M nb w Tb) (tdot nb Tb (map2 (fun w f => Qred (w * f)) w f)) c).
  { apply resid_zero_solves; [rewrite tdot_length; exact Hc|]. rewrite <- (solves_resid_zero _ _ _ Ho). auto. }
  split; [exact Hf|]. split.
  - rewrite (chi2_of_chi2 nb) by (assumption || lia). now apply chi2_eqv.
  - intros c' Hc'. rewrite <- !(chi2_eqv _ w f Tb T) by exact He.
    pose proof (normal_solution_optimal nb w f _ Tb None _ c c' Hw L1 Hl eq_refl I eq_refl Hs Hc') as HH. cbn in HH. lra.
Qed.
Theorem C47_nnls_optimum_partial S args spectra tdata w f wf nz nb z c i T copt :
  nnls_ok S -> spectral_data spectra = Ok (w, f, wf) -> nonneg w -> ~ sumQ w == 0 ->
  Forall (fun s => wf_csr (s_R s)) spectra ->
  calc_zchi2_batch S "NNLS" args None spectra tdata w f wf nz nb = Ok (z, c) -> (i < nz)%nat ->
  is_design nb spectra tdata i T ->
  (* the unconstrained optimum satisfies the constraint *)
  length copt = nb -> nonneg copt -> (forall c', length c' = nb -> chi2 (length T) nb w f T copt <= chi2 (length T) nb w f T c') ->
  (nonneg (nth i c []) /\ nth i z 0 == chi2 (length T) nb w f T (nth i c []) /\
   forall c', length c' = nb -> chi2 (length T) nb w f T (nth i c []) <= chi2 (length T) nb w f T c')
  \/ (nth i z 0 = HUGE_CHI2 /\ nth i c [] = repeat 0 nb).
Proof.
  intros HS Hd Hw Hz Hwf H Hi HT Hl Hn Ho. eapply batch_at in H; [|exact Hz|exact Hi].
  eapply (feasible_optimum S "NNLS" args spectra tdata w f wf nb i T _ _ copt nonneg); eauto.
  intros M y x Hs Hy. change (match nnls S M y with Ok x => Ok x | Err _ => Err LinAlgError end = Ok x) in Hs.
  destruct (nnls S M y) as [x0|] eqn:En; [|discriminate]. injection Hs as ->. apply HS in En. rewrite <- Hy. exact En.
Qed.
Theorem C47_bvls_optimum_partial S b spectra tdata w f wf nz nb z c i T copt :
  bvls_ok S -> spectral_data spectra = Ok (w, f, wf) -> nonneg w -> ~ sumQ w == 0 ->
  Forall (fun s => wf_csr (s_R s)) spectra ->
  calc_zchi2_batch S "BVLS" (Some b) None spectra tdata w f wf nz nb = Ok (z, c) -> (i < nz)%nat ->
  is_design nb spectra tdata i T ->
  length copt = nb -> in_bounds b copt -> (forall c', length c' = nb -> chi2 (length T) nb w f T copt <= chi2 (length T) nb w f T c') ->
  (in_bounds b (nth i c []) /\ nth i z 0 == chi2 (length T) nb w f T (nth i c []) /\
   forall c', length c' = nb -> chi2 (length T) nb w f T (nth i c []) <= chi2 (length T) nb w f T c')
  \/ (nth i z 0 = HUGE_CHI2 /\ nth i c [] = repeat 0 nb).
Proof.
  intros HS Hd Hw Hz Hwf H Hi HT Hl Hn Ho. eapply batch_at in H; [|exact Hz|exact Hi].
  eapply (feasible_optimum S "BVLS" (Some b) spectra tdata w f wf nb i T _ _ copt (in_bounds b)); eauto.
  intros M y x Hs Hy. change (bvls S M y b = Ok x) in Hs. apply HS in Hs. rewrite <- Hy. exact Hs.
Qed.
(* with a single template vector NNLS does give the constrained optimum *)
Theorem C47_nnls_single_partial S args spectra tdata w f wf nz z c i T :
  nnls_ok S -> spectral_data spectra = Ok (w, f, wf) -> nonneg w -> ~ sumQ w == 0 ->
  Forall (fun s => wf_csr (s_R s)) spectra ->
  calc_zchi2_batch S "NNLS" args None spectra tdata w f wf nz 1 = Ok (z, c) -> (i < nz)%nat ->
  is_design 1 spectra tdata i T ->
  (nonneg (nth i c []) /\ nth i z 0 == chi2 (length T) 1 w f T (nth i c []) /\
   forall c', length c' = 1%nat -> nonneg c' -> chi2 (length T) 1 w f T (nth i c []) <= chi2 (length T) 1 w f T c')
  \/ (nth i z 0 = HUGE_CHI2 /\ nth i c [] = [0]).
Proof.
  intros HS Hd Hw Hz Hwf H Hi HT. eapply batch_at in H; [|exact Hz|exact Hi].
  apply spectral_data_inv in Hd as (_ & _ & Hl & Ewf). apply zchi2_at_cases in H.
  destruct H as (Tb & M & E1 & L1 & L2 & L3 & EM & [(Es & Hc & Ez)|Hfail]); [left|right; exact Hfail]. rewrite Ez.
  injection EM as <-. change (match nnls S (normal_M 1 w Tb) (tdot 1 Tb wf) with Ok x => Ok x | Err _ => Err LinAlgError end = Ok (nth i c [])) in Es.
  destruct (nnls S (normal_M 1 w Tb) (tdot 1 Tb wf)) as [x0|] eqn:En; [|discriminate]. injection Es as ->. apply HS in En. destruct En as (Hlx & Hn & Hmin).
  rewrite tdot_length in Hlx, Hmin.
  assert (He : mat_eqv 1 Tb T) by (eapply design_unique; [apply dpso_design|]; eassumption).
  split; [exact Hn|]. split. { rewrite (chi2_of_chi2 1) by (assumption || lia). now apply chi2_eqv. }
  destruct (nth i c []) as [|x [|]]; try discriminate. intros [|v [|]] Hc' Hn'; try discriminate.
  inversion Hn as [|? ? Hx _]; subst. inversion Hn' as [|? ? Hv _]; subst.
  rewrite <- !(chi2_eqv _ w f Tb T) by exact He. rewrite (chi2_single w f Tb x), (chi2_single w f Tb v) by lia.
  assert (Hp : forall p, (p < length Tb)%nat -> 0 <= at1 w p).
  { intros p Hp. apply (proj1 (Forall_forall _ _) Hw). apply nth_In. lia. }
  set (m := bigsum (length Tb) (fun p => at2 Tb p 0 * (at1 w p * at2 Tb p 0))).
  set (b := bigsum (length Tb) (fun p => at2 Tb p 0 * (at1 w p * at1 f p))).
  assert (Er : forall q, resid2 (normal_M 1 w Tb) (tdot 1 Tb (map2 (fun w f => Qred (w * f)) w f)) [q] == (m * q - b) * (m * q - b)).
  { intros q. unfold resid2. rewrite tdot_length. cbn [bigsum]. unfold at1 at 1 3. cbn [nth].
    rewrite normal_M_at by lia. rewrite tdot_at by (rewrite ?map2_length; lia).
    assert (Eb : bigsum (length Tb) (fun p => at2 Tb p 0 * at1 (map2 (fun w f => Qred (w * f)) w f) p) == b).
    { unfold b. apply bigsum_ext. intros. rewrite wflux_at by exact Hl. reflexivity. }
    rewrite Eb. fold m. ring. }
  assert (HH : x * x * m - 2 * (x * b) <= v * v * m - 2 * (v * b)).
  { apply nnls_scalar; try assumption.
    - apply bigsum_nonneg. intros p Hp'. assert (E : at2 Tb p 0 * (at1 w p * at2 Tb p 0) == at1 w p * (at2 Tb p 0 * at2 Tb p 0)) by ring.
      rewrite E. apply Qmult_le_0_compat; [now apply Hp|apply Qsq_nonneg].
    - intros Em. now apply zero_norm_zero_cross.
    - intros q Hq. rewrite <- !Er. apply Hmin; [reflexivity|]. constructor; [exact Hq|constructor]. }
  lra.
Qed.

(* in general it does not: |M x - y| is minimised, not chi2 *)
Definition idR (n : nat) : csr := {| r_nrow := n; r_ncol := n; r_val := repeat 1 n; r_ind := seq 0 n; r_ptr := seq 0 (n + 1) |}.
Definition ex_spec : spectrum := {| s_hash := 1%Z; s_ivar := [1;1]; s_flux := [2;-1]; s_R := idR 2 |}.
Definition ex_T : mat := [[1;1];[0;1]].
Lemma ex_design : is_design 2 [ex_spec] [(1%Z, [ex_T])] 0 ex_T.
Proof.
  apply dpso_design; [|reflexivity]. constructor; [|constructor].
  intros row jj Hr Hjj. cbn in *. destruct row as [|[|]]; cbn in Hjj; try lia; destruct jj as [|[|]]; cbn; lia.
Qed.
Definition ex_M : mat := [[1;1];[1;2]].
Definition ex_y : vec := [2;1].
Lemma ex_resid a b : resid2 ex_M ex_y [a;b] == (a + b - 2) * (a + b - 2) + (a + 2 * b - 1) * (a + 2 * b - 1).
Proof. unfold resid2. cbn. ring. Qed.
Lemma ex_chi2 a b : chi2 2 2 [1;1] [2;-1] ex_T [a;b] == (2 - a - b) * (2 - a - b) + (-1 - b) * (-1 - b).
Proof. unfold chi2, model_at. cbn. ring. Qed.
Lemma ex_bad a b : 0 <= a -> 0 <= b -> resid2 ex_M ex_y [a;b] <= resid2 ex_M ex_y [3#2;0] -> 1 < chi2 2 2 [1;1] [2;-1] ex_T [a;b].
Proof.
  intros Ha Hb H. rewrite !ex_resid in H. rewrite ex_chi2.
  destruct (Qlt_le_dec 0 b) as [Hp|Hz].
  - assert (0 <= (2 - a - b) * (2 - a - b)) by apply Qsq_nonneg. nra.
  - assert (Eb : b == 0) by lra. rewrite Eb in *.
    destruct (Qeq_dec a 2) as [E|E]; [rewrite E in H; exfalso; lra|].
    assert (Hs := Qsq_nonneg (2 - a - 0)).
    assert (~ (2 - a - 0) * (2 - a - 0) == 0). { intros E0. apply Qmult_integral in E0. apply E. destruct E0; lra. } lra.
Qed.
Lemma ex_run S alg args : calc_zchi2_batch S alg args None [ex_spec] [(1%Z, [ex_T])] [1;1] [2;-1] [2;-1] 1 2 =
  match solve_matrices S alg args ex_M ex_y with
  | Ok c => if (length c =? 2)%nat then Ok ([chi2_of [2;-1] (mvec ex_T c) [1;1]], [c]) else Err ValueError
  | Err LinAlgError | Err NotImplementedError => Ok ([HUGE_CHI2], [[0;0]])
  | Err e => Err e
  end.
Proof.
  unfold calc_zchi2_batch. change (Qeq_bool (sumQ [1; 1]) 0) with false. cbv iota. cbn [seq mapM].
  unfold zchi2_at. change (dot_product_sparse_one 2 [ex_spec] [(1%Z, [ex_T])] 0) with (Ok ex_T). cbn [rbind].
  change (negb _) with false. cbv iota. cbn [add_prior rbind]. change (normal_M 2 [1;1] ex_T) with ex_M. change (tdot 2 ex_T [2;-1]) with ex_y. cbv zeta.
  destruct (solve_matrices S alg args ex_M ex_y) as [c|e].
  - destruct (length c =? 2)%nat; reflexivity.
  - destruct e; reflexivity.
Qed.
Theorem C47_nnls_refuted : exists spectra tdata w f wf T good,
  spectral_data spectra = Ok (w, f, wf) /\ nonneg w /\ is_design 2 spectra tdata 0 T /\ length good = 2%nat /\ nonneg good /\
  forall S z c, nnls_ok S -> calc_zchi2_batch S "NNLS" None None spectra tdata w f wf 1 2 = Ok ([z], [c]) ->
    nonneg c /\ chi2 (length T) 2 w f T good < z.
Proof.
  exists [ex_spec], [(1%Z, [ex_T])], [1;1], [2;-1], [2;-1], ex_T, [2;0].
  split; [reflexivity|]. split; [repeat constructor; discriminate|]. split; [exact ex_design|]. split; [reflexivity|].
  split; [repeat constructor; discriminate|]. intros S z c HS H. rewrite ex_run in H. cbn [length].
  assert (E1 : chi2 2 2 [1;1] [2;-1] ex_T [2;0] == 1) by reflexivity. rewrite E1.
  change (solve_matrices S "NNLS" None ex_M ex_y) with (match nnls S ex_M ex_y with Ok x => Ok x | Err _ => Err LinAlgError end) in H.
  destruct (nnls S ex_M ex_y) as [x|] eqn:En.
  - apply HS in En. destruct En as (Hl & Hn & Hmin). destruct (Nat.eqb_spec (length x) 2) as [Hx|]; [|discriminate]. injection H as <- <-.
    split; [exact Hn|]. change [dot [1;1] x; dot [0;1] x] with (mvec ex_T x). rewrite (chi2_of_chi2 2) by (assumption || reflexivity).
    destruct x as [|a [|b [|]]]; try discriminate. inversion Hn as [|? ? Ha Hn2]; subst. inversion Hn2 as [|? ? Hb _]; subst.
    apply ex_bad; try assumption. apply Hmin; [reflexivity|]. repeat constructor; discriminate.
  - injection H as <- <-. split; [repeat constructor; discriminate|reflexivity].
Qed.
(* the same for the archetype bounds of the BVLS path *)
Theorem C47_bvls_refuted : exists spectra tdata w f wf T good b,
  spectral_data spectra = Ok (w, f, wf) /\ nonneg w /\ is_design 2 spectra tdata 0 T /\ length good = 2%nat /\ in_bounds b good /\
  forall S z c, bvls_ok S -> calc_zchi2_batch S "BVLS" (Some b) None spectra tdata w f wf 1 2 = Ok ([z], [c]) ->
    chi2 (length T) 2 w f T good < z.
Proof.
  exists [ex_spec], [(1%Z, [ex_T])], [1;1], [2;-1], [2;-1], ex_T, [2;0], (cam_bounds 2 2).
  assert (Hb2 : forall a b, in_bounds (cam_bounds 2 2) [a;b] <-> 0 <= a /\ 0 <= b).
  { intros a b. unfold in_bounds. cbn [length]. split.
    - intros H. split; [apply (H 0%nat); lia|apply (H 1%nat); lia].
    - intros [Ha Hb] [|[|j]] Hj; cbn; auto; lia. }
  split; [reflexivity|]. split; [repeat constructor; discriminate|]. split; [exact ex_design|]. split; [reflexivity|].
  split; [apply Hb2; split; discriminate|]. intros S z c HS H. rewrite ex_run in H. cbn [length].
  assert (E1 : chi2 2 2 [1;1] [2;-1] ex_T [2;0] == 1) by reflexivity. rewrite E1.
  change (solve_matrices S "BVLS" (Some (cam_bounds 2 2)) ex_M ex_y) with (bvls S ex_M ex_y (cam_bounds 2 2)) in H.
  destruct (bvls S ex_M ex_y (cam_bounds 2 2)) as [x|e] eqn:En.
  - apply HS in En. destruct En as (Hl & Hn & Hmin). destruct (Nat.eqb_spec (length x) 2) as [Hx|]; [|discriminate]. injection H as <- <-.
    change [dot [1;1] x; dot [0;1] x] with (mvec ex_T x). rewrite (chi2_of_chi2 2) by (assumption || reflexivity).
    destruct x as [|a [|b [|]]]; try discriminate. apply Hb2 in Hn as [Ha Hb].
    apply ex_bad; try assumption. apply Hmin; [reflexivity|]. apply Hb2. split; discriminate.
  - destruct e; try discriminate; injection H as <- <-; reflexivity.
Qed.
(* such solvers exist: the case above really is answered with [3/2; 0] *)
Definition demo : solvers := {|
  linsolve := fun M y => match M, y with
    | [[m]], [v] => if Qeq_bool m 0 then Err LinAlgError else Ok [Qred (v / m)]
    | _, _ => Err LinAlgError end;
  nnls := fun M y => match M, y with
    | [[a;b];[c;d]], [u;v] =>
        if Qeq_bool a 1 && Qeq_bool b 1 && Qeq_bool c 1 && Qeq_bool d 2 && Qeq_bool u 2 && Qeq_bool v 1 then Ok [3#2; 0] else Err RuntimeError
    | _, _ => Err RuntimeError end;
  bvls := fun _ _ _ => Err LinAlgError;
  cusolve := fun M y => map (fun _ => 0) y |}.
Lemma demo_nnls : nnls_ok demo.
Proof.
  intros M y x H. cbn [nnls demo] in H.
  destruct M as [|[|a [|b [|]]] [|[|c [|d [|]]] [|]]]; try discriminate. destruct y as [|u [|v [|]]]; try discriminate.
  destruct (Qeq_bool a 1) eqn:Ea; [|discriminate]. destruct (Qeq_bool b 1) eqn:Eb; [|discriminate].
  destruct (Qeq_bool c 1) eqn:Ec; [|discriminate]. destruct (Qeq_bool d 2) eqn:Ed; [|discriminate].
  destruct (Qeq_bool u 2) eqn:Eu; [|discriminate]. destruct (Qeq_bool v 1) eqn:Ev; [|discriminate].
  apply Qeq_bool_iff in Ea, Eb, Ec, Ed, Eu, Ev. injection H as <-.
  split; [reflexivity|]. split; [repeat constructor; discriminate|].
  intros [|p [|q [|]]] Hl Hn; try discriminate. inversion Hn as [|? ? Hp Hn2]; subst. inversion Hn2 as [|? ? Hq _]; subst.
  assert (Er : forall s t, resid2 [[a;b];[c;d]] [u;v] [s;t] == (s + t - 2) * (s + t - 2) + (s + 2 * t - 1) * (s + 2 * t - 1)).
  { intros s t. unfold resid2. cbn. rewrite Ea, Eb, Ec, Ed, Eu, Ev. ring. }
  rewrite !Er.
  assert (E : (p + q - 2) * (p + q - 2) + (p + 2 * q - 1) * (p + 2 * q - 1) ==
     (1#2) + q + (p - (3#2) + q) * (p - (3#2) + q) + (p - (3#2) + 2 * q) * (p - (3#2) + 2 * q)) by ring.
  rewrite E. pose proof (Qsq_nonneg (p - (3#2) + q)). pose proof (Qsq_nonneg (p - (3#2) + 2 * q)). lra.
Qed.
Lemma demo_linsolve : linsolve_ok demo.
Proof.
  intros M y x H. cbn [linsolve demo] in H.
  destruct M as [|[|m [|]] [|]]; try discriminate. destruct y as [|v [|]]; try discriminate.
  destruct (Qeq_bool m 0) eqn:E; [discriminate|]. apply Qeq_bool_neq in E. injection H as <-.
  split; [reflexivity|]. intros [|r] Hr; cbn [length] in Hr; [|lia]. unfold at2, at1. cbn [bigsum nth length]. pose proof (Qred_correct (v / m)) as Er. rewrite Er. field. exact E.
Qed.
Example C47_instance : calc_zchi2_batch demo "NNLS" None None [ex_spec] [(1%Z, [ex_T])] [1;1] [2;-1] [2;-1] 1 2 = Ok ([5#4], [[3#2;0]]).
Proof. reflexivity. Qed.
(* C43: flux [2;3], weights [1;4], one template [1;1] at two redshifts *)
Definition ex1 : spectrum := {| s_hash := 1%Z; s_ivar := [1;4]; s_flux := [2;3]; s_R := idR 2 |}.
Example C43_instance : calc_zchi2_batch demo "PCA" None None [ex1] [(1%Z, [[[1];[1]]; [[1];[2]]])] [1;4] [2;3] [2;12] 2 1
  = Ok ([4#5; 4#17], [[14#5]; [26#17]]).
Proof. reflexivity. Qed.

(* ================= C48 ================= *)
(* columns of camera i: the archetype columns are kept, the Legendre terms go to
   block i, every other block is zero *)
Theorem C48_columns n_nbh nleg nbasis j tdata td i hs T A l : cam_tdata n_nbh nleg nbasis j tdata = Ok td ->
  nth_error tdata i = Some (hs, T) -> nth_error T j = Some A -> (l < length A)%nat ->
  exists A', nth_error td i = Some (hs, [A']) /\ length A' = length A /\
    (forall k, (k < n_nbh)%nat -> at2 A' l k = at2 A l k) /\
    (forall m, (m < nleg)%nat -> at2 A' l (n_nbh + i * nleg + m) = at2 A l (n_nbh + m)) /\
    (forall i' m, i' <> i -> (m < nleg)%nat -> at2 A' l (n_nbh + i' * nleg + m) = 0).
Proof.
  intros H Hi HA Hl. destruct (cam_tdata_spec _ _ _ _ _ _ H) as [_ Hs]. destruct (Hs i hs T Hi) as (A0 & HA0 & Hb & Htd).
  rewrite HA in HA0. injection HA0 as <-. exists (map (cam_row n_nbh nleg nbasis i) A). split; [exact Htd|]. split; [apply map_length|].
  assert (Er : forall k, at2 (map (cam_row n_nbh nleg nbasis i) A) l k = at1 (cam_row n_nbh nleg nbasis i (nth l A [])) k).
  { intros k. unfold at2, at1. rewrite (nth_indep _ [] (cam_row n_nbh nleg nbasis i [])) by now rewrite map_length. now rewrite map_nth. }
  split; [|split].
  - intros k Hk. rewrite Er, cam_row_at by lia. destruct (Nat.ltb_spec k n_nbh); [reflexivity|lia].
  - intros m Hm. rewrite Er, cam_row_at by lia. destruct (Nat.ltb_spec (n_nbh + i * nleg + m) n_nbh); [lia|].
    destruct (Nat.leb_spec (n_nbh + nleg * i) (n_nbh + i * nleg + m)); [|lia].
    destruct (Nat.ltb_spec (n_nbh + i * nleg + m) (n_nbh + nleg * i + nleg)); [|lia]. cbn [andb]. unfold at2. f_equal. lia.
  - intros i' m Hne Hm. rewrite Er. destruct (Nat.lt_ge_cases (n_nbh + i' * nleg + m) nbasis) as [Hlt|Hge].
    + rewrite cam_row_at by exact Hlt. destruct (Nat.ltb_spec (n_nbh + i' * nleg + m) n_nbh); [lia|].
      destruct (Nat.leb_spec (n_nbh + nleg * i) (n_nbh + i' * nleg + m)); [|reflexivity].
      destruct (Nat.ltb_spec (n_nbh + i' * nleg + m) (n_nbh + nleg * i + nleg)); [|reflexivity]. exfalso. nia.
    + unfold at1. apply nth_overflow. unfold cam_row. rewrite tab_length. lia.
Qed.
(* hence, after the resolution matrices, no pixel sees the Legendre columns of two cameras *)
Theorem C48_disjoint_support n_nbh nleg nbasis j tdata td spectra T p i1 m1 i2 m2 :
  NoDup (map fst tdata) -> cam_tdata n_nbh nleg nbasis j tdata = Ok td ->
  Forall (fun s => wf_csr (s_R s)) spectra -> is_design nbasis spectra td 0 T ->
  i1 <> i2 -> (m1 < nleg)%nat -> (m2 < nleg)%nat ->
  (n_nbh + i1 * nleg + m1 < nbasis)%nat -> (n_nbh + i2 * nleg + m2 < nbasis)%nat ->
  at2 T p (n_nbh + i1 * nleg + m1) == 0 \/ at2 T p (n_nbh + i2 * nleg + m2) == 0.
Proof.
  intros Hnd Htd Hwf (bl & -> & HB) Hne Hm1 Hm2 Hb1 Hb2.
  destruct (cam_tdata_spec _ _ _ _ _ _ Htd) as [Hlen Hs]. revert p.
  induction HB as [|s B ss bs HsB _ IH]; intros p; [left; unfold at2; now destruct p, (n_nbh + i1 * nleg + m1)%nat|].
  cbn [concat]. rewrite !at2_app. destruct (Nat.ltb_spec p (length B)) as [Hp|Hp]; [|apply IH; now inversion Hwf].
  destruct HsB as (A' & (L & HL & HLA) & HBl & HBv). rewrite HBl in Hp. apply dget_pos in HL as (i & Hi).
  assert (Hti : exists hsT, nth_error tdata i = Some hsT) by (apply nth_error_lt_ex; rewrite <- Hlen; eapply nth_error_Some_lt; exact Hi).
  destruct Hti as ((hs & T0) & Hti). destruct (Hs i hs T0 Hti) as (A & HA & Hbd & Htdi). rewrite Htdi in Hi. injection Hi as Eh EL.
  rewrite <- EL in HLA. cbn [nth_error] in HLA. injection HLA as HLA. subst A'.
  assert (Hz : forall i' m, i' <> i -> (m < nleg)%nat -> (n_nbh + i' * nleg + m < nbasis)%nat -> at2 B p (n_nbh + i' * nleg + m) == 0).
  { intros i' m Hi' Hm Hlt. rewrite HBv by assumption. apply bigsum_zero. intros l Hl.
    destruct (Nat.lt_ge_cases l (length A)) as [HlA|HlA].
    - destruct (C48_columns _ _ _ _ _ _ i hs T0 A l Htd Hti HA HlA) as (A2 & HA2 & _ & _ & _ & H0).
      rewrite Htdi in HA2. injection HA2 as <-. rewrite H0 by assumption. ring.
    - unfold at2. rewrite (nth_overflow (map _ A)) by (rewrite map_length; exact HlA).
      assert (E : forall k, nth k ([] : list Q) 0 = 0) by now intros [|k]. rewrite E. ring. }
  destruct (Nat.eq_dec i1 i) as [->|]; [right; now apply Hz; auto|left; now apply Hz].
Qed.
(* layout of the returned coefficients: exactly the fitted vector, archetype
   coefficients first, then nleg per camera in the order of target.bands
   (= order of target.spectra, which eval_model uses); the "re-ordering" of
   zscan.py 344-345 changes nothing *)
Theorem C48_layout S method prior spectra tdata w f wf nleg narch n_nbh bands z c :
  (1 <= n_nbh)%nat -> n_nbh = 1%nat \/ narch = 1%nat -> NoDup bands -> ~ In "alpha"%string bands ->
  per_camera_fit S method prior spectra tdata w f wf nleg narch n_nbh bands = Ok (z, c) ->
  let nbasis := (n_nbh + nleg * length bands)%nat in
  length z = narch /\ length c = narch /\
  forall j, (j < narch)%nat -> length (nth j c []) = nbasis /\
    exists td, cam_tdata n_nbh nleg nbasis j tdata = Ok td /\
    calc_zchi2_batch S method (if String.eqb (upper method) "BVLS" then Some (cam_bounds n_nbh nbasis) else None) prior
       spectra td w f wf 1 nbasis = Ok ([nth j z 0], [nth j c []]).
Proof.
  intros Hn1 Hn Hnd Ha H nbasis. unfold per_camera_fit in H. fold nbasis in H.
  destruct (mapM _ (seq 0 narch)) as [r|e] eqn:Er; [|discriminate]. cbn [rbind] in H. apply mapM_Forall2 in Er.
  assert (Hlr : length r = narch) by (apply Forall2_len in Er; rewrite seq_length in Er; lia).
  assert (Hb : forall j, (j < narch)%nat -> exists td, cam_tdata n_nbh nleg nbasis j tdata = Ok td /\
     calc_zchi2_batch S method (if String.eqb (upper method) "BVLS" then Some (cam_bounds n_nbh nbasis) else None) prior
       spectra td w f wf 1 nbasis = Ok ([nth j (map fst r) 0], [nth j (map snd r) []]) /\ length (nth j (map snd r) []) = nbasis).
  { intros j Hj. assert (Hsj : nth_error (seq 0 narch) j = Some j) by (rewrite (nth_error_nth' _ O) by (rewrite seq_length; lia); now rewrite seq_nth).
    destruct (Forall2_nth _ _ _ j j Er Hsj) as (y & Hy & E). cbn beta in E.
    destruct (cam_tdata n_nbh nleg nbasis j tdata) as [td|e]; [|discriminate]. cbn [rbind] in E. exists td. split; [reflexivity|].
    destruct (calc_zchi2_batch _ _ _ _ _ _ _ _ _ _ _) as [[zz cc]|e] eqn:Eb; [|discriminate]. cbn [rbind fst snd] in E. injection E as <-.
    assert (E1 : nth j (map fst r) 0 = hd 0 zz) by (apply nth_error_nth; rewrite nth_error_map, Hy; reflexivity).
    assert (E2 : nth j (map snd r) [] = hd [] cc) by (apply nth_error_nth; rewrite nth_error_map, Hy; reflexivity).
    unfold vec in *. rewrite E1, E2. destruct (Qeq_dec (sumQ w) 0) as [Ew|Ew].
    - unfold calc_zchi2_batch in Eb. apply Qeq_bool_iff in Ew. rewrite Ew in Eb. injection Eb as <- <-. split; [reflexivity|]. cbn [repeat hd]. apply repeat_length.
    - destruct (batch_inv _ _ _ _ _ _ _ _ _ _ _ _ _ Ew Eb) as (q & Hq & -> & ->). cbn [seq mapM] in Hq.
      destruct (zchi2_at _ _ _ _ _ _ _ _ _ _ 0) as [q0|] eqn:Eq; [|discriminate]. cbn [rbind] in Hq. injection Hq as <-. cbn [map hd].
      split; [reflexivity|]. eapply fit_length. exact Eq. }
  rewrite assemble_identity in H.
  - cbn [rbind] in H. injection H as <- <-. rewrite !map_length. split; [lia|]. split; [lia|]. intros j Hj. destruct (Hb j Hj) as (td & H1 & H2 & H3).
    split; [exact H3|]. exists td. split; assumption.
  - exact Hn1.
  - rewrite map_length. destruct Hn; [now left|right; lia].
  - exact Hnd.
  - exact Ha.
  - apply Forall_forall. intros x Hx. apply (In_nth _ _ []) in Hx as (j & Hj & <-). rewrite map_length in Hj. destruct (Hb j) as (td & _ & _ & H3); [lia|]. exact H3.
Qed.
(* with BVLS the amplitudes of the archetypes must not be negative, and nothing else is bounded *)
Theorem C48_only_amplitudes_bounded : forall n nbasis (c : vec), length c = nbasis ->
  (in_bounds (cam_bounds n nbasis) c <-> forall k, (k < n)%nat -> (k < nbasis)%nat -> 0 <= at1 c k).
Proof.
  intros n nbasis c Hl. assert (E : forall k, (k < nbasis)%nat -> nth k (fst (cam_bounds n nbasis)) None = if (k <? n)%nat then Some 0 else None).
  { intros k Hk. unfold cam_bounds. cbn [fst]. rewrite nth_indep with (d' := (fun k => if (k <? n)%nat then Some 0 else None) 0%nat) by (rewrite map_length, seq_length; exact Hk).
    rewrite (map_nth (fun k => if (k <? n)%nat then Some 0 else None)), seq_nth by exact Hk. reflexivity. }
  assert (E2 : forall k, nth k (snd (cam_bounds n nbasis)) None = None) by (intro k; unfold cam_bounds; cbn [snd]; apply nth_repeat).
  unfold in_bounds. rewrite Hl. split.
  - intros H k Hk Hb. destruct (H k Hb) as [H1 _]. rewrite E in H1 by exact Hb. apply Nat.ltb_lt in Hk. rewrite Hk in H1. exact H1.
  - intros H k Hb. rewrite E, E2 by exact Hb. split; [|exact I]. destruct (Nat.ltb_spec k n) as [Hk|Hk]; [now apply H|exact I].
Qed.
Theorem C48_amplitudes_not_negative S prior spectra tdata w f wf nleg narch n_nbh bands z c :
  bvls_ok S -> ~ sumQ w == 0 -> (1 <= n_nbh)%nat -> n_nbh = 1%nat \/ narch = 1%nat -> NoDup bands -> ~ In "alpha"%string bands ->
  per_camera_fit S "bvls" prior spectra tdata w f wf nleg narch n_nbh bands = Ok (z, c) ->
  forall j k, (j < narch)%nat -> (k < n_nbh)%nat -> 0 <= at1 (nth j c []) k.
Proof.
  intros HS Hw Hn Hn1 Hnd Ha H j k Hj Hk. destruct (C48_layout _ _ _ _ _ _ _ _ _ _ _ _ _ _ Hn Hn1 Hnd Ha H) as (_ & _ & Hall).
  destruct (Hall j Hj) as (Hlen & td & _ & Hb). cbn [upper String.eqb] in Hb.
  change (String.eqb (upper "bvls") "BVLS") with true in Hb. cbv iota in Hb.
  destruct (C47_bvls_in_bounds S _ _ _ _ _ _ _ 1%nat _ _ _ 0%nat HS Hw ltac:(lia) Hb) as [Hi|[_ Hi]]; cbn [nth] in Hi.
  - refine (proj1 (C48_only_amplitudes_bounded n_nbh _ _ Hlen) Hi k Hk _). lia.
  - rewrite Hi. unfold at1. assert (E : nth k (repeat 0 (n_nbh + nleg * length bands)) 0 = 0) by apply nth_repeat. unfold vec in *. rewrite E. lra.
Qed.
(* a target with two spectra in the same band: the coefficients of that band come
   from the second block, whose columns are all zero, and the fitted ones are dropped *)
Theorem C48_repeated_band_refuted : exists n_nbh nleg bands zz coeff, n_nbh = 1%nat /\
  cam_assemble n_nbh nleg bands zz = Ok coeff /\ nth 0 zz [] = [5; 7; 0] /\ nth 0 coeff [] = [5; 0].
Proof. exists 1%nat, 1%nat, ["b"; "b"]%string, [[5; 7; 0]], [[5; 0]]. repeat split. Qed.
Example C48_instance : cam_assemble 1 2 ["b"; "z"; "r"]%string [[1; 2; 3; 4; 5; 6; 7]] = Ok [[1; 2; 3; 4; 5; 6; 7]].
Proof. reflexivity. Qed.

(* ================= C49 ================= *)
Theorem C49_one_at_a_time S alg args prior spectra tdata w f wf nz nb i : ~ sumQ w == 0 ->
  (forall k L, In (k, L) tdata -> length L = nz) -> (i < nz)%nat ->
  forall z c, calc_zchi2_batch S alg args prior spectra tdata w f wf nz nb = Ok (z, c) ->
  calc_zchi2_batch S alg args prior spectra (slice1 i tdata) w f wf 1 nb = Ok ([nth i z 0], [nth i c []]) /\
  (args = None -> prior = None -> calc_zchi2_one S alg nb spectra w f wf (slice i tdata) = Ok (nth i z 0, nth i c [])).
Proof.
  intros Hw HL Hi z c H. eapply batch_at in H; [|exact Hw|exact Hi].
  assert (HL' : forall k L, In (k, L) tdata -> (i < length L)%nat) by (intros k L HkL; rewrite (HL k L HkL); exact Hi).
  split.
  - unfold calc_zchi2_batch. destruct (Qeq_bool (sumQ w) 0) eqn:E; [apply Qeq_bool_iff in E; contradiction|].
    cbn [seq mapM]. rewrite at_slice by exact HL'. rewrite H. reflexivity.
  - intros -> ->. rewrite one_at by exact HL'. exact H.
Qed.
(* the batch succeeds exactly when every single evaluation does *)
Theorem C49_success S alg args prior spectra tdata w f wf nz nb : ~ sumQ w == 0 ->
  (forall k L, In (k, L) tdata -> length L = nz) ->
  ((exists r, calc_zchi2_batch S alg args prior spectra tdata w f wf nz nb = Ok r) <->
   forall i, (i < nz)%nat -> exists r, calc_zchi2_batch S alg args prior spectra (slice1 i tdata) w f wf 1 nb = Ok r).
Proof.
  intros Hw HL. split.
  - intros [[z c] H] i Hi. eexists. apply (C49_one_at_a_time _ _ _ _ _ _ _ _ _ _ _ i Hw HL Hi z c H).
  - intros H. unfold calc_zchi2_batch in *. destruct (Qeq_bool (sumQ w) 0) eqn:E; [apply Qeq_bool_iff in E; contradiction|].
    assert (Hm : exists r, mapM (zchi2_at S alg args prior nb spectra tdata w f wf) (seq 0 nz) = Ok r).
    { destruct (mapM_ok (zchi2_at S alg args prior nb spectra tdata w f wf) (fun _ _ => True) (seq 0 nz)) as (m & Hm & _); [|eauto].
      intros i Hi. apply in_seq in Hi. destruct (H i) as [r Hr]; [lia|].
      rewrite <- (at_slice _ _ _ _ _ _ tdata) by (intros k L HkL; rewrite (HL k L HkL); lia). cbn [seq mapM] in Hr.
      destruct (zchi2_at S alg args prior nb spectra (slice1 i tdata) w f wf 0) as [q|]; [exists q; auto|discriminate]. }
    destruct Hm as [r ->]. eexists. reflexivity.
Qed.
(* the result at one redshift does not depend on the templates at the others *)
Theorem C49_independent S alg args prior spectra tdata tdata' w f wf nz nb i z c z' c' : ~ sumQ w == 0 ->
  (forall k L, In (k, L) tdata -> length L = nz) -> (forall k L, In (k, L) tdata' -> length L = nz) -> (i < nz)%nat ->
  slice i tdata = slice i tdata' ->
  calc_zchi2_batch S alg args prior spectra tdata w f wf nz nb = Ok (z, c) ->
  calc_zchi2_batch S alg args prior spectra tdata' w f wf nz nb = Ok (z', c') ->
  nth i z 0 = nth i z' 0 /\ nth i c [] = nth i c' [].
Proof.
  intros Hw HL HL' Hi Hs H H'.
  destruct (C49_one_at_a_time _ _ _ _ _ _ _ _ _ _ _ i Hw HL Hi z c H) as [H1 _].
  destruct (C49_one_at_a_time _ _ _ _ _ _ _ _ _ _ _ i Hw HL' Hi z' c' H') as [H2 _].
  assert (Es : slice1 i tdata = slice1 i tdata').
  { unfold slice1, slice in *. assert (forall t : tdict, map (fun kv => (fst kv, [nth i (snd kv) []])) t = map (fun kv => (fst kv, [snd kv])) (map (fun kv => (fst kv, nth i (snd kv) [])) t)) as Hm by (intros; now rewrite map_map).
    rewrite !Hm, Hs. reflexivity. }
  rewrite Es, H2 in H1. injection H1 as -> ->. auto.
Qed.

Print Assumptions C43_least_squares.
Print Assumptions C43_with_prior.
Print Assumptions C44_masked_pixels.
Print Assumptions C45_nonnegative.
Print Assumptions C46_penalty.
Print Assumptions C47_nnls_refuted.
Print Assumptions C47_nnls_optimum_partial.
Print Assumptions C47_nnls_single_partial.
Print Assumptions C48_disjoint_support.
Print Assumptions C48_layout.
Print Assumptions C49_success.
Print Assumptions C49_independent.
