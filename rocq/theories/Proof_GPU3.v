From Verif Require Import Prelude PreludeFacts Facts2 Model_Fitz Model_Dist Model_Rebin Model_Zscan Spec_Zscan
  Proof_Zscan Proof_Zscan2 Proof_Zscan3 Proof_RebinGPU Model_GPU Proof_GPU Proof_GPU2 Proof_Table.
Local Arguments Qred : simpl never.
Local Open Scope nat_scope.

Lemma list_ext {A} (d : A) (l l' : list A) : length l = length l' -> (forall i, i < length l -> nth i l d = nth i l' d) -> l = l'.
Proof. intros H1 H2. apply (nth_ext l l' d d); auto. Qed.
Lemma mat_ext n m (A B : mat) : length A = n -> length B = n -> (forall r, In r A -> length r = m) -> (forall r, In r B -> length r = m) ->
  (forall i j, i < n -> j < m -> at2 A i j = at2 B i j) -> A = B.
Proof.
  intros HA HB RA RB H. apply (list_ext []); [congruence|]. intros i Hi.
  assert (L1 : length (nth i A []) = m) by (apply RA, nth_In; lia).
  assert (L2 : length (nth i B []) = m) by (apply RB, nth_In; lia).
  apply (list_ext 0%Q); [congruence|]. intros j Hj. apply H; lia.
Qed.

Lemma weighted_length w Tb : length w = length Tb -> length (weighted w Tb) = length Tb.
Proof. intros H. unfold weighted. rewrite map2_len by congruence. exact H. Qed.
Lemma weighted_rows w Tb nb : (forall r, In r Tb -> length r = nb) -> forall r, In r (weighted w Tb) -> length r = nb.
Proof.
  unfold weighted. revert Tb. induction w as [|x w IH]; intros [|row Tb] H r Hr; cbn [map2] in Hr; try contradiction.
  destruct Hr as [<-|Hr]; [rewrite map_length; apply H; left; reflexivity|]. eapply IH; [|exact Hr]. intros; apply H; right; assumption.
Qed.
Lemma weighted_at w Tb j k : length w = length Tb -> j < length Tb -> k < length (nth j Tb []) ->
  at2 (weighted w Tb) j k = (at1 w j * at2 Tb j k)%Q.
Proof.
  intros H Hj Hk. unfold at2 at 1, weighted. rewrite (map2_nth _ 0%Q []) by lia.
  rewrite (nth_indep _ 0%Q (at1 w j * 0)%Q) by (rewrite map_length; exact Hk). unfold at1. rewrite (map_nth (fun v => nth j w 0 * v)%Q). reflexivity.
Qed.

(* batch_dot_product_3d3d on the design matrices: the normal matrices *)
Lemma Ms_ok sched fp nz nrows nb Tbs w : schedule sched fp nz nb -> length Tbs = nz -> shaped nrows nb Tbs -> length w = nrows ->
  dot_3d3d sched fp true nz nrows nb (flat3 Tbs) (flat3 (map (weighted w) Tbs)) = Ok (map (normal_M nb w) Tbs).
Proof.
  intros Hs HT HS Hw.
  assert (HSw : shaped nrows nb (map (weighted w) Tbs)).
  { intros A HA. apply in_map_iff in HA. destruct HA as (B & <- & HB). destruct (HS B HB) as (H1 & H2).
    split; [rewrite weighted_length; congruence|]. apply weighted_rows. exact H2. }
  destruct (dot_3d3d_ok (flat3 Tbs) (flat3 (map (weighted w) Tbs)) nz nrows nb true
     (fun t c j => at2 (nth t Tbs []) j c) (fun t r j => at1 w j * at2 (nth t Tbs []) j r)%Q) with (sched := sched) (fp := fp)
   as (Ms & E & LM & SM & HM).
  - intros t c j Ht Hc Hj. cbv beta iota. replace (t * nrows * nb + c + j * nb) with ((t * nrows + j) * nb + c) by lia.
    apply flat3_get; auto; lia.
  - intros t r j Ht Hr Hj. replace (t * nrows * nb + r + j * nb) with ((t * nrows + j) * nb + r) by lia.
    rewrite (flat3_get nrows nb) by (auto; rewrite map_length; lia). f_equal.
    rewrite (nth_indep _ [] (weighted w [])) by (rewrite map_length; lia). rewrite (map_nth (weighted w)).
    destruct (HS (nth t Tbs [])) as (H1 & H2); [apply nth_In; lia|].
    assert (Hj' : j < length (nth t Tbs [])) by exact (eq_ind_r (lt j) Hj H1).
    apply weighted_at; [exact (eq_trans Hw (eq_sym H1))|exact Hj'|]. exact (eq_ind_r (lt r) Hr (H2 (nth j (nth t Tbs []) []) (nth_In _ _ Hj'))).
  - exact Hs.
  - rewrite E. f_equal. apply (list_ext (A:=mat) []); [rewrite map_length; exact (eq_trans LM (eq_sym HT))|]. intros t Ht. rewrite LM in Ht.
    rewrite (nth_indep (map (normal_M nb w) Tbs) [] (normal_M nb w [])) by (rewrite map_length; lia). rewrite (map_nth (normal_M nb w)).
    destruct (HS (nth t Tbs [])) as (H1 & H2); [apply nth_In; lia|].
    destruct (SM (nth t Ms [])) as (S1 & S2); [apply nth_In; lia|].
    apply (mat_ext nb nb); auto using normal_M_length.
    { apply Forall_forall, normal_M_rows. }
    intros r c Hr Hc. destruct (HM t r c Ht Hr Hc) as (Hred & Hval).
    assert (Hred2 : Qred (at2 (normal_M nb w (nth t Tbs [])) r c) = at2 (normal_M nb w (nth t Tbs [])) r c).
    { unfold at2, normal_M. rewrite (nth_tab _ nb [] r) by assumption. rewrite (nth_tab _ nb 0%Q c) by assumption. unfold dot. apply Qred_idem. }
    rewrite <- Hred, <- Hred2. apply Qred_complete. rewrite Hval, normal_M_at by (auto; congruence). rewrite H1.
    apply bigsum_ext. intros j Hj. lra.
Qed.

Ltac lcong := unfold mat, vec in *; congruence.
Ltac llia := unfold mat, vec in *; lia.
Lemma models_ok junk nz nrows nb Tbs zc : length Tbs = nz -> shaped nrows nb Tbs -> length zc = nz -> (forall c, In c zc -> length c = nb) ->
  dot_3d2d junk nz nrows nb (flat3 Tbs) (concat zc) = Ok (map2 mvec Tbs zc).
Proof.
  intros HT HS HZ HC. unfold dot_3d2d.
  pose (f := fun i => dot (nth (i mod nrows) (nth (i / nrows) Tbs []) []) (nth (i / nrows) zc [])).
  rewrite (mapM_ok _ f).
  - cbn [rbind]. f_equal. replace (nrows * nz) with (nz * nrows) by llia. rewrite chunk_tab. cbn [Nat.add].
    apply (list_ext []); [rewrite map_length, seq_length, map2_len; lcong|].
    rewrite map_length, seq_length. intros t Ht. rewrite nth_tab by exact Ht.
    rewrite (map2_nth mvec [] [] []) by lcong. destruct (HS (nth t Tbs [])) as (H1 & _); [apply nth_In; llia|].
    apply (list_ext 0%Q); [rewrite map_length, seq_length, mvec_length; lcong|].
    rewrite map_length, seq_length. intros p Hp. rewrite seq_as_map, map_map. rewrite nth_tab by exact Hp.
    rewrite mvec_nth by llia. unfold f.
    replace ((t * nrows + p) / nrows) with t by (apply (Nat.div_unique _ _ _ p); llia).
    replace ((t * nrows + p) mod nrows) with p by (apply (Nat.mod_unique _ _ t); llia). reflexivity.
  - intros i Hi. apply in_seq in Hi. pose proof (launched_ge (nrows * nz)).
    replace (i <? launched (nrows * nz)) with true by (symmetry; apply Nat.ltb_lt; llia).
    assert (Hn : nrows <> 0) by (intros E; rewrite E in Hi; llia).
    unfold thread_3d2d, f. set (t := i / nrows). set (p := i mod nrows).
    assert (Ht : t < nz) by (apply Nat.div_lt_upper_bound; llia).
    assert (Hp : p < nrows) by (apply Nat.mod_upper_bound; exact Hn).
    destruct (HS (nth t Tbs [])) as (H1 & H2); [apply nth_In; llia|].
    assert (Hrow : length (nth p (nth t Tbs []) []) = nb) by (apply H2, nth_In; llia).
    assert (Hz : length (nth t zc []) = nb) by (apply HC, nth_In; llia).
    destruct (accum_ok (fun j => do x <- get (flat3 Tbs) (t * nrows * nb + p * nb + j); do z <- get (concat zc) (t * nb + j); Ok (x * z)%Q)
       (fun j => at2 (nth t Tbs []) p j * at2 zc t j)%Q (seq 0 nb) 0%Q) as (v & E & Hv).
    { intros j Hj. apply in_seq in Hj. replace (t * nrows * nb + p * nb + j) with ((t * nrows + p) * nb + j) by llia.
      rewrite (flat3_get nrows nb) by (auto; llia). cbn [rbind]. rewrite (flat_get nb) by (auto; llia). reflexivity. }
    rewrite E. cbn [rbind]. f_equal. unfold dot. apply Qred_complete. rewrite Hv.
    rewrite sumQ_map_seq. 
    pose proof (dot_bigsum (nth p (nth t Tbs []) []) (nth t zc []) nb ltac:(llia)) as Hd. unfold dot in Hd.
    rewrite (Qred_correct) in Hd. rewrite Hd, Qplus_0_l. reflexivity.
Qed.

(* the device solvers agree with the host solvers wherever those succeed *)
Definition gpu_solvers (S : solvers) : Prop :=
  (forall M y, length (cusolve S M y) = length y) /\
  (forall M y x, linsolve S M y = Ok x -> cusolve S M y = x) /\
  (forall M y b, bvls S M y b <> Err NotImplementedError).

Lemma combine_in_nth {A B} (l : list A) (m : list B) da db p : In p (combine l m) ->
  exists i, i < length l /\ i < length m /\ fst p = nth i l da /\ snd p = nth i m db.
Proof.
  intros H. destruct (In_nth _ _ (da, db) H) as (i & Hi & E). rewrite combine_length in Hi.
  exists i. split; [llia|]. split; [llia|]. revert E. clear H. revert m i Hi; induction l as [|a l IH]; intros [|b m] i Hi E; cbn [length] in Hi; try llia.
  destruct i as [|i]; cbn [combine nth] in *; [rewrite <- E; split; reflexivity|]. apply (IH m i); [llia|exact E].
Qed.

Lemma solve_gpu_ok S alg args nz nb Ms ys : gpu_solvers S -> length Ms = nz -> length ys = nz -> (forall y, In y ys -> length y = nb) ->
  (forall i, i < nz -> (exists c, solve_matrices S alg args (nth i Ms []) (nth i ys []) = Ok c /\ length c = nb) \/
     solve_matrices S alg args (nth i Ms []) (nth i ys []) = Err LinAlgError \/
     solve_matrices S alg args (nth i Ms []) (nth i ys []) = Err NotImplementedError) ->
  (solve_gpu S alg args Ms ys = Err NotImplementedError /\ (forall i c, i < nz -> solve_matrices S alg args (nth i Ms []) (nth i ys []) <> Ok c))
  \/ exists zc, solve_gpu S alg args Ms ys = Ok zc /\ length zc = nz /\ (forall c, In c zc -> length c = nb) /\
     forall i c, i < nz -> solve_matrices S alg args (nth i Ms []) (nth i ys []) = Ok c -> length c = nb -> nth i zc [] = c.
Proof.
  intros (G1 & G2 & G3) HM HY Hy Hi. unfold solve_gpu, solve_matrices in *. destruct (String.eqb (upper alg) "PCA").
  - right. rewrite (mapM_ok _ (fun p => cusolve S (fst p) (snd p))).
    2:{ intros p _. rewrite G1, Nat.eqb_refl. reflexivity. }
    eexists. split; [reflexivity|]. split; [rewrite map_length, combine_length; llia|]. split.
    + intros c Hc. apply in_map_iff in Hc. destruct Hc as (p & <- & Hp). rewrite G1.
      destruct (combine_in_nth _ _ [] [] _ Hp) as (i & _ & Hi2 & _ & Hsnd).
      exact (eq_trans (f_equal (@length Q) Hsnd) (Hy _ (nth_In _ _ Hi2))).
    + intros i c Hlt Hc _. rewrite (nth_indep _ [] (cusolve S (fst (([], []) : mat * vec)) (snd (([], []) : mat * vec)))) by (rewrite map_length, combine_length; llia).
      rewrite (map_nth (fun p : mat * vec => cusolve S (fst p) (snd p))), combine_nth by lcong. apply G2. exact Hc.
  - destruct (String.eqb (upper alg) "NMF" || String.eqb (upper alg) "NNLS") eqn:EN.
    + right. eexists. split; [reflexivity|]. split; [rewrite map_length, combine_length; llia|]. split.
      * intros c Hc. apply in_map_iff in Hc. destruct Hc as (p & <- & Hp).
        destruct (combine_in_nth _ _ [] [] _ Hp) as (i & _ & Hi2 & _ & Hsnd).
        assert (Hl : length (snd p) = nb) by exact (eq_trans (f_equal (@length Q) Hsnd) (Hy _ (nth_In _ _ Hi2))).
        destruct (nnls S (fst p) (snd p)) as [x|]; [|rewrite repeat_length; exact Hl].
        destruct (Nat.eqb_spec (length x) (length (snd p))); [lcong|rewrite repeat_length; exact Hl].
      * intros i c Hlt Hc Hlc.
        set (g := fun p : mat * vec => let bad := repeat HUGE_CHI2 (length (snd p)) in
                      match nnls S (fst p) (snd p) with
                      | Ok x => if length x =? length (snd p) then x else bad
                      | Err _ => bad end).
        rewrite (nth_indep _ [] (g ([], []))) by (rewrite map_length, combine_length; llia).
        rewrite (map_nth g), combine_nth by lcong. unfold g. cbn [fst snd].
        destruct (nnls S (nth i Ms []) (nth i ys [])) as [x|]; [|discriminate]. assert (c = x) as -> by lcong.
        rewrite (Hy (nth i ys [])) by (apply nth_In; llia). rewrite Hlc, Nat.eqb_refl. reflexivity.
    + destruct (String.eqb (upper alg) "BVLS").
      * right.
        pose (g := fun p : mat * vec => match bvls S (fst p) (snd p) (the_bounds args (snd p)) with
             | Ok x => x | Err _ => repeat HUGE_CHI2 (length (snd p)) end).
        assert (HG : forall p, In p (combine Ms ys) ->
           match bvls S (fst p) (snd p) (the_bounds args (snd p)) with
                   | Ok x => if length x =? length (snd p) then Ok x else Err ValueError
                   | Err LinAlgError => Ok (repeat HUGE_CHI2 (length (snd p)))
                   | Err e => Err e end = Ok (g p) /\ length (g p) = nb).
        { intros [Mp yp] Hp. destruct (combine_in_nth _ _ [] [] _ Hp) as (i & Hi1 & Hi2 & Hf & Hs). rewrite HM in Hi1. cbn [fst snd] in *.
          assert (Hl : length yp = nb) by exact (eq_trans (f_equal (@length Q) Hs) (Hy _ (nth_In _ _ Hi2))).
          unfold g; cbn [fst snd]. rewrite Hl. destruct (Hi i Hi1) as [(c & Hc & Lc)|[Hc|Hc]]; rewrite <- Hf, <- Hs in Hc; rewrite Hc.
          - rewrite Lc, Nat.eqb_refl. split; [reflexivity|first [exact Lc|reflexivity]].
          - split; [reflexivity|apply repeat_length].
          - exfalso. exact (G3 _ _ _ Hc). }
        rewrite (mapM_ok _ g) by (intros p Hp; exact (proj1 (HG p Hp))).
        eexists. split; [reflexivity|]. split; [rewrite map_length, combine_length; llia|]. split.
        -- intros c Hc. apply in_map_iff in Hc. destruct Hc as (p & <- & Hp). exact (proj2 (HG p Hp)).
        -- intros i c Hlt Hc _. rewrite (nth_indep _ [] (g ([], []))) by (rewrite map_length, combine_length; llia).
           rewrite (map_nth g), combine_nth by lcong. unfold g. cbn [fst snd]. rewrite Hc. reflexivity.
      * left. split; [reflexivity|]. intros; discriminate.
Qed.

Theorem gpu_agrees S alg args prior spectra tdata w f wf nz nb junk sched fp z c :
  gpu_solvers S -> scan_input nz nb spectra tdata -> 0 < nz -> schedule sched fp nz nb ->
  calc_zchi2_batch S alg args prior spectra tdata w f wf nz nb = Ok (z, c) ->
  exists z' c', calc_zchi2_batch_gpu junk sched fp S alg args prior spectra tdata w f wf nz nb = Ok (z', c') /\
    length z' = nz /\ length c' = nz /\
    forall i, i < nz -> (nth i z' 0%Q = nth i z 0%Q /\ nth i c' [] = nth i c []) \/
                        (nth i z 0%Q = HUGE_CHI2 /\ nth i c [] = repeat 0%Q nb).
Proof.
  intros HG HI Hnz Hs HC. unfold calc_zchi2_batch_gpu. destruct (Qeq_bool (sumQ w) 0) eqn:Ew.
  { unfold calc_zchi2_batch in HC. rewrite Ew in HC. assert (z = repeat HUGE_CHI2 nz) as -> by lcong.
    assert (c = repeat (repeat 0%Q nb) nz) as -> by lcong. eexists; eexists. split; [reflexivity|].
    split; [apply repeat_length|]. split; [apply repeat_length|]. intros i Hi. left. split; reflexivity. }
  assert (Hw : ~ (sumQ w == 0)%Q). { intros H. apply Qeq_bool_iff in H. lcong. }
  destruct (bdps_gpu_ok junk nb nz spectra tdata HI) as (Tbs & ET & LT & NT). rewrite ET. cbn [rbind].
  assert (Hat : forall i, i < nz -> fit_result S alg args prior nb spectra tdata w f wf i (nth i z 0%Q, nth i c [])).
  { intros i Hi. apply zchi2_at_inv. eapply batch_at; eauto. }
  set (nrows := fold_right plus 0 (map (fun s => r_nrow (s_R s)) spectra)).
  assert (HS : shaped nrows nb Tbs).
  { intros A HA. destruct (In_nth _ _ ([] : mat) HA) as (i & Hi & <-). rewrite LT in Hi. eapply dpso_shape; [exact HI|apply NT; exact Hi]. }
  assert (Hhd : length (hd [] Tbs) = nrows).
  { destruct Tbs as [|T0 Tbs]; [cbn in LT; llia|]. cbn. apply (HS T0). left; reflexivity. }
  assert (Hlen : length w = nrows /\ length wf = nrows /\ length f = nrows).
  { pose proof (Hat 0 Hnz) as H0. assert (HT0 : length (nth 0 Tbs []) = nrows) by (apply HS, nth_In; llia).
    inversion H0 as [Tb M c0 E1 L1 L2 L3 EM Es Hc0|Tb M e E1 L1 L2 L3 EM Es He]; rewrite (NT 0 Hnz) in E1; assert (Tb = nth 0 Tbs []) by lcong; subst Tb; llia. }
  destruct Hlen as (Lw & Lwf & Lf). rewrite Hhd, Lw, Lwf, Lf, LT, !Nat.eqb_refl. cbn [andb negb].
  rewrite (Ms_ok sched fp nz nrows nb Tbs w Hs LT HS Lw). cbn [rbind].
  assert (HP : exists Ms, mapM (fun M => add_prior nb M prior) (map (normal_M nb w) Tbs) = Ok Ms /\ length Ms = nz /\
     forall i, i < nz -> add_prior nb (normal_M nb w (nth i Tbs [])) prior = Ok (nth i Ms [])).
  { pose (g := fun M => match add_prior nb M prior with Ok M' => M' | Err _ => [] end).
    assert (Hg : forall M, In M (map (normal_M nb w) Tbs) -> add_prior nb M prior = Ok (g M)).
    { intros M HM. apply in_map_iff in HM. destruct HM as (T & <- & HT). destruct (In_nth _ _ ([] : mat) HT) as (i & Hi & <-). rewrite LT in Hi.
      pose proof (Hat i Hi) as H0. unfold g.
      inversion H0 as [Tb M c0 E1 L1 L2 L3 EM Es Hc0|Tb M e E1 L1 L2 L3 EM Es He]; rewrite (NT i Hi) in E1;
        assert (Tb = nth i Tbs []) by lcong; subst Tb; rewrite EM; reflexivity. }
    exists (map g (map (normal_M nb w) Tbs)). split; [apply mapM_ok; exact Hg|]. split; [rewrite !map_length; exact LT|].
    intros i Hi. rewrite map_map. rewrite (nth_indep (map (fun T => g (normal_M nb w T)) Tbs) [] (g (normal_M nb w []))) by (rewrite map_length; llia).
    rewrite (map_nth (fun T => g (normal_M nb w T)) Tbs). apply Hg. apply in_map, nth_In. llia. }
  destruct HP as (Ms & EM & LM & NM). rewrite EM. cbn [rbind].
  set (ys := map (fun Tb => tdot nb Tb wf) Tbs).
  assert (Ny : forall i, i < nz -> nth i ys [] = tdot nb (nth i Tbs []) wf).
  { intros i Hi. unfold ys. rewrite (nth_indep _ [] (tdot nb [] wf)) by (rewrite map_length; llia). apply (map_nth (fun Tb => tdot nb Tb wf)). }
  assert (Lys : length ys = nz) by (unfold ys; rewrite map_length; exact LT).
  assert (Hsolve : forall i, i < nz ->
     (exists cc, solve_matrices S alg args (nth i Ms []) (nth i ys []) = Ok cc /\ length cc = nb /\ nth i c [] = cc /\
         nth i z 0%Q = chi2_of f (mvec (nth i Tbs []) cc) w) \/
     ((solve_matrices S alg args (nth i Ms []) (nth i ys []) = Err LinAlgError \/ solve_matrices S alg args (nth i Ms []) (nth i ys []) = Err NotImplementedError)
       /\ nth i z 0%Q = HUGE_CHI2 /\ nth i c [] = repeat 0%Q nb)).
  { intros i Hi. pose proof (Hat i Hi) as H0. rewrite (Ny i Hi). pose proof (NM i Hi) as NMi.
    inversion H0 as [Tb M c0 E1 L1 L2 L3 EM0 Es Hc0 [Ez Ec]|Tb M e E1 L1 L2 L3 EM0 Es He [Ez Ec]]; rewrite (NT i Hi) in E1;
      assert (Tb = nth i Tbs []) by lcong; subst Tb; assert (nth i Ms [] = M) by lcong; subst M.
    - left. eexists. split; [exact Es|]. split; [exact Hc0|]. split; reflexivity.
    - right. split; [destruct He; subst e; auto|]. split; reflexivity. }
  destruct (solve_gpu_ok S alg args nz nb Ms ys HG LM Lys) as [(EN & HN)|(zc & EZ & LZ & CZ & NZ)].
  { intros y Hy. unfold ys in Hy. apply in_map_iff in Hy. destruct Hy as (T & <- & _). apply tdot_length. }
  { intros i Hi. destruct (Hsolve i Hi) as [(cc & H1 & H2 & _)|([H1|H1] & _)]; eauto. }
  - rewrite EN. eexists; eexists. split; [reflexivity|]. split; [apply repeat_length|]. split; [apply repeat_length|].
    intros i Hi. destruct (Hsolve i Hi) as [(cc & H1 & _)|(_ & H2)]; [exfalso; exact (HN i cc Hi H1)|]. right; exact H2.
  - rewrite EZ. rewrite (models_ok junk nz nrows nb Tbs zc LT HS LZ CZ). cbn [rbind].
    eexists; eexists. split; [reflexivity|]. split; [rewrite map_length, map2_len; lcong|]. split; [exact LZ|].
    intros i Hi. destruct (Hsolve i Hi) as [(cc & H1 & H2 & H3 & H4)|(_ & H2)]; [left|right; exact H2].
    pose proof (NZ i cc Hi H1 H2) as HZ. split; [|lcong].
    rewrite (nth_indep _ 0%Q (chi2_of f [] w)) by (rewrite map_length, map2_len; lcong).
    rewrite (map_nth (fun m => chi2_of f m w)). rewrite (map2_nth mvec [] [] []) by lcong. rewrite HZ. symmetry. exact H4.
Qed.
