(* Template data of a run, the refined scan in one batch, where the rows of the table come from. *)
From Verif Require Import Prelude PreludeFacts NumX Facts2 Model_Fitz Spec_Fitz Proof_Fitz Proof_Fitz2 Model_Rebin Model_Dist Proof_Dist3 Model_Rank Proof_Table Model_Zscan Spec_Zscan Proof_Zscan Proof_Zscan2 Proof_Zscan3 Proof_Zscan4
  Model_Piece Spec_Piece Proof_Piece Model_IO Model_Zfind Proof_Zfind Model_Run Spec_Run Proof_Run Proof_Run2 Proof_Run3.
Open Scope nat_scope.
Local Notation dget := Model_Dist.dget.

Section R.
Variables (slv : solvers) (argsort : list xq -> list nat) (polyfit : list Q -> list Q -> option (Q * Q * Q)) (isqrt : Q -> Q).
Variable trans : option string -> Q -> Q -> Q.
Variables (nminima nz : nat).
Notation tdata := (tdata trans).
Notation fit_target := (fit_target slv argsort polyfit isqrt trans nminima nz).
Notation solo := (solo slv argsort polyfit isqrt trans nminima nz).
Notation run := (run slv argsort polyfit isqrt trans nminima nz).
Notation fitted := (fitted slv argsort polyfit isqrt trans nminima nz).
Notation template_on := (template_on trans). Notation design_of := (design_of trans).

Lemma attenuate_rows igm zs w rows : Forall (fun row => length row = length w) rows -> length rows = length zs ->
  Forall2 (fun z (rA : list (list Q) * mat) => length (snd rA) = length w /\ forall i, i < length w -> nth i (snd rA) [] = map (fun v => Qred (v * trans igm z (nth i w 0%Q))) (nth i (fst rA) [])) zs (combine rows (attenuate trans igm zs w rows)).
Proof.
  revert rows. induction zs as [|z zs IH]; intros [|row rows] F L; try discriminate; [constructor|]. inversion F; subst. cbn. constructor; [|apply IH; [assumption|cbn in L; lia]].
  cbn [fst snd]. split; [rewrite map2_length; lia|]. intros i Hi. rewrite (map2_nth _ [] 0%Q []) by lia. reflexivity.
Qed.
Lemma one_grid_rows p zs x w m : usable p -> zs <> [] -> ends p zs = Ok x -> (one_grid trans p zs x w = Ok m <-> Forall2 (template_on p w) zs m /\ exists e, centers2edges w = Ok e).
Proof.
  intros (U1 & U2 & U3) Hz Hx. unfold one_grid.
  assert (Ex : x = ((nth 0 (t_wave (p_core p)) 0 * (1 + amax zs))%Q, (nth (length (t_wave (p_core p)) - 1) (t_wave (p_core p)) 0 * (1 + amin zs))%Q)).
  { unfold ends in Hx. rewrite (Proof_Rebin.get_nth _ 0) in Hx by (destruct (t_wave (p_core p)); [congruence|cbn; lia]). cbn [rbind] in Hx. rewrite (Proof_Rebin3.getm1_0 _ U1) in Hx. cbn [rbind] in Hx. destruct zs; [congruence|]. cbn [rbind] in Hx. congruence. }
  rewrite Ex. cbn [fst snd]. clear Ex Hx.
  destruct (centers2edges w) as [e|er] eqn:Ee; cbn [rbind]; [|split; [discriminate|intros [_ [e E]]; discriminate]].
  destruct (c2e_len w e Ee) as [Le Hne].
  split.
  - destruct (trapz_rebin _ _ _ _ _ _ _ _ _) as [b|] eqn:Et; cbn [rbind]; [|discriminate]. apply (proj1 (trapz_rows _ _ U2 U3 e zs b Hne Hz)) in Et. destruct Et as (rows & -> & F). intro H. assert (Em : m = attenuate trans (p_igm p) zs w rows) by congruence. subst m. split; [|now exists e].
    assert (Fl : Forall (fun row : list (list Q) => length row = length w) rows). { apply Forall_forall. intros row Hr. destruct (Forall2_in_r _ _ _ row F Hr) as (z & _ & _ & _ & cols & _ & Lr & _). lia. }
    pose proof (attenuate_rows (p_igm p) zs w rows Fl (eq_sym (Forall2_len _ _ _ F))) as A.
    assert (LL : length (attenuate trans (p_igm p) zs w rows) = length rows) by (unfold attenuate; rewrite map2_length; apply Forall2_len in F; lia).
    clear -A F LL Ee. revert A LL. generalize (attenuate trans (p_igm p) zs w rows) as m. induction F as [|z row zs rows Hr _ IH]; intros [|B m] A LL; try discriminate; [constructor|]. cbn [combine] in A. inversion A as [|? ? ? ? [A1 A2] A3]; subst. constructor; [|apply IH; [exact A3|cbn in LL; lia]].
    exists e, row. split; [exact Ee|]. split; [exact Hr|]. now split.
  - intros [F _].
    assert (X : exists rows, Forall2 (row_at (t_wave (p_core p)) (t_flux (p_core p)) e) zs rows /\ m = attenuate trans (p_igm p) zs w rows).
    { clear Hz. induction F as [|z A zs m (e' & row & E' & Hr & LA & HA) _ (rows & IH1 & IH2)]; [exists []; split; [constructor|reflexivity]|]. assert (e' = e) by congruence. subst e'. exists (row :: rows). split; [now constructor|]. unfold attenuate in *. cbn [map2]. rewrite <- IH2. f_equal.
      assert (Lr : length row = length w) by (destruct Hr as (_ & _ & cols & _ & Lr & _); lia).
      apply nth_ext with (d := []) (d' := []); [rewrite map2_length; lia|]. intros i Hi. rewrite LA in Hi. rewrite HA by exact Hi. rewrite (map2_nth _ [] 0%Q []) by lia. reflexivity. }
    destruct X as (rows & F' & ->). rewrite (proj2 (trapz_rows _ _ U2 U3 e zs (V3 rows) Hne Hz)) by (now exists rows). reflexivity.
Qed.
(* all grids, all redshifts *)
Lemma tdata_rows p dw zs td : usable p -> zs <> [] -> (tdata p dw zs = Ok td <-> Forall2 (fun kw kd => fst kd = fst kw /\ Forall2 (template_on p (snd kw)) zs (snd kd)) dw td).
Proof.
  intros U Hz. rewrite tdata_ok. assert (X : exists x, ends p zs = Ok x).
  { destruct U as (U1 & _). unfold ends. rewrite (Proof_Rebin.get_nth _ 0) by (destruct (t_wave (p_core p)); [congruence|cbn; lia]). cbn [rbind]. rewrite (Proof_Rebin3.getm1_0 _ U1). cbn [rbind]. destruct zs; [congruence|]. cbn [rbind]. eauto. }
  destruct X as [x Hx]. split.
  - intros (x' & Hx' & F). assert (x' = x) by congruence. subst x'. eapply Forall2_impl; [|exact F]. intros [k w] [k' m] [H1 H2]. cbn [fst snd] in *. split; [exact H1|]. now apply (one_grid_rows p zs x w m U Hz Hx) in H2.
  - intro F. exists x. split; [exact Hx|]. eapply Forall2_impl; [|exact F]. intros [k w] [k' m] [H1 H2]. cbn [fst snd] in *. split; [exact H1|]. apply (one_grid_rows p zs x w m U Hz Hx). split; [exact H2|].
    destruct H2 as [|z A zs' m' (e & row & E & _)]; [congruence|now exists e].
Qed.
Lemma tdata_slices p dw zs td : usable p -> zs <> [] -> (tdata p dw zs = Ok td <-> Forall (fun kd => length (snd kd) = length zs) td /\ length td = length dw /\ forall i, i < length zs -> tdata p dw [nth i zs 0%Q] = Ok (slice1 i td)).
Proof.
  intros U Hz. rewrite tdata_rows by assumption. split.
  - intro F. split; [|split; [now apply Forall2_len in F|]].
    + apply Forall_forall. intros [k m] Hin. destruct (Forall2_in_r _ _ _ _ F Hin) as (kw & _ & _ & F'). symmetry. now apply Forall2_len in F'.
    + intros i Hi. apply tdata_rows; [exact U|discriminate|]. unfold slice1. apply F2_map_r. eapply Forall2_impl; [|exact F]. intros [k w] [k' m] [H1 H2]. cbn [fst snd] in *. split; [exact H1|]. constructor; [|constructor]. now apply F2nth.
  - intros (L & L2 & H). assert (G : forall i, i < length zs -> Forall2 (fun kw kd => fst kd = fst kw /\ template_on p (snd kw) (nth i zs 0%Q) (nth i (snd kd) [])) dw td).
    { intros i Hi. specialize (H i Hi). apply tdata_rows in H; [|exact U|discriminate]. unfold slice1 in H. apply F2_map_r in H. eapply Forall2_impl; [|exact H]. intros [k w] [k' m] [H1 H2]. cbn [fst snd] in *. split; [exact H1|]. now inversion H2. }
    destruct zs as [|z0 zs]; [congruence|]. pose proof (G 0 ltac:(cbn; lia)) as G0.
    assert (GG : forall j kw kd, nth_error dw j = Some kw -> nth_error td j = Some kd -> fst kd = fst kw /\ Forall2 (template_on p (snd kw)) (z0 :: zs) (snd kd)).
    { intros j kw kd E1 E2. split.
      - destruct (Forall2_nth _ _ _ j kw G0 E1) as (kd' & E3 & H3 & _). unfold tdict, Model_Dist.dict in *. assert (X : Some kd' = Some kd) by (now rewrite <- E3). injection X as <-. exact H3.
      - apply Forall2_nth_intro with (d := 0%Q) (e := @nil (list Q)).
        + pose proof (proj1 (Forall_forall _ _) L kd (nth_error_In _ _ E2)) as E. cbv beta in E. now symmetry.
        + intros i Hi. destruct (Forall2_nth _ _ _ j kw (G i Hi) E1) as (kd' & E3 & _ & H3). unfold tdict, Model_Dist.dict in *. assert (X : Some kd' = Some kd) by (now rewrite <- E3). injection X as <-. exact H3. }
    clear -GG L2. revert dw L2 GG. induction td as [|kd td IH]; intros [|kw dw] L2 GG; try discriminate; [constructor|]. constructor; [exact (GG 0 kw kd eq_refl eq_refl)|]. apply IH; [cbn in L2; lia|]. intros j. exact (GG (S j)).
Qed.
Lemma tdata_exists p dw zs : usable p -> zs <> [] -> (forall z, In z zs -> exists td, tdata p dw [z] = Ok td) -> exists td, tdata p dw zs = Ok td.
Proof.
  intros U Hz H. assert (G : forall kw, In kw dw -> exists kd : Z * list mat, fst kd = fst kw /\ Forall2 (template_on p (snd kw)) zs (snd kd)).
  { intros kw Hk. assert (X : exists m, Forall2 (template_on p (snd kw)) zs m).
    { clear Hz. induction zs as [|z zs IH]; [exists []; constructor|]. destruct IH as [m Hm]; [intros; apply H; now right|]. destruct (H z (or_introl eq_refl)) as [td Ht]. apply tdata_rows in Ht; [|exact U|discriminate].
      destruct (In_nth_error _ _ Hk) as [j Hj]. destruct (Forall2_nth _ _ _ j kw Ht Hj) as (kd & _ & _ & F). inversion F as [|? A ? ? HA _]; subst. exists (A :: m). now constructor. }
    destruct X as [m Hm]. exists (fst kw, m). now split. }
  assert (B : exists td, Forall2 (fun kw (kd : Z * list mat) => fst kd = fst kw /\ Forall2 (template_on p (snd kw)) zs (snd kd)) dw td).
  { clear -G. induction dw as [|a l IH]; [exists []; constructor|]. destruct (G a (or_introl eq_refl)) as [b Hb]. destruct IH as [m Hm]; [intros; apply G; now right|]. exists (b :: m). now constructor. }
  destruct B as [td F]. exists td. now apply tdata_rows.
Qed.
Lemma Qplus_0_same (x : Q) : (x + 0)%Q = x.
Proof. destruct x as [n d]. unfold Qplus. cbn. rewrite Z.mul_1_r, Z.add_0_r, Pos.mul_1_r. reflexivity. Qed.
(* ---------- the batch is one redshift after the other ---------- *)
Lemma scan_batch_ok p g w f wf zz l : usable p -> zz <> [] -> (scan_batch slv trans p g w f wf zz = Ok l <-> mapM (fine_scan slv trans p g w f wf) zz = Ok l).
Proof.
  intros U Hz.
  assert (A : forall td, tdata p (own_grids g) zz = Ok td ->
    (do r <- calc_zchi2_batch slv (t_method (p_core p)) None None (data_of g) td w f wf (length zz) (nbasis p);
     Ok (match OIItemplate (p_core p) with Some A => map2 Qplus (fst r) (calc_negOII_penalty A (snd r)) | None => fst r end)) = Ok l <-> mapM (fine_scan slv trans p g w f wf) zz = Ok l).
  { intros td Ht. apply (proj1 (tdata_slices p (own_grids g) zz td U Hz)) in Ht. destruct Ht as (L & _ & Sl).
    assert (One : forall i, i < length zz -> fine_scan slv trans p g w f wf (nth i zz 0%Q) = do r <- (if Qeq_bool (sumQ w) 0 then Ok (HUGE_CHI2, repeat 0%Q (nbasis p)) else zchi2_at slv (t_method (p_core p)) None None (nbasis p) (data_of g) td w f wf i); Ok (fst r + penalty p (snd r))%Q).
    { intros i Hi. unfold fine_scan, chi2_at. rewrite (Sl i Hi). cbn [rbind]. unfold calc_zchi2_batch. destruct (Qeq_bool (sumQ w) 0); [reflexivity|]. cbn [seq mapM].
      rewrite at_slice by (intros k m Hk; pose proof (proj1 (Forall_forall _ _) L _ Hk) as E; cbn [snd] in E; lia). destruct (zchi2_at _ _ _ _ _ _ _ _ _ _ i) as [[x c]|]; reflexivity. }
    assert (Row : mapM (fine_scan slv trans p g w f wf) zz = mapM (fun i => do r <- (if Qeq_bool (sumQ w) 0 then Ok (HUGE_CHI2, repeat 0%Q (nbasis p)) else zchi2_at slv (t_method (p_core p)) None None (nbasis p) (data_of g) td w f wf i); Ok (fst r + penalty p (snd r))%Q) (seq 0 (length zz))).
    { transitivity (mapM (fun i => fine_scan slv trans p g w f wf (nth i zz 0%Q)) (seq 0 (length zz))).
      - rewrite <- (mapM_map_in (fun i => nth i zz 0%Q)). f_equal. apply list_as_tab.
      - apply mapM_ext. intros i Hi. apply in_seq in Hi. apply One. lia. }
    assert (Pen : forall xs cs, length xs = length cs -> match OIItemplate (p_core p) with Some A => map2 Qplus xs (calc_negOII_penalty A cs) | None => xs end = map2 (fun x c => x + penalty p c)%Q xs cs).
    { intros xs cs E. unfold penalty. destruct (OIItemplate (p_core p)) as [A|].
      - unfold calc_negOII_penalty. revert cs E. induction xs as [|x xs IH]; intros [|c cs] E; try discriminate; [reflexivity|]. cbn. f_equal. apply IH. cbn in E. lia.
      - revert cs E. induction xs as [|x xs IH]; intros [|c cs] E; try discriminate; [reflexivity|]. cbn [map2]. rewrite Qplus_0_same. f_equal. apply IH. cbn in E. lia. }
    rewrite Row. unfold calc_zchi2_batch. destruct (Qeq_bool (sumQ w) 0).
    - cbn [rbind fst snd]. rewrite Pen by now rewrite !repeat_length. generalize (length zz) as n. intro n. clear. assert (G : forall s, mapM (fun _ : nat => Ok (HUGE_CHI2 + penalty p (repeat 0%Q (nbasis p)))%Q) (seq s n) = Ok (map2 (fun x c => (x + penalty p c)%Q) (repeat HUGE_CHI2 n) (repeat (repeat 0%Q (nbasis p)) n))).
      { induction n as [|n IH]; intro s; [reflexivity|]. cbn [seq mapM repeat map2 rbind]. now rewrite IH. }
      rewrite G. reflexivity.
    - assert (G : forall is, (do r <- (do r <- mapM (zchi2_at slv (t_method (p_core p)) None None (nbasis p) (data_of g) td w f wf) is; Ok (map fst r, map snd r)); Ok (match OIItemplate (p_core p) with Some A => map2 Qplus (fst r) (calc_negOII_penalty A (snd r)) | None => fst r end))
         = mapM (fun i => do r <- zchi2_at slv (t_method (p_core p)) None None (nbasis p) (data_of g) td w f wf i; Ok (fst r + penalty p (snd r))%Q) is); [|now rewrite G].
      intro is. transitivity (do r <- mapM (zchi2_at slv (t_method (p_core p)) None None (nbasis p) (data_of g) td w f wf) is; Ok (map (fun r => fst r + penalty p (snd r))%Q r)).
      + destruct (mapM _ is) as [r|]; cbn [rbind fst snd]; [|reflexivity]. rewrite Pen by now rewrite !map_length. f_equal. clear. induction r as [|[x c] r IH]; [reflexivity|]. cbn. now rewrite IH.
      + clear. induction is as [|i is IH]; [reflexivity|]. cbn [mapM]. destruct (zchi2_at _ _ _ _ _ _ _ _ _ _ i) as [[x c]|]; cbn [rbind]; [|reflexivity]. rewrite <- IH. destruct (mapM _ is) as [r|]; cbn [rbind]; reflexivity. }
  unfold scan_batch. destruct (tdata p (own_grids g) zz) as [td|e] eqn:Et; cbn [rbind]; [now apply A|]. split; [discriminate|]. intro H. exfalso.
  destruct (tdata_exists p (own_grids g) zz U Hz) as [td Ht]; [|congruence]. intros z Iz. apply mapM_Forall2 in H. destruct (In_nth_error _ _ Iz) as [i Hi]. destruct (Forall2_nth _ _ _ i z H Hi) as (x & _ & Hx). unfold fine_scan, chi2_at in Hx. destruct (tdata p (own_grids g) [z]) as [td|]; [now exists td|discriminate].
Qed.
End R.
