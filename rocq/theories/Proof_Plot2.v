(* What a picture contains. *)
From Verif Require Import Prelude PreludeFacts Facts2 NumX Model_Dist Proof_Dist3 Model_Fitz Proof_Fitz Model_Zscan Model_IO Model_Rebin Model_Targets2 Model_Arch Model_Plot Spec_Plot Proof_Plot.
Open Scope nat_scope.

Definition drawn_of (m : pmodel) (zz : prow) (s : pspec) (d : pdrawn) : Prop :=
  exists R mx model, eval_row m zz (s_wave s) = Ok mx /\ s_R s = Some R /\ csr_vec R mx = Ok model /\
    d = {| g_wave := s_wave s; g_flux := blank (map (fun x => Qeq_bool x 0) (s_ivar s)) (s_flux s); g_mx := mx; g_model := blank (map (fun x => Qeq_bool x 0) (s_ivar s)) model |}.
Lemma fold_err m zz l e : fold_left (fun acc s => do a <- acc; draw_spec m zz a s) l (Err e) = Err e.
Proof. induction l as [|s l IH]; [reflexivity|exact IH]. Qed.
Definition lim_step (l : Q * Q) (sd : pspec * pdrawn) : Q * Q :=
  match good_values (map (fun x => Qeq_bool x 0) (s_ivar (fst sd))) (s_flux (fst sd)) with
  | [] => l
  | good => (pymin (fst l) (percentile good 1), pymax (snd l) (percentile good (99 # 1)) (max_model (g_model (snd sd))))
  end.
Lemma fold_draw m zz : forall l ds0 lim0 ds lim, fold_left (fun acc s => do a <- acc; draw_spec m zz a s) l (Ok (ds0, lim0)) = Ok (ds, lim) ->
  exists new, ds = ds0 ++ new /\ Forall2 (drawn_of m zz) l new /\ lim = fold_left lim_step (combine l new) lim0.
Proof.
  induction l as [|s l IH]; intros ds0 lim0 ds lim H.
  - cbn in H. injection H as <- <-. exists []. rewrite app_nil_r. split; [reflexivity|]. split; [constructor|reflexivity].
  - cbn [fold_left rbind] in H. destruct (draw_spec m zz (ds0, lim0) s) as [[ds1 lim1]|e] eqn:Ed; [|rewrite fold_err in H; discriminate].
    apply IH in H as (new & -> & F & ->). unfold draw_spec in Ed. destruct (eval_row m zz (s_wave s)) as [mx|] eqn:E1; [|discriminate]. cbn [rbind] in Ed.
    destruct (s_R s) as [R|] eqn:E2; [|discriminate]. destruct (csr_vec R mx) as [model|] eqn:E3; [|discriminate]. cbn [rbind] in Ed. destruct lim0 as [y0 y1].
    set (d := {| g_wave := s_wave s; g_flux := blank (map (fun x => Qeq_bool x 0) (s_ivar s)) (s_flux s); g_mx := mx; g_model := blank (map (fun x => Qeq_bool x 0) (s_ivar s)) model |}) in *.
    exists (d :: new). assert (ds1 = ds0 ++ [d] /\ lim1 = lim_step (y0, y1) (s, d)) as [-> ->].
    { unfold lim_step. cbn [fst snd]. unfold d at 2. cbn [g_model]. destruct (good_values _ (s_flux s)); split; congruence. }
    split; [now rewrite <- app_assoc|]. split; [constructor; [exists R, mx, model; auto|exact F]|]. reflexivity.
Qed.

Lemma plot_inv E st kz st1 pic : plot E st kz = (st1, Ok pic) -> exists t zz rest m sc lim,
  nth_error (v_targets E) (p_itarget st) = Some t /\ filter (fun r => (r_znum r =? p_znum st)%Z) (rows_of (v_zfit E) (q_id t)) = zz :: rest /\
  find_model E zz = Ok m /\ dget (v_zscan E) (q_id t) = Some sc /\ Forall2 (drawn_of m zz) (q_spectra t) (k_spectra pic) /\
  lim = fix_limits (fold_left lim_step (combine (q_spectra t) (k_spectra pic)) (0%Q, 0%Q)) /\
  k_target pic = q_id t /\ k_itarget pic = p_itarget st /\ k_znum pic = p_znum st /\ k_row pic = zz /\ k_fulltype pic = make_fulltype (r_spectype zz) (Some (r_subtype zz)) /\
  k_curves pic = curves sc /\ k_points pic = map (fun r => (r_z r, r_chi2 r, r_znum r)) (rows_of (v_zfit E) (q_id t)) /\
  k_truth pic = truth_line (v_truth E) (q_id t) /\ k_ytext pic = (fst lim + (9 # 10) * (snd lim - fst lim))%Q /\
  k_zwarn pic = zwarn_label (r_zwarn zz) /\ k_ylim pic = (if kz then p_ylim st else lim) /\ p_ylim st1 = k_ylim pic /\ p_itarget st1 = p_itarget st /\ p_znum st1 = p_znum st.
Proof.
  unfold plot. destruct (nth_error (v_targets E) (p_itarget st)) as [t|] eqn:Et; [|discriminate]. cbv zeta.
  destruct (filter (fun r => (r_znum r =? p_znum st)%Z) (rows_of (v_zfit E) (q_id t))) as [|zz rest] eqn:Ez; [discriminate|].
  destruct (find_model E zz) as [m|] eqn:Em; [|discriminate]. cbn [rbind]. destruct (dget (v_zscan E) (q_id t)) as [sc|] eqn:Es; [|discriminate].
  destruct (fold_left _ (q_spectra t) _) as [[ds lim]|] eqn:Ed; [|discriminate]. cbn [rbind fst snd]. intro H.
  apply fold_draw in Ed as (new & -> & F & ->). cbn [app] in H. injection H as <- <-. exists t, zz, rest, m, sc. eexists. cbn. auto 25.
Qed.

(* scaling commutes with the resolution *)
Lemma csr_vec_scale R c v o : csr_vec R (map (fun x => x * c)%Q v) = Ok o -> exists o', csr_vec R v = Ok o' /\ Forall2 (fun a b => (a == c * b)%Q) o o'.
Proof.
  unfold csr_vec. rewrite map_length. destruct (length v =? r_ncol R); [|discriminate]. intro H. eexists. split; [reflexivity|]. injection H as <-.
  assert (A : forall row, (csr_row_dot R row (fun l => nth l (map (fun x => x * c) v) 0) == c * csr_row_dot R row (fun l => nth l v 0))%Q).
  { intro row. unfold csr_row_dot. rewrite !Qred_correct. generalize (seq (nth row (r_ptr R) 0) (nth (S row) (r_ptr R) 0 - nth row (r_ptr R) 0)) as l. induction l as [|j l IH]; [cbn; ring|].
    cbn [map sumQ fold_right]. unfold sumQ in IH |- *. cbn [fold_right]. rewrite IH.
    assert (N : forall k, (nth k (map (fun x => x * c) v) 0 == nth k v 0 * c)%Q). { intro k. destruct (Nat.lt_ge_cases k (length v)) as [Hk|Hk]; [|rewrite !nth_overflow by (rewrite ?map_length; lia); ring]. rewrite (nth_indep _ 0%Q (0 * c)%Q) by (rewrite map_length; lia). rewrite (map_nth (fun x => x * c)%Q). reflexivity. }
    rewrite N. ring. }
  generalize (seq 0 (r_nrow R)) as l. induction l as [|x l IH]; [constructor|]. cbn [map]. constructor; [apply A|exact IH].
Qed.
Lemma eval_split tw fl c wave z R v : template_eval tw fl (firstn (length fl) c) wave z None = Ok v -> template_eval tw fl c wave z (Some R) = csr_vec R v.
Proof.
  unfold template_eval. rewrite firstn_firstn, Nat.min_id. destruct (negb _); [discriminate|]. destruct (trapz_rebin_xnew _ _ _ _ _) as [r|]; [|discriminate]. cbn [rbind].
  destruct r; try discriminate. intro H. injection H as ->. reflexivity.
Qed.
Lemma blank_nth bad v i d : length bad = length v -> i < length v -> nth i (blank bad v) d = if nth i bad false then None else Some (nth i v 0%Q).
Proof.
  revert v i. induction bad as [|b bad IH]; intros [|x v] i Hl Hi; try (cbn in *; lia). destruct i as [|i]; [reflexivity|]. cbn in *. apply IH; lia.
Qed.
Lemma blank_length bad v : length bad = length v -> length (blank bad v) = length v.
Proof. revert v. induction bad as [|b bad IH]; intros [|x v] Hl; try discriminate; [reflexivity|]. cbn in *. f_equal. apply IH. lia. Qed.
