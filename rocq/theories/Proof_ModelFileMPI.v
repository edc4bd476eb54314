(* The model file does not depend on the order in which the targets come. *)
From Verif Require Import Prelude PreludeFacts NumX Facts2 Model_Fitz Model_Rebin Model_Dist Proof_Dist3 Proof_Table Model_Zscan Model_Piece Proof_Piece Proof_Piece2 Model_IO Model_Zfind Model_Targets Model_Targets2 Model_Desi Proof_Desi4 Model_Run Spec_Run Proof_Run Proof_Run3
  Model_RunMPI Proof_RunMPI Proof_RunMPI2 Proof_RunMPI3 Model_RunDesi Proof_RunDesi Model_Models Model_ModelFile Proof_ModelFile Model_ModelFileMPI Spec_ModelFileMPI.
Open Scope nat_scope.
Local Notation dget := Model_Dist.dget.

(* the row of a target in one HDU *)
Definition row_for ps tab (tgs : list targ) (h t : Z) (row : list Q) : Prop := exists g d, In g tgs /\ g_id g = t /\ render_target ps (zbest tab) g = Ok d /\ dget d h = Some row.
Lemma same_id (tgs : list targ) g g' : NoDup (map g_id tgs) -> In g tgs -> In g' tgs -> g_id g = g_id g' -> g = g'.
Proof.
  intros N I I' E. induction tgs as [|y l IH]; [destruct I|]. cbn in N. inversion N as [|? ? N1 N2]; subst. destruct I as [->|I]; destruct I' as [->|I'].
  - reflexivity. - exfalso. apply N1. rewrite E. now apply in_map. - exfalso. apply N1. rewrite <- E. now apply in_map. - now apply IH.
Qed.
Lemma column_inv ms idx h rows : column ms idx h = Ok rows -> ms <> [] /\ exists us n, Forall2 (fun m u => dget m h = Some u /\ length u = n) ms us /\ Forall2 (fun i row => nth_error us i = Some row) idx rows.
Proof.
  unfold column. destruct (mapM _ ms) as [vs|] eqn:E; cbn [rbind]; [|discriminate]. apply mapM_Forall2 in E. destruct vs as [|v vs]; [discriminate|]. destruct (forallb _ vs) eqn:Ef; [|discriminate]. intro H.
  split; [intro X; subst ms; inversion E|]. exists (v :: vs), (length v). split.
  - assert (A : forall u, In u (v :: vs) -> length u = length v) by (intros u [<-|Iu]; [reflexivity|]; rewrite forallb_forall in Ef; now apply Nat.eqb_eq, Ef).
    clear H Ef. remember (v :: vs) as l eqn:El. clear El. revert A. generalize (length v) as n. intros n A. induction E as [|m u ms l Hu E IH]; constructor; [|apply IH; intros x Hx; apply A; now right].
    split; [destruct (dget m h); congruence|apply A; now left].
  - apply mapM_Forall2 in H. eapply Forall2_impl; [|exact H]. intros i row Hi. cbv beta in Hi. destruct (nth_error (v :: vs) i); congruence.
Qed.
Lemma column_rows ps tab tgs ms idx zids h rows : render_all ps tab tgs = Ok ms -> Forall2 (fun t i => nth_error (map g_id tgs) i = Some t) zids idx -> column ms idx h = Ok rows -> Forall2 (row_for ps tab tgs h) zids rows.
Proof.
  intros Em Fi Ec. destruct (column_inv _ _ _ _ Ec) as (_ & us & n & Fu & Fr). unfold render_all in Em. apply mapM_Forall2 in Em. clear Ec. revert rows Fr. induction Fi as [|t i zids idx Hi Fi IH]; intros rows Fr; inversion Fr as [|? u ? rows' Hu Fr']; subst; constructor; [|now apply IH].
  rewrite nth_error_map in Hi. destruct (nth_error tgs i) as [g|] eqn:Eg; [|discriminate]. cbn in Hi. destruct (F2_nth_error _ _ _ Em i g Eg) as (d & Ed & Hd). destruct (F2_nth_error _ _ _ Fu i d Ed) as (u' & Eu & Du & _). assert (u' = u) by congruence. subst u'.
  exists g, d. split; [eapply nth_error_In; exact Eg|]. split; [congruence|]. now split.
Qed.
Lemma model_perm ps tab tgs tgs' hdus : NoDup (map g_id tgs) -> hashes_tell_grids tgs -> Permutation tgs tgs' -> model_hdus ps tab tgs = Ok hdus -> exists hdus', model_hdus ps tab tgs' = Ok hdus' /\ Permutation hdus hdus'.
Proof.
  intros N T P H. unfold model_hdus in *. destruct (render_all ps tab tgs) as [ms|] eqn:Em; cbn [rbind] in H; [|discriminate].
  destruct (mapM_perm_ok (render_target ps (zbest tab)) tgs tgs' P ms Em) as (ms' & Em' & Pm). fold (render_all ps tab tgs') in Em'. rewrite Em'. cbn [rbind].
  destruct (sort_indices (map g_id tgs) (map f_tid (zbest tab))) as [idx|] eqn:Ei; cbn [rbind] in H; [|discriminate]. pose proof (sort_indices_sound _ _ _ Ei) as Fi.
  destruct (sort_indices_ok (map g_id tgs') (map f_tid (zbest tab))) as (idx' & Ei' & Fi').
  { intros t Ht. eapply Permutation_in; [apply Permutation_map; exact P|]. destruct (F2_left _ _ _ Fi t Ht) as (i & _ & Hi). eapply nth_error_In; exact Hi. }
  rewrite Ei'. cbn [rbind].
  assert (Lm' : length ms' = length tgs') by (unfold render_all in Em'; apply mapM_Forall2 in Em'; symmetry; exact (Forall2_len _ _ _ Em')).
  assert (Hi : forall i, In i idx' -> i < length ms'). { intros i Ii. rewrite Lm'. clear -Fi' Ii. induction Fi' as [|t j l l' Hj Fi IH]; [destruct Ii|]. destruct Ii as [<-|Ii]; [apply nth_error_Some_lt in Hj; now rewrite map_length in Hj|now apply IH]. }
  assert (Col : forall h rows, column ms idx h = Ok rows -> column ms' idx' h = Ok rows).
  { intros h rows Ec. destruct (column_inv _ _ _ _ Ec) as (Ne & us & n & Fu & _).
    destruct (F2_build (fun m u => dget m h = Some u /\ length u = n) ms') as [us' Fu']. { intros m Im. destruct (F2_left _ _ _ Fu m) as (u & _ & Hu); [eapply Permutation_in; [symmetry; exact Pm|exact Im]|now exists u]. }
    destruct (column_ok ms' idx' h us' n) as (rows' & Ec' & _); [intro X; subst ms'; apply Permutation_sym, Permutation_nil in Pm; congruence|exact Fu'|exact Hi|]. rewrite Ec'. f_equal.
    pose proof (column_rows _ _ _ _ _ _ _ _ Em Fi Ec) as F1. pose proof (column_rows _ _ _ _ _ _ _ _ Em' Fi' Ec') as F2. clear -F1 F2 N P. revert rows' F2. induction F1 as [|t r l rows (g & d & Ig & Eg & Rg & Dg) F1 IH]; intros rows' F2; inversion F2 as [|? r' ? rows'' (g' & d' & Ig' & Eg' & Rg' & Dg') F2']; subst; [reflexivity|].
    f_equal; [|now apply IH]. assert (E : g' = g) by (apply (same_id tgs); auto; eapply Permutation_in; [symmetry; exact P|exact Ig']). subst g'. congruence. }
  assert (Pg : Permutation (grids tgs) (grids tgs')).
  { apply NoDup_Permutation; [eapply NoDup_map_inv; apply grids_nodup|eapply NoDup_map_inv; apply grids_nodup|]. intros [h w]. rewrite <- (dget_in _ h w (grids_nodup tgs)), <- (dget_in _ h w (grids_nodup tgs')). now rewrite (grids_perm _ _ T P). }
  destruct (mapM_perm_ok _ _ _ Pg _ H) as (hdus' & E & Ph). exists hdus'. split; [|exact Ph].
  assert (G : forall l out, mapM (fun hw : Z * list Q => do rows <- column ms idx (fst hw); Ok (fst hw, (snd hw, rows))) l = Ok out -> mapM (fun hw => do rows <- column ms' idx' (fst hw); Ok (fst hw, (snd hw, rows))) l = Ok out); [|now apply G].
  clear -Col. induction l as [|hw l IH]; intros out Ho; [exact Ho|]. cbn [mapM] in *. destruct (column ms idx (fst hw)) as [rows|] eqn:Ec; cbn [rbind] in Ho; [|discriminate]. rewrite (Col _ _ Ec). cbn [rbind].
  destruct (mapM _ l) as [r|] eqn:Er; cbn [rbind] in Ho; [|discriminate]. rewrite (IH r eq_refl). exact Ho.
Qed.
(* the gathered models *)
Lemma render_concat ps tab locals ms : render_all ps tab (concat locals) = Ok ms <-> exists mss, mapM (render_all ps tab) locals = Ok mss /\ ms = concat mss.
Proof.
  unfold render_all at 1. rewrite mapM_concat. split; intros (mss & F & ->); exists mss; (split; [|reflexivity]).
  - apply mapM_Forall2. exact F.
  - apply mapM_Forall2 in F. exact F.
Qed.
Lemma root_concat ps tab locals hdus : root_hdus ps tab locals = Ok hdus <-> model_hdus ps tab (concat locals) = Ok hdus.
Proof.
  unfold root_hdus, model_hdus. rewrite wavegrids_mpi_eq, concat_map. destruct (mapM (render_all ps tab) locals) as [mss|] eqn:E; cbn [rbind].
  - rewrite (proj2 (render_concat ps tab locals (concat mss))) by now exists mss. cbn [rbind]. reflexivity.
  - destruct (render_all ps tab (concat locals)) as [ms|] eqn:Em; cbn [rbind]; [|split; discriminate]. apply render_concat in Em as (mss & X & _). congruence.
Qed.
