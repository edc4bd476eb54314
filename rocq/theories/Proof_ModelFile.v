(* The HDUs of the model file. *)
From Verif Require Import Prelude PreludeFacts NumX Facts2 Proof_Table Model_Fitz Spec_Fitz Model_Rebin Model_Dist Proof_Dist3 Model_Zscan Spec_Zscan Model_Piece Proof_Piece Proof_Piece2 Model_IO Model_Zfind Model_Targets Model_Targets2 Model_Desi Proof_Desi4 Model_Run Spec_Run Proof_Run Proof_Run3 Model_RunDesi Props_Desi2 Proof_RunDesi
  Model_Models Spec_Models Proof_Models Model_ModelFile Spec_ModelFile.
Open Scope nat_scope.
Local Notation dget := Model_Dist.dget. Local Notation dset := Model_Dist.dset.

Lemma F2_and {A B} (P R : A -> B -> Prop) l m : Forall2 P l m -> Forall2 R l m -> Forall2 (fun a b => P a b /\ R a b) l m.
Proof. intro F. induction F as [|a b l m H F IH]; intro G; inversion G; subst; constructor; [now split|now apply IH]. Qed.
Lemma F2_nth_error {A B} (P : A -> B -> Prop) l m : Forall2 P l m -> forall i a, nth_error l i = Some a -> exists b, nth_error m i = Some b /\ P a b.
Proof. induction 1 as [|a b l m H F IH]; intros [|i] x E; cbn in *; try discriminate; [injection E as ->; exists b; now split|now apply IH]. Qed.
(* what resets and flags do to the best rows *)
Lemma zbest_map (f : frow -> frow) tab : (forall r, f_znum (f r) = f_znum r) -> zbest (map f tab) = map f (zbest tab).
Proof. intro H. unfold zbest. induction tab as [|r l IH]; [reflexivity|]. cbn [map filter]. rewrite H, IH. destruct (f_znum r =? 0); reflexivity. Qed.
Lemma reflag_cases fb fm r : (f_type (reflag fb fm r) = f_type r /\ f_sub (reflag fb fm r) = f_sub r /\ Model_Zfind.f_z (reflag fb fm r) = Model_Zfind.f_z r /\ Model_Zfind.f_coeff (reflag fb fm r) = Model_Zfind.f_coeff r) \/
  Forall (fun c => c = 0%Q) (Model_Zfind.f_coeff (reflag fb fm r)).
Proof.
  destruct (C71_reset fb fm (to_w r)) as (_ & _ & R1 & R2). unfold reflag. cbn.
  destruct (among fm (fun x => badpos fb x || broken fb x || unassigned fb x || is_bad x) (f_tid r)) eqn:En.
  - right. unfold flag_row. cbn [to_w w_id]. rewrite En. clear. unfold orw. repeat match goal with |- context [if ?b then _ else _] => destruct b; cbn end; apply Forall_forall; intros c Hc; apply in_map_iff in Hc as (? & <- & _); reflexivity.
  - left. unfold flag_row. cbn [to_w w_id]. rewrite En. clear. unfold orw. repeat match goal with |- context [if ?b then _ else _] => destruct b; cbn end; repeat split.
Qed.
Lemma render_same ps g r r' : f_type r' = f_type r -> f_sub r' = f_sub r -> Model_Zfind.f_z r' = Model_Zfind.f_z r -> Model_Zfind.f_coeff r' = Model_Zfind.f_coeff r -> render ps g r' = render ps g r.
Proof. intros E1 E2 E3 E4. unfold render. now rewrite E1, E2, E3, E4. Qed.
Lemma render_zero ps g r : Forall (fun c => c = 0%Q) (Model_Zfind.f_coeff r) -> render ps g r = Ok (fold_left (fun d s => dset d (q_hash s) (repeat 0%Q (length (q_wave s)))) (g_spectra g) []).
Proof.
  intro H. unfold render. assert (E : forallb (fun c => Qeq_bool c 0) (Model_Zfind.f_coeff r) = true); [|now rewrite E]. apply forallb_forall. intros c Hc. rewrite Forall_forall in H. now rewrite (H c Hc).
Qed.
(* the keys of rendered models are hashes of the target's spectra *)
Lemma dset_keys {V} (d : dict V) k v h : dget (dset d k v) h <> None -> h = k \/ dget d h <> None.
Proof. rewrite dget_dset. destruct (Z.eqb_spec k h) as [->|N]; [now left|now right]. Qed.
Lemma render_keys ps g r d h : render ps g r = Ok d -> dget d h <> None -> exists s, In s (g_spectra g) /\ q_hash s = h.
Proof.
  assert (G0 : forall l d0, dget (fold_left (fun d s => dset d (q_hash s) (repeat 0%Q (length (q_wave s)))) l d0) h <> None -> dget d0 h <> None \/ exists s, In s l /\ q_hash s = h).
  { induction l as [|s l IH]; intros d0 H; [now left|]. cbn [fold_left] in H. destruct (IH _ H) as [H1|(x & I & E)]; [|right; exists x; split; [now right|exact E]]. apply dset_keys in H1 as [->|H1]; [right; exists s; split; [now left|reflexivity]|now left]. }
  assert (G1 : forall (f : rspec -> res (list Q)) l a d, fold_left (fun acc s => do d <- acc; do m <- f s; Ok (dset d (q_hash s) m)) l a = Ok d -> dget d h <> None -> exists d0, a = Ok d0 /\ (dget d0 h <> None \/ exists s, In s l /\ q_hash s = h)).
  { induction l as [|s l IH]; intros a e E H; [exists e; split; [exact E|now left]|]. cbn [fold_left] in E. destruct (IH _ _ E H) as (d1 & E1 & H1). destruct a as [d0|]; cbn [rbind] in E1; [|discriminate]. destruct (f s) as [m|]; cbn [rbind] in E1; [|discriminate]. injection E1 as <-.
    exists d0. split; [reflexivity|]. destruct H1 as [H1|(x & I & Ex)]; [|right; exists x; split; [now right|exact Ex]]. apply dset_keys in H1 as [->|H1]; [right; exists s; split; [now left|reflexivity]|now left]. }
  unfold render. intros E H. destruct (forallb _ _).
  - injection E as <-. destruct (G0 _ _ H) as [X|X]; [now destruct X|exact X].
  - destruct (template_of ps (f_type r) (f_sub r)) as [p|]; [|discriminate]. destruct (G1 _ _ _ _ E H) as (d0 & E0 & [X|X]); [injection E0 as <-; now destruct X|exact X].
Qed.
(* one column *)
Lemma column_ok ms idx h (us : list (list Q)) n : ms <> [] -> Forall2 (fun m u => dget m h = Some u /\ length u = n) ms us -> (forall i, In i idx -> i < length ms) ->
  exists rows, column ms idx h = Ok rows /\ Forall2 (fun i row => nth_error us i = Some row) idx rows.
Proof.
  intros Ne F Hi. unfold column.
  assert (E : mapM (fun m : dict (list Q) => match dget m h with Some v => Ok v | None => Err KeyError end) ms = Ok us). { apply mapM_Forall2. eapply Forall2_impl; [|exact F]. intros m u [-> _]. reflexivity. }
  rewrite E. cbn [rbind]. assert (L : length us = length ms) by (clear -F; induction F; cbn; congruence). destruct us as [|v us]; [destruct ms; [congruence|discriminate L]|].
  assert (A : forall u, In u (v :: us) -> length u = n) by (intros u Iu; clear -F Iu; induction F as [|m x ms l [_ Hx] F IH]; [destruct Iu|destruct Iu as [<-|Iu]; [exact Hx|now apply IH]]).
  assert (Ef : forallb (fun u => length u =? length v) us = true) by (apply forallb_forall; intros u Iu; apply Nat.eqb_eq; rewrite (A u (or_intror Iu)), (A v (or_introl eq_refl)); reflexivity). rewrite Ef. clear Ef A E F.
  induction idx as [|i idx IH]; [exists []; split; [reflexivity|constructor]|]. cbn [mapM]. destruct (nth_error (v :: us) i) as [x|] eqn:Ex; [|apply nth_error_None in Ex; specialize (Hi i (or_introl eq_refl)); lia]. cbn [rbind].
  destruct IH as (rows & E & F); [intros j Ij; apply Hi; now right|]. rewrite E. cbn [rbind]. exists (x :: rows). split; [reflexivity|]. constructor; assumption.
Qed.
Lemma column_needs ms idx h rows : column ms idx h = Ok rows -> forall m, In m ms -> dget m h <> None.
Proof.
  unfold column. destruct (mapM _ ms) as [vs|] eqn:E; cbn [rbind]; [|discriminate]. intros _ m Im. apply mapM_Forall2 in E. destruct (F2_left _ _ _ E m Im) as (v & _ & Ev). destruct (dget m h); congruence.
Qed.
Lemma model_needs ps tab tgs hdus : hashes_tell_grids tgs -> model_hdus ps tab tgs = Ok hdus -> all_bands tgs.
Proof.
  intros T H g g' s Ig Ig' Is. unfold model_hdus in H. destruct (render_all ps tab tgs) as [ms|] eqn:Em; cbn [rbind] in H; [|discriminate]. destruct (sort_indices _ _) as [idx|]; cbn [rbind] in H; [|discriminate].
  assert (Ih : In (q_hash s, q_wave s) (grids tgs)). { apply dget_in; [apply grids_nodup|]. apply (grids_get _ _ _ (grids_once _ T)). exists s. split; [apply in_flat_map; now exists g|now split]. }
  apply mapM_Forall2 in H. destruct (F2_left _ _ _ H _ Ih) as (x & _ & Ex). cbn [fst snd] in Ex. destruct (column ms idx (q_hash s)) as [rows|] eqn:Ec; [|discriminate].
  unfold render_all in Em. apply mapM_Forall2 in Em. destruct (F2_left _ _ _ Em _ Ig') as (m & Im & Er). pose proof (column_needs _ _ _ _ Ec m Im) as K. unfold render_target in Er.
  destruct (bestfit_row _ _) as [i|]; cbn [rbind] in Er; [|discriminate]. destruct (nth_error (zbest tab) i) as [r|]; [|discriminate]. exact (render_keys _ _ _ _ _ Er K).
Qed.
