(* Proofs about rrdesi from files to table. *)
From Verif Require Import Prelude PreludeFacts NumX Facts2 Model_Fitz Model_Rebin Model_Dist Spec_Dist Props_Dist Proof_Dist3 Proof_Table Model_Zscan Proof_Zscan3 Model_Piece Model_IO Model_Zfind Model_Targets Model_Desi Spec_Desi Proof_Desi Proof_Desi2 Props_Desi
  Model_Run Proof_Run Spec_Run Proof_Run2 Proof_Run3 Proof_Run7 Model_RunMPI Proof_RunMPI2 Proof_RunMPI3 Model_RunDesi Spec_RunDesi.
Require Import Coq.Logic.Eqdep_dec.
Open Scope nat_scope.

(* ---------- order of the targets on the process ---------- *)
Section S.
Variables (slv : solvers) (argsort : list xq -> list nat) (polyfit : list Q -> list Q -> option (Q * Q * Q)) (isqrt : Q -> Q).
Variable trans : option string -> Q -> Q -> Q.
Variables (nminima nz : nat).
Notation run := (run slv argsort polyfit isqrt trans nminima nz).
Notation run_local := (run_local slv argsort polyfit isqrt trans nminima nz).
Notation local_run := (local_run slv argsort polyfit isqrt trans nminima nz).
Notation table := (Model_RunMPI.table nminima).
Lemma local_split ps l ids : run_local ps l ids = do tds <- mapM (fun p => tdata trans p (grids l) (p_zs p)) ps; do s <- local_run ps tds l; table ps ids s.
Proof. unfold Model_RunDesi.run_local, Proof_RunMPI3.local_run. destruct (mapM _ ps) as [tds|]; cbn [rbind]; [|reflexivity]. destruct (scan_all _ _ _ _); cbn [rbind]; reflexivity. Qed.
Lemma swap_data ps tds tds' tgs s : NoDup (map g_id tgs) -> length tds = length ps -> Forall2 same_data tds tds' -> local_run ps tds tgs = Ok s -> local_run ps tds' tgs = Ok s.
Proof.
  intros N L0 Sd El. apply (local_ok _ _ _ _ _ _ _ _ _ _ _ N) in El as (gds & M & -> & F). apply (local_ok _ _ _ _ _ _ _ _ _ _ _ N). exists gds. split; [exact M|]. split; [reflexivity|]. eapply Forall_impl; [|exact F]. intros x Hx. cbv beta in *. rewrite <- Hx. symmetry. now apply trec_ext.
Qed.
Lemma perm_one ps l tgs tds : Permutation l tgs -> NoDup (map g_id tgs) -> hashes_tell_grids tgs ->
  (forall s, local_run ps tds tgs = Ok s -> exists s', local_run ps tds l = Ok s') /\
  (forall s', local_run ps tds l = Ok s' -> exists s, local_run ps tds tgs = Ok s /\ Permutation s' s /\ NoDup (map fst s) /\ NoDup (map fst s')).
Proof.
  intros P N C. destruct (dicts_ok slv argsort polyfit isqrt trans nminima nz ps [l] tgs ltac:(cbn; lia) ltac:(cbn [concat]; rewrite app_nil_r; exact P) N C tds) as [A B]. split.
  - intros s H. destruct (A s H) as (ress & _ & Hr). destruct (Hr 0 ltac:(cbn; lia)) as (s' & _ & Hs). now exists s'.
  - intros s' H. destruct (B [s'] eq_refl) as (s & Hs & Pm & N1 & N2 & _).
    + intros r Hr. assert (r = 0) by (cbn in Hr; lia). subst r. now exists s'.
    + cbn [concat] in Pm, N2. rewrite app_nil_r in Pm, N2. now exists s.
Qed.
Lemma run_local_run ps l tgs tab : Permutation l tgs -> NoDup (map g_id tgs) -> hashes_tell_grids tgs -> (run_local ps l (map g_id tgs) = Ok tab <-> run ps tgs = Ok tab).
Proof.
  intros P N C. rewrite local_split, run_split.
  assert (C' : hashes_tell_grids l) by (apply (hashes_incl tgs); [intros g Hg; eapply Permutation_in; [exact P|exact Hg]|exact C]).
  assert (Pg : forall h, Model_Dist.dget (grids l) h = Model_Dist.dget (grids tgs) h) by (apply grids_perm; assumption).
  split; intro H.
  - destruct (mapM (fun p => tdata trans p (grids l) (p_zs p)) ps) as [tds|] eqn:E0; cbn [rbind] in H; [|discriminate]. destruct (local_run ps tds l) as [s'|] eqn:El; cbn [rbind] in H; [|discriminate].
    destruct (data_map trans ps (grids l) (grids tgs) tds (grids_nodup _) Pg E0) as (tds' & Ht & Sd). rewrite Ht. cbn [rbind].
    assert (L0 : length tds = length ps) by (apply mapM_Forall2 in E0; symmetry; exact (Forall2_len _ _ _ E0)).
    destruct (proj2 (perm_one ps l tgs tds P N C) s' El) as (s & Hs & Pm & N1 & N2). rewrite (swap_data _ _ _ _ _ N L0 Sd Hs). cbn [rbind]. eapply table_perm; [exact N2|exact Pm|exact H].
  - destruct (mapM (fun p => tdata trans p (grids tgs) (p_zs p)) ps) as [tds|] eqn:E0; cbn [rbind] in H; [|discriminate]. destruct (local_run ps tds tgs) as [s|] eqn:El; cbn [rbind] in H; [|discriminate].
    destruct (data_map trans ps (grids tgs) (grids l) tds (grids_nodup _) (fun h => eq_sym (Pg h)) E0) as (tds' & Ht & Sd). rewrite Ht. cbn [rbind].
    assert (L0 : length tds = length ps) by (apply mapM_Forall2 in E0; symmetry; exact (Forall2_len _ _ _ E0)).
    pose proof (swap_data _ _ _ _ _ N L0 Sd El) as El'. destruct (proj1 (perm_one ps l tgs tds' P N C) s El') as [s' Hs']. destruct (proj2 (perm_one ps l tgs tds' P N C) s' Hs') as (s0 & Hs0 & Pm & N1 & N2).
    rewrite Hs'. cbn [rbind]. assert (E : s0 = s) by congruence. rewrite E in *. eapply table_perm; [exact N1|symmetry; exact Pm|exact H].
Qed.
End S.

(* ---------- band names as keys ---------- *)
Lemma scode_nonneg s : (0 <= scode s)%Z.
Proof. induction s as [|c s IH]; cbn [scode]; lia. Qed.
Lemma scode_inj : forall a b, scode a = scode b -> a = b.
Proof.
  assert (B : forall c, (0 <= Z.of_N (N_of_ascii c) < 256)%Z). { intro c. pose proof (N_ascii_bounded c). lia. }
  induction a as [|c a IH]; intros [|d b] H; cbn [scode] in H; [reflexivity| | |].
  - pose proof (B d). pose proof (scode_nonneg b). lia.
  - pose proof (B c). pose proof (scode_nonneg a). lia.
  - pose proof (B c). pose proof (B d). assert (E : scode a = scode b /\ Z.of_N (N_of_ascii c) = Z.of_N (N_of_ascii d)) by lia. destruct E as [E1 E2]. f_equal; [|now apply IH].
    apply N2Z.inj in E2. rewrite <- (ascii_N_embedding c), <- (ascii_N_embedding d). now rewrite E2.
Qed.
Lemma key_code_inj a b : key_code a = key_code b -> a = b.
Proof. destruct a, b; cbn [key_code]; intro H; try lia; f_equal; [apply scode_inj|]; lia. Qed.

(* ---------- a slot is determined by its row ---------- *)
Lemma used_dec n f v m : used n f v m \/ ~ used n f v m.
Proof.
  destruct f as [a| | |]; [|right; intros (x & y & H & _); discriminate..]. destruct v as [b| | |]; [|right; intros (x & y & _ & H & _); discriminate..].
  destruct (Z.eq_dec m 0) as [E|E]; [|right; intros (x & y & _ & _ & _ & H); contradiction].
  destruct (bigneg n (Fin a) (Fin b)) eqn:Eb.
  - right. intros (x & y & Hx & Hy & Hn & _). apply Hn. apply bigneg_iff. now rewrite <- Hx, <- Hy in *.
  - left. exists a, b. repeat split; auto. intro Ht. apply bigneg_iff in Ht. congruence.
Qed.
Lemma slot_unique {R} n (s s' : slot R) r : slot_of n s r -> slot_of n s' r -> s = s'.
Proof.
  intros (A1 & A2 & A3 & fl & iv & A4 & A5 & A6 & A7 & A8) (B1 & B2 & B3 & fl' & iv' & B4 & B5 & B6 & B7 & B8).
  assert (fl = fl'). { apply (nth_ext _ _ NaN NaN); [congruence|]. intros i Hi. destruct (A8 i ltac:(lia)) as (X1 & X2 & _). destruct (B8 i ltac:(lia)) as (Y1 & Y2 & _). unfold pix in *. destruct (nth i (r_flux r) NaN) as [q| | |] eqn:E; [rewrite (X1 q eq_refl), (Y1 q eq_refl); reflexivity|rewrite X2, Y2 by discriminate; reflexivity..]. }
  assert (iv = iv'). { apply (nth_ext _ _ NaN NaN); [congruence|]. intros i Hi. destruct (A8 i ltac:(lia)) as (_ & _ & X1 & X2). destruct (B8 i ltac:(lia)) as (_ & _ & Y1 & Y2). unfold pix in *. destruct (used_dec n (nth i (r_flux r) NaN) (nth i (r_ivar r) NaN) (nth i (r_mask r) 0%Z)) as [U|U]; [rewrite (X1 U), (Y1 U)|rewrite (X2 U), (Y2 U)]; reflexivity. }
  destruct s, s'; cbn in *. congruence.
Qed.
Lemma slots_unique {R} n (l l' : list (slot R)) rows : Forall2 (slot_of n) l rows -> Forall2 (slot_of n) l' rows -> l = l'.
Proof.
  intro F. revert l'. induction F as [|s r l rows H F IH]; intros l' F'; inversion F' as [|s' r' l2 rows2 H' F2]; subst; [reflexivity|]. f_equal; [eapply slot_unique; eassumption|now apply IH].
Qed.

Lemma F2_left {A B} (P : A -> B -> Prop) l m : Forall2 P l m -> forall a, In a l -> exists b, In b m /\ P a b.
Proof. induction 1 as [|a b l m H _ IH]; intros x []; [subst; exists b; split; [now left|exact H]|]. destruct (IH x H0) as (y & I & Hy). exists y. split; [now right|exact Hy]. Qed.
(* ---------- reading ---------- *)
Lemma my_ok o fs : exists my, my_targets o fs = Ok my /\ Permutation my (all_ids fs).
Proof.
  unfold my_targets. destruct (C16_distribute_work_partition 1 (all_ids fs) (if o_allspec o then Some (fun t => Some (inject_Z (Z.of_nat (target_weight fs t)))) else None) None) as (dist & E & L & P).
  - lia.
  - intros x _. destruct (o_allspec o); discriminate.
  - reflexivity.
  - repeat constructor.
  - rewrite E. cbn [rbind]. eexists. split; [reflexivity|]. destruct dist as [|d [|]]; cbn in L; try lia. cbn [concat] in P. rewrite app_nil_r in P. exact P.
Qed.
Lemma ids_nodup fs : NoDup (all_ids fs). Proof. apply C68_target_list. Qed.
Lemma ids_in fs t : In t (all_ids fs) <-> exists f, In f fs /\ In t (sf_keep f).
Proof. unfold all_ids. rewrite (proj1 (proj2 (C68_target_list _)) t), in_concat. split; [intros (l & Hl & Ht); apply in_map_iff in Hl as (f & <- & Hf); now exists f|intros (f & Hf & Ht); exists (sf_keep f); split; [now apply in_map|exact Ht]]. Qed.

Section P.
Variables (hashf : hash_arg -> Z) (tocsr : dia -> csr).
Notation prepare := (prepare hashf tocsr).
Notation read_targets := (read_targets hashf tocsr).

Definition reads (o : dopts) (fs : list (sfile dia)) (g : targ) : Prop :=
  exists slots, Forall2 (slot_of (o_negflux o)) slots (target_rows fs (g_id g)) /\ prepare o (g_id g) slots = Ok g.
Lemma prepare_id o t l g : prepare o t l = Ok g -> g_id g = t.
Proof. unfold Model_RunDesi.prepare. destruct (mapM (spec_of o) l); cbn [rbind]; [|discriminate]. destruct (if o_allspec o then _ else _); cbn [rbind]; [|discriminate]. destruct (mapM _ _); cbn [rbind]; [|discriminate]. intro H. injection H as <-. reflexivity. Qed.
Lemma mapM_F2 {A B C} (f : B -> res C) (P : A -> B -> Prop) l m n : Forall2 P l m -> mapM f m = Ok n -> Forall2 (fun a c => exists b, P a b /\ f b = Ok c) l n.
Proof. intros F H. apply mapM_Forall2 in H. revert n H. induction F as [|a b l m Hab F IH]; intros n H; inversion H as [|? c ? n' Hc H']; subst; constructor; [now exists b|now apply IH]. Qed.
Lemma read_ok o fs : in_order fs -> forall tgs, read_targets o fs = Ok tgs -> exists tgs', Permutation tgs tgs' /\ map g_id tgs' = all_ids fs /\ forall g, In g tgs' -> reads o fs g.
Proof.
  intros (T & (mk & M) & _) tgs H. unfold Model_RunDesi.read_targets in H. destruct (my_ok o fs) as (my & E & P). rewrite E in H. cbn [rbind] in H.
  destruct (C66_target_rows (Build_dia [] [] 0) (o_negflux o) fs my mk T M) as (out & E2 & F). rewrite E2 in H. cbn [rbind] in H.
  pose proof (mapM_F2 _ _ _ _ _ F H) as G. cbv beta in G.
  assert (Ei : map g_id tgs = my). { clear -G. induction G as [|t g l l' (p & [Hp _] & Hg) _ IH]; [reflexivity|]. cbn [map]. rewrite IH. f_equal. now rewrite (prepare_id _ _ _ _ Hg). }
  assert (R : forall g, In g tgs -> reads o fs g). { intros g Hg. clear -G Hg. induction G as [|t g' l l' (p & [Hp Hr] & Hg') _ IH]; [destruct Hg|]. destruct Hg as [->|Hg]; [|now apply IH]. exists (t_slots (snd p)). pose proof (prepare_id _ _ _ _ Hg') as Ei. rewrite Ei, Hp. split; [exact Hr|]. rewrite Hp in Hg'. exact Hg'. }
  rewrite <- Ei in P. destruct (Permutation_map_inv g_id tgs (Permutation_sym P)) as (tgs' & E3 & P3). exists tgs'. split; [exact P3|]. split; [now symmetry|]. intros g Hg. apply R. eapply Permutation_in; [symmetry; exact P3|exact Hg].
Qed.
Lemma read_all o fs tgs' : in_order fs -> map g_id tgs' = all_ids fs -> (forall g, In g tgs' -> reads o fs g) -> exists tgs, read_targets o fs = Ok tgs /\ Permutation tgs tgs'.
Proof.
  intros (T & (mk & M) & W) Ei R. assert (Or : in_order fs) by (split; [exact T|split; [now exists mk|exact W]]). unfold Model_RunDesi.read_targets. destruct (my_ok o fs) as (my & E & P). 
  destruct (C66_target_rows (Build_dia [] [] 0) (o_negflux o) fs my mk T M) as (out & E2 & F).
  assert (X : exists tgs, mapM (fun p => prepare o (fst p) (t_slots (snd p))) out = Ok tgs /\ Forall2 (fun t g => g_id g = t /\ In g tgs') my tgs).
  { assert (Q : forall t, In t my -> exists g, In g tgs' /\ g_id g = t). { intros t Ht. assert (I : In t (map g_id tgs')) by (rewrite Ei; eapply Permutation_in; [exact P|exact Ht]). apply in_map_iff in I as (g & Eg & Ig). now exists g. }
    clear -Q F R. induction F as [|t p my out [Hp Hr] F IH]; [exists []; split; [reflexivity|constructor]|]. destruct IH as (tgs & E & G); [intros; apply Q; now right|]. destruct (Q t (or_introl eq_refl)) as (g & Ig & Eg). destruct (R g Ig) as (sl & Hs & Hg).
    assert (Es : sl = t_slots (snd p)) by (rewrite Eg in Hs; eapply slots_unique; eassumption). exists (g :: tgs). cbn [mapM]. rewrite Hp, <- Es, <- Eg, Hg. cbn [rbind]. rewrite E. cbn [rbind]. split; [reflexivity|]. constructor; [split; auto|exact G]. }
  destruct X as (tgs & E3 & G). exists tgs. rewrite E. cbn [rbind]. rewrite E2. cbn [rbind]. split; [exact E3|].
  assert (N : NoDup (map g_id tgs')) by (rewrite Ei; apply ids_nodup). assert (Em : map g_id tgs = my) by (clear -G; induction G as [|t g l l' [H _] _ IH]; [reflexivity|]; cbn; now rewrite IH, H).
  apply NoDup_Permutation; [apply (NoDup_map_inv g_id); rewrite Em; eapply Permutation_NoDup; [symmetry; exact P|apply ids_nodup]|exact (NoDup_map_inv g_id _ N)|].
  intro g. split; [intro Hg; clear -G Hg; induction G as [|t g' l l' [_ H] _ IH]; [destruct Hg|]; destruct Hg as [->|Hg]; auto|].
  intro Hg. assert (I : In (g_id g) (map g_id tgs)) by (rewrite Em; eapply Permutation_in; [symmetry; exact P|rewrite <- Ei; now apply in_map]). apply in_map_iff in I as (g' & Eg & Ig).
  assert (Ig' : In g' tgs') by (clear -G Ig; induction G as [|t g0 l l' [_ H] _ IH]; [destruct Ig|]; destruct Ig as [->|Hg]; auto). replace g with g'; [exact Ig|].
  clear -N Eg Ig' Hg. induction tgs' as [|a l IH]; [destruct Hg|]. cbn in N. inversion N as [|? ? N1 N2]; subst. destruct Hg as [->|Hg], Ig' as [<-|Ig']; auto; exfalso; apply N1; [rewrite <- Eg|rewrite Eg]; now apply in_map.
Qed.

(* the wavelengths of a spectrum are those of its band *)
Lemma coadd_facts nsig group s : coadd_group hashf true nsig group = Ok s -> exists s0 rest, group = s0 :: rest /\ sp_wave s = sp_wave s0 /\ forall b, sp_band (last group s0) = Some b -> sp_hash s = KBand b.
Proof.
  destruct group as [|s0 rest]; [discriminate|]. intro H. exists s0, rest. split; [reflexivity|]. revert H. unfold coadd_group. destruct (sp_R s0) as [R0|]; [|discriminate].
  destruct (scale_data _ _); cbn [rbind]; [|discriminate]. destruct (acc_R _ _ _); cbn [rbind]; [|discriminate]. destruct (if qlt 0 nsig then _ else _); cbn [rbind]; [|discriminate]. destruct (negb _); [discriminate|].
  unfold spectrum_init. destruct (mask_lowres _ _); cbn [rbind]; [|discriminate]. unfold wavehash. destruct (sp_band (last (s0 :: rest) s0)) as [b'|].
  - cbn [rbind fst]. intro H. injection H as <-. cbn [sp_wave sp_hash]. split; [reflexivity|]. intros b E. congruence.
  - destruct (length (sp_wave s0) <? 2); cbn [rbind fst]; [discriminate|]. intro H. injection H as <-. cbn [sp_wave sp_hash]. split; [reflexivity|]. intros b E. discriminate.
Qed.
Lemma prepare_facts o t l g : prepare o t l = Ok g -> forall s, In s (g_spectra g) -> exists sl, In sl l /\ q_wave s = Model_Desi.s_wave sl /\ q_hash s = key_code (KBand (s_band sl)).
Proof.
  unfold Model_RunDesi.prepare. intros H s Hs. destruct (mapM (spec_of o) l) as [l1|] eqn:E1; cbn [rbind] in H; [|discriminate]. destruct (if o_allspec o then _ else _) as [l2|] eqn:E2; cbn [rbind] in H; [|discriminate]. destruct (mapM (seen tocsr o) l2) as [l3|] eqn:E3; cbn [rbind] in H; [|discriminate].
  injection H as <-. cbn [g_spectra] in Hs. apply mapM_Forall2 in E3. destruct (Forall2_in_r _ _ _ _ E3 Hs) as (s2 & I2 & H2). 
  assert (A : q_wave s = sp_wave s2 /\ q_hash s = key_code (sp_hash s2)). { unfold seen in H2. destruct (sp_R s2); [|discriminate]. injection H2 as <-. now split. }
  assert (B : forall s1, In s1 l1 -> exists sl, In sl l /\ sp_wave s1 = Model_Desi.s_wave sl /\ sp_hash s1 = KBand (s_band sl) /\ sp_band s1 = Some (s_band sl)).
  { intros s1 I1. apply mapM_Forall2 in E1. destruct (Forall2_in_r _ _ _ _ E1 I1) as (sl & Il & Hl). exists sl. split; [exact Il|]. unfold spec_of in Hl. destruct (Model_Desi.s_flux sl), (Model_Desi.s_ivar sl), (s_res sl); try discriminate. injection Hl as <-. now repeat split. }
  destruct A as [A1 A2]. destruct (o_allspec o).
  - injection E2 as ->. destruct (B s2 I2) as (sl & Il & H3 & H4 & _). exists sl. split; [exact Il|]. split; congruence.
  - unfold compute_coadd in E2. apply mapM_Forall2 in E2. destruct (Forall2_in_r _ _ _ _ E2 I2) as (k & _ & Hk). destruct (coadd_facts _ _ _ Hk) as (s0 & rest & Eg & Ew & Eh).
    assert (I0 : In s0 (group_of l1 k)) by (rewrite Eg; now left). assert (Il : In (last (group_of l1 k) s0) (group_of l1 k)). { rewrite Eg. clear. generalize s0 at 2 as d. revert s0. induction rest as [|b r IH]; intros a d; [now left|]. right. exact (IH b d). }
    unfold group_of in I0, Il. apply filter_In in I0 as [I0 K0]. apply filter_In in Il as [Il Kl]. destruct (B s0 I0) as (sl & Is & H3 & H4 & H5). destruct (B _ Il) as (sl' & Is' & H3' & H4' & H5').
    fold (group_of l1 k) in *. assert (Ke : forall a b, key_eqb a b = true -> a = b). { intros a b Hab. destruct a, b; cbn in Hab; try discriminate; f_equal; [now apply String.eqb_eq|now apply Z.eqb_eq]. }
    apply Ke in K0. apply Ke in Kl. exists sl. split; [exact Is|]. split; [congruence|]. rewrite A2. f_equal. rewrite (Eh _ H5'). rewrite <- H4', Kl, <- K0. exact H4.
Qed.
Lemma row_bands (fs : list (sfile dia)) t (r : fullrow dia) : In r (target_rows fs t) -> exists f, In f fs /\ In (r_band r) (sf_bands f) /\ r_wave r = sf_wave f (r_band r).
Proof.
  unfold target_rows. intro H. apply in_concat in H as (l & Hl & Hr). apply in_map_iff in Hl as (f & <- & Hf). apply filter_In in Hf as [Hf _]. apply in_concat in Hr as (l & Hl & Hr). apply in_map_iff in Hl as (b & <- & Hb).
  unfold Spec_Desi.rows_of in Hr. apply in_map_iff in Hr as ([i r'] & E & Hr). cbn in E. subst r'. apply filter_In in Hr as [Hr _]. apply in_combine_r in Hr. unfold full_rows in Hr. apply in_map_iff in Hr as ([[[fl iv] i'] rr] & <- & _). cbn [r_band r_wave]. now exists f.
Qed.
Lemma reads_tell o fs tgs : in_order fs -> (forall g, In g tgs -> reads o fs g) -> hashes_tell_grids tgs.
Proof.
  intros (_ & _ & W) R g g' s s' Hg Hg' Hs Hs' E.
  assert (X : forall g s, In g tgs -> In s (g_spectra g) -> exists f b, In f fs /\ In b (sf_bands f) /\ q_wave s = sf_wave f b /\ q_hash s = key_code (KBand b)).
  { clear -R. intros g s Hg Hs. destruct (R g Hg) as (sl & F & P). destruct (prepare_facts _ _ _ _ P s Hs) as (x & Ix & E1 & E2). destruct (F2_left _ _ _ F x Ix) as (r & Ir & (A1 & A2 & _)). destruct (row_bands _ _ _ Ir) as (f & If & Ib & Ew). exists f, (r_band r). repeat split; try assumption; congruence. }
  destruct (X g s Hg Hs) as (f & b & If & Ib & E1 & E2). destruct (X g' s' Hg' Hs') as (f' & b' & If' & Ib' & E1' & E2'). rewrite E2, E2' in E. apply key_code_inj in E. injection E as <-. rewrite E1, E1'. now apply W.
Qed.
End P.


(* ---------- warning bits of the fibermap ---------- *)
Section F.
Variable fb : fbits.
Lemma reflag_tid fm r : f_tid (reflag fb fm r) = f_tid r. Proof. reflexivity. Qed.
Lemma reflag_znum fm r : f_znum (reflag fb fm r) = f_znum r. Proof. reflexivity. Qed.
Lemma reflag_rows fm t tab : rows_of t (map (reflag fb fm) tab) = map (reflag fb fm) (rows_of t tab).
Proof. unfold rows_of. induction tab as [|r tab IH]; [reflexivity|]. cbn [map filter]. rewrite reflag_tid. destruct (f_tid r =? t)%Z; cbn [map]; now rewrite IH. Qed.
Lemma among_same fm fm' t cond : same_fibers t fm fm' -> among fm cond t = among fm' cond t.
Proof.
  intro H. unfold among, zmem. assert (X : forall a b : list fmrow, (forall r, fm_id r = t -> In r a -> In r b) -> existsb (Z.eqb t) (map fm_id (filter cond a)) = true -> existsb (Z.eqb t) (map fm_id (filter cond b)) = true).
  { clear. intros a b I E. apply existsb_exists in E as (x & Hx & E). apply Z.eqb_eq in E. subst x. apply in_map_iff in Hx as (r & Er & Hr). apply filter_In in Hr as [Hr Hc]. apply existsb_exists. exists t. split; [|apply Z.eqb_refl]. apply in_map_iff. exists r. split; [exact Er|]. apply filter_In. split; [now apply I|exact Hc]. }
  destruct (existsb (Z.eqb t) (map fm_id (filter cond fm))) eqn:E, (existsb (Z.eqb t) (map fm_id (filter cond fm'))) eqn:E'; try reflexivity.
  - rewrite <- E'. symmetry. apply (X fm fm'); [intros r Er; now apply H|exact E].
  - rewrite <- E. apply (X fm' fm); [intros r Er; now apply H|exact E'].
Qed.
Lemma zeros_nth (l : list Q) k : nth k (map (fun _ => 0%Q) l) 0%Q = 0%Q.
Proof. revert k. induction l as [|x l IH]; intros [|k]; cbn; auto. Qed.
Lemma reflag_same fm fm' a b : same_row a b -> same_fibers (f_tid a) fm fm' -> same_row (reflag fb fm a) (reflag fb fm' b).
Proof.
  intros (E1 & E2 & E3 & E4 & E5 & E6 & E7 & E8 & E9 & E10 & E11 & E12 & E13) H. unfold reflag, flag_row, to_w. cbn [w_id]. rewrite <- E1. rewrite !(among_same fm fm' _ _ H).
  unfold same_row. cbn [f_tid f_type f_sub Model_Zfind.f_z Model_Zfind.f_zerr Model_Zfind.f_chi2 Model_Zfind.f_zwarn f_npix f_ncoeff Model_Zfind.f_coeff f_lim f_znum f_dchi2].
  generalize (among fm' (poorpos fb) (f_tid a)) (among fm' (fun x => badpos fb x || broken fb x || unassigned fb x || is_bad x) (f_tid a)) (among fm' (broken fb) (f_tid a)) (among fm' is_sky (f_tid a)) (among fm' (badcoverage fb) (f_tid a)) (among fm' is_bad (f_tid a)).
  intros b1 b2 b3 b4 b5 b6. rewrite <- E7.
  destruct b1, b2, b3, b4, b5, b6; cbn [orw reset w_id w_zwarn w_spectype w_subtype w_coeff w_z]; repeat (split; [assumption || reflexivity|]); intro k; rewrite ?zeros_nth; auto.
Qed.
End F.

(* ---------- the whole run ---------- *)
Section W.
Variables (slv : solvers) (argsort : list xq -> list nat) (polyfit : list Q -> list Q -> option (Q * Q * Q)) (isqrt : Q -> Q).
Variable trans : option string -> Q -> Q -> Q.
Variables (nminima nz : nat).
Variables (hashf : hash_arg -> Z) (tocsr : dia -> csr) (fb : fbits).
Notation run := (run slv argsort polyfit isqrt trans nminima nz).
Notation rrdesi := (rrdesi slv argsort polyfit isqrt trans nminima nz hashf tocsr fb).
Lemma rrdesi_run o ps ds fs tab : open_files o ds = Ok fs -> in_order fs ->
  (rrdesi o ps ds = Ok tab <-> exists tgs tab0, map g_id tgs = all_ids fs /\ (forall g, In g tgs -> reads hashf tocsr o fs g) /\ run ps tgs = Ok tab0 /\ tab = map (reflag fb (fibermap ds fs)) tab0).
Proof.
  intros E Or. unfold Model_RunDesi.rrdesi. rewrite E. cbn [rbind]. split.
  - intro H. destruct (Model_RunDesi.read_targets hashf tocsr o fs) as [l|] eqn:El; cbn [rbind] in H; [|discriminate]. destruct (Model_RunDesi.run_local _ _ _ _ _ _ _ ps l (all_ids fs)) as [tab0|] eqn:Er; cbn [rbind] in H; [|discriminate].
    destruct (read_ok hashf tocsr o fs Or l El) as (tgs & P & Ei & R). exists tgs, tab0. split; [exact Ei|]. split; [exact R|]. split; [|congruence]. rewrite <- Ei in Er. apply run_local_run in Er; [exact Er|exact P|rewrite Ei; apply ids_nodup|]. eapply reads_tell; [exact Or|exact R].
  - intros (tgs & tab0 & Ei & R & Hr & ->). destruct (read_all hashf tocsr o fs tgs Or Ei R) as (l & El & P). rewrite El. cbn [rbind]. rewrite <- Ei.
    apply (run_local_run slv argsort polyfit isqrt trans nminima nz ps l tgs tab0 P) in Hr; [|rewrite Ei; apply ids_nodup|eapply reads_tell; [exact Or|exact R]]. now rewrite Hr.
Qed.
Lemma reads_same o o' fs fs' g g' : same_treatment o o' -> target_rows fs (g_id g) = target_rows fs' (g_id g) -> g_id g = g_id g' -> reads hashf tocsr o fs g -> reads hashf tocsr o' fs' g' -> g = g'.
Proof.
  intros (S1 & S2 & S3 & S4) E Ei (sl & F & P) (sl' & F' & P'). rewrite <- Ei, <- E, <- S3 in F'. pose proof (slots_unique _ _ _ _ F F') as Es. subst sl'. rewrite <- Ei in P'.
  assert (X : prepare hashf tocsr o (g_id g) sl = prepare hashf tocsr o' (g_id g) sl); [|congruence]. unfold prepare.
  assert (Y : forall l, mapM (spec_of o) l = mapM (spec_of o') l) by (intro l; apply mapM_ext; intros s _; unfold spec_of; now rewrite S1). rewrite Y. destruct (mapM (spec_of o') sl) as [l|]; cbn [rbind]; [|reflexivity]. rewrite S1, S2.
  destruct (if o_allspec o' then _ else _) as [l'|]; cbn [rbind]; [|reflexivity]. assert (Z : mapM (seen tocsr o) l' = mapM (seen tocsr o') l') by (apply mapM_ext; intros s _; unfold seen, mask_sky; now rewrite S4). now rewrite Z.
Qed.
Lemma reads_other o o' fs fs' g : same_treatment o o' -> target_rows fs (g_id g) = target_rows fs' (g_id g) -> reads hashf tocsr o fs g -> reads hashf tocsr o' fs' g.
Proof.
  intros (S1 & S2 & S3 & S4) E (sl & F & P). exists sl. rewrite <- E, <- S3. split; [exact F|]. rewrite <- P. unfold prepare.
  assert (Y : forall l, mapM (spec_of o) l = mapM (spec_of o') l) by (intro l; apply mapM_ext; intros s _; unfold spec_of; now rewrite S1). rewrite Y. destruct (mapM (spec_of o') sl) as [l|]; cbn [rbind]; [|reflexivity]. rewrite S1, S2.
  destruct (if o_allspec o' then _ else _) as [l'|]; cbn [rbind]; [|reflexivity]. assert (Z : mapM (seen tocsr o) l' = mapM (seen tocsr o') l') by (apply mapM_ext; intros s _; unfold seen, mask_sky; now rewrite S4). now rewrite Z.
Qed.
End W.
