(* One target among others: the whole run and the runs of the single targets. *)
From Verif Require Import Prelude PreludeFacts NumX Facts2 Model_Fitz Spec_Fitz Proof_Fitz Proof_Fitz2 Model_Rebin Model_Dist Proof_Dist3 Model_Rank Proof_Table Model_Zscan Proof_Zscan2 Proof_Zscan3 Proof_Zscan4
  Model_Piece Model_IO Model_Zfind Proof_Zfind Model_Run Spec_Run Proof_Run Proof_Run2.
Open Scope nat_scope.
Local Notation dget := Model_Dist.dget.
Notation zf_coeff := Model_Zfind.f_coeff.

Lemma same_row_refl r : same_row r r.
Proof. unfold same_row. repeat split. Qed.
Lemma grids_once tgs : hashes_tell_grids tgs -> one_grid_per_hash (flat_map g_spectra tgs).
Proof. intros H s s' Hs Hs'. apply in_flat_map in Hs as (g & Hg & Hs), Hs' as (g' & Hg' & Hs'). exact (H g g' s s' Hg Hg' Hs Hs'). Qed.
Lemma hashes_incl tgs tgs' : (forall g, In g tgs' -> In g tgs) -> hashes_tell_grids tgs -> hashes_tell_grids tgs'.
Proof. intros I H g g' s s' Hg Hg'. apply H; auto. Qed.

Lemma batch_len S alg spectra td w f wf nb x c : calc_zchi2_batch S alg None None spectra td w f wf 1 nb = Ok (x, c) -> length (hd [] c) = nb.
Proof.
  intro H. destruct (Qeq_bool (sumQ w) 0) eqn:Ew.
  - unfold calc_zchi2_batch in H. rewrite Ew in H. cbn [repeat] in H. assert (c = [repeat 0%Q nb]) by congruence. subst. cbn. apply repeat_length.
  - assert (Nw : ~ sumQ w == 0). { intro C. apply Qeq_bool_iff in C. congruence. }
    pose proof (batch_at _ _ _ _ _ _ _ _ _ _ _ _ _ 0 Nw H (le_n 1)) as H0. apply zchi2_at_cases in H0 as (Tb & M & _ & _ & _ & _ & _ & D).
    replace (hd [] c) with (nth 0 c []) by now destruct c. destruct D as [(_ & L & _)|(_ & ->)]; [exact L|apply repeat_length].
Qed.

Section R.
Variables (slv : solvers) (argsort : list xq -> list nat) (polyfit : list Q -> list Q -> option (Q * Q * Q)) (isqrt : Q -> Q).
Variable trans : option string -> Q -> Q -> Q.
Variables (nminima nz : nat).
Hypothesis Hsort : argsort_ok argsort.
Notation tdata := (tdata trans).
Notation fit_target := (fit_target slv argsort polyfit isqrt trans nminima nz).
Notation solo := (solo slv argsort polyfit isqrt trans nminima nz).
Notation run := (run slv argsort polyfit isqrt trans nminima nz).
Notation fitted := (fitted slv argsort polyfit isqrt trans nminima nz).

Lemma chi2_at_len p g w f wf z x c : chi2_at slv trans p g w f wf z = Ok (x, c) -> length c = nbasis p.
Proof.
  unfold chi2_at. destruct (tdata p (own_grids g) [z]) as [td|]; cbn [rbind]; [|discriminate].
  destruct (calc_zchi2_batch _ _ _ _ _ _ _ _ _ _ _) as [[zc co]|] eqn:E; cbn [rbind]; [|discriminate]. intro H. assert (c = hd [] co) by (cbn [fst snd] in H; congruence). subst. eapply batch_len. exact E.
Qed.
Lemma fit_facts p g zc fs : fit_target p g zc = Ok fs -> length fs <= nminima /\ (0 < nminima -> fs <> []) /\ Forall (fun x => length (Model_Fitz.f_coeff x) = nbasis p) fs.
Proof.
  unfold Model_Run.fit_target. destruct (spectral_data (data_of g)) as [[[w f] wf]|]; cbn [rbind]; [|discriminate]. intro H.
  destruct (fitz_parts _ _ _ _ _ _ _ _ _ _ _ _ _ _ Hsort H) as (minima & results & Hl & Hne & Hm & Hr & Hp & _).
  destruct (fit_loop_inv _ _ _ _ _ _ _ _ _ _ _ minima [] results Hr (Nat.le_0_l _) (pw_nil _)) as (I1 & _ & I3 & _).
  split; [now rewrite (Permutation_length Hp)|]. split.
  - intros Hn C. subst fs. apply Permutation_nil in Hp. subst results. destruct minima as [|i rest].
    + destruct (find_minima_ok argsort _ Hsort Hne) as (m' & E' & _ & Hin & _). assert (m' = []) by congruence. subst m'.
      assert (NN : nonan (map Fin zc)). { intros i Hi. rewrite map_length in Hi. rewrite (nth_indep _ NaN (Fin 0)) by now rewrite map_length. now rewrite map_nth. }
      destruct (global_min_exists _ Hne NN) as (i & Hi & Hmin). apply (Hin i). unfold local_min. split; [exact Hi|]. split; [intros|]; intros; apply Hmin; lia.
    + destruct (fit_loop_first _ _ _ _ _ _ _ _ _ _ _ i rest [] Hn Hr) as (r & r' & more & _ & _ & C). discriminate.
  - apply Forall_forall. intros x Hx. eapply Permutation_in in Hx; [|exact Hp]. destruct (I3 x Hx) as [[]|(i & r0 & _ & H1 & H2)].
    destruct (finish_same _ _ _ H2) as (_ & _ & _ & _ & _ & F6). subst r0. destruct (refine_refined _ _ _ _ _ _ _ _ _ _ H1) as (zlo & zhi & zmin & sg & ym & w0 & HR & _).
    destruct (rf_coeff _ _ _ _ _ _ _ _ _ _ _ _ _ _ _ _ HR) as [C|(_ & -> & _)]; [|apply repeat_length]. unfold coeff_at in C. destruct (chi2_at _ _ p g w f wf zmin) as [[y c]|] eqn:E; cbn [rbind] in C; [|discriminate].
    assert (Ec : Model_Fitz.f_coeff x = c) by (cbn [snd] in C; congruence). rewrite Ec. eapply chi2_at_len. exact E.
Qed.
Lemma fitted_wf ps tds g ft b : fitted ps tds g ft b -> wf_block b /\ length (b_rows b) <= nminima /\ (0 < nminima -> nonempty b = true /\ exists p, pick ft ps = Some p /\ b_width b = nbasis p).
Proof.
  intros (p & td & row & fs & ts & Hp & _ & _ & Hf & _ & ->). destruct (fit_facts _ _ _ _ Hf) as (L & Hn & Hc). split; [|split].
  - unfold wf_block, mkblock. cbn [b_rows b_width]. apply Forall_map. cbn [Model_Zfind.f_coeff]. destruct fs as [|x fs]; [constructor|]. pose proof (proj1 (Forall_forall _ _) Hc) as Hc'. rewrite (Hc' x (or_introl eq_refl)). exact Hc.
  - unfold mkblock. cbn [b_rows]. now rewrite map_length.
  - intro P. specialize (Hn P). destruct fs as [|x fs]; [congruence|]. split; [reflexivity|]. exists p. split; [exact Hp|]. unfold mkblock. cbn [b_width]. now inversion Hc.
Qed.
Definition width_of (ps : list tmpl) (ft : string) : nat := match pick ft ps with Some p => nbasis p | None => 0 end.
Lemma blocks_width ps tds g bs : 0 < nminima -> Forall2 (fitted ps tds g) (typed ps) bs -> Forall wf_block bs /\ filter nonempty bs = bs /\ max_width bs = list_max_nat (map (width_of ps) (typed ps)).
Proof.
  intros P F. assert (G : Forall wf_block bs /\ filter nonempty bs = bs /\ map b_width bs = map (width_of ps) (typed ps)).
  { induction F as [|ft b l bs H _ (I1 & I2 & I3)]; [now repeat split|]. destruct (fitted_wf _ _ _ _ _ H) as (W & _ & Q). destruct (Q P) as [N (p & Hp & Hw)]. split; [now constructor|]. split; [cbn; now rewrite N, I2|].
    cbn [map]. rewrite I3. f_equal. unfold width_of. now rewrite Hp. }
  destruct G as (G1 & G2 & G3). split; [exact G1|]. split; [exact G2|]. unfold max_width. now rewrite G2, G3.
Qed.
Lemma blocks_zero ps tds g bs : nminima = 0 -> Forall2 (fitted ps tds g) (typed ps) bs -> filter nonempty bs = [].
Proof.
  intros P F. induction F as [|ft b l bs H _ IH]; [reflexivity|]. destruct (fitted_wf _ _ _ _ _ H) as (_ & L & _). cbn. assert (N : nonempty b = false) by (unfold nonempty; destruct (b_rows b); [reflexivity|cbn in L; lia]). now rewrite N.
Qed.
Lemma width_le ps : list_max_nat (map (width_of ps) (typed ps)) <= list_max_nat (map nbasis ps).
Proof.
  assert (G : forall l m, (forall x, In x l -> x <= m) -> list_max_nat l <= m). { induction l as [|x l IH]; intros m H; cbn; [lia|]. specialize (IH m (fun y Hy => H y (or_intror Hy))). specialize (H x (or_introl eq_refl)). unfold list_max_nat in IH. lia. }
  apply G. intros x Hx. apply in_map_iff in Hx as (ft & <- & Hft). unfold width_of. destruct (pick ft ps) as [p|] eqn:E; [|lia]. apply pick_some in E as [E _]. apply list_max_le. now apply in_map.
Qed.
Lemma standardise_total m rows : coeff_width rows <= m -> exists out, standardise m rows = Ok out.
Proof.
  intro H. unfold standardise. replace (coeff_width (map _ rows)) with (coeff_width rows) by (destruct rows; reflexivity). destruct (Nat.ltb_spec m (coeff_width rows)); [lia|].
  destruct (nodup N.eq_dec _) as [|n [|n' l']]; now eexists.
Qed.
Lemma nth_pad w (c : list Q) k : nth k (pad w c) 0%Q = nth k c 0%Q.
Proof.
  unfold pad. destruct (Nat.lt_ge_cases k (length c)); [now rewrite app_nth1|]. rewrite app_nth2 by lia. rewrite nth_repeat. symmetry. now apply nth_overflow.
Qed.
Lemma nth_firstn_z n (c : list Q) k : (forall j, n <= j -> nth j c 0%Q = 0%Q) -> nth k (firstn n c) 0%Q = nth k c 0%Q.
Proof.
  intro H. destruct (Nat.lt_ge_cases k n) as [L|L].
  - clear H. revert n L c. induction k as [|k IH]; intros [|n] L [|x c]; try lia; cbn; try reflexivity. apply IH. lia.
  - rewrite (H k L). apply nth_overflow. rewrite firstn_length. lia.
Qed.
(* the coefficients of a finished row *)
Lemma final_coeff tid bs t m cut o k : assemble_target nminima None tid bs = Ok t -> Forall wf_block bs -> In o t -> (forall n, cut = Some n -> N.to_nat (f_ncoeff o) = n) ->
  nth k (zf_coeff (finalised m cut o)) 0%Q = nth k (zf_coeff o) 0%Q.
Proof.
  intros Ha Hw Ho Hc. destruct (out_row _ _ _ _ _ Ha o Ho) as (b & r & Hb & Hr & _ & _ & _ & _ & _ & _ & _ & Hn & Hco & _).
  pose proof (proj1 (Forall_forall _ _) Hw b Hb) as W. unfold wf_block in W. pose proof (proj1 (Forall_forall _ _) W r Hr) as Lr. cbv beta in Lr.
  unfold finalised. destruct cut as [n|]; cbn [Model_Zfind.f_coeff set_coeff set_type].
  - rewrite nth_firstn_z; [now rewrite nth_pad|]. intros j Hj. rewrite nth_pad, Hco, nth_pad. apply nth_overflow. rewrite Lr. specialize (Hc n eq_refl). rewrite Hn, Nat2N.id in Hc. lia.
  - now rewrite nth_pad.
Qed.
Lemma final_same tid bs t m m' cut cut' o : assemble_target nminima None tid bs = Ok t -> Forall wf_block bs -> In o t -> (forall n, cut = Some n -> N.to_nat (f_ncoeff o) = n) -> (forall n, cut' = Some n -> N.to_nat (f_ncoeff o) = n) ->
  same_row (finalised m cut o) (finalised m' cut' o).
Proof.
  intros Ha Hw Ho H1 H2. unfold same_row. assert (E : forall k, nth k (zf_coeff (finalised m cut o)) 0%Q = nth k (zf_coeff (finalised m' cut' o)) 0%Q) by (intro k; now rewrite !(final_coeff tid bs t) by assumption).
  unfold finalised in *. destruct cut, cut'; cbn [f_tid f_type f_sub Model_Zfind.f_z Model_Zfind.f_zerr Model_Zfind.f_chi2 Model_Zfind.f_zwarn f_npix f_ncoeff f_lim f_znum f_dchi2 set_coeff set_type]; repeat (split; [reflexivity|]); exact E.
Qed.
Lemma final_tid m cut o : f_tid (finalised m cut o) = f_tid o. Proof. unfold finalised. destruct cut; reflexivity. Qed.
Lemma rget_combine : forall ids (bss : list (list Model_Zfind.block)) tid bs, NoDup ids -> In (tid, bs) (combine ids bss) -> rget (combine ids bss) tid = Some bs.
Proof.
  induction ids as [|i ids IH]; intros [|b bss] tid bs N I; cbn in I; try contradiction. inversion N; subst. cbn [combine rget]. destruct I as [I|I].
  - injection I as -> ->. now rewrite Z.eqb_refl.
  - destruct (Z.eqb_spec tid i) as [->|_]; [|now apply IH]. exfalso. apply H1. now apply in_combine_l in I.
Qed.
(* the rows of one target in the stacked table *)
Lemma rows_concat (ids : list Z) (ts : list (list frow)) m cut : NoDup ids -> Forall2 (fun tid t => forall o, In o t -> f_tid o = tid) ids ts ->
  forall tid t, In (tid, t) (combine ids ts) -> rows_of tid (concat (map (map (finalised m cut)) ts)) = map (finalised m cut) t.
Proof.
  assert (ON : forall tid t, (forall o, In o t -> f_tid o = tid) -> rows_of tid (map (finalised m cut) t) = map (finalised m cut) t).
  { intros tid t. unfold rows_of. induction t as [|o t IH]; intro H; [reflexivity|]. cbn. rewrite final_tid, (H o (or_introl eq_refl)), Z.eqb_refl. f_equal. apply IH. intros; apply H; now right. }
  assert (OFF : forall tid tid' t, tid <> tid' -> (forall o, In o t -> f_tid o = tid') -> rows_of tid (map (finalised m cut) t) = []).
  { intros tid tid' t D. unfold rows_of. induction t as [|o t IH]; intro H; [reflexivity|]. cbn. rewrite final_tid, (H o (or_introl eq_refl)). destruct (Z.eqb_spec tid' tid); [congruence|]. apply IH. intros; apply H; now right. }
  intros N F. assert (RA : forall tid a b, rows_of tid (a ++ b) = rows_of tid a ++ rows_of tid b) by (intros; apply filter_app).
  assert (NONE : forall ids ts, Forall2 (fun tid t => forall o, In o t -> f_tid o = tid) ids ts -> forall tid, ~ In tid ids -> rows_of tid (concat (map (map (finalised m cut)) ts)) = []).
  { intros l l' Fl. induction Fl as [|i t l l' Ht _ IH]; intros tid Hn; [reflexivity|]. cbn [map concat]. rewrite RA, (OFF tid i t), IH; [reflexivity| |intros; intro; apply Hn; subst; now left|exact Ht]. intro C. apply Hn. now right. }
  induction F as [|i t ids ts Ht F IH]; intros tid u I; [destruct I|]. inversion N; subst. cbn [combine] in I. cbn [map concat]. rewrite RA. destruct I as [I|I].
  - injection I as -> ->. rewrite ON by exact Ht. rewrite (NONE ids ts F) by assumption. apply app_nil_r.
  - rewrite (OFF tid i t) by (exact Ht || (intros ->; apply in_combine_l in I; contradiction)). now rewrite (IH H2 tid u I).
Qed.
(* what the table is made of *)
Lemma run_parts ps tgs tab : NoDup (map g_id tgs) -> run ps tgs = Ok tab -> exists tds bss ts cut,
  mapM (fun p => tdata p (grids tgs) (p_zs p)) ps = Ok tds /\ 0 < nminima /\
  Forall2 (fun g bs => solo ps (combine ps tds) g = Ok bs /\ Forall2 (fitted ps tds g) (typed ps) bs) tgs bss /\
  Forall2 (fun (gb : targ * list Model_Zfind.block) t => assemble_target nminima None (g_id (fst gb)) (snd gb) = Ok t) (combine tgs bss) ts /\
  tab = concat (map (map (finalised (list_max_nat (map nbasis ps)) cut)) ts) /\
  (forall n, cut = Some n -> forall t r, In t ts -> In r t -> N.to_nat (f_ncoeff r) = n).
Proof.
  intros N H. apply run_ok in H as (tds & bss & Ht & F & HT); [|exact N].
  assert (L : length tds = length ps) by (apply mapM_Forall2 in Ht; now apply Forall2_len in Ht).
  assert (NE : tgs <> []) by (intros ->; discriminate HT).
  apply zfind_table_shape in HT as (ts & cut & F2 & -> & _ & _ & Hcut).
  assert (FF : Forall2 (fun g bs => solo ps (combine ps tds) g = Ok bs /\ Forall2 (fitted ps tds g) (typed ps) bs) tgs bss).
  { eapply Forall2_impl; [|exact F]. intros g bs Hs. split; [exact Hs|]. now apply solo_inv. }
  assert (F3 : Forall2 (fun (gb : targ * list Model_Zfind.block) t => assemble_target nminima None (g_id (fst gb)) (snd gb) = Ok t) (combine tgs bss) ts).
  { assert (G : forall l bl, (forall g b, In (g, b) (combine l bl) -> In (g_id g, b) (combine (map g_id tgs) bss)) -> length l = length bl -> forall ts, Forall2 (fun tid t => exists bs, rget (combine (map g_id tgs) bss) tid = Some bs /\ assemble_target nminima None tid bs = Ok t) (map g_id l) ts ->
      Forall2 (fun (gb : targ * list Model_Zfind.block) t => assemble_target nminima None (g_id (fst gb)) (snd gb) = Ok t) (combine l bl) ts).
    { clear -N. induction l as [|g l IH]; intros [|b bl] Hin Hl ts F2; try discriminate; cbn [map] in F2; inversion F2 as [|? t ? ts' (bs & R & A) F2']; subst; [constructor|]. cbn [combine]. constructor.
      - cbn [fst snd]. assert (R' : rget (combine (map g_id tgs) bss) (g_id g) = Some b) by (apply rget_combine; [exact N|]; apply Hin; now left). congruence.
      - apply IH; [intros; apply Hin; now right|cbn in Hl; lia|exact F2']. }
    apply G; [|now apply Forall2_len in F|exact F2]. clear. revert bss. induction tgs as [|g tgs IH]; intros [|b bss] g0 b0 I; cbn in *; try contradiction. destruct I as [I|I]; [left; congruence|right; auto]. }
  exists tds, bss, ts, cut. split; [exact Ht|]. split; [|now repeat split].
  destruct tgs as [|g tgs]; [exfalso; now apply NE|].
  inversion FF as [|? bs ? bss' [_ Hf] _]; subst. cbn [combine] in F3. inversion F3 as [|? t ? ts' A _]; subst. cbn [fst snd] in A. destruct (Nat.eq_dec nminima 0) as [E|E]; [|lia]. pose proof (blocks_zero _ _ _ _ E Hf) as Z. unfold assemble_target in A. rewrite Z in A. discriminate.
Qed.

Lemma table_width ps tds g bs t : 0 < nminima -> Forall2 (fitted ps tds g) (typed ps) bs -> assemble_target nminima None (g_id g) bs = Ok t -> coeff_width t = list_max_nat (map (width_of ps) (typed ps)) /\ t <> [].
Proof.
  intros P F A. destruct (blocks_width _ _ _ _ P F) as (W & _ & M). pose proof (out_nonempty _ _ _ _ _ A P) as Hne. split; [|exact Hne]. destruct t as [|o t]; [congruence|]. cbn [coeff_width]. rewrite <- M. apply (out_width _ _ _ _ _ o A W). now left.
Qed.
Lemma single_table m tid bs t : assemble_target nminima None tid bs = Ok t -> coeff_width t <= m ->
  exists cut, zfind_table nminima None m [tid] [(tid, bs)] = Ok (map (finalised m cut) t) /\ (forall n, cut = Some n -> forall r, In r t -> N.to_nat (f_ncoeff r) = n).
Proof.
  intros A W. destruct (standardise_total m t W) as [out Hs]. destruct (standardise_eq _ _ _ Hs) as (_ & cut & E & Hc). exists cut. split; [|exact Hc].
  unfold zfind_table, tables. cbn [mapM rget]. rewrite Z.eqb_refl, A. cbn [rbind vstack forallb]. rewrite Nat.eqb_refl. cbn [andb concat rbind]. rewrite app_nil_r. now rewrite Hs, E.
Qed.
Lemma in_both {A B C} (P : A * B -> C -> Prop) (R : A -> B -> Prop) : forall l m n, Forall2 R l m -> Forall2 P (combine l m) n -> forall a, In a l -> exists b c, In (a, b) (combine l m) /\ R a b /\ P (a, b) c /\ In c n /\ In (a, b, c) (combine (combine l m) n).
Proof.
  intros l m n F. revert n. induction F as [|x y l m Hxy F IH]; intros n G a I; [destruct I|]. cbn [combine] in G. inversion G as [|? c ? n' Hc G']; subst. destruct I as [->|I].
  - exists y, c. split; [now left|]. do 3 (split; [first [assumption|now left]|]). now left.
  - destruct (IH n' G' a I) as (b & c' & H1 & H2 & H3 & H4 & H5). exists b, c'. split; [now right|]. do 2 (split; [assumption|]). split; now right.
Qed.
Lemma mapM_choose {A B} (f : A -> res B) (P : A -> B -> Prop) l : (forall a, In a l -> exists b, f a = Ok b /\ P a b) -> exists m, mapM f l = Ok m /\ Forall2 P l m.
Proof.
  induction l as [|a l IH]; intro H; [now exists []|]. destruct (H a (or_introl eq_refl)) as (b & Hb & Pb). destruct IH as (m & Hm & F); [intros; apply H; now right|]. exists (b :: m). cbn [mapM]. rewrite Hb. cbn [rbind]. rewrite Hm. split; [reflexivity|now constructor].
Qed.
Lemma combine_F2 {A B C} (R : B -> C -> Prop) (l : list A) : forall m n, length m = length l -> Forall2 R m n -> Forall2 (fun x y => fst x = fst y /\ R (snd x) (snd y)) (combine l m) (combine l n).
Proof.
  induction l as [|a l IH]; intros m n L F; [constructor|]. destruct F as [|b c m n H F]; [discriminate|]. cbn. constructor; [now split|]. apply IH; [cbn in L; lia|exact F].
Qed.
Lemma data_alone ps tgs tds g : hashes_tell_grids tgs -> In g tgs -> mapM (fun p => tdata p (grids tgs) (p_zs p)) ps = Ok tds ->
  exists tds1, mapM (fun p => tdata p (grids [g]) (p_zs p)) ps = Ok tds1 /\ solo ps (combine ps tds) g = solo ps (combine ps tds1) g.
Proof.
  intros C I Ht. apply mapM_Forall2 in Ht.
  assert (X : exists tds1, mapM (fun p => tdata p (grids [g]) (p_zs p)) ps = Ok tds1 /\ Forall2 (fun td td' => forall s, In s (g_spectra g) -> dget td (q_hash s) = dget td' (q_hash s)) tds tds1).
  { induction Ht as [|p td ps tds H Ht IH]; [exists []; split; [reflexivity|constructor]|]. destruct IH as (tds1 & H1 & H2). destruct (tdata_alone trans p tgs (p_zs p) td g (grids_once _ C) I H) as (td' & H3 & H4).
    exists (td' :: tds1). cbn [mapM]. rewrite H3. cbn [rbind]. rewrite H1. split; [reflexivity|now constructor]. }
  destruct X as (tds1 & H1 & H2). exists tds1. split; [exact H1|]. apply solo_ext. apply (combine_F2 (fun td td' : tdict => forall s, In s (g_spectra g) -> dget td (q_hash s) = dget td' (q_hash s))); [now apply Forall2_len in Ht|exact H2].
Qed.
Lemma run_alone ps tgs tab g : NoDup (map g_id tgs) -> hashes_tell_grids tgs -> run ps tgs = Ok tab -> In g tgs ->
  exists tab1, run ps [g] = Ok tab1 /\ Forall2 same_row (rows_of (g_id g) tab) tab1.
Proof.
  intros N C H I. destruct (run_parts ps tgs tab N H) as (tds & bss & ts & cut & Ht & P & F & A & -> & Hcut).
  destruct (in_both _ _ _ _ _ F A g I) as (bs & t & I2 & [Hs Hf] & At & It & I3). cbn [fst snd] in At.
  destruct (data_alone ps tgs tds g C I Ht) as (tds1 & Ht1 & E). rewrite E in Hs.
  destruct (table_width _ _ _ _ _ P Hf At) as [W Hne].
  destruct (single_table (list_max_nat (map nbasis ps)) (g_id g) bs t At) as (cut1 & HT & Hcut1); [rewrite W; apply width_le|].
  exists (map (finalised (list_max_nat (map nbasis ps)) cut1) t). split.
  - apply run_ok; [cbn; constructor; [intros []|constructor]|]. exists tds1, [bs]. split; [exact Ht1|]. split; [now constructor|]. exact HT.
  - destruct (blocks_width _ _ _ _ P Hf) as (Wf & _ & _).
    rewrite (rows_concat (map g_id tgs) ts _ cut N) with (t := t).
    + assert (G : forall l, (forall o, In o l -> In o t) -> Forall2 same_row (map (finalised (list_max_nat (map nbasis ps)) cut) l) (map (finalised (list_max_nat (map nbasis ps)) cut1) l)); [|now apply G].
      induction l as [|o l IH]; intro Hl; [constructor|]. cbn [map]. constructor; [|apply IH; intros; apply Hl; now right]. apply (final_same (g_id g) bs t); auto; [apply Hl; now left|..]; intros n En; [apply (Hcut n En t)|apply (Hcut1 n En)]; auto; apply Hl; now left.
    + apply Forall2_len in F as L. clear -A L. revert bss ts A L. induction tgs as [|g tgs IH]; intros [|bs bss] ts A L; try discriminate; cbn [combine] in A; inversion A as [|? t ? ts' H A']; subst; [constructor|].
      cbn [map fst snd] in *. constructor; [|apply (IH bss); [exact A'|cbn in L; lia]]. intros o Ho. destruct (out_row _ _ _ _ _ H o Ho) as (b & r & _ & _ & Hid & _). exact Hid.
    + clear -I3. revert bss ts I3. induction tgs as [|g0 tgs IH]; intros [|bs0 bss] [|t0 ts] I3; cbn in *; try contradiction. destruct I3 as [I3|I3]; [left; congruence|right; eapply IH; exact I3].
Qed.
Lemma run_all ps tgs : NoDup (map g_id tgs) -> hashes_tell_grids tgs -> tgs <> [] -> (forall g, In g tgs -> exists tab1, run ps [g] = Ok tab1) -> exists tab, run ps tgs = Ok tab.
Proof.
  intros N C Hne H. assert (X : exists tds, mapM (fun p => tdata p (grids tgs) (p_zs p)) ps = Ok tds).
  { destruct (mapM_choose (fun p => tdata p (grids tgs) (p_zs p)) (fun _ _ => True) ps) as (tds & Ht & _); [|now exists tds]. intros p Hp. destruct (tdata_union trans p tgs (p_zs p) (grids_once _ C) Hne) as [td Htd]; [|now exists td].
    intros g Hg. destruct (H g Hg) as [tab1 H1]. apply run_ok in H1 as (tds & _ & Ht & _); [|constructor; [intros []|constructor]]. apply mapM_Forall2 in Ht. clear -Ht Hp. induction Ht as [|q td ps tds Hq _ IH]; [destruct Hp|]. destruct Hp as [->|Hp]; [now exists td|now apply IH]. }
  destruct X as (tds & Ht).
  assert (Y : exists bss ts, Forall2 (fun g bs => solo ps (combine ps tds) g = Ok bs) tgs bss /\ Forall2 (fun (gb : targ * list Model_Zfind.block) t => assemble_target nminima None (g_id (fst gb)) (snd gb) = Ok t /\ coeff_width t = list_max_nat (map (width_of ps) (typed ps)) /\ t <> []) (combine tgs bss) ts).
  { assert (G : forall l, (forall g, In g l -> In g tgs) -> exists bss ts, Forall2 (fun g bs => solo ps (combine ps tds) g = Ok bs) l bss /\ Forall2 (fun (gb : targ * list Model_Zfind.block) t => assemble_target nminima None (g_id (fst gb)) (snd gb) = Ok t /\ coeff_width t = list_max_nat (map (width_of ps) (typed ps)) /\ t <> []) (combine l bss) ts); [|now apply G].
    induction l as [|g l IH]; intro Hl; [exists [], []; split; constructor|]. destruct IH as (bss & ts & F & A); [intros; apply Hl; now right|]. pose proof (Hl g (or_introl eq_refl)) as Hg. destruct (H g Hg) as [tab1 H1].
    destruct (run_parts ps [g] tab1) as (tds1 & bss1 & ts1 & cut & Ht1 & P & F1 & A1 & _ & _); [constructor; [intros []|constructor]|exact H1|].
    inversion F1 as [|? bs ? l' [Hs Hf] F1']; subst. inversion F1'; subst. cbn [combine] in A1. inversion A1 as [|? t ? l' Ha A1']; subst. cbn [fst snd] in Ha.
    destruct (data_alone ps tgs tds g C Hg Ht) as (tds2 & Ht2 & E). assert (tds2 = tds1) by congruence. subst tds2.
    exists (bs :: bss), (t :: ts). split; [constructor; [now rewrite E|exact F]|]. cbn [combine]. constructor; [|exact A]. cbn [fst snd]. split; [exact Ha|]. eapply table_width; eassumption. }
  destruct Y as (bss & ts & F & A). apply Forall2_len in F as L.
  assert (T : tables nminima None (map g_id tgs) (combine (map g_id tgs) bss) = Ok ts).
  { unfold tables. apply mapM_Forall2. apply F2_map_l.
    assert (G : forall l bl ts, (forall g b, In (g, b) (combine l bl) -> In (g_id g, b) (combine (map g_id tgs) bss)) -> length l = length bl ->
      Forall2 (fun (gb : targ * list Model_Zfind.block) t => assemble_target nminima None (g_id (fst gb)) (snd gb) = Ok t /\ coeff_width t = list_max_nat (map (width_of ps) (typed ps)) /\ t <> []) (combine l bl) ts ->
      Forall2 (fun g t => match rget (combine (map g_id tgs) bss) (g_id g) with None => Err KeyError | Some bs => assemble_target nminima None (g_id g) bs end = Ok t) l ts).
    { clear -N. induction l as [|g l IH]; intros [|b bl] ts Hin Hl F2; try discriminate; cbn [combine] in F2; inversion F2 as [|? t ? ts' (A & _) F2']; subst; [constructor|]. constructor.
      - rewrite (rget_combine _ _ (g_id g) b N); [exact A|]. apply Hin. now left.
      - apply (IH bl); [intros; apply Hin; now right|cbn in Hl; lia|exact F2']. }
    apply (G tgs bss); auto. clear. revert bss. induction tgs as [|g tgs IH]; intros [|b bss] g0 b0 I; cbn in *; try contradiction. destruct I as [I|I]; [left; congruence|right; auto]. }
  assert (Hw : forall t, In t ts -> coeff_width t = list_max_nat (map (width_of ps) (typed ps)) /\ t <> []). { intros t It. destruct (Forall2_in_r _ _ _ t A It) as (gb & _ & _ & Hw). exact Hw. }
  assert (V : vstack ts = Ok (concat ts)).
  { unfold vstack. destruct ts as [|t0 ts]; [destruct tgs; [congruence|]; destruct bss; [discriminate|]; inversion A|]. replace (forallb _ (t0 :: ts)) with true; [reflexivity|]. symmetry. apply forallb_forall. intros u Hu. apply Nat.eqb_eq. rewrite (proj1 (Hw u Hu)). symmetry. apply Hw. now left. }
  assert (W : coeff_width (concat ts) <= list_max_nat (map nbasis ps)).
  { destruct ts as [|[|r t] ts]; [cbn; lia|exfalso; now apply (proj2 (Hw [] (or_introl eq_refl)))|]. cbn [concat app coeff_width]. pose proof (proj1 (Hw _ (or_introl eq_refl))) as E. cbn [coeff_width] in E. rewrite E. apply width_le. }
  destruct (standardise_total _ _ W) as [out Hout]. exists out. apply run_ok; [exact N|]. exists tds, bss. split; [exact Ht|]. split; [exact F|]. unfold zfind_table. rewrite T. cbn [rbind]. rewrite V. cbn [rbind]. exact Hout.
Qed.
(* the table is the rows of the targets, one after the other *)
Lemma run_order ps tgs tab : NoDup (map g_id tgs) -> run ps tgs = Ok tab -> tab = flat_map (fun g => rows_of (g_id g) tab) tgs.
Proof.
  intros N H. destruct (run_parts ps tgs tab N H) as (tds & bss & ts & cut & Ht & P & F & A & E & Hcut).
  set (m := list_max_nat (map nbasis ps)) in *.
  assert (RT : forall tid t, In (tid, t) (combine (map g_id tgs) ts) -> rows_of tid tab = map (finalised m cut) t).
  { rewrite E. apply rows_concat; [exact N|]. apply Forall2_len in F as L. clear -A L. revert bss ts A L. induction tgs as [|g tgs IH]; intros [|bs bss] ts A L; try discriminate; cbn [combine] in A; inversion A as [|? t ? ts' H A']; subst; [constructor|].
    cbn [map fst snd] in *. constructor; [|apply (IH bss); [exact A'|cbn in L; lia]]. intros o Ho. destruct (out_row _ _ _ _ _ H o Ho) as (b & r & _ & _ & Hid & _). exact Hid. }
  assert (L2 : length ts = length tgs). { apply Forall2_len in F. apply Forall2_len in A. rewrite combine_length in A. lia. }
  rewrite E at 1. clear -RT L2. revert ts L2 RT. induction tgs as [|g tgs IH]; intros [|t ts] L2 RT; try discriminate; [reflexivity|]. cbn [map concat flat_map combine] in *. rewrite (RT (g_id g) t) by now left. f_equal. apply IH; [cbn in L2; lia|]. intros; apply RT; now right.
Qed.
End R.
