(* A run with MPI gives what the serial run gives: scan of the pieces. *)
From Verif Require Import Prelude PreludeFacts NumX Facts2 Model_Fitz Proof_Fitz Model_Rebin Model_Dist Proof_Dist2 Proof_Dist3 Model_MPI Proof_Gather Proof_Table Model_Zscan Spec_Zscan Proof_Zscan2 Proof_Zscan3 Proof_Zscan4
  Model_Piece Model_IO Model_Zfind Model_Run Proof_Run Spec_Run Proof_Run2 Proof_Run3 Proof_Run4 Model_RunMPI.
Open Scope nat_scope.

(* ---------- the wavelength grids ---------- *)
Definition wstep (d : dict (list Q)) (kw : Z * list Q) : dict (list Q) := match dget d (fst kw) with Some _ => d | None => dset d (fst kw) (snd kw) end.
Definition wpair (s : rspec) : Z * list Q := (q_hash s, q_wave s).
Lemma wstep_gstep ss : forall d, fold_left gstep ss d = fold_left wstep (map wpair ss) d.
Proof. induction ss as [|s ss IH]; intro d; [reflexivity|]. cbn [fold_left map]. rewrite IH. reflexivity. Qed.
(* what is merged twice makes no difference *)
Lemma wstep_merge l : forall d, fold_left wstep (fold_left wstep l []) d = fold_left wstep l d.
Proof.
  assert (K : forall d kw, dget d (fst kw) <> None -> wstep d kw = d) by (intros d kw H; unfold wstep; destruct (dget d (fst kw)); [reflexivity|congruence]).
  assert (M : forall m d h, dget d h <> None -> dget (fold_left wstep m d) h <> None).
  { induction m as [|a m IH]; intros d h H; [exact H|]. cbn [fold_left]. apply IH. unfold wstep. destruct (dget d (fst a)) eqn:E; [exact H|]. rewrite dget_dset. destruct (Z.eqb (fst a) h); [discriminate|exact H]. }
  induction l as [|a l IH] using rev_ind; intro d; [reflexivity|]. rewrite !fold_left_app. cbn [fold_left]. unfold wstep at 2. destruct (dget (fold_left wstep l []) (fst a)) as [w|] eqn:E.
  - rewrite IH. symmetry. apply K. rewrite <- IH. assert (G : forall e d, dget e (fst a) <> None -> dget (fold_left wstep e d) (fst a) <> None).
    { induction e as [|[k v] e IHe]; intros d' H; [cbn in H; congruence|]. cbn [fold_left]. cbn [dget] in H. destruct (Z.eqb_spec k (fst a)) as [->|N]; [|now apply IHe]. apply M. unfold wstep. cbn [fst snd]. destruct (dget d' (fst a)) eqn:Ed; [congruence|]. rewrite dget_dset, Z.eqb_refl. discriminate. }
    apply G. rewrite E. discriminate.
  - rewrite dset_fresh_keys by exact E. rewrite fold_left_app. cbn [fold_left]. now rewrite IH, <- surjective_pairing.
Qed.
Lemma wavegrids_mpi_eq locals : wavegrids_mpi locals = grids (concat locals).
Proof.
  unfold wavegrids_mpi. change (fold_left wstep (flat_map grids locals) [] = grids (concat locals)).
  assert (G : forall d, fold_left wstep (flat_map grids locals) d = fold_left gstep (flat_map g_spectra (concat locals)) d).
  { induction locals as [|l ls IH]; intro d; [reflexivity|]. cbn [flat_map concat]. rewrite flat_map_app, !fold_left_app, IH. f_equal.
    unfold grids. change (fold_left wstep (fold_left gstep (flat_map g_spectra l) []) d = fold_left gstep (flat_map g_spectra l) d). rewrite !wstep_gstep. apply wstep_merge. }
  apply G.
Qed.

(* ---------- the scan at single redshifts ---------- *)
Section S.
Variables (slv : solvers) (argsort : list xq -> list nat) (polyfit : list Q -> list Q -> option (Q * Q * Q)) (isqrt : Q -> Q).
Variable trans : option string -> Q -> Q -> Q.
Variables (nminima nz : nat).
Notation tdata := (tdata trans).

(* chi2 and penalty of a target at one redshift *)
Definition at_z (p : tmpl) (dw : dict (list Q)) (ss : list spectrum) (z : Q) : res (Q * Q) :=
  do td <- tdata p dw [z];
  do r <- zchi2_target slv (p_core p) td 1 ss;
  Ok (hd 0%Q (fst (fst r)), hd 0%Q (snd r)).
Lemma mapM_seq_nth {A B} (f : A -> res B) (l : list A) (d : A) : mapM f l = mapM (fun i => f (nth i l d)) (seq 0 (length l)).
Proof. rewrite <- (mapM_map_in (fun i => nth i l d)). f_equal. apply list_as_tab. Qed.
Lemma mapM_post {A B C} (f : A -> res B) (h : B -> C) l : mapM (fun x => do y <- f x; Ok (h y)) l = do m <- mapM f l; Ok (map h m).
Proof. induction l as [|a l IH]; [reflexivity|]. cbn [mapM]. destruct (f a); cbn [rbind]; [|reflexivity]. rewrite IH. destruct (mapM f l); reflexivity. Qed.
Lemma zchi2_rows p dw zs td ss : usable p -> zs <> [] -> tdata p dw zs = Ok td ->
  match zchi2_target slv (p_core p) td (length zs) ss with
  | Ok row => mapM (at_z p dw ss) zs = Ok (combine (fst (fst row)) (snd row)) /\ length (fst (fst row)) = length zs /\ length (snd row) = length zs
  | Err _ => forall l, mapM (at_z p dw ss) zs <> Ok l end.
Proof.
  intros U Hz Ht. apply (proj1 (tdata_slices trans p dw zs td U Hz)) in Ht. destruct Ht as (L & _ & Sl).
  unfold zchi2_target. destruct (spectral_data ss) as [[[w f] wf]|e] eqn:Ed; cbn [rbind].
  2:{ intros l. destruct zs as [|z zs]; [congruence|]. cbn [mapM]. unfold at_z at 1. specialize (Sl 0 ltac:(cbn; lia)). cbn [nth] in Sl. rewrite Sl. cbn [rbind]. unfold zchi2_target. rewrite Ed. discriminate. }
  rewrite (mapM_seq_nth (at_z p dw ss) zs 0%Q).
  destruct (Qeq_bool (sumQ w) 0) eqn:Ew.
  - cbn [fst snd]. rewrite !repeat_length. split; [|split; reflexivity].
    assert (E : forall n k, k + n <= length zs -> mapM (fun i => at_z p dw ss (nth i zs 0%Q)) (seq k n) = Ok (combine (repeat HUGE_CHI2 n) (repeat 0%Q n))).
    { induction n as [|n IH]; intros k Hk; [reflexivity|]. cbn [seq mapM]. rewrite IH by lia. unfold at_z. rewrite (Sl k) by lia. cbn [rbind]. unfold zchi2_target. rewrite Ed. cbn [rbind]. rewrite Ew. reflexivity. }
    apply (E (length zs) 0). lia.
  - unfold calc_zchi2_batch. rewrite Ew.
    assert (One : forall i, i < length zs -> at_z p dw ss (nth i zs 0%Q) = do r <- zchi2_at slv (t_method (p_core p)) None None (length (t_flux (p_core p))) ss td w f wf i; Ok (fst r, match OIItemplate (p_core p) with Some A => negOII_row A (snd r) | None => 0%Q end)).
    { intros i Hi. unfold at_z. rewrite (Sl i Hi). cbn [rbind]. unfold zchi2_target. rewrite Ed. cbn [rbind]. rewrite Ew. unfold calc_zchi2_batch. rewrite Ew. cbn [seq mapM].
      rewrite at_slice by (intros k m Hk; pose proof (proj1 (Forall_forall _ _) L _ Hk) as E; cbn [snd] in E; lia). destruct (zchi2_at _ _ _ _ _ _ _ _ _ _ i) as [[x c]|]; [|reflexivity]. cbn [rbind fst snd map hd]. destruct (OIItemplate (p_core p)); reflexivity. }
    rewrite (mapM_ext _ (fun i => do r <- zchi2_at slv (t_method (p_core p)) None None (length (t_flux (p_core p))) ss td w f wf i; Ok (fst r, match OIItemplate (p_core p) with Some A => negOII_row A (snd r) | None => 0%Q end))).
    2:{ intros i Hi. apply in_seq in Hi. apply One. lia. }
    rewrite (mapM_post _ (fun r : Q * vec => (fst r, match OIItemplate (p_core p) with Some A => negOII_row A (snd r) | None => 0%Q end))).
    destruct (mapM (zchi2_at _ _ _ _ _ _ _ _ _ _) (seq 0 (length zs))) as [m|] eqn:Em; cbn [rbind]; [|intros l; discriminate].
    apply mapM_Forall2 in Em. apply Forall2_len in Em. rewrite seq_length in Em. cbn [fst snd]. split; [|split].
    + f_equal. destruct (OIItemplate (p_core p)) as [A|].
      * unfold calc_negOII_penalty. clear. induction m as [|x m IH]; [reflexivity|]. cbn [map combine fst snd]. now rewrite <- IH.
      * rewrite Em. clear. induction m as [|x m IH]; [reflexivity|]. cbn [map combine fst snd length repeat]. now rewrite <- IH.
    + now rewrite map_length.
    + destruct (OIItemplate (p_core p)); [unfold calc_negOII_penalty; rewrite !map_length; lia|apply repeat_length].
Qed.

(* ---------- slices of the redshifts ---------- *)
Lemma mapM_concat {A B} (f : A -> res B) (ls : list (list A)) l : mapM f (concat ls) = Ok l <-> exists ms, Forall2 (fun x m => mapM f x = Ok m) ls ms /\ l = concat ms.
Proof.
  revert l. induction ls as [|x ls IH]; intro l.
  - cbn. split; [intro H; exists []; split; [constructor|cbn; congruence]|intros (ms & F & ->); inversion F; reflexivity].
  - cbn [concat]. assert (E : mapM f (x ++ concat ls) = do a <- mapM f x; do b <- mapM f (concat ls); Ok (a ++ b)).
    { clear. induction x as [|y x IHx]; cbn [app mapM]; [cbn [rbind]; destruct (mapM f (concat ls)); reflexivity|]. destruct (f y); cbn [rbind]; [|reflexivity]. rewrite IHx. destruct (mapM f x); cbn [rbind]; [|reflexivity]. destruct (mapM f (concat ls)); reflexivity. }
    rewrite E. split.
    + destruct (mapM f x) as [a|] eqn:Ea; cbn [rbind]; [|discriminate]. destruct (mapM f (concat ls)) as [b|]; cbn [rbind]; [|discriminate]. intro H. destruct (proj1 (IH b) eq_refl) as (ms & F & ->). exists (a :: ms). split; [now constructor|]. cbn. congruence.
    + intros (ms & F & ->). inversion F as [|? m ? ms' H F']; subst. rewrite H. cbn [rbind]. rewrite (proj2 (IH (concat ms'))) by (exists ms'; now split). reflexivity.
Qed.
Definition row := (vec * list vec * vec)%type.
Definition piece_ok (p : tmpl) (dw : dict (list Q)) (z : list Q) (pc : nat * tdict) : Prop := fst pc = length z /\ tdata p dw z = Ok (snd pc).
Definition piece_scan (p : tmpl) (ss : list spectrum) (pc : nat * tdict) : res row := zchi2_target slv (p_core p) (snd pc) (fst pc) ss.
Lemma combine_concat {A B} : forall (a : list (list A)) (b : list (list B)), Forall2 (fun x y => length x = length y) a b -> concat (map2 (fun x y => combine x y) a b) = combine (concat a) (concat b) /\ length (concat a) = length (concat b).
Proof.
  intros a b F. induction F as [|x y a b L _ [IH IL]]; [split; reflexivity|]. cbn [map2 concat]. rewrite IH, !app_length. split; [|lia]. clear -L. revert y L. induction x as [|u x IH]; intros [|v y] L; try discriminate; [reflexivity|]. cbn. f_equal. apply IH. cbn in L. lia.
Qed.
Lemma combine_inj {A B} : forall (a a' : list A) (b b' : list B), length a = length b -> length a' = length b' -> combine a b = combine a' b' -> a = a' /\ b = b'.
Proof.
  induction a as [|x a IH]; intros a' b b' L L' E; destruct b as [|y b]; try discriminate.
  - destruct a', b'; try discriminate; split; reflexivity.
  - destruct a' as [|x' a'], b' as [|y' b']; try discriminate. cbn in *. injection E as -> -> E. destruct (IH a' b b') as [-> ->]; auto.
Qed.
Lemma rows_join p dw sl pcs td ss : usable p -> concat sl <> [] -> Forall (fun z => z <> []) sl -> tdata p dw (concat sl) = Ok td -> Forall2 (piece_ok p dw) sl pcs ->
  (forall r, zchi2_target slv (p_core p) td (length (concat sl)) ss = Ok r -> exists rows, mapM (piece_scan p ss) pcs = Ok rows /\ concat (map (fun r => fst (fst r)) rows) = fst (fst r) /\ concat (map (fun r => snd r) rows) = snd r) /\
  (forall rows, mapM (piece_scan p ss) pcs = Ok rows -> exists r, zchi2_target slv (p_core p) td (length (concat sl)) ss = Ok r /\ concat (map (fun r => fst (fst r)) rows) = fst (fst r) /\ concat (map (fun r => snd r) rows) = snd r).
Proof.
  intros U Hne Hs Ht F. pose proof (zchi2_rows p dw (concat sl) td ss U Hne Ht) as W.
  assert (P : forall rows, mapM (piece_scan p ss) pcs = Ok rows -> mapM (at_z p dw ss) (concat sl) = Ok (combine (concat (map (fun r : row => fst (fst r)) rows)) (concat (map (fun r : row => snd r) rows))) /\ length (concat (map (fun r : row => fst (fst r)) rows)) = length (concat (map (fun r : row => snd r) rows))).
  { intros rows Hr. apply mapM_Forall2 in Hr. assert (G : Forall2 (fun z (r : row) => mapM (at_z p dw ss) z = Ok (combine (fst (fst r)) (snd r)) /\ length (fst (fst r)) = length (snd r)) sl rows).
    { clear W Hne Ht. revert rows Hr. induction F as [|z [n tz] sl pcs [Hn Hz] _ IH]; intros rows Hr; inversion Hr as [|? r ? rows' H1 H2]; subst; constructor; [|apply IH; [now inversion Hs|exact H2]].
      cbn [fst snd] in *. subst n. pose proof (zchi2_rows p dw z tz ss U ltac:(now inversion Hs) Hz) as Wz. unfold piece_scan in H1. cbn [fst snd] in H1. rewrite H1 in Wz. destruct Wz as (W1 & W2 & W3). split; [exact W1|lia]. }
    assert (C := combine_concat (map (fun r : row => fst (fst r)) rows) (map (fun r : row => snd r) rows)). destruct C as [C1 C2].
    { clear -G. induction G as [|z r sl rows [_ L] _ IH]; constructor; auto. }
    split; [|exact C2]. rewrite <- C1. apply mapM_concat. exists (map (fun r : row => combine (fst (fst r)) (snd r)) rows). split.
    - apply F2_map_r. eapply Forall2_impl; [|exact G]. intros z r [H _]. exact H.
    - f_equal. clear. induction rows as [|r rows IH]; [reflexivity|]. cbn [map map2]. now rewrite IH. }
  split.
  - intros r Hr. rewrite Hr in W. destruct W as (W1 & W2 & W3).
    assert (X : exists rows, mapM (piece_scan p ss) pcs = Ok rows).
    { apply mapM_concat in W1 as (ms & G & _). clear -G F Hs U. revert ms G. induction F as [|z [n tz] sl pcs [Hn Hz] _ IH]; intros ms G; inversion G as [|? m ? ms' H1 H2]; subst; [now exists []|].
      destruct (IH ltac:(now inversion Hs) ms' H2) as [rows Hr]. cbn [fst snd] in *. subst n. pose proof (zchi2_rows p dw z tz ss U ltac:(now inversion Hs) Hz) as Wz. cbn [mapM]. unfold piece_scan at 1. cbn [fst snd].
      destruct (zchi2_target slv (p_core p) tz (length z) ss) as [r|]; [|now apply Wz in H1]. cbn [rbind]. rewrite Hr. cbn [rbind]. now eexists. }
    destruct X as [rows Hrows]. exists rows. split; [exact Hrows|]. destruct (P rows Hrows) as [P1 P2]. assert (E : combine (concat (map (fun r : row => fst (fst r)) rows)) (concat (map (fun r : row => snd r) rows)) = combine (fst (fst r)) (snd r)) by congruence.
    apply combine_inj in E; [exact E|exact P2|lia].
  - intros rows Hr. destruct (P rows Hr) as [P1 P2]. destruct (zchi2_target slv (p_core p) td (length (concat sl)) ss) as [r|]; [|now apply W in P1]. destruct W as (W1 & W2 & W3). exists r. split; [reflexivity|].
    assert (E : combine (concat (map (fun r : row => fst (fst r)) rows)) (concat (map (fun r : row => snd r) rows)) = combine (fst (fst r)) (snd r)) by congruence.
    apply combine_inj in E; [exact E|exact P2|lia].
Qed.
(* the pieces exist exactly when the whole exists *)
Lemma pieces_whole p dw size : usable p -> 0 < size <= length (p_zs p) ->
  (forall pcs, pieces trans p dw size = Ok pcs -> exists sl td, concat sl = p_zs p /\ Forall (fun z => z <> []) sl /\ length sl = size /\ Forall2 (piece_ok p dw) sl pcs /\ tdata p dw (p_zs p) = Ok td) /\
  (forall td, tdata p dw (p_zs p) = Ok td -> exists pcs, pieces trans p dw size = Ok pcs).
Proof.
  intros U Hs. destruct (array_split_spec (p_zs p) size ltac:(lia)) as (sl & Es & Ls & Cs & Hsz).
  assert (Hne : p_zs p <> []) by (destruct (p_zs p); [cbn in Hs; lia|discriminate]).
  assert (Hnn : Forall (fun z => z <> []) sl).
  { apply Forall_forall. intros z Hin. assert (Hv : length z = length (p_zs p) / size \/ length z = S (length (p_zs p) / size)).
    { apply (section_sizes_val (length (p_zs p)) size). rewrite <- Hsz. now apply in_map. }
    assert (1 <= length (p_zs p) / size) by (apply Nat.div_le_lower_bound; lia). destruct z; [cbn in Hv; lia|discriminate]. }
  assert (R : forall i z, nth_error sl i = Some z -> rank_redshifts (p_zs p) size i = Ok z).
  { intros i z Hz. unfold rank_redshifts. rewrite Es. cbn [rbind]. rewrite Hz. pose proof (proj1 (Forall_forall _ _) Hnn z (nth_error_In _ _ Hz)) as N. destruct z; [congruence|reflexivity]. }
  split.
  - intros pcs H. exists sl.
    assert (F : Forall2 (piece_ok p dw) sl pcs).
    { unfold pieces in H. apply mapM_Forall2 in H. apply Forall2_nth_intro with (d := []) (e := (0, [])).
      - apply Forall2_len in H. rewrite seq_length in H. transitivity size; [exact Ls|first [exact H|symmetry; exact H]].
      - intros i Hi. pose proof (Forall2_nth _ _ _ i i H) as G. rewrite nth_error_nth' with (d := 0) in G by (rewrite seq_length; lia). rewrite seq_nth in G by lia. destruct (G eq_refl) as (pc & E1 & E2). rewrite (nth_error_nth _ _ _ E1).
        unfold rank_piece in E2. rewrite (R i (nth i sl [])) in E2 by (apply nth_error_nth'; lia). cbn [rbind] in E2. destruct (tdata p dw (nth i sl [])) as [t|] eqn:Et; cbn [rbind] in E2; [|discriminate]. injection E2 as <-. now split. }
    destruct (tdata_exists trans p dw (p_zs p) U Hne) as [td Htd].
    { intros z Hz. rewrite <- Cs in Hz. apply in_concat in Hz as (l & Hl & Hz). destruct (In_nth_error _ _ Hl) as [i Hi]. destruct (Forall2_nth _ _ _ i l F Hi) as (pc & _ & _ & Hp).
      apply (proj1 (tdata_slices trans p dw l (snd pc) U (proj1 (Forall_forall _ _) Hnn l Hl))) in Hp. destruct Hp as (_ & _ & Hp). apply In_nth with (d := 0%Q) in Hz as (j & Hj & <-). exists (slice1 j (snd pc)). now apply Hp. }
    exists td. repeat split; assumption.
  - intros td Htd. apply (proj1 (tdata_slices trans p dw (p_zs p) td U Hne)) in Htd. destruct Htd as (_ & _ & Htd). unfold pieces.
    destruct (mapM_ok (rank_piece trans p dw size) (fun _ _ => True) (seq 0 size)) as (m & Hm & _); [|now exists m]. intros i Hi. apply in_seq in Hi.
    assert (Hn : nth_error sl i = Some (nth i sl [])) by (apply nth_error_nth'; lia). unfold rank_piece. rewrite (R i _ Hn). cbn [rbind]. pose proof (nth_error_In _ _ Hn) as Hin.
    destruct (tdata_exists trans p dw (nth i sl []) U (proj1 (Forall_forall _ _) Hnn _ Hin)) as [t Ht].
    { intros z Hz. assert (Hz' : In z (p_zs p)) by (rewrite <- Cs; apply in_concat; now exists (nth i sl [])). apply In_nth with (d := 0%Q) in Hz' as (j & Hj & <-). exists (slice1 j td). now apply Htd. }
    rewrite Ht. cbn [rbind]. eexists. now split.
Qed.
End S.
