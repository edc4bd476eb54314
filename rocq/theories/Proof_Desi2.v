(* Lemmas on reading DESI files: all files, all targets, pixels, masks. *)
From Verif Require Import Prelude PreludeFacts Facts2 NumX Model_Dist Model_Zscan Model_IO Proof_IO2 Proof_IO3 Model_Desi Spec_Desi Proof_Desi.

Section Files.
  Context {R : Type} (d0 : R) (nsig : Q).
  Implicit Type f : sfile R.
  (* either every band of every file has a mask table or none has *)
  Definition masks_all (files : list (sfile R)) : Prop := forall f b, In f files -> In b (sf_bands f) -> sf_mask f b <> None.
  Definition masks_none (files : list (sfile R)) : Prop := forall f b, In f files -> In b (sf_bands f) -> sf_mask f b = None.
  Definition expect_file t f : list (slot R) := concat (map (fun b => expect nsig f b d0 t) (sf_bands f)).
  Lemma app_len_inj {A} (a b : list A) : length (a ++ b) = length a + length b. Proof. apply app_length. Qed.
  Definition st_at (dn rest : list (slot R)) (mk : bool) : tst R :=
    {| t_slots := dn ++ rest; t_cf := length dn; t_ci := length dn; t_cm := if mk then length dn else 0; t_cr := length dn |}.
  Lemma bands_ok t f mk : table_ok f -> (forall b, In b (sf_bands f) -> (sf_mask f b <> None <-> mk = true)) ->
    forall bs dn rest, incl bs (sf_bands f) ->
    foldM (fun st b => band_step nsig f b t st) bs (st_at dn (concat (map (init_band f t) bs) ++ rest) mk) =
    Ok (st_at (dn ++ concat (map (fun b => expect nsig f b d0 t) bs)) rest mk).
  Proof.
    intros Ht Hm. induction bs as [|b bs IH]; intros dn rest Hi.
    - cbn [foldM map concat app]. now rewrite app_nil_r.
    - cbn [foldM map concat]. rewrite <- app_assoc. unfold st_at at 1.
      rewrite (band_ok nsig f b d0 t dn _ (if mk then length dn else 0) Ht (Hi b (or_introl eq_refl))).
      2:{ intros H. apply (Hm b (Hi b (or_introl eq_refl))) in H. now rewrite H. }
      cbn [rbind]. specialize (IH (dn ++ expect nsig f b d0 t) rest (fun x Hx => Hi x (or_intror Hx))).
      unfold st_at in IH at 1. rewrite <- app_assoc in IH.
      assert (Ecm : match sf_mask f b with None => if mk then length dn else 0 | Some _ => length (dn ++ expect nsig f b d0 t) end = if mk then length (dn ++ expect nsig f b d0 t) else 0).
      { pose proof (Hm b (Hi b (or_introl eq_refl))) as E. destruct (sf_mask f b), mk; try reflexivity.
        - exfalso. assert (false = true) by (apply E; discriminate). discriminate.
        - exfalso. assert (H : @None (list (list Z)) <> None) by (apply E; reflexivity). congruence. }
      rewrite Ecm. rewrite IH. now rewrite <- app_assoc.
  Qed.
  Lemma init_file_nil f t : spec_keep f = [] -> init_file t f = [] /\ expect_file t f = [].
  Proof.
    intros H. assert (G : forall b, init_band f t b = [] /\ expect nsig f b d0 t = []).
    { intros b. unfold init_band, expect. destruct (zmem t (sf_keep f)) eqn:E; [|unfold target_specs; rewrite E; auto].
      destruct (specs_rows f t E) as (tr & Et & Hm & Hlt & Hl). rewrite Et. rewrite H in Hlt. destruct tr as [|p tr]; [|exfalso; specialize (Hlt p (or_introl eq_refl)); cbn in Hlt; lia].
      cbn in Hm. rewrite <- Hm. auto. }
    unfold init_file, expect_file. induction (sf_bands f) as [|b bs IH]; [auto|]. cbn [map concat]. destruct (G b) as [-> ->], IH as [-> ->]. auto.
  Qed.
  Lemma files_ok t mk : forall files dn rest, (forall f, In f files -> table_ok f) ->
    (forall f b, In f files -> In b (sf_bands f) -> (sf_mask f b <> None <-> mk = true)) ->
    foldM (file_step nsig t) files (st_at dn (concat (map (init_file t) files) ++ rest) mk) = Ok (st_at (dn ++ concat (map (expect_file t) files)) rest mk).
  Proof.
    induction files as [|f files IH]; intros dn rest Ht Hm.
    - cbn [foldM map concat app]. now rewrite app_nil_r.
    - cbn [foldM map concat]. rewrite <- app_assoc. unfold file_step at 1. destruct (spec_keep f) as [|i l] eqn:Ek.
      + destruct (init_file_nil f t Ek) as [-> ->]. cbn [app rbind]. apply IH; [intros; apply Ht; now right|intros; apply Hm; [now right|assumption]].
      + unfold init_file at 1. rewrite (bands_ok t f mk); [|apply Ht; now left|intros b Hb; apply Hm; [now left|exact Hb]|apply incl_refl].
        cbn [rbind]. rewrite IH; [|intros; apply Ht; now right|intros; apply Hm; [now right|assumption]]. fold (expect_file t f). now rewrite <- app_assoc.
  Qed.
  Lemma load_ok files t mk : (forall f, In f files -> table_ok f) -> (forall f b, In f files -> In b (sf_bands f) -> (sf_mask f b <> None <-> mk = true)) ->
    load_target nsig files t = Ok (st_at (concat (map (expect_file t) files)) [] mk).
  Proof.
    intros Ht Hm. unfold load_target. pose proof (files_ok t mk files [] [] Ht Hm) as H. rewrite app_nil_r in H. unfold st_at in H at 1. cbn [app length] in H. replace (if mk then 0 else 0) with 0 in H by (destruct mk; reflexivity). exact H.
  Qed.
  (* expected spectra and the rows of the files *)
  Lemma combine_filter_enum {X} (t : Z) (d : X) : forall (ids : list Z) (data : list X) n, length data = length ids ->
    map snd (filter (fun p => (fst p =? t)%Z) (combine ids data)) = map (fun j => nth (j - n) data d) (map fst (filter (fun p => (snd p =? t)%Z) (enum_from n ids))).
  Proof.
    induction ids as [|a ids IH]; intros data n H; [reflexivity|]. destruct data as [|x data]; [discriminate|]. cbn [combine filter enum_from fst snd]. injection H as H.
    assert (Hrest : map snd (filter (fun p => (fst p =? t)%Z) (combine ids data)) = map (fun j => nth (j - n) (x :: data) d) (map fst (filter (fun p => (snd p =? t)%Z) (enum_from (S n) ids)))).
    { rewrite (IH data (S n) H). apply map_ext_in. intros j Hj. apply in_map_iff in Hj as ([i u] & <- & Hj). apply filter_In in Hj as [Hj _]. apply enum_from_in in Hj as (k & -> & _). cbn [fst].
      replace (S n + k - S n) with k by lia. replace (S n + k - n) with (S k) by lia. reflexivity. }
    destruct (a =? t)%Z; cbn [map snd fst]; [|exact Hrest]. rewrite Nat.sub_diag. f_equal. exact Hrest.
  Qed.
  Lemma rows_of_idx {X} f t (data : list X) d : length data = length (sf_ids f) -> rows_of (sf_ids f) t data = map (fun j => nth j data d) (rows_t f t).
  Proof. intros H. unfold rows_of. rewrite (combine_filter_enum t d _ _ 0 H). apply map_ext. intros j. now rewrite Nat.sub_0_r. Qed.
  Definition row_at f b j : fullrow R := {| r_wave := sf_wave f b; r_band := b; r_flux := nth j (sf_flux f b) []; r_ivar := nth j (sf_ivar f b) []; r_res := nth j (sf_res f b) d0;
    r_mask := match sf_mask f b with Some md => nth j md [] | None => map (fun _ => 0%Z) (nth j (sf_flux f b) []) end |}.
  Lemma full_rows_at f b : table_ok f -> In b (sf_bands f) -> full_rows f b = map (row_at f b) (seq 0 (length (sf_ids f))).
  Proof.
    intros Ht Hb. destruct (Ht b Hb) as (L1 & L2 & L3 & _). unfold full_rows.
    rewrite (list_as_tab (sf_flux f b) []) at 1. rewrite (list_as_tab (sf_ivar f b) []) at 1. rewrite (list_as_tab (sf_res f b) d0) at 1. rewrite L1, L2, L3.
    unfold row_at. generalize (seq 0 (length (sf_ids f))). induction l as [|j l IH]; [reflexivity|]. cbn [map combine]. now rewrite IH.
  Qed.
  Lemma bigneg_iff a v : bigneg nsig (Fin a) (Fin v) = true <-> too_negative nsig a v.
  Proof.
    unfold bigneg, too_negative. rewrite !andb_true_iff, !qlt_iff, Qle_bool_iff. tauto.
  Qed.
  Lemma final_slot f b j : table_ok f -> In b (sf_bands f) -> slot_of nsig (final_row nsig f b d0 j) (row_at f b j).
  Proof.
    intros Ht Hb. destruct (Ht b Hb) as (L1 & L2 & L3 & L4 & L5 & L6). unfold slot_of, final_row, row_at. cbn [s_wave s_band s_res s_flux s_ivar r_wave r_band r_flux r_ivar r_res r_mask].
    set (fl := nth j (sf_flux f b) []). set (iv := nth j (sf_ivar f b) []). assert (Hl : length iv = length fl) by apply L5.
    split; [reflexivity|]. split; [reflexivity|]. split; [reflexivity|]. eexists. eexists. split; [reflexivity|]. split; [reflexivity|].
    assert (Liv : length (row_iv nsig f b j) = length fl) by (unfold row_iv, clean_ivar; rewrite map_length, combine_length, !map_length, combine_length; fold fl iv; lia).
    assert (Lm : length (row_ivm nsig f b j) = length fl).
    { unfold row_ivm. destruct (sf_mask f b) as [md|] eqn:E; [|exact Liv]. unfold mask_pixels. rewrite map_length, combine_length, Liv, (L6 md j eq_refl). fold fl. lia. }
    split; [now rewrite map_length|]. split; [exact Lm|]. intros i Hi.
    assert (Pf : pix NaN (map clean fl) i = clean (pix NaN fl i)) by (unfold pix; rewrite (nth_indep _ NaN (clean NaN)) by (now rewrite map_length); apply map_nth).
    set (a := pix NaN fl i) in *. set (v := pix NaN iv i) in *.
    assert (Pi : pix NaN (row_iv nsig f b j) i = if bigneg nsig (clean a) (if isfinite a && isfinite v then v else Fin 0) then Fin 0 else if isfinite a && isfinite v then v else Fin 0).
    { unfold pix, row_iv. fold fl iv. set (h := fun p : xq * xq => if bigneg nsig (fst p) (snd p) then Fin 0 else snd p).
      assert (Lc : length (map clean fl) = length (clean_ivar fl iv)) by (unfold clean_ivar; rewrite !map_length, combine_length; lia).
      rewrite (nth_indep _ NaN (h (NaN, NaN))) by (unfold clean_ivar; rewrite map_length, combine_length, !map_length, combine_length; lia).
      rewrite (map_nth h). rewrite (combine_nth _ _ _ _ _ Lc). unfold h. cbn [fst snd].
      replace (nth i (map clean fl) NaN) with (clean a) by (symmetry; exact Pf).
      replace (nth i (clean_ivar fl iv) NaN) with (if isfinite a && isfinite v then v else Fin 0); [reflexivity|].
      unfold clean_ivar. set (k := fun p : xq * xq => if isfinite (fst p) && isfinite (snd p) then snd p else Fin 0).
      rewrite (nth_indep _ NaN (k (NaN, NaN))) by (rewrite map_length, combine_length; lia). rewrite (map_nth k), combine_nth by (symmetry; exact Hl). reflexivity. }
    set (m := pix 0%Z (match sf_mask f b with Some md => nth j md [] | None => map (fun _ => 0%Z) fl end) i).
    assert (Pm : pix NaN (row_ivm nsig f b j) i = if (m =? 0)%Z then pix NaN (row_iv nsig f b j) i else Fin 0).
    { unfold row_ivm, m. destruct (sf_mask f b) as [md|] eqn:E.
      - unfold pix, mask_pixels. set (h := fun p : xq * Z => if (snd p =? 0)%Z then fst p else Fin 0). pose proof (L6 md j eq_refl) as Lmd. fold fl in Lmd.
        rewrite (nth_indep _ NaN (h (NaN, 0%Z))) by (rewrite map_length, combine_length; lia). rewrite (map_nth h), combine_nth by lia. reflexivity.
      - assert (Em : pix 0%Z (map (fun _ : xq => 0%Z) fl) i = 0%Z). { unfold pix. clear. revert i. induction fl as [|x l IH]; intros [|i]; cbn; auto. } now rewrite Em. }
    change (nth j (sf_flux f b) []) with fl.
    split; [|split; [|split]].
    - intros q E. rewrite Pf, E. reflexivity.
    - intros H. rewrite Pf. destruct a as [q| | |]; try reflexivity. exfalso. now apply (H q).
    - intros (x & y & Ea & Ev & Hn & Em). rewrite Pm, Pi, Em, Ea, Ev. cbn [clean isfinite andb Z.eqb]. destruct (bigneg nsig (Fin x) (Fin y)) eqn:E; [apply bigneg_iff in E; contradiction|reflexivity].
    - intros Hn. rewrite Pm. destruct (Z.eqb_spec m 0) as [Em|]; [|reflexivity]. rewrite Pi. destruct a as [x| | |]; cbn [clean isfinite andb].
      + destruct v as [y| | |]; cbn [isfinite]; [|destruct (bigneg _ _ _); reflexivity..].
        destruct (bigneg nsig (Fin x) (Fin y)) eqn:E; [reflexivity|]. exfalso. apply Hn. exists x, y. repeat split; try assumption. intros Hneg. apply bigneg_iff in Hneg. congruence.
      + destruct (bigneg _ _ _); reflexivity.
      + destruct (bigneg _ _ _); reflexivity.
      + destruct (bigneg _ _ _); reflexivity.
  Qed.
  Lemma expect_rows files t : (forall f, In f files -> table_ok f) -> Forall2 (slot_of nsig) (concat (map (expect_file t) files)) (target_rows files t).
  Proof.
    intros Ht. induction files as [|f files IH]; [constructor|]. unfold target_rows in *. cbn [map concat filter]. destruct (zmem t (sf_keep f)) eqn:Ek.
    - cbn [map concat]. apply Forall2_app; [|apply IH; intros; apply Ht; now right]. unfold expect_file. specialize (Ht f (or_introl eq_refl)).
      assert (G : forall bs, incl bs (sf_bands f) -> Forall2 (slot_of nsig) (concat (map (fun b => expect nsig f b d0 t) bs)) (concat (map (fun b => rows_of (sf_ids f) t (full_rows f b)) bs))).
      { induction bs as [|b bs IHb]; intros Hi; [constructor|]. cbn [map concat]. apply Forall2_app; [|apply IHb; intros x Hx; apply Hi; now right].
        unfold expect. rewrite Ek. rewrite (full_rows_at f b Ht (Hi b (or_introl eq_refl))). rewrite (rows_of_idx f t _ (row_at f b 0)) by (now rewrite map_length, seq_length).
        assert (E : map (fun j => nth j (map (row_at f b) (seq 0 (length (sf_ids f)))) (row_at f b 0)) (rows_t f t) = map (row_at f b) (rows_t f t)).
        { apply map_ext_in. intros j Hj. apply rows_t_lt in Hj as [Hj _]. rewrite (map_nth (row_at f b)). now rewrite seq_nth by exact Hj. }
        rewrite E. clear E. induction (rows_t f t) as [|j js IHj]; [constructor|]. cbn [map]. constructor; [apply final_slot; [exact Ht|apply Hi; now left]|exact IHj]. }
      apply G, incl_refl.
    - assert (E : expect_file t f = []); [|rewrite E; apply IH; intros; apply Ht; now right].
      unfold expect_file, expect. rewrite Ek. induction (sf_bands f); [reflexivity|]. exact IHl.
  Qed.
  (* all targets of a process *)
  Lemma foldM_mapM {S} (g : S -> Z -> tst R -> res (tst R)) : forall (steps : list S) (ts : list (Z * tst R)) (out : Z -> tst R -> tst R),
    (forall t st, In (t, st) ts -> foldM (fun st s => g s t st) steps st = Ok (out t st)) ->
    foldM (fun sts s => mapM (fun p => do st <- g s (fst p) (snd p); Ok (fst p, st)) sts) steps ts = Ok (map (fun p => (fst p, out (fst p) (snd p))) ts).
  Proof.
    induction steps as [|s steps IH]; intros ts out H.
    - cbn [foldM]. f_equal. rewrite <- (map_id ts) at 1. apply map_ext_in. intros [t st] Hin. specialize (H t st Hin). cbn [foldM] in H. cbn [fst snd]. congruence.
    - cbn [foldM]. set (mid := fun p : Z * tst R => match g s (fst p) (snd p) with Ok st => st | Err _ => snd p end).
      assert (Hg : forall p, In p ts -> g s (fst p) (snd p) = Ok (mid p)).
      { intros [t st] Hin. specialize (H t st Hin). cbn [foldM] in H. unfold mid. cbn [fst snd]. destruct (g s t st); [reflexivity|discriminate]. }
      rewrite (mapM_map_ok _ (fun p => (fst p, mid p))) by (intros p Hp; rewrite (Hg p Hp); reflexivity). cbn [rbind].
      assert (Hgen : forall ts', (forall p, In p ts' -> In p ts) -> mapM (fun p => foldM (fun st s => g s (fst p) st) steps (mid p)) ts' = Ok (map (fun p => out (fst p) (snd p)) ts')).
      { intros ts' Hi. apply mapM_map_ok. intros [t st] Hin. specialize (H t st (Hi _ Hin)). cbn [foldM] in H. pose proof (Hg (t, st) (Hi _ Hin)) as E. cbn [fst snd] in *. rewrite E in H. cbn [rbind] in H. exact H. }
      destruct (Nat.eq_dec 0 0) as [_|]; [|congruence].
      set (out' := fun (t : Z) (st : tst R) => match foldM (fun st s => g s t st) steps st with Ok x => x | Err _ => st end).
      rewrite (IH (map (fun p => (fst p, mid p)) ts) out').
      + rewrite map_map. cbn [fst snd]. f_equal. apply map_ext_in. intros [t st] Hin. cbn [fst snd]. f_equal. unfold out'. specialize (H t st Hin). cbn [foldM] in H. pose proof (Hg (t, st) Hin) as E. cbn [fst snd] in E. rewrite E in H. cbn [rbind] in H. now rewrite H.
      + intros t st Hin. apply in_map_iff in Hin as ([t' st'] & E & Hin). cbn [fst] in E. injection E as -> <-. unfold out'. specialize (H t st' Hin). cbn [foldM] in H. pose proof (Hg (t, st') Hin) as E. cbn [fst snd] in E. rewrite E in H. cbn [rbind] in H. now rewrite H.
  Qed.
  Lemma proc_ok : forall (files : list (sfile R)) (ts : list (Z * tst R)) (out : Z -> tst R -> tst R),
    (forall t st, In (t, st) ts -> foldM (file_step nsig t) files st = Ok (out t st)) ->
    foldM (file_step_proc nsig) files ts = Ok (map (fun p => (fst p, out (fst p) (snd p))) ts).
  Proof.
    induction files as [|f files IH]; intros ts out H.
    - cbn [foldM]. f_equal. rewrite <- (map_id ts) at 1. apply map_ext_in. intros [t st] Hin. specialize (H t st Hin). cbn [foldM] in H. cbn [fst snd]. congruence.
    - cbn [foldM]. set (mid := fun (t : Z) (st : tst R) => match file_step nsig t st f with Ok x => x | Err _ => st end).
      assert (Hm : forall t st, In (t, st) ts -> file_step nsig t st f = Ok (mid t st)).
      { intros t st Hin. specialize (H t st Hin). cbn [foldM] in H. unfold mid. destruct (file_step nsig t st f); [reflexivity|discriminate]. }
      assert (E : file_step_proc nsig ts f = Ok (map (fun p => (fst p, mid (fst p) (snd p))) ts)).
      { unfold file_step_proc. unfold file_step in Hm. destruct (spec_keep f) eqn:Ek.
        - f_equal. rewrite <- (map_id ts) at 1. apply map_ext_in. intros [t st] Hin. cbn [fst snd]. specialize (Hm t st Hin). congruence.
        - apply (foldM_mapM (fun b t st => band_step nsig f b t st)). intros t st Hin. now apply Hm. }
      rewrite E. cbn [rbind].
      set (out' := fun (t : Z) (st : tst R) => match foldM (file_step nsig t) files st with Ok x => x | Err _ => st end).
      rewrite (IH _ out').
      + rewrite map_map. cbn [fst snd]. f_equal. apply map_ext_in. intros [t st] Hin. cbn [fst snd]. f_equal. unfold out'. specialize (H t st Hin). cbn [foldM] in H. rewrite (Hm t st Hin) in H. cbn [rbind] in H. now rewrite H.
      + intros t st Hin. apply in_map_iff in Hin as ([t' st'] & E2 & Hin). cbn [fst snd] in E2. injection E2 as -> <-. unfold out'. specialize (H t st' Hin). cbn [foldM] in H. rewrite (Hm t st' Hin) in H. cbn [rbind] in H. now rewrite H.
  Qed.
End Files.
