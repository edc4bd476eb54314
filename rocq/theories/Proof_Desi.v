(* Lemmas on reading DESI files. *)
From Verif Require Import Prelude PreludeFacts Facts2 NumX Model_Dist Model_Zscan Model_IO Proof_IO2 Proof_IO3 Model_Desi Spec_Desi.

Lemma enum_slice (t : Z) : forall (c pre : list (nat * Z)),
  map (fun p => nth p (map fst (pre ++ c)) 0) (map fst (filter (fun p => (snd p =? t)%Z) (enum_from (length pre) (map snd c)))) = map fst (filter (fun p => (snd p =? t)%Z) c).
Proof.
  induction c as [|a c IH]; intros pre; [reflexivity|]. cbn [map enum_from filter snd].
  assert (E : pre ++ a :: c = (pre ++ [a]) ++ c) by (now rewrite <- app_assoc).
  specialize (IH (pre ++ [a])). rewrite <- E, app_length in IH. cbn [length] in IH. rewrite Nat.add_1_r in IH.
  destruct (snd a =? t)%Z; cbn [map fst]; [|exact IH]. rewrite IH. f_equal. rewrite map_app, app_nth2 by (rewrite map_length; lia). rewrite map_length, Nat.sub_diag. reflexivity.
Qed.
Section L.
  Context {R : Type}.
  Implicit Type f : sfile R.
  (* global row indices of target t *)
  Definition rows_t f (t : Z) : list nat := map fst (filter (fun p => (snd p =? t)%Z) (enum (sf_ids f))).
  Lemma spec_keep_lt f i : In i (spec_keep f) -> i < length (sf_ids f).
  Proof. unfold spec_keep. intros H. apply in_map_iff in H as ([j t] & <- & H). apply filter_In in H as [H _]. apply enum_lt in H. apply H. Qed.
  Lemma rows_t_lt f t i : In i (rows_t f t) -> i < length (sf_ids f) /\ nth_error (sf_ids f) i = Some t.
  Proof. unfold rows_t. intros H. apply in_map_iff in H as ([j u] & <- & H). apply filter_In in H as [H E]. apply enum_lt in H. cbn [fst snd] in *. apply Z.eqb_eq in E. now subst u. Qed.
  Lemma take_ok {X} f (data : list X) d : length data = length (sf_ids f) -> take (spec_keep f) data = Ok (map (fun i => nth i data d) (spec_keep f)).
  Proof.
    intros H. unfold take. apply mapM_map_ok. intros i Hi. apply spec_keep_lt in Hi. rewrite (nth_error_nth' data d) by lia. reflexivity.
  Qed.
  Lemma specs_rows f t : zmem t (sf_keep f) = true -> exists tr, target_specs f t = Some tr /\ map (fun p => nth p (spec_keep f) 0) tr = rows_t f t /\ (forall p, In p tr -> p < length (spec_keep f)) /\ length tr = length (rows_t f t).
  Proof.
    intros H. unfold target_specs. rewrite H. eexists. split; [reflexivity|].
    assert (Es : sliced_ids f = map snd (filter (fun p => zmem (snd p) (sf_keep f)) (enum (sf_ids f)))).
    { unfold sliced_ids. exact (eq_sym (selected_snd (sf_ids f) (Some (sf_keep f)))). }
    assert (Em : map (fun p => nth p (spec_keep f) 0) (map fst (filter (fun p => (snd p =? t)%Z) (enum (sliced_ids f)))) = rows_t f t).
    { rewrite Es. unfold spec_keep. set (c := filter (fun p => zmem (snd p) (sf_keep f)) (enum (sf_ids f))). etransitivity; [exact (enum_slice t c [])|]. unfold c, rows_t. rewrite filter_filter. f_equal. apply filter_ext.
      intros [i u]. cbn [snd]. destruct (Z.eqb_spec u t) as [->|]; [now rewrite H|now rewrite andb_false_r]. }
    split; [exact Em|]. split; [|rewrite <- Em; rewrite !map_length; reflexivity].
    intros p Hp. apply in_map_iff in Hp as ([q u] & <- & Hp). apply filter_In in Hp as [Hp _]. apply enum_lt in Hp as [Hp _]. rewrite Es in Hp. unfold spec_keep. rewrite !map_length in *. exact Hp.
  Qed.
  Lemma nth_take {X} f t tr (data : list X) d : target_specs f t = Some tr -> map (fun p => nth p (spec_keep f) 0) tr = rows_t f t -> (forall p, In p tr -> p < length (spec_keep f)) ->
    map (nth_error (map (fun i => nth i data d) (spec_keep f))) tr = map (fun j => Some (nth j data d)) (rows_t f t).
  Proof.
    intros _ E Hlt. rewrite <- E, map_map. apply map_ext_in. intros p Hp. rewrite nth_error_map. rewrite (nth_error_nth' (spec_keep f) 0) by (now apply Hlt). reflexivity.
  Qed.
  (* one pass over the rows of a target *)
  Lemma set_slot_app (dn : list (slot R)) s s' rest : set_slot (length dn) s' (dn ++ s :: rest) = dn ++ s' :: rest.
  Proof.
    unfold set_slot. rewrite firstn_app, Nat.sub_diag, firstn_all. cbn [firstn]. rewrite app_nil_r. f_equal. f_equal.
    rewrite skipn_app. rewrite skipn_all2 by lia. replace (S (length dn) - length dn) with 1 by lia. reflexivity.
  Qed.
  Lemma assign_block {X J} (set : slot R -> X -> res (slot R)) (hdata : list X) (g g' : J -> slot R) (x : J -> X) : forall js trows dn rest,
    map (nth_error hdata) trows = map (fun j => Some (x j)) js -> (forall j, In j js -> set (g j) (x j) = Ok (g' j)) ->
    assign set hdata trows (length dn) (dn ++ map g js ++ rest) = Ok (dn ++ map g' js ++ rest, length dn + length js).
  Proof.
    induction js as [|j js IH]; intros trows dn rest Ht Hs.
    - apply map_eq_nil in Ht. subst trows. cbn [assign map app]. now rewrite Nat.add_0_r.
    - destruct trows as [|r trows]; [discriminate|]. cbn [map] in Ht. injection Ht as E1 Ht. cbn [assign map app]. rewrite E1.
      rewrite nth_error_app2, Nat.sub_diag by lia. cbn [nth_error]. rewrite (Hs j (or_introl eq_refl)). cbn [rbind]. rewrite set_slot_app.
      replace (dn ++ g' j :: map g js ++ rest) with ((dn ++ [g' j]) ++ map g js ++ rest) by (now rewrite <- app_assoc).
      replace (S (length dn)) with (length (dn ++ [g' j])) by (rewrite app_length; cbn; lia). rewrite IH; [|exact Ht|intros; apply Hs; now right].
      rewrite app_length. cbn [length]. rewrite <- app_assoc. cbn [app]. f_equal. f_equal. lia.
  Qed.
  Section Band.
    Context (nsig : Q) (f : sfile R) (b : string) (d0 : R).
    Definition row_iv (j : nat) : list xq :=
      map (fun p => if bigneg nsig (fst p) (snd p) then Fin 0 else snd p) (combine (map clean (nth j (sf_flux f b) [])) (clean_ivar (nth j (sf_flux f b) []) (nth j (sf_ivar f b) []))).
    Definition row_ivm (j : nat) : list xq := match sf_mask f b with None => row_iv j | Some md => mask_pixels (row_iv j) (nth j md []) end.
    Definition final_row (j : nat) : slot R :=
      {| s_wave := sf_wave f b; s_band := b; s_flux := Some (map clean (nth j (sf_flux f b) [])); s_ivar := Some (row_ivm j); s_res := Some (nth j (sf_res f b) d0) |}.
    Definition expect (t : Z) : list (slot R) := if zmem t (sf_keep f) then map final_row (rows_t f t) else [].
    Lemma band_ok t dn rest cm : table_ok f -> In b (sf_bands f) -> (sf_mask f b <> None -> cm = length dn) ->
      band_step nsig f b t {| t_slots := dn ++ init_band f t b ++ rest; t_cf := length dn; t_ci := length dn; t_cm := cm; t_cr := length dn |} =
      Ok {| t_slots := dn ++ expect t ++ rest; t_cf := length (dn ++ expect t); t_ci := length (dn ++ expect t);
            t_cm := match sf_mask f b with None => cm | Some _ => length (dn ++ expect t) end; t_cr := length (dn ++ expect t) |}.
    Proof.
      intros Htab Hb Hcm. destruct (Htab b Hb) as (L1 & L2 & L3 & L4 & L5 & L6). unfold band_step.
      rewrite (take_ok f _ [] L1), (take_ok f _ [] L2). cbn [rbind]. unfold expect, init_band. destruct (zmem t (sf_keep f)) eqn:Ek.
      2:{ unfold target_specs. rewrite Ek. cbn [app]. rewrite app_nil_r. destruct (sf_mask f b) eqn:Em; [rewrite (Hcm ltac:(discriminate))|]; reflexivity. }
      destruct (specs_rows f t Ek) as (tr & Et & Hmap & Hlt & Hlen). rewrite Et. cbn [t_cf t_ci t_cm t_cr t_slots].
      set (s0 := {| s_wave := sf_wave f b; s_band := b; s_flux := None; s_ivar := None; s_res := None |}).
      replace (repeat s0 (length tr)) with (map (fun _ : nat => s0) (rows_t f t)) by (rewrite Hlen; clear; induction (rows_t f t) as [|x l IH]; [reflexivity|cbn; now rewrite IH]).
      set (g1 := fun j => {| s_wave := sf_wave f b; s_band := b; s_flux := Some (map clean (nth j (sf_flux f b) [])); s_ivar := None; s_res := @None R |}).
      set (g2 := fun j => {| s_wave := sf_wave f b; s_band := b; s_flux := Some (map clean (nth j (sf_flux f b) [])); s_ivar := Some (row_iv j); s_res := @None R |}).
      set (g3 := fun j => {| s_wave := sf_wave f b; s_band := b; s_flux := Some (map clean (nth j (sf_flux f b) [])); s_ivar := Some (row_ivm j); s_res := @None R |}).
      rewrite (assign_block set_flux _ (fun _ => s0) g1 (fun j => map clean (nth j (sf_flux f b) []))).
      2:{ rewrite map_map. pose proof (nth_take f t tr (map (map clean) (sf_flux f b)) (map clean []) Et Hmap Hlt) as H. rewrite (map_ext (fun j => Some (map clean (nth j (sf_flux f b) []))) (fun j => Some (nth j (map (map clean) (sf_flux f b)) (map clean [])))); [rewrite <- H; f_equal; apply f_equal|].
          - apply map_ext. intros i. now rewrite map_nth.
          - intros j. now rewrite map_nth. }
      2:{ intros j _. reflexivity. }
      cbn [rbind fst snd].
      rewrite (assign_block (set_ivar nsig) _ g1 g2 (fun j => clean_ivar (nth j (sf_flux f b) []) (nth j (sf_ivar f b) []))).
      2:{ pose proof (nth_take f t tr (combine (sf_flux f b) (sf_ivar f b)) ([], []) Et Hmap Hlt) as H.
          assert (Hc : combine (map (fun i => nth i (sf_flux f b) []) (spec_keep f)) (map (fun i => nth i (sf_ivar f b) []) (spec_keep f)) = map (fun i => nth i (combine (sf_flux f b) (sf_ivar f b)) ([], [])) (spec_keep f)).
          { clear -L1 L2. induction (spec_keep f) as [|i l IH]; [reflexivity|]. cbn [map combine]. rewrite IH. f_equal. symmetry. apply combine_nth. congruence. }
          rewrite Hc. transitivity (map (option_map (fun p => clean_ivar (fst p) (snd p))) (map (nth_error (map (fun i => nth i (combine (sf_flux f b) (sf_ivar f b)) ([], [])) (spec_keep f))) tr)).
          - rewrite (map_map _ (option_map _)). apply map_ext. intros p. apply nth_error_map.
          - rewrite H, map_map. apply map_ext. intros j. cbn [option_map]. rewrite combine_nth by congruence. reflexivity. }
      2:{ intros j _. unfold set_ivar, g1. cbn [s_flux s_wave s_band s_res]. unfold clean_ivar. rewrite !map_length, combine_length, L5, Nat.min_id, Nat.eqb_refl. reflexivity. }
      cbn [rbind fst snd].
      assert (Hm : (match sf_mask f b with
                | None => Ok (dn ++ map g2 (rows_t f t) ++ rest, cm)
                | Some md => do mk <- take (spec_keep f) md; assign set_mask mk tr cm (dn ++ map g2 (rows_t f t) ++ rest)
                end) = Ok (dn ++ map g3 (rows_t f t) ++ rest, match sf_mask f b with None => cm | Some _ => length dn + length (rows_t f t) end)).
      { unfold g3, row_ivm. destruct (sf_mask f b) as [md|] eqn:Em; [|reflexivity]. rewrite (take_ok f md []) by (now apply L4). cbn [rbind]. rewrite (Hcm ltac:(discriminate)).
        apply (assign_block set_mask _ g2 _ (fun j => nth j md [])); [now apply (nth_take f t tr md [])|]. intros j _. unfold set_mask, g2. cbn [s_ivar s_wave s_band s_flux s_res].
        unfold row_iv, clean_ivar. rewrite !map_length, !combine_length, !map_length, !combine_length, L5, !Nat.min_id, (L6 md j eq_refl), Nat.eqb_refl. reflexivity. }
      rewrite Hm. cbn [rbind fst snd]. rewrite (take_ok f _ d0 L3). cbn [rbind].
      rewrite (assign_block set_res _ g3 final_row (fun j => nth j (sf_res f b) d0)); [|now apply (nth_take f t tr)|intros j _; reflexivity].
      cbn [rbind fst snd]. rewrite app_length, map_length. destruct (sf_mask f b); reflexivity.
    Qed.
  End Band.
End L.
