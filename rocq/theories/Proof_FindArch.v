From Verif Require Import Prelude PreludeFacts Model_IO Model_FindArch Spec_FindArch.
Open Scope nat_scope.
Local Open Scope string_scope.
(* the order of names *)
Lemma leb_iff a b : (a <=? b)%string = true <-> String.compare a b <> Gt.
Proof. unfold String.leb. destruct (String.compare a b); split; congruence. Qed.
Lemma cmp_trans a b c : String.compare a b <> Gt -> String.compare b c <> Gt -> String.compare a c <> Gt.
Proof.
  revert b c. induction a as [|x a IH]; intros [|y b] [|z c]; cbn; try congruence.
  unfold Ascii.compare. intros H1 H2. destruct (N.compare_spec (N_of_ascii x) (N_of_ascii y)) as [E1|L1|G1]; [| |congruence].
  - rewrite E1. destruct (N.compare_spec (N_of_ascii y) (N_of_ascii z)) as [E2|L2|G2]; [|congruence|congruence]. now apply (IH b c).
  - destruct (N.compare_spec (N_of_ascii y) (N_of_ascii z)) as [E2|L2|G2]; [| |congruence]; (destruct (N.compare_spec (N_of_ascii x) (N_of_ascii z)) as [E3|L3|G3]; [lia|congruence|lia]).
Qed.
Lemma leb_trans : trans_b String.leb.
Proof. intros a b c H1 H2. apply leb_iff in H1, H2. apply leb_iff. now apply (cmp_trans a b c). Qed.
Lemma leb_total : total_b String.leb.
Proof. intros a b. apply String.leb_total. Qed.
Lemma sorted_ok l : in_name_order (isort String.leb l).
Proof. exact (isort_sorted String.leb leb_total leb_trans l). Qed.
Lemma sorted_unique l l' : Permutation l l' -> in_name_order l -> in_name_order l' -> l = l'.
Proof.
  revert l'. induction l as [|x l IH]; intros l' P S S'; [now apply Permutation_nil in P|].
  destruct l' as [|y l']; [symmetry in P; now apply Permutation_nil in P|].
  inversion S as [|? ? S1 F1]; subst. inversion S' as [|? ? S2 F2]; subst. rewrite Forall_forall in F1, F2.
  assert (E : x = y).
  { assert (I1 : In x (y :: l')) by (apply (Permutation_in x P); now left). assert (I2 : In y (x :: l)) by (apply (Permutation_in y (Permutation_sym P)); now left).
    destruct I1 as [->|I1]; [reflexivity|]. destruct I2 as [->|I2]; [reflexivity|]. apply String.leb_antisym; auto. }
  subst y. f_equal. apply IH; auto. now apply Permutation_cons_inv in P.
Qed.
Lemma isort_any_order l l' : Permutation l l' -> isort String.leb l = isort String.leb l'.
Proof. intro P. apply sorted_unique; [|apply sorted_ok|apply sorted_ok]. transitivity l; [symmetry; apply isort_perm|]. transitivity l'; [exact P|apply isort_perm]. Qed.
(* strings *)
Lemma sapp_nil s : s ++ "" = s. Proof. induction s; cbn; congruence. Qed.
Lemma sapp_assoc a b c : (a ++ b) ++ c = a ++ b ++ c. Proof. induction a; cbn; congruence. Qed.
Lemma sapp_len a b : String.length (a ++ b) = (String.length a + String.length b)%nat. Proof. induction a; cbn; congruence. Qed.
Lemma without_tail c x s : without c (String x s) -> without c s. Proof. intros H a b ->. now apply (H (String x a) b). Qed.
Lemma without_head c x s : without c (String x s) -> x <> c. Proof. intros H ->. now apply (H "" s). Qed.
Lemma prefix_app p s : String.prefix p s = true <-> exists t, s = p ++ t.
Proof.
  revert s. induction p as [|c p IH]; intros s; [split; [intros _; now exists s|destruct s; reflexivity]|].
  destruct s as [|d s]; [split; [discriminate|intros [t H]; discriminate]|]. change (String.prefix (String c p) (String d s)) with (if ascii_dec c d then String.prefix p s else false). destruct (ascii_dec c d) as [->|N].
  - rewrite IH. split; intros [t H]; exists t; cbn [append] in *; congruence.
  - split; [discriminate|intros [t H]; cbn [append] in H; congruence].
Qed.
Lemma drop_app p s : drop (String.length p) (p ++ s) = s. Proof. induction p; cbn; [now destruct s|assumption]. Qed.
(* environment variables *)
Lemma expand_same f env s : without "$" s -> expand_go f env s = s.
Proof.
  revert s. induction f as [|f IH]; intros [|c s] H; cbn; try reflexivity.
  rewrite (proj2 (Ascii.eqb_neq c "$") (without_head _ _ _ H)). f_equal. apply IH. now apply without_tail in H.
Qed.
Lemma span_app r u : match u with String c _ => is_word c = false | "" => True end -> span_word (r ++ u) = (fst (span_word r), snd (span_word r) ++ u).
Proof.
  intro H. induction r as [|c r IH]; cbn; [destruct u as [|c u]; cbn; [reflexivity|now rewrite H]|].
  destruct (is_word c); [|reflexivity]. rewrite IH. now destruct (span_word r).
Qed.
Lemma span_len r : String.length (snd (span_word r)) <= String.length r.
Proof. induction r as [|c r IH]; cbn; [lia|]. destruct (is_word c); [|cbn; lia]. destruct (span_word r). cbn in *. lia. Qed.
Lemma brace_none u : without "}" u -> until_brace u = None.
Proof. induction u as [|c u IH]; cbn; intro H; [reflexivity|]. rewrite (proj2 (Ascii.eqb_neq c "}") (without_head _ _ _ H)). rewrite IH; [reflexivity|]. now apply without_tail in H. Qed.
Lemma brace_app r u : without "}" u -> until_brace (r ++ u) = match until_brace r with Some (a, b) => Some (a, b ++ u) | None => None end.
Proof.
  intro H. induction r as [|c r IH]; cbn; [now apply brace_none|]. destruct (Ascii.eqb c "}"); [reflexivity|]. rewrite IH. now destruct (until_brace r) as [[a b]|].
Qed.
Lemma brace_len r a b : until_brace r = Some (a, b) -> String.length b <= String.length r.
Proof.
  revert a b. induction r as [|c r IH]; intros a b; cbn; [discriminate|]. destruct (Ascii.eqb c "}"); [intro H; injection H as <- <-; lia|].
  destruct (until_brace r) as [[x y]|]; [|discriminate]. intro H. injection H as <- <-. specialize (IH x y eq_refl). lia.
Qed.
Lemma expand_app env u : without "$" u -> without "}" u -> match u with String c _ => is_word c = false /\ c <> "{"%char | "" => True end ->
  forall f f' d, String.length d <= f' -> String.length d <= f -> expand_go f env (d ++ u) = expand_go f' env d ++ u.
Proof.
  intros U1 U2 U3. assert (U3' : match u with String c _ => is_word c = false | "" => True end) by (destruct u; [exact I|exact (proj1 U3)]).
  induction f as [|f IH]; intros f' d L' L.
  - destruct d; [|cbn in L; lia]. destruct f'; reflexivity.
  - destruct d as [|c d]; [cbn [append]; rewrite expand_same by exact U1; destruct f'; reflexivity|]. destruct f' as [|f']; [cbn in L'; lia|].
    cbn [String.length] in L, L'. cbn [append expand_go]. destruct (Ascii.eqb c "$") eqn:Ec; [|cbn [append]; f_equal; apply IH; lia].
    destruct d as [|c1 d].
    + cbn [append]. apply Ascii.eqb_eq in Ec. subst c. destruct u as [|c1 u]; [reflexivity|]. destruct U3 as [W B]. apply Ascii.eqb_neq in B. rewrite B, W.
      f_equal. now rewrite expand_same.
    + cbn [append String.length] in *. destruct (Ascii.eqb c1 "{") eqn:Eb.
      * rewrite brace_app by exact U2. destruct (until_brace d) as [[n rest]|] eqn:Er.
        -- apply brace_len in Er. rewrite sapp_assoc. f_equal. apply IH; lia.
        -- cbn [append]. f_equal. apply (IH f' (String c1 d)); cbn; lia.
      * destruct (is_word c1) eqn:Ew; [|cbn [append]; f_equal; apply (IH f' (String c1 d)); cbn; lia].
        change (String c1 (d ++ u)) with (String c1 d ++ u). rewrite span_app by exact U3'. pose proof (span_len (String c1 d)) as Ln. destruct (span_word (String c1 d)) as [n rest]. cbn [fst snd] in *. cbn [String.length] in Ln.
        rewrite sapp_assoc. f_equal. apply IH; lia.
Qed.
(* str.replace *)
Lemma replace_same f e d s : e <> "" -> (forall a b, s <> a ++ e ++ b) -> replace_go f e d s = s.
Proof.
  intro He. revert s. induction f as [|f IH]; intros s H; [reflexivity|]. cbn [replace_go].
  destruct (String.prefix e s) eqn:Ep; [apply prefix_app in Ep as [t Et]; exfalso; now apply (H "" t)|].
  destruct s as [|c s]; [reflexivity|]. f_equal. apply IH. intros a b E. apply (H (String c a) b). cbn. congruence.
Qed.
Lemma replace_first e d t : e <> "" -> only_first e (e ++ t) -> replace e d (e ++ t) = d ++ t.
Proof.
  intros He O. unfold replace. destruct e as [|c e]; [congruence|]. cbn [append String.length replace_go].
  assert (P : String.prefix (String c e) (String c (e ++ t)) = true) by (apply prefix_app; now exists t). rewrite P. change (drop (S (String.length e)) (String c (e ++ t))) with (drop (String.length (String c e)) (String c e ++ t)). rewrite drop_app.
  f_equal. apply replace_same; [discriminate|]. intros a b E. assert (X : String c e ++ a = ""); [|discriminate X]. apply (O _ b). cbn. rewrite E. f_equal. now rewrite sapp_assoc.
Qed.
Lemma replace_id_go f e s : e <> "" -> replace_go f e e s = s.
Proof.
  intro He. revert s. induction f as [|f IH]; intro s; [reflexivity|]. cbn [replace_go]. destruct (String.prefix e s) eqn:Ep.
  - apply prefix_app in Ep as [t ->]. rewrite drop_app. now rewrite IH.
  - destruct s as [|c s]; [reflexivity|]. now rewrite IH.
Qed.
Lemma replace_id e s : replace e e s = s.
Proof. unfold replace. destruct e as [|c e]; [induction s as [|x s IH]; cbn in *; congruence|]. now apply replace_id_go. Qed.
