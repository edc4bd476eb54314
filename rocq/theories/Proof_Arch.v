From Verif Require Import Prelude PreludeFacts Facts2 NumX Model_Dist Model_Zscan Model_IO Spec_IO Proof_IO Model_Rebin Model_Targets2 Model_Arch Spec_Arch.
From Coq Require Import DecimalString DecimalNat.
Local Open Scope string_scope.

(* ---------- decimal numbers ---------- *)
Lemma dec_inj i j : dec i = dec j -> i = j.
Proof.
  unfold dec. intros H.
  assert (E : NilEmpty.uint_of_string (NilEmpty.string_of_uint (Nat.to_uint i)) = NilEmpty.uint_of_string (NilEmpty.string_of_uint (Nat.to_uint j))) by now rewrite H.
  rewrite !NilEmpty.usu in E. injection E as E. apply (f_equal Nat.of_uint) in E. now rewrite !Unsigned.of_to in E.
Qed.
Lemma hc_app c a : forall b, has_char c (a ++ b) <-> has_char c a \/ has_char c b.
Proof. induction a as [|d a IH]; intros b; cbn [append has_char]; [tauto|]. rewrite IH. tauto. Qed.
Lemma dec_chars c i : has_char c (dec i) -> exists d, (d < 10)%nat /\ c = ascii_of_nat (48 + d).
Proof.
  unfold dec. generalize (Nat.to_uint i). intros u.
  induction u; cbn [NilEmpty.string_of_uint has_char]; [contradiction|..]; (intros [<-|H]; [|now apply IHu]).
  - exists 0%nat; split; [lia|reflexivity]. - exists 1%nat; split; [lia|reflexivity]. - exists 2%nat; split; [lia|reflexivity].
  - exists 3%nat; split; [lia|reflexivity]. - exists 4%nat; split; [lia|reflexivity]. - exists 5%nat; split; [lia|reflexivity].
  - exists 6%nat; split; [lia|reflexivity]. - exists 7%nat; split; [lia|reflexivity]. - exists 8%nat; split; [lia|reflexivity].
  - exists 9%nat; split; [lia|reflexivity].
Qed.
Lemma dec_no c i : (forall d, (d < 10)%nat -> c <> ascii_of_nat (48 + d)) -> ~ has_char c (dec i).
Proof. intros H Hc. apply dec_chars in Hc as (d & Hd & E). exact (H d Hd E). Qed.
Ltac nodigit := intros d Hd E; do 10 (destruct d as [|d]; [discriminate E|]); lia.
Lemma dec_under i : ~ has_char "_" (dec i). Proof. apply dec_no. nodigit. Qed.
Lemma dec_semi i : ~ has_char ";" (dec i). Proof. apply dec_no. nodigit. Qed.
Lemma dec_colon i : ~ has_char ":" (dec i). Proof. apply dec_no. nodigit. Qed.
Lemma dec_white c i : has_char c (dec i) -> is_space c = false.
Proof. intros H. apply dec_chars in H as (d & Hd & ->). do 10 (destruct d as [|d]; [reflexivity|]). lia. Qed.
Lemma dec_cons i : exists a c, dec i = a ++ String c "".
Proof.
  destruct (snoc_cases (dec i)) as [E|E]; [|exact E]. exfalso. unfold dec in E.
  assert (E2 : NilEmpty.uint_of_string (NilEmpty.string_of_uint (Nat.to_uint i)) = Some Decimal.Nil) by now rewrite E.
  rewrite NilEmpty.usu in E2. injection E2 as E2. revert E2.
  destruct i; [discriminate|]. intros H. pose proof (Unsigned.of_to (S i)) as G. rewrite H in G. discriminate G.
Qed.

(* ---------- labels ---------- *)
Lemma last_split a b u v : ~ has_char "_" u -> ~ has_char "_" v -> a ++ String "_" u = b ++ String "_" v -> u = v.
Proof.
  revert b. induction a as [|c a IH]; intros [|d b] Hu Hv E; cbn [append] in E.
  - now injection E.
  - injection E as <- E. exfalso. apply Hu. rewrite E. apply hc_app. right. now left.
  - injection E as -> E. exfalso. apply Hv. rewrite <- E. apply hc_app. right. now left.
  - injection E as _ E. now apply (IH b).
Qed.
Lemma label_inj r i r' j : label r i = label r' j -> i = j.
Proof. unfold label. intros H. apply dec_inj. exact (last_split (strip r) (strip r') _ _ (dec_under i) (dec_under j) H). Qed.
Lemma sub_types_nth A i : (i < length (a_raw A))%nat -> nth_error (sub_types A) i = Some (label (nth i (a_raw A) "") i).
Proof.
  intros H. unfold sub_types. rewrite nth_error_map. unfold enum. rewrite enum_from_nth.
  rewrite (nth_error_nth' _ "") by assumption. reflexivity.
Qed.
Lemma sub_types_length A : length (sub_types A) = length (a_raw A).
Proof. unfold sub_types. rewrite map_length. apply enum_from_length. Qed.
Lemma sub_types_nodup A : NoDup (sub_types A).
Proof.
  apply NoDup_nth_error. intros i j Hi E. rewrite sub_types_length in Hi.
  rewrite (sub_types_nth A i Hi) in E. destruct (Nat.lt_ge_cases j (length (a_raw A))) as [Hj|Hj].
  - rewrite (sub_types_nth A j Hj) in E. injection E as E. exact (label_inj _ _ _ _ E).
  - rewrite (proj2 (nth_error_None _ _)) in E by now rewrite sub_types_length. discriminate.
Qed.
Lemma first_index_nodup l : NoDup l -> forall i s, nth_error l i = Some s -> first_index s l = Some i.
Proof.
  induction l as [|x l IH]; intros Hn i s H; [now destruct i|]. inversion Hn as [|? ? H1 H2]; subst. destruct i as [|i]; cbn [nth_error] in H.
  - injection H as ->. cbn [first_index]. now rewrite String.eqb_refl.
  - cbn [first_index]. destruct (String.eqb_spec x s) as [->|]; [exfalso; apply H1; eapply nth_error_In; exact H|]. now rewrite (IH H2 i s H).
Qed.
Lemma first_index_sound s l i : first_index s l = Some i -> nth_error l i = Some s.
Proof.
  revert i. induction l as [|x l IH]; intros i H; [discriminate|]. cbn [first_index] in H. destruct (String.eqb_spec x s) as [->|]; [injection H as <-; reflexivity|].
  destruct (first_index s l) as [k|]; [|discriminate]. injection H as <-. cbn [nth_error]. now apply IH.
Qed.

(* ---------- split by ";" ---------- *)
Lemma split_semi_none s : forall cur, ~ has_char ";" s -> split_go ";" s 0 cur = [cur ++ s].
Proof.
  induction s as [|c s IH]; intros cur H; cbn [split_go]; [now rewrite app_nil_r_s|].
  cbn [String.prefix]. destruct (ascii_dec ";" c) as [<-|n]; [exfalso; apply H; now left|].
  rewrite IH by (intros G; apply H; now right). now rewrite <- app_assoc_s.
Qed.
Lemma split_semi_app a b : forall cur, ~ has_char ";" a -> split_go ";" (a ++ ";" ++ b) 0 cur = (cur ++ a) :: split_go ";" b 0 "".
Proof.
  induction a as [|c a IH]; intros cur H.
  - cbn [append split_go]. cbn [String.prefix]. destruct (ascii_dec ";" ";") as [_|n]; [|now destruct n].
    assert (Hp : String.prefix "" b = true) by (destruct b; reflexivity). rewrite Hp. cbn [String.length Nat.sub]. now rewrite app_nil_r_s.
  - cbn [append split_go]. cbn [String.prefix]. destruct (ascii_dec ";" c) as [<-|n]; [exfalso; apply H; now left|].
    change (String ";" b) with (";" ++ b). rewrite IH by (intros G; apply H; now right). now rewrite <- app_assoc_s.
Qed.
Lemma split_join l : l <> [] -> (forall x, In x l -> ~ has_char ";" x) -> split ";" (join ";" l) = l.
Proof.
  unfold split. induction l as [|x l IH]; intros Hn H; [congruence|]. destruct l as [|y l].
  - cbn [join]. rewrite split_semi_none by (apply H; now left). reflexivity.
  - change (join ";" (x :: y :: l)) with (x ++ ";" ++ join ";" (y :: l)). rewrite split_semi_app by (apply H; now left).
    cbn [append]. f_equal. apply IH; [discriminate|]. intros z Hz. apply H. now right.
Qed.
Lemma hc_lstrip c s : has_char c (lstrip s) -> has_char c s.
Proof. induction s as [|d s IH]; cbn [lstrip]; [auto|]. destruct (is_space d); intros H; [right; auto|exact H]. Qed.
Lemma hc_rstrip c s : has_char c (rstrip s) -> has_char c s.
Proof.
  induction s as [|d s IH]; cbn [rstrip]; [auto|]. destruct (rstrip s) as [|e r] eqn:E.
  - destruct (is_space d); cbn [has_char]; tauto.
  - cbn [has_char] in *. tauto.
Qed.
Lemma label_semi r i : ~ has_char ";" r -> ~ has_char ";" (label r i).
Proof.
  unfold label. intros H G. apply hc_app in G as [G|G]; [apply H; now apply hc_lstrip, hc_rstrip|].
  change ("_" ++ dec i) with (String "_" (dec i)) in G. destruct G as [G|G]; [discriminate|]. now apply dec_semi in G.
Qed.

(* ---------- ":::" ---------- *)
Lemma occ_nochar s : ~ has_char ":" s -> ~ occurs ":::" s.
Proof. intros H (a & b & E). apply H. rewrite E. apply hc_app. right. now left. Qed.
Lemma occ_mid c a : c <> ":"%char -> forall b, occurs ":::" (a ++ String c b) -> occurs ":::" a \/ occurs ":::" b.
Proof.
  intros Hc b (u & v & E). revert u E. induction a as [|d a IH]; intros u E; cbn [append] in E.
  - destruct u as [|e u]; cbn [append] in E; injection E as E1 E2; [congruence|]. right. now exists u, v.
  - destruct u as [|e u]; cbn [append] in E; injection E as E1 E2.
    + subst d. destruct a as [|d2 a]; cbn [append] in E2; injection E2 as F1 E2; [congruence|]. subst d2.
      destruct a as [|d3 a]; cbn [append] in E2; injection E2 as F2 E2; [congruence|]. subst d3. left. now exists "", a.
    + destruct (IH u E2) as [(u1 & v1 & G)|G]; [left|now right]. exists (String d u1), v1. cbn [append]. now rewrite G.
Qed.
Lemma occ_lstrip s : occurs ":::" (lstrip s) -> occurs ":::" s.
Proof. induction s as [|d s IH]; cbn [lstrip]; [auto|]. destruct (is_space d); [|auto]. intros H. destruct (IH H) as (u & v & E). exists (String d u), v. cbn [append]. now rewrite E. Qed.
Lemma rstrip_prefix s : exists t, s = rstrip s ++ t.
Proof.
  induction s as [|d s [t IH]]; cbn [rstrip]; [now exists ""|]. destruct (rstrip s) as [|e r] eqn:E.
  - destruct (is_space d); [now exists (String d s)|]. exists s. reflexivity.
  - exists t. cbn [append] in *. now rewrite IH at 1.
Qed.
Lemma occ_rstrip s : occurs ":::" (rstrip s) -> occurs ":::" s.
Proof. intros (u & v & E). destruct (rstrip_prefix s) as (t & Et). exists u, (v ++ t). rewrite Et at 1. rewrite E. now rewrite <- !app_assoc_s. Qed.
Lemma label_colon r i : ~ occurs ":::" r -> ~ occurs ":::" (label r i).
Proof.
  unfold label. intros H G. change ("_" ++ dec i) with (String "_" (dec i)) in G. apply occ_mid in G as [G|G]; [| |discriminate].
  - apply H. apply occ_lstrip. now apply occ_rstrip.
  - revert G. apply occ_nochar, dec_colon.
Qed.
Lemma join_colon l : (forall x, In x l -> ~ occurs ":::" x) -> ~ occurs ":::" (join ";" l).
Proof.
  induction l as [|x l IH]; intros H G.
  - revert G. cbn [join]. apply occ_nochar. intros [].
  - destruct l as [|y l]; [cbn [join] in G; now apply (H x (or_introl eq_refl))|].
    change (join ";" (x :: y :: l)) with (x ++ String ";" (join ";" (y :: l))) in G. apply occ_mid in G as [G|G]; [| |discriminate].
    + now apply (H x (or_introl eq_refl)).
    + apply IH in G; [exact G|]. intros z Hz. apply H. now right.
Qed.

(* ---------- labels are stripped ---------- *)
Lemma label_trim r i : strip (label r i) = label r i.
Proof.
  unfold strip. assert (L : lstrip (label r i) = label r i).
  { apply lstrip_id. intros c s E. unfold label in E. destruct (strip r) as [|d u] eqn:Es.
    - cbn [append] in E. injection E as <- _. reflexivity.
    - cbn [append] in E. injection E as <- _. unfold strip in Es. destruct (lstrip r) as [|d2 u2] eqn:El; [discriminate|].
      pose proof (lstrip_head r _ _ El) as Hs. destruct (rstrip_head (String d2 u2) d2 u2 Hs eq_refl) as (r' & Er). rewrite Er in Es. now injection Es as <- _. }
  rewrite L. destruct (dec_cons i) as (a & c & E). unfold label. rewrite E. rewrite !app_assoc_s. apply rstrip_snoc.
  apply (dec_white c i). rewrite E. apply hc_app. right. now left.
Qed.
Lemma join_trim l : (forall x, In x l -> exists r i, x = label r i) -> strip (join ";" l) = join ";" l.
Proof.
  intros H. assert (L : forall c s, join ";" l = String c s -> is_space c = false).
  { destruct l as [|x l]; intros c s E; [discriminate|]. destruct (H x (or_introl eq_refl)) as (r & i & ->).
    assert (G : exists c' u, label r i = String c' u /\ is_space c' = false).
    { pose proof (label_trim r i) as T. destruct (label r i) as [|c' u] eqn:Er.
      - exfalso. destruct (dec_cons i) as (a & d & Ed). unfold label in Er. rewrite Ed in Er. destruct (strip r); discriminate.
      - exists c', u. split; [reflexivity|]. unfold strip in T. destruct (lstrip (String c' u)) as [|c2 u2] eqn:El; [discriminate|].
        pose proof (lstrip_head _ _ _ El) as Hs. destruct (rstrip_head (String c2 u2) c2 u2 Hs eq_refl) as (r' & E2). rewrite E2 in T. now injection T as <- _. }
    destruct G as (c' & u & E1 & E2). destruct l as [|y l]; cbn [join] in E; rewrite E1 in E; cbn [append] in E; now injection E as <- _. }
  assert (T : forall a c, join ";" l = a ++ String c "" -> is_space c = false).
  { clear L. induction l as [|x l IH]; intros a c E; [destruct a; discriminate|]. destruct l as [|y l].
    - cbn [join] in E. destruct (H x (or_introl eq_refl)) as (r & i & ->). pose proof (label_trim r i) as T. unfold strip in T. rewrite E in T at 2. now apply rstrip_last in T.
    - assert (Hj : forall l, exists b, join ";" (y :: l) = b \/ True) by (intros; exists ""; now right). clear Hj.
      change (join ";" (x :: y :: l)) with (x ++ ";" ++ join ";" (y :: l)) in E.
      destruct (snoc_cases (join ";" (y :: l))) as [E0|(b & d & Ej)].
      + exfalso. destruct (H y (or_intror (or_introl eq_refl))) as (r & i & ->). destruct (dec_cons i) as (a0 & d & Ed).
        assert (G : label r i = "") by (destruct l; cbn [join] in E0; [exact E0|destruct (label r i); [reflexivity|discriminate]]).
        unfold label in G. rewrite Ed in G. destruct (strip r); discriminate.
      + rewrite Ej in E. rewrite !app_assoc_s in E.
        assert (Ec : d = c). { clear -E. revert a E. generalize ((x ++ ";") ++ b). intros s. induction s as [|e s IHs]; intros [|f a] E; cbn [append] in E.
          - now injection E. - injection E as _ E. destruct a; discriminate. - injection E as _ E. destruct s; discriminate. - injection E as _ E. now apply (IHs a). }
        subst d. apply (IH (fun z Hz => H z (or_intror Hz)) b c Ej). }
  unfold strip. rewrite lstrip_id by exact L. now rewrite rstrip_id by exact T.
Qed.

(* the full type of a list of archetypes is read back as the type and that list *)
Lemma fulltype_roundtrip A best : good_names A -> best <> [] -> (forall j, In j best -> (j < length (a_raw A))%nat) ->
  let names := map (fun k => nth k (sub_types A) "") best in
  parse_fulltype (make_fulltype (a_type A) (Some (join ";" names))) = Ok (a_type A, join ";" names) /\
  split ";" (join ";" names) = names.
Proof.
  intros [G1 (G2 & G3 & G4) G5] Hne Hb names.
  assert (Hl : forall x, In x names -> exists r i, In r (a_raw A) /\ x = label r i).
  { intros x Hx. apply in_map_iff in Hx as (k & <- & Hk). pose proof (Hb k Hk) as Hlt. exists (nth k (a_raw A) ""), k. split; [now apply nth_In|].
    apply nth_error_nth. now apply sub_types_nth. }
  assert (T : strip (join ";" names) = join ";" names) by (apply join_trim; intros x Hx; destruct (Hl x Hx) as (r & i & _ & ->); eauto).
  split.
  - rewrite (parse_make (a_type A) (join ";" names)).
    + rewrite T, (strip_id _ G2). reflexivity.
    + now rewrite (strip_id _ G2).
    + rewrite T. apply join_colon. intros x Hx. destruct (Hl x Hx) as (r & i & Hr & ->). apply label_colon. now apply G5.
    + right. now rewrite (strip_id _ G2).
  - apply split_join.
    + unfold names. destruct best; [congruence|discriminate].
    + intros x Hx. destruct (Hl x Hx) as (r & i & Hr & ->). apply label_semi. now apply G5.
Qed.
