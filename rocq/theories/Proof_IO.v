(* Lemmas on names. *)
From Verif Require Import Prelude PreludeFacts Facts2 Model_Dist Model_Zscan Model_IO Spec_IO.
Local Open Scope string_scope.

Lemma app_nil_r_s (s : string) : s ++ "" = s.
Proof. induction s as [|c s IH]; [reflexivity|]. cbn. now rewrite IH. Qed.
Lemma app_assoc_s (a b c : string) : a ++ b ++ c = (a ++ b) ++ c.
Proof. induction a as [|x a IH]; [reflexivity|]. cbn. now rewrite IH. Qed.
Lemma is_space_white c : is_space c = true <-> white c.
Proof.
  unfold is_space, white. set (n := nat_of_ascii c). cbn [In]. rewrite !orb_true_iff, !andb_true_iff, !Nat.leb_le, !Nat.eqb_eq. lia.
Qed.
Lemma is_space_false c : is_space c = false <-> ~ white c.
Proof. rewrite <- is_space_white. destruct (is_space c); split; congruence. Qed.

(* prefix ":::" *)
Lemma prefix_app p s : String.prefix p (p ++ s) = true.
Proof. induction p as [|c p IH]; [destruct s; reflexivity|]. cbn. destruct (ascii_dec c c); [exact IH|congruence]. Qed.
Lemma prefix_inv p : forall s, String.prefix p s = true -> exists r, s = p ++ r.
Proof.
  induction p as [|c p IH]; intros s H; [exists s; reflexivity|]. destruct s as [|d s]; [discriminate|]. cbn in H.
  destruct (ascii_dec c d) as [->|]; [|discriminate]. destruct (IH s H) as (r & ->). exists r. reflexivity.
Qed.
Lemma contains_occurs p s : contains p s = true <-> occurs p s.
Proof.
  split.
  - induction s as [|c s IH]; cbn [contains]; rewrite orb_true_iff; intros [H|H].
    + destruct (prefix_inv _ _ H) as (r & E). exists "", r. exact E.
    + discriminate.
    + destruct (prefix_inv _ _ H) as (r & E). exists "", r. exact E.
    + destruct (IH H) as (a & b & ->). exists (String c a), b. reflexivity.
  - intros (a & b & ->). induction a as [|c a IH]; cbn [append].
    + destruct (p ++ b) as [|c r] eqn:E; cbn [contains]; rewrite <- E, prefix_app; reflexivity.
    + cbn [contains]. rewrite IH. apply orb_true_r.
Qed.
(* split on a string without separator *)
Lemma split_none s : forall cur, ~ occurs sep3 s -> split_go sep3 s 0 cur = [cur ++ s].
Proof.
  induction s as [|c s IH]; intros cur H; cbn [split_go]; [now rewrite app_nil_r_s|].
  destruct (String.prefix sep3 (String c s)) eqn:E.
  - exfalso. apply H. destruct (prefix_inv _ _ E) as (r & Er). exists "", r. exact Er.
  - rewrite IH; [now rewrite <- app_assoc_s|]. intros (a & b & ->). apply H. exists (String c a), b. reflexivity.
Qed.
Lemma colon_prefix c s b : String.prefix sep3 ((String c s) ++ sep3 ++ b) = true -> occurs sep3 (String c s) \/ ends_colon (String c s).
Proof.
  intros H. destruct (prefix_inv _ _ H) as (r & E). unfold sep3 in *. cbn [append] in E. injection E as -> E.
  destruct s as [|c1 s]; [right; exists ""; reflexivity|]. cbn [append] in E. injection E as -> E.
  destruct s as [|c2 s]; [right; exists ":"; reflexivity|]. cbn [append] in E. injection E as -> E.
  left. exists "", s. reflexivity.
Qed.
Lemma split_one a b : forall cur, ~ occurs sep3 a -> ~ ends_colon a ->
  split_go sep3 (a ++ sep3 ++ b) 0 cur = (cur ++ a) :: split_go sep3 b 0 "".
Proof.
  induction a as [|c a IH]; intros cur H1 H2.
  - cbn [append]. unfold sep3 at 2. cbn [append]. cbn [split_go]. 
    replace (String.prefix sep3 (String ":" (String ":" (String ":" b)))) with true by (symmetry; exact (prefix_app sep3 b)).
    cbn. now rewrite app_nil_r_s.
  - cbn [append split_go]. change (String c (a ++ sep3 ++ b)) with (String c a ++ sep3 ++ b).
    destruct (String.prefix sep3 (String c a ++ sep3 ++ b)) eqn:E; [destruct (colon_prefix _ _ _ E); contradiction|].
    rewrite IH; [now rewrite <- app_assoc_s| |].
    + intros (x & y & ->). apply H1. exists (String c x), y. reflexivity.
    + intros (x & ->). apply H2. exists (String c x). reflexivity.
Qed.

(* strip *)
Lemma lstrip_head s : forall c r, lstrip s = String c r -> is_space c = false.
Proof. induction s as [|d s IH]; intros c r H; cbn in H; [discriminate|]. destruct (is_space d) eqn:E; [eapply IH; exact H|]. now injection H as -> _. Qed.
Lemma lstrip_id s : (forall c r, s = String c r -> is_space c = false) -> lstrip s = s.
Proof. destruct s as [|c s]; intros H; [reflexivity|]. cbn. now rewrite (H c s eq_refl). Qed.
Lemma rstrip_snoc a c : is_space c = false -> rstrip (a ++ String c "") = a ++ String c "".
Proof. intros H. induction a as [|d a IH]; cbn [append rstrip]; [now rewrite H|]. rewrite IH. destruct a; reflexivity. Qed.
Lemma rstrip_last s : forall a c, rstrip s = a ++ String c "" -> is_space c = false.
Proof.
  induction s as [|d s IH]; intros a c H; cbn [rstrip] in H; [destruct a; discriminate|].
  destruct (rstrip s) as [|e t] eqn:E.
  - destruct (is_space d) eqn:Ed; [destruct a; discriminate|]. destruct a as [|x a]; cbn in H; [now injection H as <-|]. injection H as _ H. destruct a; discriminate.
  - destruct a as [|x a]; cbn [append] in H; [injection H as _ H; discriminate|]. injection H as _ H. eapply IH. exact H.
Qed.
Lemma snoc_cases s : s = "" \/ exists a c, s = a ++ String c "".
Proof. induction s as [|c s IH]; [now left|]. right. destruct IH as [->|(a & d & ->)]; [exists "", c; reflexivity|exists (String c a), d; reflexivity]. Qed.
Lemma rstrip_id s : (forall a c, s = a ++ String c "" -> is_space c = false) -> rstrip s = s.
Proof. destruct (snoc_cases s) as [->|(a & c & ->)]; intros H; [reflexivity|]. apply rstrip_snoc. now apply (H a c). Qed.
Lemma rstrip_head s c r : is_space c = false -> s = String c r -> exists r', rstrip s = String c r'.
Proof. intros H ->. cbn [rstrip]. destruct (rstrip r) as [|x y]; [rewrite H|]; eauto. Qed.
Lemma strip_trimmed s : trimmed (strip s).
Proof.
  unfold strip. split.
  - intros c r E. apply is_space_false. destruct (lstrip s) as [|d t] eqn:El; [discriminate E|]. pose proof (lstrip_head s d t El) as Hd.
    destruct (rstrip_head (String d t) d t Hd eq_refl) as (r' & E'). rewrite E' in E. now injection E as <- _.
  - intros a c E. apply is_space_false. eapply rstrip_last. exact E.
Qed.
Lemma strip_id s : trimmed s -> strip s = s.
Proof.
  intros [H1 H2]. unfold strip. rewrite (lstrip_id s) by (intros c r E; apply is_space_false; eapply H1; exact E).
  apply rstrip_id. intros a c E. apply is_space_false. eapply H2. exact E.
Qed.
Lemma trimmed_join a b : trimmed a -> trimmed b -> b <> "" -> trimmed (a ++ sep3 ++ b).
Proof.
  intros [A1 A2] [B1 B2] Hb. split.
  - intros c r E. destruct a as [|x a]; [cbn in E; injection E as <- _; intros Hw; vm_compute in Hw; repeat (destruct Hw as [Hw|Hw]; [discriminate Hw|]); exact Hw|]. cbn in E. injection E as -> _. now apply (A1 c a).
  - intros u c E. destruct (snoc_cases b) as [->|(v & d & ->)]; [congruence|]. rewrite !app_assoc_s in E.
    assert (Hs : forall (p q : string) x y, p ++ String x "" = q ++ String y "" -> x = y).
    { induction p as [|p0 p IH]; intros q x y H; destruct q as [|q0 q]; cbn in H.
      - now injection H. - injection H as _ H. destruct q; discriminate. - injection H as _ H. destruct p; discriminate. - injection H as _ H. eapply IH. exact H. }
    apply Hs in E. subst d. now apply (B2 v c).
Qed.
Lemma make_spec s t : make_fulltype s (Some t) = if String.eqb (strip t) "" then strip s else strip s ++ sep3 ++ strip t.
Proof. unfold make_fulltype. cbn [option_map]. destruct (strip t); reflexivity. Qed.
Lemma parse_make s t : ~ occurs ":::" (strip s) -> ~ occurs ":::" (strip t) -> (strip t = "" \/ ~ ends_colon (strip s)) ->
  parse_fulltype (make_fulltype s (Some t)) = Ok (strip s, strip t).
Proof.
  intros Ha Hb Hc. rewrite make_spec. pose proof (strip_trimmed s) as Ta. pose proof (strip_trimmed t) as Tb.
  set (a := strip s) in *. set (b := strip t) in *. clearbody a b. unfold parse_fulltype. destruct (String.eqb_spec b "") as [->|Hne].
  - rewrite (strip_id a Ta). destruct (contains sep3 a) eqn:E; [apply contains_occurs in E; contradiction|reflexivity].
  - rewrite (strip_id _ (trimmed_join a b Ta Tb Hne)).
    replace (contains sep3 (a ++ sep3 ++ b)) with true by (symmetry; apply contains_occurs; exists a, b; reflexivity).
    unfold split. destruct Hc as [Hc|Hc]; [contradiction|]. rewrite split_one by assumption. rewrite split_none by exact Hb. reflexivity.
Qed.
