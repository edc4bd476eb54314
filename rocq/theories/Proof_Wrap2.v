(* Proofs on the file names of wrap-redrock. *)
From Verif Require Import Prelude PreludeFacts Facts2 Model_Dist Model_Zscan Model_IO Spec_IO Proof_IO Model_Arch Spec_Arch Proof_Arch Model_Wrap Spec_Wrap.
Local Open Scope string_scope.

Lemma app_length_s (a b : string) : String.length (a ++ b) = (String.length a + String.length b)%nat.
Proof. induction a as [|c a IH]; [reflexivity|]. cbn. now rewrite IH. Qed.
Lemma app_inv_head_s (a b c : string) : a ++ b = a ++ c -> b = c.
Proof. induction a as [|x a IH]; cbn; [auto|]. intro H. injection H as H. auto. Qed.
Lemma app_len_inv (a b : string) : forall c d, String.length a = String.length c -> a ++ b = c ++ d -> a = c /\ b = d.
Proof.
  induction a as [|x a IH]; intros [|y c] d L E; cbn in *; try discriminate; [auto|]. injection E as -> E. injection L as L. destruct (IH c d L E) as [-> ->]. auto.
Qed.
Lemma app_inv_tail_s (a b c : string) : a ++ c = b ++ c -> a = b.
Proof.
  intro H. apply (app_len_inv a c b c) in H; [tauto|]. apply (f_equal String.length) in H. rewrite !app_length_s in H. lia.
Qed.
(* ---------- split and replace ---------- *)
Lemma split_go_none sep s : sep <> "" -> forall cur, ~ occurs sep s -> split_go sep s 0 cur = [cur ++ s].
Proof.
  intro Hne. induction s as [|c s IH]; intros cur H; cbn [split_go]; [now rewrite app_nil_r_s|].
  destruct (String.prefix sep (String c s)) eqn:E.
  - exfalso. apply H. destruct (prefix_inv _ _ E) as (r & Er). exists "", r. exact Er.
  - rewrite IH; [now rewrite <- app_assoc_s|]. intros (a & b & ->). apply H. exists (String c a), b. reflexivity.
Qed.
Lemma split_go_skip sep : forall p s cur, split_go sep (p ++ s) (String.length p) cur = split_go sep s 0 cur.
Proof. induction p as [|c p IH]; intros s cur; [reflexivity|]. cbn [append String.length split_go]. apply IH. Qed.
Lemma split_go_at sep a : forall b cur, sep <> "" -> (forall u v, a ++ sep ++ b = u ++ sep ++ v -> (String.length a <= String.length u)%nat) ->
  split_go sep (a ++ sep ++ b) 0 cur = (cur ++ a) :: split_go sep b 0 "".
Proof.
  induction a as [|c a IH]; intros b cur Hne H.
  - cbn [append]. destruct sep as [|x p]; [congruence|]. cbn [append split_go]. change (String x (p ++ b)) with (String x p ++ b). rewrite prefix_app.
    cbn [String.length]. replace (S (String.length p) - 1)%nat with (String.length p) by lia. rewrite split_go_skip, app_nil_r_s. reflexivity.
  - cbn [append split_go]. change (String c (a ++ sep ++ b)) with (String c a ++ sep ++ b).
    destruct (String.prefix sep (String c a ++ sep ++ b)) eqn:E.
    + exfalso. apply prefix_inv in E as (r & E). specialize (H "" r E). cbn in H. lia.
    + rewrite IH; [now rewrite <- app_assoc_s|exact Hne|]. intros u v E2. specialize (H (String c u) v). cbn [append] in H. rewrite E2 in H. specialize (H eq_refl). cbn in H. lia.
Qed.
Lemma replace_none a b s : a <> "" -> ~ occurs a s -> replace a b s = s.
Proof. intros Hne H. unfold replace, split. now rewrite split_go_none. Qed.
(* one occurrence *)
Lemma replace_one a b x y : a <> "" -> (forall u v, x ++ a ++ y = u ++ a ++ v -> u = x /\ v = y) -> replace a b (x ++ a ++ y) = x ++ b ++ y.
Proof.
  intros Hne H. unfold replace, split. rewrite split_go_at; [|exact Hne|].
  - rewrite split_go_none; [reflexivity|exact Hne|]. intros (u & v & ->). destruct (H (x ++ a ++ u) v) as [E _]; [now rewrite <- !app_assoc_s|].
    apply (f_equal String.length) in E. rewrite !app_length_s in E. destruct a; [congruence|cbn in E; lia].
  - intros u v E. destruct (H u v E) as [-> _]. lia.
Qed.
(* ---------- names of the outputs ---------- *)
Definition fits : string := ".fits".
Lemma start_unique p r : p <> "" -> only_at_start p (p ++ r) -> forall u v, p ++ r = u ++ p ++ v -> u = "" /\ v = r.
Proof. intros Hne H u v E. pose proof (H u v E) as ->. split; [reflexivity|]. cbn in E. apply app_inv_head_s in E. now symmetry. Qed.
Lemma end_unique a x : a <> "" -> only_at_end a (x ++ a) -> forall u v, x ++ a = u ++ a ++ v -> u = x /\ v = "".
Proof. intros Hne H u v E. pose proof (H u v E) as ->. split; [|reflexivity]. rewrite app_nil_r_s in E. apply app_inv_tail_s in E. now symmetry. Qed.
(* a word with no dot before *)
Lemma no_dot_start q x : forall u v, ~ has_char "." q -> q ++ x = u ++ String "." v -> exists u', u = q ++ u' /\ x = u' ++ String "." v.
Proof.
  induction q as [|c q IH]; intros u v Hn E; [exists u; auto|]. cbn [has_char] in Hn. destruct u as [|d u]; cbn in E.
  - injection E as E1 _. exfalso. apply Hn. left. congruence.
  - injection E as -> E. destruct (IH u v) as (u' & -> & E'); [tauto|exact E|]. exists u'. auto.
Qed.
Lemma replace_start p q m : p <> "" -> only_at_start p (p ++ m) -> replace p q (p ++ m) = q ++ m.
Proof.
  intros Hne H. pose proof (replace_one p q "" m Hne) as R. cbn [append] in R. apply R. intros u v E. exact (start_unique p m Hne H u v E).
Qed.
Lemma replace_ext p q e m : ~ has_char "." q -> only_at_end fits (p ++ m ++ fits) -> replace fits e (q ++ m ++ fits) = q ++ m ++ e.
Proof.
  intros Hq H. pose proof (replace_one fits e (q ++ m) "" ltac:(discriminate)) as R. rewrite !app_nil_r_s, <- !app_assoc_s in R. apply R.
  intros u v E. change (fits ++ v) with (String "." ("fits" ++ v)) in E. destruct (no_dot_start q _ u _ Hq E) as (u' & -> & E').
  change (String "." ("fits" ++ v)) with (fits ++ v) in E'. destruct (end_unique fits (p ++ m)) with (u := p ++ u') (v := v) as [E1 ->].
  - discriminate.
  - now rewrite <- app_assoc_s.
  - now rewrite <- !app_assoc_s, E'.
  - split; [|reflexivity]. apply app_inv_head_s in E1. now subst.
Qed.
Lemma out_name_plain p m : p <> "" -> only_at_start p (p ++ m) -> out_name p "redrock" None (p ++ m) = "redrock" ++ m.
Proof. intros. unfold out_name. now apply replace_start. Qed.
Lemma out_name_h5 p m : p <> "" -> only_at_start p (p ++ m ++ fits) -> only_at_end fits (p ++ m ++ fits) ->
  out_name p "rrdetails" (Some "h5") (p ++ m ++ fits) = "rrdetails" ++ m ++ ".h5".
Proof.
  intros Hne H1 H2. unfold out_name. rewrite replace_start by assumption. change ("." ++ "h5") with ".h5". apply (replace_ext p); [|exact H2].
  cbn. intuition discriminate.
Qed.
(* ---------- os.path.split ---------- *)
Lemma basename_go_app d name : forall cur, basename_go (d ++ "/" ++ name) cur = basename_go name "".
Proof. induction d as [|c d IH]; intro cur; cbn [append basename_go]; [reflexivity|]. destruct (Ascii.eqb c "/"); apply IH. Qed.
Lemma basename_go_none name : forall cur, ~ has_char "/" name -> basename_go name cur = cur ++ name.
Proof.
  induction name as [|c r IH]; intros cur H; cbn [basename_go]; [now rewrite app_nil_r_s|]. cbn [has_char] in H.
  destruct (Ascii.eqb_spec c "/") as [->|N]; [exfalso; tauto|]. rewrite IH by tauto. now rewrite <- app_assoc_s.
Qed.
Lemma basename_in d name : ~ has_char "/" name -> basename (d ++ "/" ++ name) = name.
Proof. intro H. unfold basename. rewrite basename_go_app. now rewrite basename_go_none. Qed.
Lemma substring_pre a b : substring 0 (String.length a) (a ++ b) = a.
Proof. induction a as [|c a IH]; cbn; [now destruct b|]. now rewrite IH. Qed.
Lemma rstrip_slash_add d : (exists a c, d = a ++ String c "" /\ c <> "/"%char) -> rstrip_slash (d ++ "/") = d /\ d <> "".
Proof.
  intros (a & c & -> & Hc). split; [|destruct a; discriminate]. rewrite <- app_assoc_s. cbn [append]. induction a as [|x a IH]; cbn [append rstrip_slash].
  - rewrite Ascii.eqb_refl. destruct (Ascii.eqb_spec c "/"); [contradiction|reflexivity].
  - rewrite IH. destruct a; reflexivity.
Qed.
(* a directory name that does not end with a slash *)
Definition plain_dir (d : string) : Prop := exists a c, d = a ++ String c "" /\ c <> "/"%char.
Lemma dirname_in d name : plain_dir d -> ~ has_char "/" name -> dirname (d ++ "/" ++ name) = d.
Proof.
  intros Hd H. unfold dirname. rewrite basename_in by exact H.
  replace (String.length (d ++ "/" ++ name) - String.length name)%nat with (String.length (d ++ "/")).
  2:{ rewrite !app_length_s. cbn. lia. }
  rewrite app_assoc_s, substring_pre. destruct (rstrip_slash_add d Hd) as [E N]. rewrite E. destruct d; [congruence|reflexivity].
Qed.
Lemma path_join_in d name : plain_dir d -> ~ has_char "/" name -> path_join d name = d ++ "/" ++ name.
Proof.
  intros (a & c & -> & Hc) H. unfold path_join.
  assert (E : ends_slash (a ++ String c "") = false).
  { unfold ends_slash. assert (N : exists x y, a ++ String c "" = String x y) by (destruct a; cbn; eauto). destruct N as (x & y & N). rewrite N. rewrite <- N.
    replace (String.length (a ++ String c "") - 1)%nat with (String.length a) by (rewrite app_length_s; cbn; lia).
    assert (Q : forall a, substring (String.length a) 1 (a ++ String c "") = String c "") by (clear; induction a as [|z a IH]; [reflexivity|exact IH]).
    rewrite Q. apply String.eqb_neq. congruence. }
  rewrite E. assert (N : exists x y, a ++ String c "" = String x y) by (destruct a; cbn; eauto). destruct N as (x & y & ->).
  destruct name as [|k r]; [reflexivity|]. cbn [has_char] in H. destruct (Ascii.eqb_spec k "/") as [->|Nk]; [tauto|].
  destruct k as [[] [] [] [] [] [] [] []]; try reflexivity. congruence.
Qed.
Lemma outfile_in p o e dir d name : plain_dir d -> ~ has_char "/" name ->
  outfile p o e dir (d ++ "/" ++ name) = path_join (match dir with None => d | Some x => x end) (out_name p o e name).
Proof. intros Hd H. unfold outfile. now rewrite basename_in, dirname_in. Qed.
Lemma name_inj d1 n1 d2 n2 : ~ has_char "/" n1 -> ~ has_char "/" n2 -> d1 ++ "/" ++ n1 = d2 ++ "/" ++ n2 -> d1 = d2 /\ n1 = n2.
Proof.
  intros H1 H2 E. assert (N : n1 = n2) by (rewrite <- (basename_in d1 n1 H1), <- (basename_in d2 n2 H2); now rewrite E). split; [|exact N].
  subst. rewrite !app_assoc_s in E. apply app_inv_tail_s in E. now apply app_inv_tail_s in E.
Qed.
