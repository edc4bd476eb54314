From Verif Require Import Prelude PreludeFacts Model_IO Spec_FindArch Proof_FindArch Model_H5Path.
Local Open Scope string_scope.
Local Notation "[ x ]s" := (String x EmptyString).
Definition plain (s : string) : Prop := s <> "" /\ s <> "." /\ without "/" s.
(* ---------- splitting at '/' ---------- *)
Lemma prefix_slash c r : String.prefix "/" (String c r) = Ascii.eqb "/" c.
Proof. cbn [String.prefix]. destruct (ascii_dec "/" c) as [E|E]; destruct (Ascii.eqb_spec "/" c) as [E2|E2]; try congruence. destruct r; reflexivity. Qed.
Lemma split_go_plain s : forall cur r, without "/" s -> split_go "/" (s ++ String "/" r) 0 cur = (cur ++ s) :: split_go "/" r 0 "".
Proof.
  induction s as [|c s IH]; intros cur r W.
  - cbn [append split_go]. rewrite prefix_slash, Ascii.eqb_refl. cbn [String.length]. change (1 - 1)%nat with 0%nat. now rewrite sapp_nil.
  - cbn [append split_go]. rewrite prefix_slash. pose proof (without_head _ _ _ W) as N. destruct (Ascii.eqb_spec "/" c) as [E|E]; [congruence|].
    rewrite IH by (eapply without_tail; exact W). now rewrite sapp_assoc.
Qed.
Lemma split_go_last s : forall cur, without "/" s -> split_go "/" s 0 cur = [cur ++ s].
Proof.
  induction s as [|c s IH]; intros cur W; [cbn; now rewrite sapp_nil|]. cbn [split_go]. rewrite prefix_slash. pose proof (without_head _ _ _ W) as N. destruct (Ascii.eqb_spec "/" c) as [E|E]; [congruence|].
  rewrite IH by (eapply without_tail; exact W). now rewrite sapp_assoc.
Qed.
Lemma without_snoc c s x : without c s -> x <> c -> without c (s ++ [x]s).
Proof.
  intros W N. revert W. induction s as [|y s IH]; intros W a b E.
  - destruct a as [|z a]; cbn in E; [congruence|]. injection E as -> E. destruct a; discriminate E.
  - destruct a as [|z a]; cbn in E; [injection E as -> E; now apply (W "" s)|]. injection E as -> E. apply (IH (without_tail _ _ _ W) a b E).
Qed.
Lemma split_go_without s : forall cur, without "/" cur -> Forall (without "/") (split_go "/" s 0 cur).
Proof.
  induction s as [|c s IH]; intros cur W; cbn [split_go]; [now repeat constructor|]. rewrite prefix_slash. destruct (Ascii.eqb_spec "/" c) as [E|E].
  - constructor; [exact W|]. cbn [String.length]. change (1 - 1)%nat with 0%nat. apply IH. intros a b H. destruct a; discriminate H.
  - apply IH. apply without_snoc; [exact W|congruence].
Qed.
Lemma components_plain n : Forall plain (components n).
Proof.
  unfold components. apply Forall_forall. intros x Hx. apply filter_In in Hx. destruct Hx as [Hi Hb]. apply negb_true_iff, orb_false_iff in Hb. destruct Hb as [B1 B2].
  apply String.eqb_neq in B1, B2. split; [exact B1|]. split; [exact B2|]. assert (F : Forall (without "/") (Model_IO.split "/" n)) by (apply split_go_without; intros a b H; destruct a; discriminate H).
  rewrite Forall_forall in F. now apply F.
Qed.
Lemma plain_kept s : plain s -> negb (String.eqb s "" || String.eqb s ".") = true.
Proof. intros (A & B & _). apply String.eqb_neq in A, B. now rewrite A, B. Qed.
Lemma without_lit s : forallb (fun c => negb (Ascii.eqb "/" c)) (list_ascii_of_string s) = true -> without "/" s.
Proof.
  induction s as [|c s IH]; cbn [list_ascii_of_string forallb]; intro H; [intros a b E; destruct a; discriminate E|]. apply andb_true_iff in H. destruct H as [H1 H2].
  apply negb_true_iff in H1. apply Ascii.eqb_neq in H1. intros a b E. destruct a as [|z a]; cbn in E; injection E as E1 E2; [congruence|]. now apply (IH H2 a b).
Qed.
Lemma comp1 s : plain s -> components s = [s].
Proof. intro P. unfold components, Model_IO.split. rewrite split_go_last by apply P. cbn [append filter]. now rewrite (plain_kept s P). Qed.
Lemma comp3 a s b : plain a -> plain s -> plain b -> components (a ++ "/" ++ s ++ "/" ++ b) = [a; s; b].
Proof.
  intros Pa Ps Pb. unfold components, Model_IO.split. cbn [append]. change (a ++ String "/" (s ++ "/" ++ b)) with (a ++ String "/" (s ++ String "/" b)).
  rewrite split_go_plain by apply Pa. rewrite split_go_plain by apply Ps. rewrite split_go_last by apply Pb. cbn [append filter].
  now rewrite (plain_kept a Pa), (plain_kept s Ps), (plain_kept b Pb).
Qed.
Lemma comp3_abs a s b : plain a -> plain s -> plain b -> components ("/" ++ a ++ "/" ++ s ++ "/" ++ b) = [a; s; b].
Proof. intros Pa Ps Pb. rewrite <- (comp3 a s b Pa Ps Pb). unfold components, Model_IO.split. cbn [append split_go]. rewrite prefix_slash. cbn [Ascii.eqb]. reflexivity. Qed.
Lemma plain_lit s : s <> "" -> s <> "." -> forallb (fun c => negb (Ascii.eqb "/" c)) (list_ascii_of_string s) = true -> plain s.
Proof. intros A B C. split; [exact A|]. split; [exact B|now apply without_lit]. Qed.
Ltac lit := apply plain_lit; [discriminate|discriminate|reflexivity].
(* ---------- datasets ---------- *)
Definition apart (p q : list string) : Prop := is_prefix p q = false /\ is_prefix q p = false.
Lemma prefix_iff p : forall q, is_prefix p q = true <-> exists r, q = (p ++ r)%list.
Proof.
  induction p as [|x p IH]; intros q; [split; [intros _; now exists q|reflexivity]|]. destruct q as [|y q]; cbn [is_prefix].
  - split; [discriminate|intros [r H]; discriminate H].
  - rewrite andb_true_iff, String.eqb_eq, IH. split; [intros [-> [r ->]]; now exists r|intros [r H]; injection H as -> ->; split; [reflexivity|now exists r]].
Qed.
Lemma apart_len p q : length p = length q -> p <> q -> apart p q.
Proof.
  assert (G : forall p q : list string, length p = length q -> p <> q -> is_prefix p q = false).
  { intros p' q' L N. destruct (is_prefix p' q') eqn:E; [|reflexivity]. apply prefix_iff in E. destruct E as [r ->]. rewrite app_length in L. destruct r; [|cbn in L; lia]. rewrite app_nil_r in N. congruence. }
  intros L N. split; apply G; congruence.
Qed.
Lemma apart_head x p y q : x <> y -> apart (x :: p) (y :: q).
Proof. intro N. split; cbn [is_prefix]; (destruct (String.eqb_spec x y); [congruence|]) || idtac; [reflexivity|]. destruct (String.eqb_spec y x); [congruence|reflexivity]. Qed.
Section P.
Context {D : Type}.
Notation paths f := (map (@fst (list string) D) f).
Definition place_of (e : string * D) : list string * D := (components (fst e), snd e).
Lemma create_all_ok l : forall f : h5file D, ForallOrdPairs apart (paths f ++ paths (map place_of l)) -> create_all f l = Ok (f ++ map place_of l)%list.
Proof.
  induction l as [|[n d] l IH]; intros f H; [cbn; now rewrite app_nil_r|]. cbn [create_all]. unfold create.
  assert (E : existsb (fun e : list string * D => is_prefix (components n) (fst e) || is_prefix (fst e) (components n)) f = false).
  { clear IH. induction f as [|e f IHf]; [reflexivity|]. cbn [map app] in H. inversion H as [|? ? F O]; subst. cbn [existsb]. rewrite (IHf O), orb_false_r. rewrite Forall_forall in F.
    destruct (F (components n)) as [A B]; [|now rewrite A, B]. apply in_app_iff. right. now left. }
  rewrite E. cbn [rbind]. rewrite IH.
  - rewrite <- app_assoc. reflexivity.
  - rewrite map_app, <- app_assoc. exact H.
Qed.
Lemma fetch_ok (f : h5file D) n d : ForallOrdPairs apart (paths f) -> In (components n, d) f -> fetch f n = Ok d.
Proof.
  intros H I. unfold fetch. replace (find _ f) with (Some (components n, d)); [reflexivity|]. symmetry. induction f as [|e f IH]; [destruct I|]. cbn [find].
  cbn [map] in H. inversion H as [|? ? F O]; subst. destruct I as [->|I].
  - cbn [fst]. destruct (list_eq_dec string_dec (components n) (components n)); congruence.
  - destruct (list_eq_dec string_dec (components n) (fst e)) as [E|_]; [|now apply IH]. exfalso. rewrite Forall_forall in F. destruct (F (components n)) as [A _]; [apply (in_map fst) in I; exact I|].
    rewrite <- E in A. enough (is_prefix (components n) (components n) = true) by congruence. apply prefix_iff. exists []. now rewrite app_nil_r.
Qed.
Lemma fop_same n (l : list (list string)) : Forall (fun p => length p = n) l -> NoDup l -> ForallOrdPairs apart l.
Proof.
  induction l as [|p l IH]; intros F N; [constructor|]. inversion F as [|? ? L F']; subst. inversion N as [|? ? I N']; subst. constructor; [|now apply IH].
  apply Forall_forall. intros q Hq. rewrite Forall_forall in F'. apply apart_len; [now rewrite (F' q Hq)|]. intro E. subst. contradiction.
Qed.
End P.
