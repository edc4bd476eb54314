(* Lists of targets, order of the model spectra, coefficient split. *)
From Verif Require Import Prelude PreludeFacts Facts2 NumX Model_Dist Proof_Dist3 Model_Zscan Model_IO Proof_IO Proof_IO2 Proof_IO4 Proof_Zfind Model_Desi Spec_Desi Proof_Desi.

Lemma zmem_iff t l : zmem t l = true <-> In t l.
Proof. unfold zmem. rewrite existsb_exists. split; [intros (x & H & E); apply Z.eqb_eq in E; now subst|intros H; exists t; split; [exact H|apply Z.eqb_refl]]. Qed.
Lemma index_of_spec t l : In t l -> nth_error l (index_of t l) = Some t /\ forall i, i < index_of t l -> nth_error l i <> Some t.
Proof.
  induction l as [|a l IH]; intros H; [destruct H|]. cbn [index_of]. destruct (Z.eqb_spec a t) as [->|Hne]; [split; [reflexivity|intros i Hi; lia]|].
  destruct H as [H|H]; [congruence|]. destruct (IH H) as [A B]. split; [exact A|]. intros [|i] Hi; [cbn; congruence|]. cbn. apply B. lia.
Qed.
Lemma zdedup_spec l : NoDup (zdedup l) /\ forall t, In t (zdedup l) <-> In t l.
Proof.
  induction l as [|x l [A B]]; cbn [zdedup]; [split; [constructor|tauto]|]. destruct (zmem x l) eqn:E.
  - apply zmem_iff in E. split; [exact A|]. intros t. rewrite B. split; [now right|]. intros [<-|H]; assumption.
  - split; [|intros t; cbn; now rewrite B]. constructor; [|exact A]. rewrite B. intros H. apply zmem_iff in H. congruence.
Qed.
Lemma leb_total : total_b Nat.leb. Proof. intros x y. destruct (Nat.leb_spec x y); [now left|right; apply Nat.leb_le; lia]. Qed.
Lemma leb_trans : trans_b Nat.leb. Proof. intros x y z. rewrite !Nat.leb_le. lia. Qed.
Lemma sorted_le_lt l : StronglySorted (fun x y => Nat.leb x y = true) l -> NoDup l -> StronglySorted lt l.
Proof.
  induction 1 as [|x l Hs IH Hall]; intros Hn; [constructor|]. inversion Hn; subst. constructor; [now apply IH|]. rewrite Forall_forall in *. intros y Hy. specialize (Hall y Hy). apply Nat.leb_le in Hall.
  destruct (Nat.eq_dec x y); [subst; contradiction|lia].
Qed.
Definition is_first (l : list Z) (i : nat) : bool := index_of (nth i l 0%Z) l =? i.
Lemma index_app_in x pre r : In x pre -> index_of x (pre ++ r) < length pre.
Proof. induction pre as [|a pre IH]; intros H; [destruct H|]. cbn [app index_of length]. destruct (Z.eqb_spec a x); [lia|]. destruct H as [H|H]; [congruence|]. specialize (IH H). lia. Qed.
Lemma index_app_out x pre r : ~ In x pre -> index_of x (pre ++ x :: r) = length pre.
Proof. induction pre as [|a pre IH]; intros H; cbn [app index_of length]; [now rewrite Z.eqb_refl|]. destruct (Z.eqb_spec a x) as [->|]; [exfalso; apply H; now left|]. rewrite IH; [reflexivity|]. intros Hi. apply H. now right. Qed.
Lemma first_occ : forall r pre seen, (forall y, In y seen <-> In y pre) ->
  first_occurrences r seen = map (fun i => nth i (pre ++ r) 0%Z) (filter (is_first (pre ++ r)) (seq (length pre) (length r))).
Proof.
  induction r as [|x r IH]; intros pre seen H; [reflexivity|]. cbn [first_occurrences length seq filter].
  assert (Hn : nth (length pre) (pre ++ x :: r) 0%Z = x) by (rewrite app_nth2, Nat.sub_diag by lia; reflexivity).
  assert (Hf : is_first (pre ++ x :: r) (length pre) = if in_dec Z.eq_dec x seen then false else true).
  { unfold is_first. rewrite Hn. destruct (in_dec Z.eq_dec x seen) as [Hi|Hi].
    - apply H in Hi. apply Nat.eqb_neq. pose proof (index_app_in x pre (x :: r) Hi). lia.
    - apply Nat.eqb_eq. apply index_app_out. intros C. apply Hi, H, C. }
  assert (E : pre ++ x :: r = (pre ++ [x]) ++ r) by (now rewrite <- app_assoc).
  assert (El : S (length pre) = length (pre ++ [x])) by (rewrite app_length; cbn; lia).
  rewrite Hf. destruct (in_dec Z.eq_dec x seen) as [Hi|Hi].
  - rewrite E, El. apply IH. intros y. rewrite in_app_iff. cbn. rewrite H. split; [now left|]. intros [Hy|[<-|[]]]; [exact Hy|]. now apply H.
  - cbn [map]. rewrite Hn. f_equal. rewrite E, El. apply IH. intros y. rewrite in_app_iff. cbn. rewrite H. tauto.
Qed.
Lemma unique_targets_ok l : unique_targets l = first_occurrences l [].
Proof.
  rewrite (first_occ l [] []) by tauto. cbn [app length]. unfold unique_targets. f_equal. unfold np_unique_index.
  destruct (zdedup_spec l) as [Hnd Hin].
  set (I := map (fun t => index_of t l) (isort Z.leb (zdedup l))).
  assert (HinI : forall i, In i I <-> exists t, In t l /\ index_of t l = i).
  { intros i. unfold I. rewrite in_map_iff. split.
    - intros (t & <- & Ht). exists t. split; [|reflexivity]. apply Hin. eapply Permutation_in; [symmetry; apply isort_perm|exact Ht].
    - intros (t & Ht & <-). exists t. split; [reflexivity|]. eapply Permutation_in; [apply isort_perm|]. now apply Hin. }
  assert (HndI : NoDup I).
  { unfold I. assert (Hs : NoDup (isort Z.leb (zdedup l))) by (eapply Permutation_NoDup; [apply isort_perm|exact Hnd]).
    assert (Hsub : forall t, In t (isort Z.leb (zdedup l)) -> In t l) by (intros t Ht; apply Hin; eapply Permutation_in; [symmetry; apply isort_perm|exact Ht]).
    clear -Hs Hsub. induction Hs as [|a r Ha Hs IH]; [constructor|]. cbn [map]. constructor; [|apply IH; intros t Ht; apply Hsub; now right].
    intros C. apply in_map_iff in C as (b & E & Hb). apply Ha. destruct (index_of_spec a l (Hsub a (or_introl eq_refl))) as [A _], (index_of_spec b l (Hsub b (or_intror Hb))) as [B _].
    rewrite E in B. assert (a = b) by congruence. now subst. }
  apply (StronglySorted_unique lt); [intros; lia| | |].
  - apply sorted_le_lt; [apply isort_sorted; [apply leb_total|apply leb_trans]|]. eapply Permutation_NoDup; [apply isort_perm|exact HndI].
  - assert (G : forall p s, StronglySorted lt s -> StronglySorted lt (filter p s)).
    { intros p s Hs. induction Hs as [|x s Hs IH Hall]; cbn; [constructor|]. destruct (p x); [|exact IH]. constructor; [exact IH|]. apply Forall_forall. intros z Hz. apply filter_In in Hz as [Hz _]. rewrite Forall_forall in Hall. now apply Hall. }
    apply G, StronglySorted_seq.
  - etransitivity; [symmetry; apply isort_perm|]. apply NoDup_Permutation; [exact HndI|apply NoDup_filter, seq_NoDup|].
    intros i. rewrite HinI, filter_In, in_seq. unfold is_first. rewrite Nat.eqb_eq. split.
    + intros (t & Ht & <-). destruct (index_of_spec t l Ht) as [A _]. pose proof (nth_error_Some_lt _ _ _ A) as Hlt. split; [lia|]. rewrite (nth_error_nth l _ 0%Z A). reflexivity.
    + intros [Hlt E]. exists (nth i l 0%Z). split; [apply nth_In; lia|exact E].
Qed.
Lemma first_occ_spec : forall l seen, NoDup (first_occurrences l seen) /\ (forall t, In t (first_occurrences l seen) <-> In t l /\ ~ In t seen).
Proof.
  induction l as [|x l IH]; intros seen; cbn [first_occurrences]; [split; [constructor|cbn; tauto]|]. destruct (in_dec Z.eq_dec x seen) as [Hi|Hi].
  - destruct (IH seen) as [A B]. split; [exact A|]. intros t. rewrite B. cbn. split; [intros [? ?]; auto|]. intros [[<-|H] Hn]; [contradiction|auto].
  - destruct (IH (x :: seen)) as [A B]. split.
    + constructor; [|exact A]. rewrite B. cbn. tauto.
    + intros t. cbn [In]. rewrite B. cbn. destruct (Z.eq_dec x t); [subst; tauto|tauto].
Qed.

(* ---- order of models ---- *)
Lemma argsortZ_perm l : Permutation (argsortZ l) (seq 0 (length l)).
Proof. unfold argsortZ. etransitivity; [apply Permutation_map; symmetry; apply isort_perm|]. unfold enum. now rewrite enum_from_fst. Qed.
Lemma argsorted l : StronglySorted Z.le (map (fun i => nth i l 0%Z) (argsortZ l)) /\ forall t, In t (map (fun i => nth i l 0%Z) (argsortZ l)) <-> In t l.
Proof.
  assert (E : map (fun i => nth i l 0%Z) (argsortZ l) = map snd (isort (fun a b => (snd a <=? snd b)%Z) (enum l))).
  { unfold argsortZ. rewrite map_map. apply map_ext_in. intros [i t] H. eapply Permutation_in in H; [|symmetry; apply isort_perm]. apply enum_lt in H as [_ H]. cbn [fst snd] in *. now apply nth_error_nth. }
  rewrite E. split.
  - assert (Hs : StronglySorted (fun a b : nat * Z => (snd a <=? snd b)%Z = true) (isort (fun a b => (snd a <=? snd b)%Z) (enum l))) by (apply isort_sorted; [intros [? x] [? y]; cbn; destruct (Z.leb_spec x y); [now left|right; apply Z.leb_le; lia]|intros [? x] [? y] [? z]; cbn; rewrite !Z.leb_le; lia]).
    clear E. induction Hs as [|a r Hs IH Hall]; [constructor|]. cbn [map]. constructor; [exact IH|]. rewrite Forall_forall in *. intros y Hy. apply in_map_iff in Hy as (b & <- & Hb). apply Z.leb_le. now apply Hall.
  - intros t. rewrite in_map_iff. split.
    + intros (p & <- & Hp). eapply Permutation_in in Hp; [|symmetry; apply isort_perm]. apply enum_lt in Hp as [_ Hp]. eapply nth_error_In. exact Hp.
    + intros H. destruct (In_nth_error _ _ H) as (i & Hi). exists (i, t). split; [reflexivity|]. eapply Permutation_in; [apply isort_perm|]. unfold enum. apply enum_from_in. exists i. auto.
Qed.
Lemma searchsorted_hit s t : StronglySorted Z.le s -> In t s -> nth_error s (searchsortedZ s t) = Some t.
Proof.
  unfold searchsortedZ. induction 1 as [|a s Hs IH Hall]; intros Hin; [destruct Hin|]. rewrite Forall_forall in Hall. cbn [filter]. destruct (Z.ltb_spec a t) as [Hlt|Hge].
  - cbn [length nth_error]. apply IH. destruct Hin as [->|Hin]; [lia|exact Hin].
  - assert (filter (fun y => (y <? t)%Z) s = []) as ->. { destruct (filter _ s) as [|y r] eqn:E; [reflexivity|]. assert (In y (filter (fun y => (y <? t)%Z) s)) by (rewrite E; now left). apply filter_In in H as [H1 H2]. apply Z.ltb_lt in H2. specialize (Hall y H1). lia. }
    cbn. f_equal. destruct Hin as [->|Hin]; [reflexivity|]. specialize (Hall t Hin). lia.
Qed.
Lemma sort_indices_ok all zids : incl zids all -> exists idx, sort_indices all zids = Ok idx /\ Forall2 (fun t i => nth_error all i = Some t) zids idx.
Proof.
  intros Hi. unfold sort_indices. destruct (argsorted all) as [Hs Hin]. set (xs := argsortZ all) in *. set (sorted := map (fun i => nth i all 0%Z) xs) in *.
  assert (Hx : forall t, In t zids -> exists i, nth_error xs (searchsortedZ sorted t) = Some i /\ nth_error all i = Some t).
  { intros t Ht. pose proof (searchsorted_hit sorted t Hs (proj2 (Hin t) (Hi t Ht))) as H. unfold sorted in H at 1. rewrite nth_error_map in H. destruct (nth_error xs (searchsortedZ sorted t)) as [i|] eqn:E; [|discriminate].
    injection H as H. exists i. split; [reflexivity|]. apply nth_error_In in E. eapply Permutation_in in E; [|apply argsortZ_perm]. apply in_seq in E. rewrite <- H. apply nth_error_nth'. lia. }
  assert (exists idx, mapM (fun t => match nth_error xs (searchsortedZ sorted t) with Some i => Ok i | None => Err IndexError end) zids = Ok idx /\ Forall2 (fun t i => nth_error all i = Some t) zids idx) as (idx & E & F).
  { clear -Hx. induction zids as [|t ts IH]; [exists []; split; [reflexivity|constructor]|]. destruct IH as (idx & E & F); [intros u Hu; apply Hx; now right|]. destruct (Hx t (or_introl eq_refl)) as (i & Ei & Ea).
    exists (i :: idx). cbn [mapM]. rewrite Ei. cbn [rbind]. rewrite E. split; [reflexivity|constructor; assumption]. }
  exists idx. rewrite E. cbn [rbind]. destruct (list_eq_dec Z.eq_dec zids (map (fun i => nth i all 0%Z) idx)) as [_|Hne]; [auto|]. exfalso. apply Hne. clear -F. induction F; [reflexivity|]. cbn [map]. rewrite (nth_error_nth all y 0%Z H). now f_equal.
Qed.
Lemma sort_indices_sound all zids idx : sort_indices all zids = Ok idx -> Forall2 (fun t i => nth_error all i = Some t) zids idx.
Proof.
  unfold sort_indices. set (xs := argsortZ all). set (sorted := map (fun i => nth i all 0%Z) xs). intros H.
  destruct (mapM _ zids) as [ix|] eqn:E; [|discriminate]. cbn [rbind] in H. destruct (list_eq_dec Z.eq_dec zids (map (fun i => nth i all 0%Z) ix)) as [Heq|]; [|discriminate]. injection H as <-.
  assert (Hb : forall i, In i ix -> i < length all).
  { clear -E. revert ix E. induction zids as [|t ts IH]; intros ix E i Hi; cbn [mapM] in E; [injection E as <-; destruct Hi|].
    destruct (nth_error xs (searchsortedZ sorted t)) as [k|] eqn:Ek; [|discriminate]. cbn [rbind] in E. destruct (mapM _ ts) as [r|] eqn:Er; [|discriminate]. cbn [rbind] in E. injection E as <-. destruct Hi as [<-|Hi]; [|eapply IH; [reflexivity|exact Hi]].
    apply nth_error_In in Ek. eapply Permutation_in in Ek; [|apply argsortZ_perm]. apply in_seq in Ek. lia. }
  rewrite Heq. clear -Hb. induction ix as [|i ix IH]; [constructor|]. cbn [map]. constructor; [apply nth_error_nth'; apply Hb; now left|]. apply IH. intros; apply Hb; now right.
Qed.
Lemma concat_align {V} : forall (locals : list (list Z * list V)), (forall l, In l locals -> length (fst l) = length (snd l)) -> forall i t m,
  nth_error (concat (map fst locals)) i = Some t -> nth_error (concat (map snd locals)) i = Some m -> exists l k, In l locals /\ nth_error (fst l) k = Some t /\ nth_error (snd l) k = Some m.
Proof.
  induction locals as [|l locals IH]; intros H i t m E1 E2; [destruct i; discriminate|]. cbn [map concat] in *. pose proof (H l (or_introl eq_refl)) as Hl. destruct (Nat.lt_ge_cases i (length (fst l))) as [Hlt|Hge].
  - rewrite nth_error_app1 in E1 by exact Hlt. rewrite nth_error_app1 in E2 by lia. exists l, i. split; [now left|auto].
  - rewrite nth_error_app2 in E1 by exact Hge. rewrite nth_error_app2 in E2 by lia. rewrite <- Hl in E2. destruct (IH (fun x Hx => H x (or_intror Hx)) _ t m E1 E2) as (l' & k & Hin & A & B). exists l', k. split; [now right|auto].
Qed.
Lemma mapM_nth {A B} (g : A -> res B) : forall l out, mapM g l = Ok out -> length out = length l /\ forall i x, nth_error l i = Some x -> exists y, g x = Ok y /\ nth_error out i = Some y.
Proof.
  induction l as [|a l IH]; intros out H; cbn [mapM] in H; [injection H as <-; split; [reflexivity|intros [|i] x Hx; discriminate]|]. destruct (g a) as [y|] eqn:E; [|discriminate]. cbn [rbind] in H. destruct (mapM g l) as [r|] eqn:Er; [|discriminate]. cbn [rbind] in H. injection H as <-.
  destruct (IH r eq_refl) as [A1 B1]. split; [cbn; now rewrite A1|]. intros [|i] x Hx; [injection Hx as <-; eauto|]. now apply B1.
Qed.

(* ---- subtype list ---- *)
Fixpoint join (sep : string) (l : list string) : string :=
  match l with [] => EmptyString | [a] => a | a :: r => (a ++ sep ++ join sep r)%string end.
Lemma split_semi_one s : forall cur r, ~ Spec_IO.occurs ";" s -> split_go ";" (s ++ String ";" r) 0 cur = (cur ++ s)%string :: split_go ";" r 0 EmptyString.
Proof.
  induction s as [|c s IH]; intros cur r H.
  - cbn. rewrite app_nil_r_s. destruct r; reflexivity.
  - assert (Hc : c <> ";"%char) by (intros ->; apply H; exists EmptyString, s; reflexivity).
    cbn [append split_go]. assert (Hp : String.prefix ";" (String c (s ++ String ";" r)) = false) by (cbn [String.prefix]; destruct (Ascii.ascii_dec ";" c); [congruence|reflexivity]).
    rewrite Hp. rewrite IH; [|intros (a & b & E); apply H; exists (String c a), b; cbn; now rewrite E]. f_equal. rewrite <- app_assoc_s. reflexivity.
Qed.
Lemma split_semi_last s : forall cur, ~ Spec_IO.occurs ";" s -> split_go ";" s 0 cur = [(cur ++ s)%string].
Proof.
  induction s as [|c s IH]; intros cur H; [cbn; now rewrite app_nil_r_s|].
  assert (Hc : c <> ";"%char) by (intros ->; apply H; exists EmptyString, s; reflexivity).
  cbn [split_go]. assert (Hp : String.prefix ";" (String c s) = false) by (cbn [String.prefix]; destruct (Ascii.ascii_dec ";" c); [congruence|reflexivity]).
  rewrite Hp. rewrite IH; [|intros (a & b & E); apply H; exists (String c a), b; cbn; now rewrite E]. f_equal. rewrite <- app_assoc_s. reflexivity.
Qed.
Lemma split_join : forall names, names <> [] -> (forall n, In n names -> ~ Spec_IO.occurs ";" n) -> split ";" (join ";" names) = names.
Proof.
  induction names as [|a r IH]; intros Hne H; [congruence|]. unfold split. destruct r as [|b r].
  - cbn [join]. rewrite split_semi_last by (apply H; now left). reflexivity.
  - change (join ";" (a :: b :: r)) with (a ++ String ";" (join ";" (b :: r)))%string. rewrite split_semi_one by (apply H; now left). cbn [append]. f_equal. apply IH; [discriminate|]. intros n Hn. apply H. now right.
Qed.
