(* Lemmas about Prelude. *)
From Verif Require Import Prelude.

Lemma total_refl {A} (leb : A -> A -> bool) : total_b leb -> forall x, leb x x = true.
Proof. intros H x; destruct (H x x); assumption. Qed.

Section ISortFacts.
  Context {A : Type} (leb : A -> A -> bool).
  Let le x y := leb x y = true.

  Lemma insert_perm x l : Permutation (x :: l) (insert leb x l).
  Proof.
    induction l as [|y ys IH]; cbn; [reflexivity|].
    destruct (leb x y); [reflexivity|].
    rewrite perm_swap; constructor; exact IH.
  Qed.

  Lemma isort_perm l : Permutation l (isort leb l).
  Proof.
    induction l as [|x xs IH]; cbn; [reflexivity|].
    rewrite <- insert_perm; constructor; exact IH.
  Qed.

  Lemma isort_length l : length (isort leb l) = length l.
  Proof. symmetry; apply Permutation_length, isort_perm. Qed.

  Lemma isort_in x l : In x (isort leb l) <-> In x l.
  Proof. split; apply Permutation_in; [symmetry|]; apply isort_perm. Qed.

  Lemma insert_sorted (Ht : total_b leb) (Htr : trans_b leb) x l :
    StronglySorted le l -> StronglySorted le (insert leb x l).
  Proof.
    induction 1 as [|y ys Hs IH Hall]; cbn; [repeat constructor|].
    destruct (leb x y) eqn:Hxy.
    - constructor; [constructor; assumption|].
      constructor; [exact Hxy|].
      eapply Forall_impl; [|exact Hall]; intros z Hz; exact (Htr _ _ _ Hxy Hz).
    - constructor; [exact IH|].
      apply Forall_forall; intros z Hz.
      apply (Permutation_in z (Permutation_sym (insert_perm x ys))) in Hz.
      destruct Hz as [<-|Hz].
      + destruct (Ht x y) as [H|H]; [congruence|exact H].
      + exact (proj1 (Forall_forall _ _) Hall z Hz).
  Qed.

  Lemma isort_sorted (Ht : total_b leb) (Htr : trans_b leb) l :
    StronglySorted le (isort leb l).
  Proof. induction l as [|x xs IH]; cbn; [constructor|apply insert_sorted; assumption]. Qed.

  (* Stability, in the form most useful for proofs: a second relation R that
     holds between each element and all later ones is kept between ties. *)
  Lemma insert_stable (R : A -> A -> Prop) (Ht : total_b leb) (Htr : trans_b leb) x l :
    StronglySorted (fun a b => le a b /\ (le b a -> R a b)) l ->
    (forall y, In y l -> R x y) ->
    StronglySorted (fun a b => le a b /\ (le b a -> R a b)) (insert leb x l).
  Proof.
    intros Hs; revert x; induction Hs as [|y ys Hs IH Hall]; intros x HR; cbn.
    - repeat constructor.
    - destruct (leb x y) eqn:Hxy.
      + constructor; [constructor; assumption|].
        apply Forall_forall; intros z [<-|Hz].
        * split; [exact Hxy|intros _; apply HR; left; reflexivity].
        * split; [|intros _; apply HR; right; exact Hz].
          rewrite Forall_forall in Hall. destruct (Hall z Hz) as [Hyz _].
          exact (Htr _ _ _ Hxy Hyz).
      + constructor; [apply IH; intros z Hz; apply HR; right; exact Hz|].
        apply Forall_forall; intros z Hz.
        apply (Permutation_in z (Permutation_sym (insert_perm x ys))) in Hz.
        destruct Hz as [<-|Hz].
        * split; [destruct (Ht x y) as [H|H]; [congruence|exact H]|].
          intros H; unfold le in H; congruence.
        * exact (proj1 (Forall_forall _ _) Hall z Hz).
  Qed.

  Lemma isort_stable (R : A -> A -> Prop) (Ht : total_b leb) (Htr : trans_b leb) l :
    StronglySorted R l ->
    StronglySorted (fun a b => le a b /\ (le b a -> R a b)) (isort leb l).
  Proof.
    induction 1 as [|x xs Hs IH Hall]; cbn; [constructor|].
    apply insert_stable; [assumption..|].
    intros y Hy; rewrite isort_in in Hy.
    exact (proj1 (Forall_forall _ _) Hall y Hy).
  Qed.
End ISortFacts.

(* commuting a sort with a map *)
Lemma insert_map {A B} (f : A -> B) (la : A -> A -> bool) (lb : B -> B -> bool)
  (H : forall x y, la x y = lb (f x) (f y)) x l :
  map f (insert la x l) = insert lb (f x) (map f l).
Proof.
  induction l as [|y ys IH]; cbn; [reflexivity|].
  rewrite H; destruct (lb (f x) (f y)); cbn; [reflexivity|rewrite IH; reflexivity].
Qed.
Lemma isort_map {A B} (f : A -> B) (la : A -> A -> bool) (lb : B -> B -> bool)
  (H : forall x y, la x y = lb (f x) (f y)) l :
  map f (isort la l) = isort lb (map f l).
Proof.
  induction l as [|x xs IH]; cbn; [reflexivity|].
  rewrite (insert_map f la lb H), IH; reflexivity.
Qed.

Lemma StronglySorted_nth {A} (R : A -> A -> Prop) l :
  StronglySorted R l <->
  (forall i j x y, i < j -> nth_error l i = Some x -> nth_error l j = Some y -> R x y).
Proof.
  split.
  - induction 1 as [|a l Hs IH Hall]; intros i j x y Hij Hx Hy.
    + destruct i; discriminate.
    + destruct j as [|j]; [lia|]; cbn in Hy.
      destruct i as [|i]; cbn in Hx.
      * injection Hx as <-. rewrite Forall_forall in Hall. apply Hall.
        eapply nth_error_In; eassumption.
      * eapply IH; [|eassumption..]; lia.
  - induction l as [|a l IH]; intros H; constructor.
    + apply IH; intros i j x y Hij Hx Hy. apply (H (S i) (S j)); [lia|assumption..].
    + apply Forall_forall; intros y Hy. apply In_nth_error in Hy as [j Hj].
      apply (H 0 (S j)); [lia|reflexivity|assumption].
Qed.

Lemma StronglySorted_seq s n : StronglySorted lt (seq s n).
Proof.
  revert s; induction n as [|n IH]; intros s; cbn; constructor; [apply IH|].
  apply Forall_forall; intros y Hy; apply in_seq in Hy; lia.
Qed.

Lemma StronglySorted_impl {A} (R S : A -> A -> Prop) l :
  (forall x y, In x l -> In y l -> R x y -> S x y) -> StronglySorted R l -> StronglySorted S l.
Proof.
  intros H Hs; revert H; induction Hs as [|a l Hs IH Hall]; intros H; constructor.
  - apply IH; intros x y Hx Hy; apply H; right; assumption.
  - apply Forall_forall; intros y Hy; rewrite Forall_forall in Hall.
    apply H; [left; reflexivity|right; assumption|apply Hall, Hy].
Qed.

Lemma StronglySorted_map {A B} (f : A -> B) (R : B -> B -> Prop) l :
  StronglySorted R (map f l) <-> StronglySorted (fun x y => R (f x) (f y)) l.
Proof.
  split.
  - induction l as [|a l IH]; cbn; intros H; constructor; inversion H as [|? ? Hs Hall]; subst.
    + apply IH, Hs.
    + rewrite Forall_map in Hall; exact Hall.
  - induction 1 as [|a l Hs IH Hall]; cbn; constructor; [exact IH|].
    rewrite Forall_map; exact Hall.
Qed.

Lemma qlt_iff x y : qlt x y = true <-> (x < y)%Q.
Proof.
  unfold qlt. rewrite negb_true_iff. split; intros H.
  - apply Qnot_le_lt; intros Hc; apply Qle_bool_iff in Hc; congruence.
  - destruct (Qle_bool y x) eqn:E; [|reflexivity].
    apply Qle_bool_iff in E. exfalso; lra.
Qed.
Lemma qlt_false x y : qlt x y = false <-> (y <= x)%Q.
Proof. unfold qlt; rewrite negb_false_iff; apply Qle_bool_iff. Qed.
Lemma Qle_bool_false x y : Qle_bool x y = false <-> (y < x)%Q.
Proof. rewrite <- qlt_iff; unfold qlt; rewrite negb_true_iff; reflexivity. Qed.

Lemma enum_from_length {A} (l : list A) n : length (enum_from n l) = length l.
Proof. revert n; induction l; intros; cbn; [|rewrite IHl]; reflexivity. Qed.
Lemma enum_from_nth {A} (l : list A) n i :
  nth_error (enum_from n l) i = option_map (fun x => (n + i, x)) (nth_error l i).
Proof.
  revert n i; induction l as [|a l IH]; intros n [|i]; cbn; try reflexivity.
  - rewrite Nat.add_0_r; reflexivity.
  - rewrite IH; destruct (nth_error l i); cbn; [f_equal; f_equal; lia|reflexivity].
Qed.
Lemma enum_from_in {A} (l : list A) n i x :
  In (i, x) (enum_from n l) <-> exists k, i = n + k /\ nth_error l k = Some x.
Proof.
  split.
  - intros H; apply In_nth_error in H as [k Hk]. rewrite enum_from_nth in Hk.
    destruct (nth_error l k) eqn:E; cbn in Hk; [|discriminate].
    injection Hk as <- <-; eauto.
  - intros (k & -> & Hk). apply nth_error_In with (n := k).
    rewrite enum_from_nth, Hk; reflexivity.
Qed.
Lemma enum_in {A} (l : list A) i x : In (i, x) (enum l) <-> nth_error l i = Some x.
Proof.
  unfold enum; rewrite enum_from_in; split; [intros (k & -> & H)|intros H; exists i]; auto.
Qed.
Lemma enum_from_snd {A} (l : list A) n : map snd (enum_from n l) = l.
Proof. revert n; induction l; intros; cbn; [|rewrite IHl]; reflexivity. Qed.
Lemma enum_from_fst {A} (l : list A) n : map fst (enum_from n l) = seq n (length l).
Proof. revert n; induction l; intros; cbn; [|rewrite IHl]; reflexivity. Qed.

Lemma sumQ_cons x l : sumQ (x :: l) = (x + sumQ l)%Q.
Proof. reflexivity. Qed.
Lemma sumQ_app l1 l2 : (sumQ (l1 ++ l2) == sumQ l1 + sumQ l2)%Q.
Proof.
  induction l1 as [|x l IH]; [unfold sumQ at 2; cbn [app fold_right]; lra|].
  rewrite <- app_comm_cons, !sumQ_cons, IH; lra.
Qed.
Lemma sumQ_perm l1 l2 : Permutation l1 l2 -> (sumQ l1 == sumQ l2)%Q.
Proof. induction 1; rewrite ?sumQ_cons in *; lra. Qed.
Lemma sumQ_nonneg l : Forall (fun x => 0 <= x)%Q l -> (0 <= sumQ l)%Q.
Proof. induction 1 as [|x l Hx Hl IH]; [cbn; lra|rewrite sumQ_cons; lra]. Qed.
Lemma sumQ_ext {A} (f g : A -> Q) l :
  (forall x, In x l -> (f x == g x)%Q) -> (sumQ (map f l) == sumQ (map g l))%Q.
Proof.
  induction l as [|a l IH]; cbn [map]; intros H; [lra|].
  rewrite !sumQ_cons, (H a (or_introl eq_refl)), IH; [lra|intros; apply H; right; assumption].
Qed.

Lemma nth_error_Some_lt {A} (l : list A) i x : nth_error l i = Some x -> i < length l.
Proof. intros H; apply nth_error_Some; congruence. Qed.
Lemma nth_error_lt_ex {A} (l : list A) i : i < length l -> exists x, nth_error l i = Some x.
Proof. intros H; destruct (nth_error l i) eqn:E; [eauto|apply nth_error_None in E; lia]. Qed.
Lemma nth_error_ext {A} (l1 l2 : list A) : (forall i, nth_error l1 i = nth_error l2 i) -> l1 = l2.
Proof.
  revert l2; induction l1 as [|a l1 IH]; intros [|b l2] H; [reflexivity|specialize (H 0); discriminate..|].
  pose proof (H 0) as H0; cbn in H0; injection H0 as ->. f_equal. apply IH; intros i; exact (H (S i)).
Qed.
Lemma Forall2_impl {A B} (P Q : A -> B -> Prop) l m :
  (forall x y, P x y -> Q x y) -> Forall2 P l m -> Forall2 Q l m.
Proof. intros H; induction 1; constructor; auto. Qed.
Lemma Forall2_nth {A B} (P : A -> B -> Prop) l m i x :
  Forall2 P l m -> nth_error l i = Some x -> exists y, nth_error m i = Some y /\ P x y.
Proof.
  intros H; revert i; induction H as [|a b l m Hab H IH]; intros [|i] Hx; cbn in *; try discriminate.
  - injection Hx as <-; eauto.
  - apply IH, Hx.
Qed.
Lemma Forall2_in_r {A B} (P : A -> B -> Prop) l m y :
  Forall2 P l m -> In y m -> exists x, In x l /\ P x y.
Proof.
  induction 1 as [|a b l m Hab H IH]; intros Hy; [destruct Hy|].
  destruct Hy as [<-|Hy]; [exists a; split; [left; reflexivity|exact Hab]|].
  destruct (IH Hy) as (x & Hx & HP). exists x; split; [right; exact Hx|exact HP].
Qed.
Lemma Forall2_len {A B} (P : A -> B -> Prop) l m : Forall2 P l m -> length l = length m.
Proof. induction 1; cbn; congruence. Qed.
