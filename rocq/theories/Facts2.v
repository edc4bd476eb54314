(* Generic list facts used by the later topics. *)
From Verif Require Import Prelude PreludeFacts.

Lemma nth_tab {A} (f : nat -> A) n d i : i < n -> nth i (map f (seq 0 n)) d = f i.
Proof.
  intros H. rewrite (nth_indep _ d (f 0)) by (rewrite map_length, seq_length; exact H).
  rewrite map_nth, seq_nth by exact H. reflexivity.
Qed.
Lemma nth_error_tab {A} (f : nat -> A) n i : i < n -> nth_error (map f (seq 0 n)) i = Some (f i).
Proof.
  intros H. rewrite nth_error_map.
  destruct (nth_error (seq 0 n) i) as [k|] eqn:E.
  - apply (nth_error_nth _ _ 0) in E. rewrite seq_nth in E by exact H. cbn in *. now subst.
  - apply nth_error_None in E. rewrite seq_length in E. lia.
Qed.
Lemma tab_length {A} (f : nat -> A) n : length (map f (seq 0 n)) = n.
Proof. now rewrite map_length, seq_length. Qed.
Lemma list_as_tab {A} (l : list A) d : l = map (fun i => nth i l d) (seq 0 (length l)).
Proof.
  apply nth_error_ext. intros i. destruct (Nat.lt_ge_cases i (length l)) as [H|H].
  - rewrite nth_error_tab by exact H. apply nth_error_nth'. exact H.
  - rewrite (proj2 (nth_error_None l i)) by exact H. symmetry. apply nth_error_None. now rewrite tab_length.
Qed.
Lemma Forall2_nth2 {A B} (P : A -> B -> Prop) l m i x y :
  Forall2 P l m -> nth_error l i = Some x -> nth_error m i = Some y -> P x y.
Proof. intros H Hx Hy. destruct (Forall2_nth P l m i x H Hx) as (y' & Hy' & HP). congruence. Qed.
Lemma Forall2_nth_intro {A B} (P : A -> B -> Prop) d e : forall l m, length l = length m ->
  (forall i, i < length l -> P (nth i l d) (nth i m e)) -> Forall2 P l m.
Proof.
  induction l as [|a l IH]; intros [|b m] Hl H; cbn in *; try lia; constructor.
  - apply (H 0). lia.
  - apply IH; [lia|]. intros i Hi. apply (H (S i)). lia.
Qed.
