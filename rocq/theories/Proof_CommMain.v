(* The calls of the ranks of rrdesi and rrboss agree. *)
From Verif Require Import Prelude NumX PreludeFacts Model_Dist Model_Zscan Model_IO Model_Targets Model_Desi Model_RunDesi Model_Comm Model_CommMain Proof_Comm Spec_Dist Proof_Dist.
Open Scope nat_scope.

Section Okay.
Variables (fr fa : bool) (m : nat).
Hypothesis mpos : 0 < m.
(* the first m ranks run in step to the end, with results Post, or until one of them raises (fr) or aborts (fa) *)
Inductive okay {A} (Post : (nat -> A) -> Prop) : (nat -> prog A) -> Prop :=
| ok_ret p a : (forall r, r < m -> p r = Ret (a r)) -> Post a -> okay Post p
| ok_raise p r e : fr = true -> r < m -> p r = Raise e -> okay Post p
| ok_abort p r : fa = true -> r < m -> p r = Abort -> okay Post p
| ok_coll p k v c : root_ok m k -> (forall r, r < m -> p r = Coll m k (v r) (c r)) -> okay Post (fun r => c r (full m k v r)) -> okay Post p.
Lemma okay_ext {A} (Post : (nat -> A) -> Prop) p q : (forall r, r < m -> p r = q r) -> okay Post q -> okay Post p.
Proof.
  intros E H. destruct H as [q a H1 H2|q r e F Hr H|q r F Hr H|q k v c Ro H H2].
  - apply (ok_ret Post p a); [|exact H2]. intros r Hr. rewrite E by exact Hr. now apply H1.
  - apply (ok_raise Post p r e F Hr). now rewrite E.
  - apply (ok_abort Post p r F Hr). now rewrite E.
  - apply (ok_coll Post p k v c Ro); [|exact H2]. intros r Hr. rewrite E by exact Hr. now apply H.
Qed.
Lemma okay_bind {A B} (Mid : (nat -> A) -> Prop) (Post : (nat -> B) -> Prop) p (k : nat -> A -> prog B) :
  okay Mid p -> (forall a, Mid a -> okay Post (fun r => k r (a r))) -> okay Post (fun r => bind (p r) (k r)).
Proof.
  intros H K. induction H as [p a H1 H2|p r e F Hr H|p r F Hr H|p kd v c Ro H H2 IH].
  - apply (okay_ext Post _ (fun r => k r (a r))); [|now apply K]. intros r Hr. now rewrite H1.
  - apply (ok_raise Post _ r e F Hr). now rewrite H.
  - apply (ok_abort Post _ r F Hr). now rewrite H.
  - apply (ok_coll Post _ kd v (fun r x => bind (c r x) (k r)) Ro); [|exact IH]. intros r Hr. now rewrite H.
Qed.
Lemma okay_weaken {A} (Q Post : (nat -> A) -> Prop) p : okay Q p -> (forall a, Q a -> Post a) -> okay Post p.
Proof.
  intros H W. induction H as [p a H1 H2|p r e F Hr H|p r F Hr H|p kd v c Ro H H2 IH].
  - apply (ok_ret Post _ a H1). now apply W.
  - exact (ok_raise Post _ r e F Hr H).
  - exact (ok_abort Post _ r F Hr H).
  - exact (ok_coll Post _ kd v c Ro H IH).
Qed.
Lemma okay_call {B} (Post : (nat -> B) -> Prop) kd v (k : nat -> val -> prog B) : root_ok m kd -> okay Post (fun r => k r (full m kd v r)) -> okay Post (fun r => bind (call m kd (v r)) (k r)).
Proof. intros Ro H. apply (ok_coll Post _ kd v (fun r x => k r x) Ro); [|exact H]. reflexivity. Qed.
Lemma okay_elapsed {B} (Post : (nat -> B) -> Prop) (k : nat -> unit -> prog B) : okay Post (fun r => k r tt) -> okay Post (fun r => bind (elapsed m) (k r)).
Proof. intro H. apply (ok_coll Post _ Barrier (fun _ => VU) (fun r x => k r tt)); [now split|reflexivity|exact H]. Qed.
Lemma okay_bcast {B} (Post : (nat -> B) -> Prop) v (k : nat -> val -> prog B) : okay Post (fun r => k r v) -> okay Post (fun r => bind (bcast m r v) (k r)).
Proof. intro H. apply (ok_coll Post _ (Bcast 0) (fun r => if r =? 0 then v else VU) (fun r x => k r x)); [split; [exact mpos|exact mpos]|reflexivity|exact H]. Qed.
Lemma okay_bcast_by {B} (Post : (nat -> B) -> Prop) w v (k : nat -> val -> prog B) : w 0 = v -> okay Post (fun r => k r v) -> okay Post (fun r => bind (bcast m r (w r)) (k r)).
Proof. intros <- H. apply (ok_coll Post _ (Bcast 0) (fun r => if r =? 0 then w r else VU) (fun r x => k r x)); [split; [exact mpos|exact mpos]|reflexivity|exact H]. Qed.
Lemma okay_lift {A B} (Post : (nat -> B) -> Prop) (x : res A) (k : nat -> A -> prog B) : fr = true \/ (exists a, x = Ok a) -> (forall a, x = Ok a -> okay Post (fun r => k r a)) -> okay Post (fun r => bind (lift x) (k r)).
Proof. intros H K. destruct x as [a|er]; [now apply K|]. destruct H as [H|(a & H)]; [|discriminate]. now apply (ok_raise Post _ 0 er H mpos). Qed.
Definition tts {A} (a : nat -> A) : Prop := True.
Lemma okay_unit {B} (Post : (nat -> B) -> Prop) p (k : nat -> unit -> prog B) : okay tts p -> okay Post (fun r => k r tt) -> okay Post (fun r => bind (p r) (k r)).
Proof. intros H K. apply (okay_bind tts Post p k H). intros a _. apply (okay_ext Post _ (fun r => k r tt)); [|exact K]. intros r _. now destruct (a r). Qed.
Lemma okay_tt (p : nat -> prog unit) : (forall r, r < m -> p r = Ret tt) -> okay tts p.
Proof. intro H. now apply (ok_ret tts p (fun _ => tt) H). Qed.
Lemma okay_foreach {X} (l : list X) (f : nat -> X -> prog unit) : (forall x, In x l -> okay tts (fun r => f r x)) -> okay tts (fun r => foreach l (f r)).
Proof.
  induction l as [|x l IH]; intro H; [now apply okay_tt|]. cbn. apply okay_unit; [apply H; now left|]. apply IH. intros y Hy. apply H. now right.
Qed.
Definition common {A} (Q : A -> Prop) (a : nat -> A) : Prop := exists y, Q y /\ forall r, r < m -> a r = y.
Lemma okay_common {A B} (Q : A -> Prop) (Post : (nat -> B) -> Prop) p (k : nat -> A -> prog B) : okay (common Q) p -> (forall y, Q y -> okay Post (fun r => k r y)) -> okay Post (fun r => bind (p r) (k r)).
Proof. intros H K. apply (okay_bind (common Q) Post p k H). intros a (y & Hy & E). apply (okay_ext Post _ (fun r => k r y)); [|now apply K]. intros r Hr. now rewrite E. Qed.
Lemma okay_mapP {X A} (Q : A -> Prop) (l : list X) (f : nat -> X -> prog A) : (forall x, In x l -> okay (common Q) (fun r => f r x)) -> okay (common (Forall Q)) (fun r => mapP (f r) l).
Proof.
  induction l as [|x l IH]; intro H.
  - apply (ok_ret _ _ (fun _ => [])); [reflexivity|]. exists []. split; [constructor|reflexivity].
  - cbn. apply (okay_common Q); [apply H; now left|]. intros y Hy. apply (okay_common (Forall Q)); [apply IH; intros; apply H; now right|]. intros ys Hys. apply (ok_ret _ _ (fun _ => y :: ys)); [reflexivity|]. exists (y :: ys). split; [now constructor|reflexivity].
Qed.

Variable e : env.
Hypothesis good : fr = true \/ forall r line i, e_ok e r line i = true.
Lemma okay_local_p line i : okay tts (fun r => local e r line i).
Proof.
  destruct good as [F|G]; [|apply okay_tt; intros; unfold local; now rewrite G].
  destruct (bounded (fun r => e_ok e r line i = true) (fun r => bool_dec _ _) m) as [H|(r & Hr & H)].
  - apply okay_tt. intros r Hr. unfold local. now rewrite H.
  - apply (ok_raise tts _ r RuntimeError F Hr). unfold local. destruct (e_ok e r line i); [now contradiction H|reflexivity].
Qed.
Lemma okay_root_p line i : okay tts (fun r => root r (local e r line i)).
Proof.
  destruct (e_ok e 0 line i) eqn:G.
  - apply okay_tt. intros r _. unfold root. destruct (r =? 0) eqn:E; [|reflexivity]. apply Nat.eqb_eq in E as ->. unfold local. now rewrite G.
  - destruct good as [F|G2]; [|rewrite G2 in G; discriminate]. apply (ok_raise tts _ 0 RuntimeError F mpos). unfold root, local. cbn. now rewrite G.
Qed.
Lemma okay_local {B} (Post : (nat -> B) -> Prop) line i (k : nat -> unit -> prog B) : okay Post (fun r => k r tt) -> okay Post (fun r => bind (local e r line i) (k r)).
Proof. apply okay_unit, okay_local_p. Qed.
Lemma okay_root {B} (Post : (nat -> B) -> Prop) line i (k : nat -> unit -> prog B) : okay Post (fun r => k r tt) -> okay Post (fun r => bind (root r (local e r line i)) (k r)).
Proof. apply okay_unit, okay_root_p. Qed.
Lemma okay_elapsed_p : okay tts (fun r => elapsed m).
Proof. apply (ok_coll tts _ Barrier (fun _ => VU) (fun r x => Ret tt)); [now split|reflexivity|now apply okay_tt]. Qed.
Lemma okay_gather {B} (Post : (nat -> B) -> Prop) (k : nat -> unit -> prog B) : okay Post (fun r => k r tt) -> okay Post (fun r => bind (call m (Gather 0) VU) (fun _ => k r tt)).
Proof. intro H. apply (okay_call Post (Gather 0) (fun _ => VU) (fun r _ => k r tt)); [split; [exact mpos|exact mpos]|exact H]. Qed.
End Okay.
