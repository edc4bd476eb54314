(* Proofs on the groups of the ranks, the retries and the job plan of wrap-redrock. *)
From Verif Require Import Prelude PreludeFacts Facts2 Proof_Tpl2 Model_Dist Proof_Dist2 Model_Zscan Model_IO Spec_IO Proof_IO Proof_IO2 Model_Arch Spec_Arch Proof_Arch Model_Fitz Model_Wrap Spec_Wrap Proof_Wrap Proof_Wrap2 Proof_Wrap3.
Open Scope nat_scope.

(* ---------- groups ---------- *)
Section G.
Variable argsort : list Q -> list nat.
Hypothesis Ha : qargsort_ok argsort.
Variable count : string -> nat.
Lemma all_counts_ok specs k : 0 < k -> all_counts count specs k = Ok (map count specs).
Proof.
  intro Hk. unfold all_counts. destruct (array_split_spec (seq 0 (length specs)) k Hk) as (d & E & _ & Hc & _). rewrite E. cbn [rbind]. f_equal.
  rewrite <- concat_map, Hc. set (g := fun j => _).
  apply nth_error_ext. intro i. rewrite !nth_error_map. destruct (Nat.lt_ge_cases i (length specs)) as [Hi|Hi].
  - rewrite nth_error_nth' with (d := 0) by now rewrite seq_length. rewrite seq_nth by exact Hi. cbn [option_map]. unfold g. cbn [plus]. destruct (nth_error specs i) eqn:En; [reflexivity|].
    apply nth_error_None in En. lia.
  - rewrite (proj2 (nth_error_None (seq 0 (length specs)) i)) by (rewrite seq_length; lia). rewrite (proj2 (nth_error_None specs i)) by lia. reflexivity.
Qed.
Lemma runtime_pos n : (30 <= runtime n)%Q.
Proof. unfold runtime. assert (0 <= inject_Z (Z.of_nat n))%Q by (change 0%Q with (inject_Z 0); rewrite <- Zle_Qle; lia). lra. Qed.
Lemma qceil_spec x : (x <= inject_Z (qceil x))%Q /\ (inject_Z (qceil x) < x + 1)%Q.
Proof.
  unfold qceil. destruct x as [a b]. cbn [Qnum Qden]. pose proof (Z.div_mod (- a) (Z.pos b) ltac:(lia)) as D. pose proof (Z.mod_pos_bound (- a) (Z.pos b) ltac:(lia)) as M.
  set (q := ((- a) / Z.pos b)%Z) in *. unfold Qle, Qlt, inject_Z, Qplus. cbn [Qnum Qden]. split; nia.
Qed.
Lemma sumQ_lower c l : (forall x, In x l -> (c <= x)%Q) -> (inject_Z (Z.of_nat (length l)) * c <= sumQ l)%Q.
Proof.
  induction l as [|a l IH]; intro H; [change (0 * c <= 0)%Q; lra|]. cbn [length sumQ fold_right]. change (fold_right Qplus 0%Q l) with (sumQ l).
  rewrite Nat2Z.inj_succ, <- Z.add_1_l, inject_Z_plus. specialize (IH (fun x Hx => H x (or_intror Hx))). specialize (H a (or_introl eq_refl)). change (inject_Z 1) with 1%Q. lra.
Qed.
Lemma group_total ws g s : inv ws (argsort (map Qopp ws)) g s -> (sumQ s == sumQ ws)%Q.
Proof.
  intros [I1 I2 I3 _ _ _]. destruct (Ha (map Qopp ws)) as [P _]. rewrite map_length in P.
  assert (E1 : (sumQ s == sumQ (map (group_weight ws) g))%Q).
  { assert (F : Forall2 Qeq s (map (group_weight ws) g)).
    { apply Forall2_nth_intro with (d := 0%Q) (e := 0%Q); [now rewrite map_length|]. intros i Hi. rewrite (nth_indep (map (group_weight ws) g) 0%Q (group_weight ws [])) by (rewrite map_length; lia). rewrite map_nth. apply I3. lia. }
    clear - F. induction F as [|x y l m H _ IH]; [reflexivity|]. cbn [sumQ fold_right]. change (x + sumQ l == y + sumQ m)%Q. now rewrite H, IH. }
  rewrite E1. assert (E2 : forall gg : list (list nat), (sumQ (map (group_weight ws) gg) == sumQ (map (fun i => nth i ws 0%Q) (concat gg)))%Q).
  { clear. induction gg as [|x gg IH]; [reflexivity|]. cbn [map concat]. rewrite map_app. change (group_weight ws x + sumQ (map (group_weight ws) gg) == sumQ (map (fun i => nth i ws 0%Q) x ++ map (fun i => nth i ws 0%Q) (concat gg)))%Q.
    rewrite IH. unfold group_weight. generalize (map (fun i => nth i ws 0%Q) x) (map (fun i => nth i ws 0%Q) (concat gg)). clear. intros a b.
    induction a as [|y a IH]; cbn [app sumQ fold_right]; [change (0 + sumQ b == sumQ b)%Q; lra|]. change (y + sumQ a + sumQ b == y + sumQ (a ++ b))%Q. rewrite <- IH. lra. }
  rewrite E2. rewrite (sumQ_perm (map (fun i => nth i ws 0%Q) (concat g)) (map (fun i => nth i ws 0%Q) (seq 0 (length ws)))).
  - assert (E3 : map (fun i => nth i ws 0%Q) (seq 0 (length ws)) = ws).
    { apply nth_ext with (d := 0%Q) (d' := 0%Q); [now rewrite map_length, seq_length|]. rewrite map_length, seq_length. intros i Hi.
      rewrite (nth_indep _ 0%Q (nth 0 ws 0%Q)) by now rewrite map_length, seq_length. rewrite (map_nth (fun i => nth i ws 0%Q)), seq_nth by exact Hi. reflexivity. }
    now rewrite E3.
  - apply Permutation_map. now transitivity (argsort (map Qopp ws)).
Qed.
(* no group much longer than the mean *)
Lemma group_bound ws g s k wmax : inv ws (argsort (map Qopp ws)) g s -> k < length g -> (forall x, In x ws -> (0 <= x <= wmax)%Q) -> (0 <= wmax)%Q ->
  (inject_Z (Z.of_nat (length g)) * (nth k s 0 - wmax) <= sumQ ws)%Q.
Proof.
  intros I Hk Hw H0. rewrite <- (group_total ws g s I). destruct I as [I1 I2 I3 I4 I5 I6]. destruct (Ha (map Qopp ws)) as [P _]. rewrite map_length in P.
  rewrite <- I1. apply sumQ_lower. intros x Hx. apply (In_nth s x 0%Q) in Hx as (l & Hl & <-). 
  assert (Hnn : (0 <= nth l s 0)%Q).
  { rewrite I3 by lia. unfold group_weight. assert (Q : forall m, (forall y, In y m -> (0 <= y)%Q) -> (0 <= sumQ m)%Q).
    { clear. induction m as [|a m IH]; intro H; [cbn; lra|]. cbn [sumQ fold_right]. change (0 <= a + sumQ m)%Q. specialize (IH (fun x Hx => H x (or_intror Hx))). specialize (H a (or_introl eq_refl)). lra. }
    apply Q. intros y Hy. apply in_map_iff in Hy as (i & <- & _). destruct (nth_in_or_default i ws 0%Q) as [H|H]; [now apply Hw in H|rewrite H; lra]. }
  destruct (exists_last_or (nth k g [])) as [E|(g' & i & E)].
  - pose proof (I3 k Hk) as E3. rewrite E in E3. unfold group_weight in E3. cbn in E3. lra.
  - pose proof (I6 k l g' i Hk ltac:(lia) E) as B. cbv beta in B. destruct (nth_in_or_default i ws 0%Q) as [H|H]; [apply Hw in H; lra|rewrite H in B; lra].
Qed.
End G.

(* ---------- retries ---------- *)
Section R.
Context {C : Type}.
Notation files := (list (string * C)).
Variables (run : nat -> outcome) (log : nat -> C) (logfile : string).
Lemma step_keeps (fs fs1 : files) : match sget fs logfile with Some _ => backup_logs fs logfile | None => Ok fs end = Ok fs1 ->
  (forall x c, x <> logfile -> sget fs x = Some c -> sget fs1 x = Some c) /\
  (forall c, sget fs logfile = Some c -> exists x, x <> logfile /\ sget fs1 x = Some c).
Proof.
  destruct (sget fs logfile) as [c0|] eqn:E.
  - intro H. apply backup_ok in H as (n & c & Ec & En & _ & Hx). rewrite E in Ec. injection Ec as <-. split.
    + intros x c Nx Hc. rewrite Hx. destruct (String.eqb_spec x (logfile ++ "." ++ dec n)) as [->|N]; [rewrite En in Hc; discriminate|]. destruct (String.eqb_spec x logfile); [contradiction|exact Hc].
    + intros c Hc. injection Hc as <-. exists (logfile ++ "." ++ dec n)%string. split.
      * intro H. apply (f_equal String.length) in H. rewrite !app_length_s in H. cbn in H. lia.
      * now rewrite Hx, String.eqb_refl.
  - intro H. injection H as <-. split; [auto|discriminate].
Qed.
Lemma attempt_keeps left : forall k (fs fs' : files) ts s, attempt left k run log logfile fs = (fs', ts, s) ->
  (forall x c, x <> logfile -> sget fs x = Some c -> sget fs' x = Some c) /\
  (forall c, sget fs logfile = Some c -> exists x, sget fs' x = Some c).
Proof.
  induction left as [|m IH]; intros k fs fs' ts s; cbn [attempt]; intro H.
  - injection H as <- _ _. split; [auto|]. intros c Hc. now exists logfile.
  - destruct (match sget fs logfile with Some _ => _ | None => _ end) as [fs1|e] eqn:E.
    + destruct (step_keeps fs fs1 E) as [K1 K2].
      assert (W1 : forall x c, x <> logfile -> sget fs x = Some c -> sget (sset fs1 logfile (log k)) x = Some c).
      { intros x c Nx Hc. rewrite sget_sset. destruct (String.eqb_spec logfile x); [congruence|]. now apply K1. }
      assert (W2 : forall c, sget fs logfile = Some c -> exists x, x <> logfile /\ sget (sset fs1 logfile (log k)) x = Some c).
      { intros c Hc. destruct (K2 c Hc) as (x & Nx & Hx). exists x. split; [exact Nx|]. rewrite sget_sset. destruct (String.eqb_spec logfile x); [congruence|exact Hx]. }
      destruct (run k) as [[|code]|].
      * injection H as <- _ _. split; [exact W1|]. intros c Hc. destruct (W2 c Hc) as (x & _ & Hx). now exists x.
      * destruct (attempt m (S k) run log logfile (sset fs1 logfile (log k))) as [[f t0] s0] eqn:Ea. injection H as <- _ _. destruct (IH _ _ _ _ _ Ea) as [J1 J2]. split.
        -- intros x c Nx Hc. apply J1; [exact Nx|now apply W1].
        -- intros c Hc. destruct (W2 c Hc) as (x & Nx & Hx). exists x. now apply J1.
      * injection H as <- _ _. split; [exact W1|]. intros c Hc. destruct (W2 c Hc) as (x & _ & Hx). now exists x.
    + injection H as <- _ _. split; [auto|]. intros c Hc. now exists logfile.
Qed.
(* one try when the old logs are numbered *)
Lemma step_numbered (fs : files) n : numbered fs logfile n -> exists fs1 n1, match sget fs logfile with Some _ => backup_logs fs logfile | None => Ok fs end = Ok fs1 /\
  numbered fs1 logfile n1 /\ n1 = match sget fs logfile with Some _ => S n | None => n end /\ forall c, sget fs logfile = Some c -> sget fs1 (logfile ++ "." ++ dec n)%string = Some c.
Proof.
  intro H. destruct (sget fs logfile) as [c|] eqn:E.
  - destruct (numbered_backup fs logfile n c H E) as (fs' & E' & H' & Hc). exists fs', (S n). split; [exact E'|]. split; [exact H'|]. split; [reflexivity|]. intros c0 H0. congruence.
  - exists fs, n. split; [reflexivity|]. split; [exact H|]. split; [reflexivity|]. discriminate.
Qed.
End R.
