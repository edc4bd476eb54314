(* Proofs on the files still to do, the log backup and the retries of wrap-redrock. *)
From Verif Require Import Prelude PreludeFacts Facts2 Model_Dist Model_Zscan Model_IO Spec_IO Proof_IO Proof_IO2 Model_Arch Spec_Arch Proof_Arch Model_Wrap Spec_Wrap Proof_Wrap2.

(* ---------- the walk ---------- *)
Fixpoint tree_ind2 (P : tree -> Prop) (H : forall files subs, (forall n s, In (n, s) subs -> P s) -> P (Dir files subs)) (t : tree) : P t :=
  match t with
  | Dir files subs => H files subs
      ((fix go (l : list (string * tree)) : forall n s, In (n, s) l -> P s :=
         match l with
         | [] => fun n s (q : In (n, s) []) => match q with end
         | (n0, s0) :: r => fun n s (q : In (n, s) ((n0, s0) :: r)) =>
             match q with
             | or_introl e => eq_ind s0 P (tree_ind2 P H s0) s (f_equal snd e)
             | or_intror q' => go r n s q'
             end
         end) subs)
  end.
Section Find.
Variable norm : string -> string.
Lemma walk_eq avoid d files subs : walk norm avoid d (Dir files subs) =
  (d, files) :: (if match avoid with Some a => String.eqb (norm d) a | None => false end then [] else concat (map (fun ns => walk norm avoid (path_join d (fst ns)) (snd ns)) subs)).
Proof. cbn [walk]. f_equal. destruct (match avoid with Some a => _ | None => _ end); [reflexivity|]. induction subs as [|[n s] r IH]; cbn; [reflexivity|]. now rewrite <- IH. Qed.
Lemma walk_reach avoid t : forall d d' files', In (d', files') (walk norm avoid d t) <->
  exists up, reach d t up d' files' /\ forall a q, avoid = Some a -> In q up -> norm q <> a.
Proof.
  induction t as [files subs IH] using tree_ind2. intros d d' files'. rewrite walk_eq. split.
  - intros [E|H].
    + injection E as <- <-. exists []. split; [constructor|]. intros a q _ [].
    + destruct (match avoid with Some a => _ | None => _ end) eqn:Ea; [destruct H|]. apply in_concat in H as (l & Hl & H). apply in_map_iff in Hl as ([n s] & <- & Hns). cbn [fst snd] in H.
      apply (IH n s Hns) in H as (up & R & Hq). exists (d :: up). split; [econstructor; eauto|]. intros a q -> [<-|Hi]; [|now apply Hq].
      now apply String.eqb_neq.
  - intros (up & R & Hq). inversion R as [? ? ?|? ? ? n s up0 ? ? Hns Hr]; subst.
    + now left.
    + right. assert (Ea : match avoid with Some a => String.eqb (norm d) a | None => false end = false).
      { destruct avoid as [a|]; [|reflexivity]. apply String.eqb_neq. apply (Hq a); [reflexivity|now left]. }
      rewrite Ea. apply in_concat. eexists. split; [apply in_map; exact Hns|]. cbn [fst snd]. apply (IH n s Hns). exists up0. split; [exact Hr|].
      intros a q E Hi. apply (Hq a); [exact E|now right].
Qed.
Lemma ends_with_iff suf s : ends_with suf s = true <-> exists r, s = (r ++ suf)%string.
Proof.
  induction s as [|c s IH]; cbn [ends_with].
  - rewrite orb_false_r, String.eqb_eq. split; [intros ->; now exists EmptyString|]. intros (p & E). destruct p; [now symmetry|discriminate].
  - rewrite orb_true_iff, String.eqb_eq, IH. split.
    + intros [->|(p & ->)]; [now exists EmptyString|now exists (String c p)].
    + intros ([|x p] & E); [left; now symmetry|right]. injection E as -> E. now exists p.
Qed.
Lemma prefix_iff p s : String.prefix p s = true <-> exists r, s = (p ++ r)%string.
Proof. split; [apply prefix_inv|]. intros (r & ->). apply prefix_app. Qed.
Lemma all_specfiles_iff prefix avoid root t f : In f (all_specfiles norm prefix avoid root t) <-> spectra_file norm prefix avoid root t f.
Proof.
  unfold all_specfiles, spectra_file. rewrite in_concat. split.
  - intros (l & Hl & H). apply in_map_iff in Hl as ([d files] & <- & Hw). cbn [fst snd] in H. apply in_map_iff in H as (name & <- & Hn). apply filter_In in Hn as [Hn Hb].
    apply andb_true_iff in Hb as [B1 B2]. apply walk_reach in Hw as (up & R & Hq). exists up, d, files, name. split; [exact R|]. split; [exact Hn|]. split; [reflexivity|].
    split; [now apply prefix_iff|]. split; [now apply ends_with_iff|]. intros a q -> Hi. now apply Hq.
  - intros (up & d & files & name & R & Hn & -> & Hp & He & Hq). eexists. split.
    + apply in_map. apply walk_reach. exists up. split; [exact R|]. intros a q E Hi. destruct avoid as [a0|]; [|discriminate]. injection E as <-. now apply Hq.
    + cbn [fst snd]. apply in_map, filter_In. split; [exact Hn|]. apply andb_true_iff. split; [now apply prefix_iff|now apply ends_with_iff].
Qed.
Lemma find_ok prefix avoid outdir ex root t l : find_specfiles norm prefix avoid outdir ex root t = Ok l ->
  forall f, In f l <-> spectra_file norm prefix avoid root t f /\ ~ (ex (rrfile prefix outdir f) = true /\ ex (detailsfile prefix outdir f) = true).
Proof.
  unfold find_specfiles. intros H f. destruct (all_specfiles _ _ _ _ _) as [|x r] eqn:E; [discriminate|]. rewrite <- E in H. injection H as <-. rewrite filter_In, all_specfiles_iff, negb_true_iff, andb_false_iff.
  destruct (ex (rrfile prefix outdir f)), (ex (detailsfile prefix outdir f)); intuition congruence.
Qed.
Lemma find_err prefix avoid outdir ex root t e : find_specfiles norm prefix avoid outdir ex root t = Err e <-> e = OSError /\ forall f, ~ spectra_file norm prefix avoid root t f.
Proof.
  unfold find_specfiles. split.
  - destruct (all_specfiles _ _ _ _ _) as [|x r] eqn:E; [|discriminate]. intro H. split; [congruence|]. intros f Hf. apply all_specfiles_iff in Hf. rewrite E in Hf. destruct Hf.
  - intros [-> H]. destruct (all_specfiles _ _ _ _ _) as [|x r] eqn:E; [reflexivity|]. exfalso. apply (H x). apply all_specfiles_iff. rewrite E. now left.
Qed.
End Find.

(* ---------- logs ---------- *)
Section Logs.
Context {C : Type}.
Notation files := (list (string * C)).
Lemma sget_sdel (fs : files) k x : sget (sdel fs k) x = if String.eqb k x then None else sget fs x.
Proof.
  induction fs as [|[y v] r IH]; cbn [sdel filter sget fst]; [now destruct (String.eqb k x)|]. destruct (String.eqb_spec y k) as [->|N]; cbn [negb].
  - fold (sdel r k). rewrite IH. cbn [sget]. destruct (String.eqb_spec k x) as [->|Nx]; [reflexivity|]. destruct (String.eqb_spec x k); [congruence|].
    try rewrite (proj2 (String.eqb_neq _ _)) by congruence. reflexivity.
  - fold (sdel r k). cbn [sget]. destruct (String.eqb_spec k x) as [->|Nx].
    + rewrite ?String.eqb_refl in IH. try (destruct (String.eqb_spec y x); [congruence|]). try (destruct (String.eqb_spec x y); [congruence|]). exact IH.
    + rewrite IH. reflexivity.
Qed.
Lemma sdel_keys (fs : files) k x : In x (map fst (sdel fs k)) <-> In x (map fst fs) /\ x <> k.
Proof.
  unfold sdel. split.
  - intro H. apply in_map_iff in H as ([y v] & <- & H). apply filter_In in H as [H1 H2]. cbn in *. apply negb_true_iff, String.eqb_neq in H2. split; [now apply (in_map fst) in H1|exact H2].
  - intros [H N]. apply in_map_iff in H as ([y v] & <- & H). cbn in *. apply in_map_iff. exists (y, v). split; [reflexivity|]. apply filter_In. split; [exact H|]. cbn. now apply negb_true_iff, String.eqb_neq.
Qed.
Lemma sdel_nodup (fs : files) k : NoDup (map fst fs) -> NoDup (map fst (sdel fs k)).
Proof.
  unfold sdel. induction fs as [|[y v] r IH]; cbn; [auto|]. intro H. inversion H as [|? ? H1 H2]; subst. destruct (String.eqb y k); cbn; [now apply IH|]. constructor; [|now apply IH].
  intro Hi. apply H1. apply (sdel_keys r k y) in Hi. tauto.
Qed.
Lemma sset_keys (fs : files) k v x : In x (map fst (sset fs k v)) <-> x = k \/ In x (map fst fs).
Proof.
  destruct (sget (sset fs k v) x) eqn:E.
  - assert (I : In x (map fst (sset fs k v))). { apply sget_some_in in E. now apply (in_map fst) in E. }
    rewrite sget_sset in E. destruct (String.eqb_spec k x) as [->|N]; [tauto|]. apply sget_some_in, (in_map fst) in E. cbn in E. tauto.
  - assert (I : ~ In x (map fst (sset fs k v))) by now apply sget_none.
    rewrite sget_sset in E. destruct (String.eqb_spec k x) as [->|N]; [discriminate|]. apply sget_none in E. split; [tauto|intros [->|H]; [congruence|contradiction]].
Qed.
Lemma sset_nodup (fs : files) k v : NoDup (map fst fs) -> NoDup (map fst (sset fs k v)).
Proof.
  induction fs as [|[y w] r IH]; intro H; cbn [sset]; [constructor; [intros []|constructor]|]. inversion H as [|? ? H1 H2]; subst.
  destruct (String.eqb y k) eqn:E.
  - apply String.eqb_eq in E. subst. cbn. now constructor.
  - cbn. constructor; [|now apply IH]. intro Hi. apply sset_keys in Hi as [->|Hi]; [apply String.eqb_neq in E; congruence|contradiction].
Qed.
(* what backup_logs does when it succeeds *)
Lemma backup_ok (fs fs' : files) logfile : backup_logs fs logfile = Ok fs' ->
  exists n c, sget fs logfile = Some c /\ sget fs (logfile ++ "." ++ dec n)%string = None /\ n = length (filter (fun p => log_matches logfile (fst p)) fs) /\
    forall x, sget fs' x = if String.eqb x (logfile ++ "." ++ dec n) then Some c else if String.eqb x logfile then None else sget fs x.
Proof.
  unfold backup_logs. set (n := length _). cbv zeta. destruct (sget fs (logfile ++ "." ++ dec n)%string) eqn:E; [discriminate|]. destruct (sget fs logfile) as [c|] eqn:El; [|discriminate].
  intro H. exists n, c. split; [reflexivity|]. split; [exact E|]. split; [reflexivity|]. intro x. assert (F : fs' = sset (sdel fs logfile) (logfile ++ "." ++ dec n)%string c) by congruence. subst fs'. rewrite sget_sset, sget_sdel.
  rewrite (String.eqb_sym x), (String.eqb_sym x logfile). reflexivity.
Qed.
Lemma matches_dec logfile k : log_matches logfile (logfile ++ "." ++ dec k) = true.
Proof.
  unfold log_matches. rewrite app_assoc_s, prefix_app. cbn [andb]. apply negb_true_iff. rewrite <- app_assoc_s.
  assert (E : forall a b m, (String.length b <= m)%nat -> substring (String.length a) m (a ++ b) = b).
  { clear. induction a as [|c a IH]; intros b m Hm; cbn [append String.length]; [|destruct m; cbn [substring]; apply IH; exact Hm].
    revert m Hm. induction b as [|x b IH]; intros m Hm; destruct m; cbn in *; try reflexivity; try lia. now rewrite IH by lia. }
  rewrite E by (rewrite !app_length_s; lia). destruct (contains "/" ("." ++ dec k)) eqn:Ec; [|reflexivity]. exfalso. apply contains_occurs in Ec as (a & b & Eb).
  assert (H : has_char "/" ("." ++ dec k)) by (rewrite Eb, !hc_app; cbn; tauto). cbn [append has_char] in H. destruct H as [H|H]; [discriminate|]. revert H. clear. apply dec_no. nodigit.
Qed.
Lemma matches_not_self logfile : log_matches logfile logfile = false.
Proof.
  unfold log_matches. destruct (String.prefix (logfile ++ ".") logfile) eqn:E; [|reflexivity]. apply prefix_inv in E as (r & E). exfalso.
  apply (f_equal String.length) in E. rewrite !app_length_s in E. cbn in E. lia.
Qed.
Lemma names_nodup logfile n : NoDup (map (fun k => (logfile ++ "." ++ dec k)%string) (seq 0 n)).
Proof.
  apply FinFun.Injective_map_NoDup; [|apply seq_NoDup]. intros a b E. apply app_inv_head_s, app_inv_head_s in E. now apply dec_inj.
Qed.
Lemma numbered_count (fs : files) logfile n : numbered fs logfile n -> length (filter (fun p => log_matches logfile (fst p)) fs) = n.
Proof.
  intros [N H]. rewrite <- (map_length fst).
  assert (P : Permutation (map fst (filter (fun p => log_matches logfile (fst p)) fs)) (map (fun k => (logfile ++ "." ++ dec k)%string) (seq 0 n))).
  { apply NoDup_Permutation.
    - assert (F : forall l : files, map fst (filter (fun p => log_matches logfile (fst p)) l) = filter (log_matches logfile) (map fst l)).
      { induction l as [|[y v] r IH]; cbn; [reflexivity|]. destruct (log_matches logfile y); cbn; now rewrite IH. }
      rewrite F. now apply NoDup_filter.
    - apply names_nodup.
    - intro x. rewrite !in_map_iff. split.
      + intros ([y v] & <- & Hi). apply filter_In in Hi as [H1 H2]. cbn [fst] in *. destruct (proj1 (H y)) as (k & Hk & ->); [split; [now apply (in_map fst) in H1|exact H2]|].
        exists k. split; [reflexivity|]. apply in_seq. lia.
      + intros (k & <- & Hk). apply in_seq in Hk. destruct (proj2 (H (logfile ++ "." ++ dec k)%string)) as [H1 H2]; [exists k; split; [lia|reflexivity]|].
        apply in_map_iff in H1 as ([y v] & Ey & Hi). cbn in Ey. subst. exists ((logfile ++ "." ++ dec k)%string, v). split; [reflexivity|]. now apply filter_In. }
  apply Permutation_length in P. rewrite P, map_length. apply seq_length.
Qed.
Lemma numbered_backup (fs : files) logfile n c : numbered fs logfile n -> sget fs logfile = Some c ->
  exists fs', backup_logs fs logfile = Ok fs' /\ numbered fs' logfile (S n) /\ sget fs' (logfile ++ "." ++ dec n)%string = Some c.
Proof.
  intros Hn Hc. pose proof (numbered_count _ _ _ Hn) as L. destruct Hn as [N H]. unfold backup_logs. rewrite L. cbv zeta.
  assert (E : sget fs (logfile ++ "." ++ dec n)%string = None).
  { apply sget_none. intro Hi. destruct (proj1 (H (logfile ++ "." ++ dec n)%string)) as (k & Hk & E); [split; [exact Hi|apply matches_dec]|].
    apply app_inv_head_s, app_inv_head_s, dec_inj in E. lia. }
  rewrite E, Hc. eexists. split; [reflexivity|]. split; [split|].
  - apply sset_nodup, sdel_nodup, N.
  - intro x. rewrite sset_keys, sdel_keys. split.
    + intros [[->|[Hx Nx]] M]; [exists n; split; [lia|reflexivity]|]. destruct (proj1 (H x)) as (k & Hk & ->); [auto|]. exists k. split; [lia|reflexivity].
    + intros (k & Hk & ->). split; [|apply matches_dec]. destruct (Nat.eq_dec k n) as [->|Nk]; [now left|right].
      destruct (proj2 (H (logfile ++ "." ++ dec k)%string)) as [H1 H2]; [exists k; split; [lia|reflexivity]|]. split; [exact H1|].
      intro Ex. rewrite Ex, matches_not_self in H2. discriminate.
  - rewrite sget_sset, String.eqb_refl. reflexivity.
Qed.
(* writing the log file keeps the numbering *)
Lemma numbered_write (fs : files) logfile n c : numbered fs logfile n -> numbered (sset fs logfile c) logfile n.
Proof.
  intros [N H]. split; [now apply sset_nodup|]. intro x. rewrite sset_keys, <- H. split; [|tauto]. intros [[->|Hx] M]; [rewrite matches_not_self in M; discriminate|auto].
Qed.
End Logs.
