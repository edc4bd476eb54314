(* The calls of the ranks of rrdesi and rrboss agree: the functions. *)
From Verif Require Import Prelude NumX PreludeFacts Model_Dist Model_Zscan Model_IO Model_Targets Model_Desi Model_RunDesi Model_Comm Model_CommMain Proof_Comm Spec_Dist Proof_Dist Proof_CommMain.
Open Scope nat_scope.

Section Fns.
Variables (fr fa : bool) (m : nat) (e : env).
Hypothesis mpos : 0 < m.
Hypothesis good : fr = true \/ forall r line i, e_ok e r line i = true.
Notation ok := (okay fr fa m).
Ltac el := refine (okay_elapsed fr fa m mpos _ _ _); cbv beta.
Ltac bc := refine (okay_bcast fr fa m mpos _ _ _ _); cbv beta.
Ltac lo := refine (okay_local fr fa m e good _ _ _ _ _); cbv beta.
Ltac ro := refine (okay_root fr fa m mpos e good _ _ _ _ _); cbv beta.
Ltac un := refine (okay_unit fr fa m _ _ _ _ _); cbv beta.

Lemma ok_open o i d : fr = true \/ (exists k, kept o d = Ok k) -> ok (common m (fun _ => True)) (fun r => open_one e o m r (i, d)).
Proof.
  intro K. unfold open_one. ro. bc. bc. bc. bc. bc. bc. cbn [as_ids as_bool bind].
  apply (okay_lift fr fa m mpos); [exact K|]. intros k _. lo. ro. bc. bc. cbn [as_bands bind].
  eapply (ok_ret fr fa m _ _ (fun _ => _)); [reflexivity|]. eexists. split; [exact I|reflexivity].
Qed.
Lemma ok_band f i : ok tts (fun r => band_calls e m r f i).
Proof.
  unfold band_calls. ro. bc. bc. lo. ro. bc. lo. ro. bc. lo. ro. bc. cbn [as_nat bind].
  un; [|apply (okay_local_p fr fa m e good)]. destruct (N.of_nat (length (spec_keep f)) <=? 10000)%N.
  - bc. now apply okay_tt.
  - apply (okay_foreach fr fa m _ (fun r _ => let! _ := bcast m r VU in Ret tt)). intros x _. bc. now apply okay_tt.
Qed.
Lemma ok_file x : ok tts (fun r => file_calls e m r x).
Proof.
  destruct x as [i f]. unfold file_calls. destruct (spec_keep f); [now apply okay_tt|]. ro. apply (okay_foreach fr fa m (sf_bands f) (fun r b => band_calls e m r f i)). intros b _. apply ok_band.
Qed.
Lemma ok_share o caps fs : fr = true \/ (length (caps_of m caps) = m /\ Forall (fun c => 0 < c)%Q (caps_of m caps)) -> ok tts (fun r => share o m r caps fs).
Proof.
  intro H. unfold share. apply (okay_lift fr fa m mpos); [|intros d _; eapply (ok_ret fr fa m _ _ (fun r => nth r d [])); [reflexivity|exact I]].
  destruct H as [H|[H1 H2]]; [now left|right]. set (ids := unique_targets _). set (w := if o_allspec o then _ else _).
  destruct (distribute_work_greedy m ids w caps (fun x => match weight_of w x with Some y => y | None => 0%Q end)) as (d & D & _); try assumption; [|now exists d].
  intros x _. unfold w, weight_of. destruct (o_allspec o); reflexivity.
Qed.
Lemma ok_dist_targets o caps : fr = true \/ (length (caps_of m caps) = m /\ Forall (fun c => 0 < c)%Q (caps_of m caps)) -> fr = true \/ (forall d, In d (e_files e) -> exists k, kept o d = Ok k) ->
  ok tts (fun r => dist_targets e o m r caps).
Proof.
  intros H K. unfold dist_targets. apply (okay_common fr fa m (Forall (fun _ => True))).
  - apply (okay_mapP fr fa m (fun _ => True) (enum (e_files e)) (fun r x => open_one e o m r x)). intros [i d] Hx. apply ok_open. destruct K as [K|K]; [now left|right]. apply K. exact (in_combine_r _ _ _ _ Hx) || (apply enum_in in Hx; eapply nth_error_In; exact Hx).
  - intros fs _. apply (okay_bind fr fa m tts); [now apply ok_share|]. intros my _. cbv beta. un; [apply (okay_foreach fr fa m (enum fs) (fun r x => file_calls e m r x)); intros x _; apply ok_file|]. lo. now apply (ok_ret fr fa m _ _ my).
Qed.
Lemma ok_wavegrids {B} (Post : (nat -> B) -> Prop) (k : nat -> option unit -> prog B) : ok Post (fun r => k r (Some tt)) -> ok Post (fun r => bind (wavegrids m r None) (k r)).
Proof. intro H. unfold wavegrids. cbn [bind]. exact (ok_coll fr fa m Post _ Allgather (fun _ => VU) (fun r _ => k r (Some tt)) (conj mpos I) (fun r _ => eq_refl) H). Qed.
Lemma ok_load use_gpu : ok (common m (fun n => n = e_tmpl e)) (fun r => load_templates e m r (use_gpu r)).
Proof.
  unfold load_templates. el. ro. bc. cbn [as_nat bind]. el. un.
  - assert (X : ok tts (fun r => if use_gpu r then local e r 760 0 else Ret tt)); [|exact X]. destruct good as [F|G]; [|apply okay_tt; intros r _; destruct (use_gpu r); [unfold local; now rewrite G|reflexivity]].
    destruct (bounded (fun r => (if use_gpu r then e_ok e r 760 0 else true) = true) (fun r => bool_dec _ _) m) as [H|(r & Hr & H)].
    + apply okay_tt. intros r Hr. specialize (H r Hr). cbv beta in H. destruct (use_gpu r); [unfold local; now rewrite H|reflexivity].
    + apply (ok_raise fr fa m tts _ r RuntimeError F Hr). cbv beta in H. destruct (use_gpu r); [|now contradiction H]. unfold local. destruct (e_ok e r 760 0); [now contradiction H|reflexivity].
  - el. lo. el. apply (ok_ret fr fa m _ _ (fun _ => e_tmpl e)); [reflexivity|]. now exists (e_tmpl e).
Qed.
(* the ring: after t rounds rank r holds the piece of rank r - t *)
Lemma ok_ring t : forall k n, n + k = m -> 0 < k -> ok tts (fun r => ring e m r t k ((r + m - n) mod m)).
Proof.
  induction k as [|k IH]; intros n E K; [lia|]. cbn [ring]. lo.
  apply (okay_call fr fa m tts Shift (fun r => VN ((r + m - n) mod m)) (fun r v => let! i := as_nat v in if i =? r then Ret tt else ring e m r t k i)); [now split|]. cbn [full as_nat bind].
  assert (B : forall r, r < m -> (before m r + m - n) mod m = (r + m - S n) mod m).
  { intros r Hr. unfold before. destruct (r =? 0) eqn:Z.
    - apply Nat.eqb_eq in Z as ->. replace (m - 1 + m - n) with (0 + m - S n + 1 * m) by lia. now rewrite Nat.mod_add by lia.
    - apply Nat.eqb_neq in Z. f_equal. lia. }
  destruct (Nat.eq_dec k 0) as [K0|K0].
  - apply okay_tt. intros r Hr. rewrite (B r Hr). replace (r + m - S n) with r by lia. rewrite Nat.mod_small by exact Hr. now rewrite Nat.eqb_refl.
  - apply (okay_ext fr fa m tts _ (fun r => ring e m r t k ((r + m - S n) mod m))); [|apply IH; lia]. intros r Hr. rewrite (B r Hr). destruct ((r + m - S n) mod m =? r) eqn:Q; [|reflexivity]. exfalso. apply Nat.eqb_eq in Q.
    destruct (le_lt_dec m (r + m - S n)) as [L|L].
    + rewrite (Nat.mod_eq _ m) in Q by lia. assert (D : (r + m - S n) / m = 1). { symmetry. apply (Nat.div_unique _ m 1 (r + m - S n - m)); lia. } rewrite D in Q. lia.
    + rewrite Nat.mod_small in Q by exact L. lia.
Qed.
Lemma ok_scan use_gpu redist my t : (redist = false -> forall r, r < m -> use_gpu r = false) -> ok tts (fun r => scan_one e m r (use_gpu r) redist (my r) t).
Proof.
  intro H. unfold scan_one. el. un; [|apply okay_elapsed_p; exact mpos]. destruct redist.
  - pose (skip := fun r => use_gpu r && match my r with [] => true | _ => false end).
    assert (X : ok tts (fun r => if skip r then Ret tt else local e r 1007 t)); [|exact X].
    destruct good as [F|G]; [|apply okay_tt; intros r _; destruct (skip r); [reflexivity|unfold local; now rewrite G]].
    destruct (bounded (fun r => (if skip r then true else e_ok e r 1007 t) = true) (fun r => bool_dec _ _) m) as [B|(r & Hr & B)].
    + apply okay_tt. intros r Hr. specialize (B r Hr). cbv beta in B. destruct (skip r); [reflexivity|unfold local; now rewrite B].
    + apply (ok_raise fr fa m tts _ r RuntimeError F Hr). cbv beta in B. destruct (skip r); [now contradiction B|]. unfold local. destruct (e_ok e r 1007 t); [now contradiction B|reflexivity].
  - apply (okay_ext fr fa m tts _ (fun r => ring e m r t m ((r + m - 0) mod m))); [|apply ok_ring; [reflexivity|exact mpos]]. intros r Hr. rewrite (H eq_refl r Hr). cbn [andb]. f_equal. rewrite Nat.sub_0_r. replace (r + m) with (r + 1 * m) by lia. rewrite Nat.mod_add by lia. now rewrite Nat.mod_small.
Qed.
Lemma ok_zfind use_gpu redist sg my nt : (redist = false -> forall r, r < m -> use_gpu r = false) -> ok tts (fun r => zfind_calls e m r (use_gpu r) redist sg (my r) nt).
Proof.
  intro H. unfold zfind_calls. el. un.
  - destruct sg; [apply (okay_local_p fr fa m e good)|]. apply (okay_foreach fr fa m (seq 0 nt) (fun r t => scan_one e m r (use_gpu r) redist (my r) t)). intros t _. now apply ok_scan.
  - el. lo. el. un; [apply (okay_foreach fr fa m (seq 0 nt) (fun r t => let! _ := elapsed m in let! _ := local e r 359 t in elapsed m)); intros t _; el; lo; apply okay_elapsed_p; exact mpos|].
    el. el. refine (okay_call fr fa m _ (Gather 0) (fun _ => VU) _ (conj mpos mpos) _). cbv beta. refine (okay_call fr fa m _ Barrier (fun _ => VU) _ (conj mpos I) _). cbv beta. ro. apply okay_elapsed_p. exact mpos.
Qed.
Lemma ok_try o use_gpu caps : (m_gpu o = false -> forall r, r < m -> use_gpu r = false) ->
  fr = true \/ (length (caps_of m caps) = m /\ Forall (fun c => 0 < c)%Q (caps_of m caps)) -> fr = true \/ (forall d, In d (e_files e) -> exists k, kept (m_d o) d = Ok k) ->
  ok tts (fun r => try_block e o m r (use_gpu r) caps).
Proof.
  intros U C K. unfold try_block. el. apply (okay_bind fr fa m tts); [now apply ok_dist_targets|]. intros my _. cbv beta. lo. refine (ok_wavegrids _ _ _). cbv beta. el.
  refine (okay_common fr fa m _ _ _ _ (ok_load use_gpu) _). intros nt _. cbv beta. el. un; [now apply ok_zfind|]. el. ro. lo. un; [destruct (m_details o); [el; ro; apply okay_elapsed_p; exact mpos|now apply okay_tt]|].
  un; [destruct (m_outfile o); [el; ro; bc; apply okay_elapsed_p; exact mpos|now apply okay_tt]|]. destruct (m_model o); [|now apply okay_tt]. lo.
  refine (okay_call fr fa m _ (Gather 0) (fun _ => VU) _ (conj mpos mpos) _). cbv beta. refine (okay_call fr fa m _ (Gather 0) (fun _ => VU) _ (conj mpos mpos) _). cbv beta. el. un; [|apply okay_elapsed_p; exact mpos].
  cbn [wavegrids bind]. destruct (e_ok e 0 1215 0 && e_ok e 0 1234 0) eqn:G.
  - apply andb_prop in G as [G1 G2]. apply okay_tt. intros r _. unfold root. destruct (r =? 0) eqn:E; [|reflexivity]. apply Nat.eqb_eq in E as ->. unfold local. rewrite G1, G2. reflexivity.
  - destruct good as [F|G2]; [|rewrite !G2 in G; discriminate]. apply (ok_raise fr fa m tts _ 0 RuntimeError F mpos). unfold root, local. cbn. destruct (e_ok e 0 1215 0); [cbn; destruct (e_ok e 0 1234 0); [discriminate|reflexivity]|reflexivity].
Qed.
End Fns.
