(* The calls of the ranks of rrdesi and rrboss agree: the programs. *)
From Verif Require Import Prelude NumX PreludeFacts Model_Dist Model_Zscan Model_IO Model_Targets Model_Desi Model_RunDesi Model_Comm Model_CommMain Proof_Comm Spec_Dist Proof_Dist Proof_CommMain Proof_CommMain2 Spec_Comm.
Open Scope nat_scope.

Lemma catch_abort fa m p : okay true fa m tts p -> okay false true m tts (fun r => catch (p r) (fun _ => @Abort unit)).
Proof.
  induction 1 as [p a H1 H2|p r e F Hr H|p r F Hr H|p kd v c Ro H H2 IH].
  - apply (ok_ret false true m tts _ a); [|exact I]. intros r Hr. now rewrite H1.
  - apply (ok_abort false true m tts _ r eq_refl Hr). now rewrite H.
  - apply (ok_abort false true m tts _ r eq_refl Hr). now rewrite H.
  - apply (ok_coll false true m tts _ kd v (fun r x => catch (c r x) (fun _ => Abort)) Ro); [|exact IH]. intros r Hr. now rewrite H.
Qed.
Lemma catch_none fa m p h : okay false fa m tts p -> okay false fa m tts (fun r => @catch unit (p r) h).
Proof.
  induction 1 as [p a H1 H2|p r e F Hr H|p r F Hr H|p kd v c Ro H H2 IH].
  - apply (ok_ret false fa m tts _ a); [|exact I]. intros r Hr. now rewrite H1.
  - discriminate.
  - apply (ok_abort false fa m tts _ r F Hr). now rewrite H.
  - apply (ok_coll false fa m tts _ kd v (fun r x => catch (c r x) h) Ro); [|exact IH]. intros r Hr. now rewrite H.
Qed.
Lemma okay_ends fa m P p : okay false fa m tts p -> 0 < m <= P -> forall q, (forall r, r < m -> q r = p r) -> (forall r, m <= r -> r < P -> q r = Ret tt) -> ends fa P q.
Proof.
  intros H M. induction H as [p a H1 H2|p r e F Hr H|p r F Hr H|p kd v c Ro H H2 IH]; intros q E O.
  - apply en_done. intros r Hr. assert (X : q r = Ret tt). { destruct (le_lt_dec m r) as [L|L]; [now apply O|]. rewrite E, H1 by exact L. now destruct (a r). } rewrite X. destruct fa; [exact I|reflexivity].
  - discriminate.
  - apply (en_abort fa P q r F); [lia|]. now rewrite E.
  - apply (en_lock fa P q (fun r => if r <? m then c r (full m kd v r) else q r)).
    + exists m, kd, v. split; [lia|]. split; [exact Ro|]. split.
      * intros r Hr. exists (c r). rewrite (proj2 (Nat.ltb_lt r m) Hr). split; [now rewrite E, H|reflexivity].
      * intros r L Hr. rewrite (proj2 (Nat.ltb_ge r m) L). split; [rewrite O by assumption; exact I|reflexivity].
    + apply IH; intros r Hr; [now rewrite (proj2 (Nat.ltb_lt r m) Hr)|]. intro L. rewrite (proj2 (Nat.ltb_ge r m) Hr). now apply O.
Qed.

Definition caps_good (m : nat) (caps : option (list Q)) : Prop := length (caps_of m caps) = m /\ Forall (fun c => 0 < c)%Q (caps_of m caps).
Lemma gpu_caps_good flags : caps_good (length flags) (gpu_capacities flags).
Proof.
  unfold caps_good, caps_of, gpu_capacities. destruct (_ && _); [rewrite map_length; split; [reflexivity|]; apply Forall_map, Forall_forall; intros [|] _; reflexivity|]. rewrite repeat_length. split; [reflexivity|]. apply Forall_forall. intros x Hx. apply repeat_spec in Hx as ->. reflexivity.
Qed.
Lemma caps_none m : caps_good m None.
Proof. unfold caps_good, caps_of. rewrite repeat_length. split; [reflexivity|]. apply Forall_forall. intros x Hx. apply repeat_spec in Hx as ->. reflexivity. Qed.

(* the ranks agree on how the number of GPUs is found *)
Definition same_nodes (e : env) (m : nat) : Prop := (forall r, r < m -> e_proc e r <> None) \/ (forall r, r < m -> e_proc e r = None /\ e_ok e r 251 0 = true).
Lemma ok_list {A B} fr fa m (Post : (nat -> B) -> Prop) (f : val -> prog A) (g : nat -> A) (mk : A -> val) (k : nat -> list A -> prog B) : (forall a, f (mk a) = Ret a) ->
  okay fr fa m Post (fun r => k r (map g (seq 0 m))) -> okay fr fa m Post (fun r => let! l := as_list (VL (map (fun j => mk (g j)) (seq 0 m))) in bind (mapP f l) (k r)).
Proof.
  intros F H. cbn [as_list bind]. assert (X : forall s, mapP f (map (fun j => mk (g j)) s) = Ret (map g s)). { induction s as [|j s IH]; [reflexivity|]. cbn. rewrite F. cbn [bind]. rewrite IH. reflexivity. }
  rewrite X. exact H.
Qed.
Lemma ok_gpu_count fa m e : 0 < m -> same_nodes e m -> okay false fa m tts (fun r => gpu_count e m r).
Proof.
  intros M [H|H].
  - apply (ok_ret false fa m tts _ (fun r => match e_proc e r with Some n => Z.of_nat n | None => 0%Z end)); [|exact I]. intros r Hr. unfold gpu_count. specialize (H r Hr). destruct (e_proc e r); [reflexivity|contradiction].
  - apply (okay_ext false fa m tts _ (fun r => let! l := call m Allgather (VIds [e_pci e r]) in let! l := as_list l in Ret (Z.of_nat (length (zdedup (map seen_as l)))))).
    + intros r Hr. unfold gpu_count. destruct (H r Hr) as [-> G]. unfold local. now rewrite G.
    + apply (okay_call false fa m tts Allgather (fun r => VIds [e_pci e r]) (fun r l => let! l := as_list l in Ret (Z.of_nat (length (zdedup (map seen_as l)))))); [now split|]. cbn [full as_list bind]. now eapply (ok_ret false fa m tts _ (fun _ => _)).
Qed.
Definition gpost (o : mopts) (m : nat) (a : nat -> bool * option (list Q)) : Prop :=
  exists caps, (forall r, r < m -> snd (a r) = caps) /\ caps_good m caps /\ (m_gpu o = false -> forall r, r < m -> fst (a r) = false).
Lemma ok_gpu fa m e o : 0 < m -> (m_gpu o = true -> m_maxgpu o = None -> same_nodes e m) -> okay false fa m (gpost o m) (fun r => gpu_config e o m r).
Proof.
  intros M H. unfold gpu_config. destruct (m_gpu o) eqn:G.
  - apply (okay_bind false fa m tts).
    + destruct (m_maxgpu o) as [k|] eqn:K; [now apply (ok_ret false fa m tts _ (fun _ => k))|]. now apply ok_gpu_count, H.
    + intros k _. cbv beta zeta. refine (okay_call false fa m _ Allgather (fun r => VB (Z.of_nat r <? k r)%Z) _ (conj M I) _). cbn [full].
      apply (ok_list false fa m _ as_bool (fun j => (Z.of_nat j <? k j)%Z) VB (fun r flags => Ret ((Z.of_nat r <? k r)%Z, gpu_capacities flags))); [reflexivity|].
      eapply (ok_ret false fa m _ _ (fun r => _)); [reflexivity|]. set (l := map _ (seq 0 m)). exists (gpu_capacities l). split; [reflexivity|]. split; [|intro X; congruence]. assert (L : length l = m) by (unfold l; now rewrite map_length, seq_length). rewrite <- L at 1. apply gpu_caps_good.
  - apply (ok_ret false fa m _ _ (fun _ => (false, None))); [reflexivity|]. exists None. split; [reflexivity|]. split; [apply caps_none|reflexivity].
Qed.

(* the checks before the communication starts: all right on rank 0 *)
Definition checked (e : env) (o : mopts) (m : nat) : Prop := checks e o m = Ret tt.
Lemma ok_after_split fa m e o : 0 < m -> (m_gpu o = true -> m_maxgpu o = None -> same_nodes e m) -> checked e o m ->
  (m_arch o <> NoArch -> forall r, r < m -> e_ok e r 906 0 = true) -> m_ids_parse o = true ->
  (fa = true /\ m_noabort o = false \/ (forall r line i, e_ok e r line i = true) /\ forall d, In d (e_files e) -> exists k, kept (m_d o) d = Ok k) ->
  okay false fa m tts (fun r => after_split e o m r).
Proof.
  intros M S C A I0 F. unfold after_split. refine (okay_unit false fa m _ _ _ _ _).
  { apply okay_tt. intros r _. unfold root. rewrite C. now destruct (r =? 0). }
  cbv beta. refine (okay_unit false fa m _ _ _ _ _).
  { apply okay_tt. intros r Hr. destruct (m_arch o) eqn:Ea; try reflexivity; unfold local; rewrite A by (congruence || exact Hr); reflexivity. }
  cbv beta. rewrite I0. cbn [bind]. apply (okay_bind false fa m (gpost o m)); [now apply ok_gpu|]. intros a (caps & Ec & Gc & U). cbv beta. refine (okay_unit false fa m _ _ _ _ _); [|apply okay_elapsed_p; exact M].
  apply (okay_ext false fa m tts _ (fun r => catch (try_block e o m r (fst (a r)) caps) (fun x => if m_noabort o then Raise x else Abort))); [intros r Hr; now rewrite Ec|].
  destruct F as [[-> Na]|[G K]].
  - rewrite Na. apply (catch_abort true). apply (ok_try true true m e M (or_introl eq_refl)); [exact U|now left|now left].
  - apply catch_none. apply (ok_try false fa m e M (or_intror G)); [exact U|now right|now right].
Qed.
Definition same_start (e : env) (o : mopts) (m : nat) : Prop := (m_gpu o = true -> m_maxgpu o = None -> same_nodes e m).
Lemma ends_barrier fa P p : 0 < P -> ends fa P p -> ends fa P (fun r => let! _ := elapsed P in p r).
Proof. intros HP H. apply (en_lock fa P _ p); [|exact H]. exists P, Barrier, (fun _ => VU). split; [lia|]. split; [now split|]. split; [|lia]. intros r Hr. exists (fun _ => p r). split; reflexivity. Qed.
Lemma used_le o P : used o P <= P.
Proof. unfold used. destruct (if m_gpu o then m_maxgpu o else None) as [k|]; [|lia]. destruct (k <? Z.of_nat P)%Z eqn:L; [apply Z.ltb_lt in L; lia|lia]. Qed.
Lemma split_ends fa e o P : 0 < P -> (0 < used o P -> forall q, (forall r, r < used o P -> q r = after_split e o (used o P) r) -> (forall r, used o P <= r -> r < P -> q r = Ret tt) -> ends fa P q) -> ends fa P (fun r => rrdesi_rank e o P r).
Proof.
  intros HP H. unfold rrdesi_rank. apply ends_barrier; [exact HP|]. pose proof (used_le o P) as Ul. unfold used in *. destruct (if m_gpu o then m_maxgpu o else None) as [k|] eqn:K.
  - destruct (k <? Z.of_nat P)%Z eqn:L; [|apply H; [exact HP|reflexivity|lia]].
    set (q := fun r => if (Z.of_nat r <? k)%Z then after_split e o (Z.to_nat k) r else Ret tt). apply (en_lock fa P _ q).
    + exists P, Split, (fun r => VB (Z.of_nat r <? k)%Z). split; [lia|]. split; [now split|]. split; [|lia]. intros r Hr. exists (fun _ => q r). split; reflexivity.
    + assert (Q1 : forall r, r < Z.to_nat k -> q r = after_split e o (Z.to_nat k) r) by (intros r Hr; unfold q; now rewrite (proj2 (Z.ltb_lt (Z.of_nat r) k)) by lia).
      assert (Q2 : forall r, Z.to_nat k <= r -> r < P -> q r = Ret tt) by (intros r Hr _; unfold q; now rewrite (proj2 (Z.ltb_ge (Z.of_nat r) k)) by lia).
      destruct (Nat.eq_dec (Z.to_nat k) 0) as [E|E]; [|apply H; [lia|exact Q1|exact Q2]].
      apply en_done. intros r Hr. rewrite Q2 by lia. destruct fa; [exact I|reflexivity].
  - apply H; [exact HP|reflexivity|lia].
Qed.
Lemma rrdesi_completes e o P : 0 < P -> same_start e o (used o P) -> (0 < used o P -> checked e o (used o P)) -> m_ids_parse o = true -> (forall r line i, e_ok e r line i = true) -> (forall d, In d (e_files e) -> exists k, kept (m_d o) d = Ok k) ->
  ends false P (fun r => rrdesi_rank e o P r).
Proof.
  intros HP S C I0 G K. apply split_ends; [exact HP|]. intros U q E O. apply (okay_ends false (used o P) P (fun r => after_split e o (used o P) r)); [|split; [exact U|apply used_le]|exact E|exact O].
  apply ok_after_split; auto.
Qed.
(* failures: before the try block all ranks fail or none does *)
Lemma rrdesi_fails e o P : 0 < P -> same_start e o (used o P) -> m_noabort o = false -> (forall n, m_arch o = ArchFile n -> has_dash n = true) -> (m_arch o <> NoArch -> forall r, r < used o P -> e_ok e r 906 0 = e_ok e 0 906 0) ->
  ends true P (fun r => rrdesi_rank e o P r).
Proof.
  intros HP S Na Da Al. apply split_ends; [exact HP|]. intros U q E O. set (m := used o P) in *.
  assert (C : checks e o m = Ret tt \/ checks e o m = Abort).
  { unfold checks. destruct (_ && _); [now right|]. destruct (_ && _); [now right|]. destruct (match e_files e with [] => true | _ => false end); [now right|]. destruct (match o_ids (m_d o) with Some _ => _ | None => false end); [now right|]. destruct (_ && _); [now right|]. destruct (m_arch o) as [| | |n] eqn:X; auto. rewrite (Da n eq_refl). now left. }
  destruct C as [C|C]; [|apply (en_abort true P q 0 eq_refl HP); rewrite E by exact U; unfold after_split, root; cbn [Nat.eqb bind]; rewrite C; reflexivity].
  assert (D : (forall r, r < m -> over (after_split e o m r)) -> ends true P q). { intro H. apply en_done. intros r Hr. destruct (le_lt_dec m r) as [L|L]; [rewrite O by assumption; exact I|rewrite E by exact L; now apply H]. }
  assert (R0 : forall r (k : unit -> prog unit), bind (root r (checks e o m)) k = k tt). { intros r k. unfold root. rewrite C. now destruct (r =? 0). }
  destruct (match m_arch o with NoArch => true | _ => e_ok e 0 906 0 end) eqn:A.
  - assert (A2 : m_arch o <> NoArch -> forall r, r < m -> e_ok e r 906 0 = true). { intros N r Hr. rewrite (Al N r Hr). destruct (m_arch o); [now contradiction N|exact A..]. }
    destruct (m_ids_parse o) eqn:I0.
    + apply (okay_ends true m P (fun r => after_split e o m r)); [|split; [exact U|apply used_le]|exact E|exact O]. apply ok_after_split; auto.
    + apply D. intros r Hr. unfold after_split. rewrite R0. destruct (m_arch o) eqn:Ma; cbn [bind]; rewrite ?I0; try exact I; unfold local; rewrite A2 by (congruence || exact Hr); cbn [bind]; rewrite ?I0; exact I.
  - apply D. intros r Hr. unfold after_split. rewrite R0. destruct (m_arch o) eqn:Ma; [discriminate|..]; unfold local; rewrite Al by (congruence || exact Hr); rewrite A; exact I.
Qed.

(* ---------------- rrboss ---------------- *)
Lemma ok_copy fr fa m e l : 0 < m -> (fr = true \/ forall r line i, e_ok e r line i = true) -> okay fr fa m tts (fun r => dist_copy m r (Some l)).
Proof.
  intros M G. unfold dist_copy. refine (okay_bcast fr fa m M _ _ _ _). cbv beta. apply (okay_lift fr fa m M).
  - right. destruct (distribute_work_greedy m l (Some (fun _ => Some 1%Q)) None (fun _ => 1%Q)) as (d & D & _); [reflexivity|exact M|apply caps_none|apply caps_none|now exists d].
  - intros d _. refine (okay_unit fr fa m _ _ _ _ _).
    + apply (okay_foreach fr fa m l (fun r t => let! _ := bcast m r (VIds [t]) in Ret tt)). intros x _. refine (okay_bcast fr fa m M _ _ _ _). now apply okay_tt.
    + now apply (ok_ret fr fa m tts _ (fun r => nth r d [])).
Qed.
Lemma ok_boss_try fr fa m e o l : 0 < m -> (fr = true \/ forall r line i, e_ok e r line i = true) -> (forall r, r < m -> e_boss e r = l) -> okay fr fa m tts (fun r => boss_try e o m r).
Proof.
  intros M G L. unfold boss_try. refine (okay_elapsed fr fa m M _ _ _). cbv beta. refine (okay_local fr fa m e G _ _ _ _ _). cbv beta. refine (okay_elapsed fr fa m M _ _ _). cbv beta. refine (okay_elapsed fr fa m M _ _ _). cbv beta.
  apply (okay_bind fr fa m tts); [apply (okay_ext fr fa m tts _ (fun r => dist_copy m r (Some l))); [intros r Hr; now rewrite L|now apply (ok_copy fr fa m e)]|]. intros my _. cbv beta. refine (ok_wavegrids fr fa m M _ _ _). cbv beta. refine (okay_elapsed fr fa m M _ _ _). cbv beta.
  refine (okay_common fr fa m _ _ _ _ (ok_load fr fa m e M G (fun _ => false)) _). intros nt _. cbv beta. refine (okay_elapsed fr fa m M _ _ _). cbv beta. refine (okay_unit fr fa m _ _ _ _ _); [now apply (ok_zfind fr fa m e M G (fun _ => false))|]. cbv beta. refine (okay_elapsed fr fa m M _ _ _). cbv beta.
  refine (okay_unit fr fa m _ _ _ _ _).
  - destruct (b_output o); [|now apply okay_tt]. refine (okay_elapsed fr fa m M _ _ _). cbv beta. refine (okay_root fr fa m M e G _ _ _ _ _). cbv beta. apply okay_elapsed_p. exact M.
  - cbv beta. destruct (b_zbest o); [|now apply okay_tt]. refine (okay_elapsed fr fa m M _ _ _). cbv beta. refine (okay_root fr fa m M e G _ _ _ _ _). cbv beta. apply okay_elapsed_p. exact M.
Qed.
Lemma rrboss_ends fa e o P l : 0 < P -> (forall r, r < P -> e_boss e r = l) -> 
  (fa = true /\ b_noabort o = false \/ (forall r line i, e_ok e r line i = true) /\ boss_checks o P = Ret tt /\ b_ids_parse o = true) -> ends fa P (fun r => rrboss_rank e o P r).
Proof.
  intros HP L F. unfold rrboss_rank. apply ends_barrier; [exact HP|].
  assert (C : boss_checks o P = Ret tt \/ fa = true /\ boss_checks o P = Abort). { destruct F as [[F _]|(_ & F & _)]; [|now left]. unfold boss_checks. destruct (_ && _); [now right|]. destruct (_ && _); [now right|]. destruct (b_both o); [now right|now left]. }
  destruct C as [C|[-> C]]; [|apply (en_abort true P _ 0 eq_refl HP); unfold root; cbn [Nat.eqb]; now rewrite C].
  assert (R0 : forall r (k : unit -> prog unit), bind (root r (boss_checks o P)) k = k tt). { intros r k. unfold root. rewrite C. now destruct (r =? 0). }
  destruct (b_ids_parse o) eqn:I0.
  - apply (okay_ends fa P P (fun r => let! _ := catch (boss_try e o P r) (fun x => if b_noabort o then Raise x else Abort) in elapsed P)); [|lia| |lia].
    + refine (okay_unit fa fa P _ _ _ _ _) || refine (okay_unit false fa P _ _ _ _ _); [|apply okay_elapsed_p; exact HP]. destruct F as [[-> Na]|(G & _ & _)].
      * rewrite Na. apply (catch_abort true). now apply (ok_boss_try true true P e o l HP (or_introl eq_refl)).
      * apply catch_none. now apply (ok_boss_try false fa P e o l HP (or_intror G)).
    + intros r Hr. rewrite R0. reflexivity.
  - destruct F as [[-> _]|(_ & _ & X)]; [|discriminate]. apply en_done. intros r _. rewrite R0. exact I.
Qed.
