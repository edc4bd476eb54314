(* C159: the ranks of an MPI run meet in the same calls.  C160: a failing rank ends the run. *)
From Verif Require Import Prelude NumX PreludeFacts Model_Dist Model_Zscan Model_IO Model_Targets Model_Desi Model_RunDesi Model_Comm Model_CommMain Spec_Comm Proof_Comm Proof_CommMain Proof_CommMain2 Proof_CommMain3.
Open Scope nat_scope.

Lemma must_dec s r : {must s r} + {~ must s r}.
Proof.
  unfold must. destruct (code s r) as [a|x| |m k v c]; [now right|now right|now left|]. destruct (waiting s r); [|left; now left]. destruct (everyone m k (hist s (pos s r))) as [l|]; [left; right; now exists l|right]. intros [H|(l & H)]; discriminate.
Qed.
Lemma moves fl P p : ends fl P p -> never_hangs P p.
Proof.
  intro E. split.
  - intros s S. destruct (aborted s) eqn:A; [left; now left|]. destruct (bounded (fun r => over (code s r)) (fun r => over_dec (code s r)) P) as [O|(q & Hq & O)]; [left; now right|].
    destruct (bounded (fun r => ~ must s r) (fun r => match must_dec s r with left y => right (fun h => h y) | right h => left h end) P) as [N|(r & Hr & N)].
    + exfalso. apply (no_hang fl P p s E S). split; [|exact N]. intros [X|X]; [congruence|]. apply O, X, Hq.
    + right. exists r. split; [exact Hr|]. destruct (must_dec s r); [assumption|contradiction].
  - intros (f & E0 & St). assert (X : forall s, Acc (fun s' s => step P s s') s -> forall n, f n <> s). { induction 1 as [s _ IH]. intros n <-. exact (IH (f (S n)) (St n) (S n) eq_refl). } exact (X (f 0) (steps_end P (f 0)) 0 eq_refl).
Qed.
Lemma options_checked e o m : options_ok e o m -> checks e o m = Ret tt.
Proof.
  intros (D & W & F & S & G & A & N & _). unfold checks.
  assert (E1 : m_debug o && negb (m =? 1) = false) by (destruct (m_debug o); [rewrite (D eq_refl); reflexivity|reflexivity]). rewrite E1.
  assert (E2 : negb (m_details o) && negb (m_outfile o) = false) by (destruct W as [-> | ->]; [reflexivity|now rewrite andb_false_r]). rewrite E2.
  assert (E3 : m_gpu o && negb (e_gpu_ok e) = false) by (destruct (m_gpu o); [rewrite (G eq_refl); reflexivity|reflexivity]). rewrite E3.
  destruct (e_files e); [contradiction|]. assert (E4 : match o_ids (m_d o) with Some _ => match o_first (m_d o) with Some _ => true | None => false end | None => false end = false) by (destruct S as [-> | ->]; [reflexivity|now destruct (o_ids (m_d o))]). rewrite E4.
  destruct (m_arch o) as [| | |n]; [reflexivity|contradiction|reflexivity|now rewrite (N n eq_refl)].
Qed.

(* rrdesi: without failures every rank returns, for every number of ranks, all options and files, and every order of the steps of the ranks *)
Theorem C159_rrdesi_partial : forall e o P, 0 < P -> (0 < used o P -> options_ok e o (used o P)) -> m_ids_parse o = true -> selection_ok e o -> no_failure e -> alike_nodes e o (used o P) ->
  finishes P (rrdesi_rank e o P).
Proof.
  intros e o P HP O I0 S G A. assert (E : ends false P (rrdesi_rank e o P)).
  { apply rrdesi_completes; [exact HP|exact A| |exact I0|exact G|exact S]. intro U. apply options_checked, O, U. }
  split; [exact (moves false P _ E)|]. intros s St. exact (all_return P _ s E St).
Qed.
(* rrboss: the same, if all ranks read the same spectra *)
Theorem C159_rrboss_partial : forall e o P, 0 < P -> boss_options_ok o P -> no_failure e -> (forall r, r < P -> e_boss e r = e_boss e 0) -> finishes P (rrboss_rank e o P).
Proof.
  intros e o P HP (D & W & B & I0) G L. assert (E : ends false P (rrboss_rank e o P)).
  { apply (rrboss_ends false e o P (e_boss e 0) HP L). right. split; [exact G|]. split; [|exact I0]. unfold boss_checks. destruct (b_debug o); [rewrite (D eq_refl); cbn|cbn]; rewrite B; destruct W as [W|W]; rewrite W; rewrite ?andb_false_r; reflexivity. }
  split; [exact (moves false P _ E)|]. intros s St. exact (all_return P _ s E St).
Qed.
(* any failure inside the run: the job ends (by an abort), it never hangs.  What is done before the run starts (reading the archetypes) is alike on all ranks *)
Theorem C160_rrdesi_partial : forall e o P, 0 < P -> m_noabort o = false -> alike_nodes e o (used o P) -> (forall n, m_arch o = ArchFile n -> has_dash n = true) ->
  (m_arch o <> NoArch -> forall r, r < used o P -> e_ok e r 906 0 = e_ok e 0 906 0) -> never_hangs P (rrdesi_rank e o P).
Proof. intros e o P HP Na A D R. exact (moves true P _ (rrdesi_fails e o P HP A Na D R)). Qed.
Theorem C160_rrboss_partial : forall e o P, 0 < P -> b_noabort o = false -> (forall r, r < P -> e_boss e r = e_boss e 0) -> never_hangs P (rrboss_rank e o P).
Proof. intros e o P HP Na L. exact (moves true P _ (rrboss_ends true e o P (e_boss e 0) HP L (or_introl (conj eq_refl Na)))). Qed.

(* ---------------- executions given by the order of the ranks ---------------- *)
Definition move (P : nat) (s : st) (r : nat) : option st :=
  if aborted s || negb (r <? P) then None else
  match code s r with
  | Coll m k v c =>
      if waiting s r then
        match result m k (hist s (pos s r)) r with
        | Some x => Some {| code := upd (code s) r (c x); pos := upd (pos s) r (S (pos s r)); waiting := upd (waiting s) r false; hist := hist s; aborted := false |}
        | None => None
        end
      else Some {| code := code s; pos := pos s; waiting := upd (waiting s) r true; hist := upd (hist s) (pos s r) (upd (hist s (pos s r)) r (Some (m, k, v))); aborted := false |}
  | Abort => Some {| code := code s; pos := pos s; waiting := waiting s; hist := hist s; aborted := true |}
  | _ => None
  end.
(* ranks that cannot move are passed over *)
Definition sched (P : nat) (l : list nat) (s : st) : st := fold_left (fun s r => match move P s r with Some s' => s' | None => s end) l s.
Lemma move_step P s r s' : move P s r = Some s' -> step P s s'.
Proof.
  unfold move. destruct (aborted s) eqn:A; [discriminate|]. destruct (r <? P) eqn:L; [|discriminate]. apply Nat.ltb_lt in L. cbn. destruct (code s r) as [a|x| |m k v c] eqn:C; try discriminate.
  - intro H. assert (X : s' = {| code := code s; pos := pos s; waiting := waiting s; hist := hist s; aborted := true |}) by congruence. rewrite X. exact (s_abort P s r A L C).
  - destruct (waiting s r) eqn:W.
    + destruct (result m k (hist s (pos s r)) r) as [x|] eqn:R; [|discriminate]. intro H. match type of H with Some ?a = _ => assert (X : s' = a) by congruence end. rewrite X. exact (s_return P s r m k v c x A L C W R).
    + intro H. match type of H with Some ?a = _ => assert (X : s' = a) by congruence end. rewrite X. exact (s_call P s r m k v c A L C W).
Qed.
Lemma sched_steps P l p : steps P (init p) (sched P l (init p)).
Proof.
  assert (X : forall l s0 s, steps P s0 s -> steps P s0 (sched P l s)); [|apply X; constructor]. clear. induction l as [|r l IH]; intros s0 s H; [exact H|]. cbn. apply IH. destruct (move P s r) as [s'|] eqn:M; [|exact H]. exact (st_S P s0 s s' H (move_step P s r s' M)).
Qed.
(* 200 rounds of both ranks *)
Definition rounds : list nat := concat (repeat [0; 1] 200).
Definition wedged (s : st) (r q : nat) : bool :=   (* rank r waits in a call that rank q will not make: it is over *)
  negb (aborted s) && (match code s r with Coll m k _ _ => waiting s r && match everyone m k (hist s (pos s r)) with None => true | _ => false end | _ => false end) &&
  match code s q with Raise _ => true | _ => false end.
Lemma wedged_hung s a b : a + b = 1 -> wedged s a b = true -> hung 2 s.
Proof.
  intros E H. unfold wedged in H. apply andb_prop in H as [H Q]. apply andb_prop in H as [A H].
  destruct (code s a) as [x|x| |m k v c] eqn:C; try discriminate. apply andb_prop in H as [W H]. destruct (everyone m k (hist s (pos s a))) eqn:V; [discriminate|]. destruct (code s b) as [y|y| |m' k' v' c'] eqn:D; try discriminate. split.
  - intros [X|X]; [rewrite X in A; discriminate|]. specialize (X a ltac:(lia)). rewrite C in X. exact X.
  - intros r Hr M. unfold must in M. assert (K : r = a \/ r = b) by lia. destruct K as [-> | ->]; [rewrite C in M|now rewrite D in M]. destruct M as [M|(l & M)]; congruence.
Qed.

(* ---------------- examples ---------------- *)
Definition dfl : dfile := {| df_coadded := true; df_fm := [{| fm_id := 7; fm_status := 0; fm_objtype := "TGT" |}; {| fm_id := 9; fm_status := 0; fm_objtype := "TGT" |}; {| fm_id := 11; fm_status := 0; fm_objtype := "TGT" |}];
  df_exp := []; df_bands := ["b"; "r"]%string; df_wave := fun _ => []; df_flux := fun _ => []; df_ivar := fun _ => []; df_mask := fun _ => None; df_res := fun _ => [] |}.
Definition dopt : dopts := {| o_ids := None; o_first := None; o_n := None; o_allspec := false; o_cosmics := 0; o_negflux := 5; o_skymask := true |}.
Definition opt (gpu : bool) (mg : option Z) (noabort : bool) (a : arch) : mopts :=
  {| m_d := dopt; m_gpu := gpu; m_maxgpu := mg; m_debug := false; m_noabort := noabort; m_details := true; m_outfile := true; m_model := true; m_scan := false; m_arch := a; m_ids_parse := true |}.
Definition world (ok : nat -> nat -> nat -> bool) (proc : nat -> option nat) : env :=
  {| e_files := [dfl; dfl]; e_tmpl := 3; e_gpu_ok := true; e_proc := proc; e_pci := fun r => Z.of_nat r; e_ok := ok; e_boss := fun _ => [1; 2; 3]%Z |}.
Definition fine_world := world (fun _ _ _ => true) (fun _ => Some 4).
Example C159_nonvacuous : options_ok fine_world (opt true (Some 2%Z) false ArchDir) (used (opt true (Some 2%Z) false ArchDir) 5) /\ selection_ok fine_world (opt true (Some 2%Z) false ArchDir) /\ no_failure fine_world /\
  alike_nodes fine_world (opt true None false NoArch) 5 /\ used (opt true (Some 2%Z) false ArchDir) 5 = 2 /\ used (opt false None false NoArch) 5 = 5.
Proof.
  split; [repeat split; try discriminate; auto|]. split; [|split; [intros r l i; reflexivity|split; [intros _ _; left; discriminate|split; reflexivity]]]. intros d [<-|[<-|[]]]; eexists; vm_compute; reflexivity.
Qed.
(* two ranks to the end, and the same with a failure on one rank *)
Example C159_run : let s := sched 2 (concat (repeat [0; 1] 300)) (init (rrdesi_rank fine_world (opt false None false NoArch) 2)) in code s 0 = Ret tt /\ code s 1 = Ret tt /\ aborted s = false /\ 50 < pos s 0.
Proof. vm_compute. repeat split; repeat constructor. Qed.
Example C160_run : aborted (sched 2 rounds (init (rrdesi_rank (world (fun r line i => negb ((r =? 1) && (line =? 359))) (fun _ => None)) (opt false None false NoArch) 2))) = true.
Proof. vm_compute. reflexivity. Qed.

(* GPU nodes and other nodes in one job, without --max-gpuprocs: only the ranks without /proc/driver/nvidia/gpus gather the bus ids *)
Theorem C159_mixed_nodes_refuted : exists e o s, no_failure e /\ options_ok e o 2 /\ selection_ok e o /\ steps 2 (init (rrdesi_rank e o 2)) s /\ hung 2 s.
Proof.
  exists (world (fun _ _ _ => true) (fun r => if r =? 0 then Some 2 else None)), (opt true None false NoArch). eexists. split; [intros r l i; reflexivity|]. split; [repeat split; try discriminate; auto|]. split; [intros d [<-|[<-|[]]]; eexists; vm_compute; reflexivity|]. split; [apply (sched_steps 2 rounds)|]. apply (wedged_hung _ 1 0 eq_refl). vm_compute. reflexivity.
Qed.
(* DistTargetsCopy with the targets "located on one process" (targets.py 524-530): the other ranks raise a TypeError and the first waits *)
Theorem C159_targets_on_root_only_refuted : exists s, steps 2 (init (fun r => let! _ := dist_copy 2 r (if r =? 0 then Some [1; 2]%Z else None) in let! _ := wavegrids 2 r None in Ret tt)) s /\ hung 2 s.
Proof. eexists. split; [apply (sched_steps 2 rounds)|]. apply (wedged_hung _ 0 1 eq_refl). vm_compute. reflexivity. Qed.
(* --no-mpi-abort: the other ranks wait for ever for the one that failed *)
Theorem C160_no_abort_refuted : exists e o s, options_ok e o 2 /\ selection_ok e o /\ m_noabort o = true /\ steps 2 (init (rrdesi_rank e o 2)) s /\ hung 2 s.
Proof.
  exists (world (fun r line i => negb ((r =? 1) && (line =? 359))) (fun _ => None)), (opt false None true NoArch). eexists. split; [repeat split; try discriminate; auto|]. split; [intros d [<-|[<-|[]]]; eexists; vm_compute; reflexivity|]. split; [reflexivity|]. split; [apply (sched_steps 2 rounds)|]. apply (wedged_hung _ 0 1 eq_refl). vm_compute. reflexivity.
Qed.
(* --archetypes with a file whose name has no '-': rank 0 raises an IndexError (desi.py 894), outside the try block *)
Theorem C160_archetype_name_refuted : exists e o s, no_failure e /\ m_noabort o = false /\ m_arch o = ArchFile "galaxy.fits" /\ steps 2 (init (rrdesi_rank e o 2)) s /\ hung 2 s.
Proof.
  exists fine_world, (opt false None false (ArchFile "galaxy.fits")). eexists. split; [intros r l i; reflexivity|]. split; [reflexivity|]. split; [reflexivity|]. split; [apply (sched_steps 2 rounds)|]. apply (wedged_hung _ 1 0 eq_refl). vm_compute. reflexivity.
Qed.
(* one rank cannot read the archetypes (desi.py 906), outside the try block *)
Theorem C160_archetype_read_refuted : exists e o s, m_noabort o = false /\ options_ok e o 2 /\ selection_ok e o /\ steps 2 (init (rrdesi_rank e o 2)) s /\ hung 2 s.
Proof.
  exists (world (fun r line i => negb ((r =? 1) && (line =? 906))) (fun _ => None)), (opt false None false ArchDir). eexists. split; [reflexivity|]. split; [repeat split; try discriminate; auto|]. split; [intros d [<-|[<-|[]]]; eexists; vm_compute; reflexivity|]. split; [apply (sched_steps 2 rounds)|]. apply (wedged_hung _ 0 1 eq_refl). vm_compute. reflexivity.
Qed.
Print Assumptions C159_rrdesi_partial. Print Assumptions C159_rrboss_partial. Print Assumptions C160_rrdesi_partial. Print Assumptions C160_rrboss_partial. Print Assumptions C159_mixed_nodes_refuted. Print Assumptions C160_no_abort_refuted. Print Assumptions C160_archetype_name_refuted.
