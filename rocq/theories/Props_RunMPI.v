(* A whole run with MPI and the serial run: C144. *)
From Verif Require Import Prelude PreludeFacts NumX Model_Fitz Spec_Fitz Props_Fitz Model_Rebin Model_Dist Proof_Dist3 Props_Dist Model_MPI Props_Par Model_Zscan Spec_Zscan Props_Zscan2 Model_Piece Model_IO Model_Zfind Model_Run Spec_Run Proof_Run3 Props_Run
  Model_RunMPI Proof_RunMPI Proof_RunMPI2 Proof_RunMPI3.
Open Scope nat_scope.

Section Props.
Variables (slv : solvers) (argsort : list xq -> list nat) (polyfit : list Q -> list Q -> option (Q * Q * Q)) (isqrt : Q -> Q).
Variable trans : option string -> Q -> Q -> Q.
Variables (nminima nz : nat).
Notation run := (run slv argsort polyfit isqrt trans nminima nz).
Notation ranks_run := (ranks_run slv argsort polyfit isqrt trans nminima nz).
Notation table := (table nminima).

(* what the serial run gives, the run with MPI gives: for every way to hand the targets to the ranks, every order of the messages of the ring,
   blocking or eager, every batch size and every order of the messages of the gather *)
Theorem C144_mpi_gives_serial_table : forall ps locals tgs eager kr sr tab,
  0 < length locals -> Permutation (concat locals) tgs -> NoDup (map g_id tgs) -> hashes_tell_grids tgs ->
  Forall usable ps -> Forall (fun p => length locals <= length (p_zs p)) ps ->
  ring_steps (length locals) (length ps) eager kr (ring_init (length ps)) sr -> ring_finished (length locals) sr ->
  run ps tgs = Ok tab ->
  exists ress, ranks_run ps locals sr = Ok ress /\ length ress = length locals /\
    forall maxb cap kg sg, 0 < maxb -> gsteps (length ress) cap kg (gather_init maxb ress) sg -> gather_finished (length ress) sg ->
      table ps (map g_id tgs) (allresults (hd [] ress) sg) = Ok tab.
Proof.
  intros ps locals tgs eager kr sr tab HP Pm N C U L Hr Hf H.
  assert (R : ring_ok (length locals) (length ps) sr) by (intros r t Hlt; exact (proj1 (C20_ring_each_slice_once _ _ _ _ _ r HP Hr Hf Hlt) t)).
  destruct (mpi_serial slv argsort polyfit isqrt trans nminima nz ps locals tgs sr HP Pm N C U L R) as [M1 M2].
  destruct (M1 tab H) as [ress Er]. exists ress. split; [exact Er|]. destruct (M2 ress Er) as (Lr & F & Nc & M). split; [exact Lr|].
  intros maxb cap kg sg Hm Hs Hg. destruct (C14_gather_delivers _ maxb cap ress kg sg Hm (eq_ind_r (fun n => 1 <= n) HP Lr) F Hs Hg) as (_ & _ & D). rewrite (D Nc). now apply M.
Qed.

(* and the run with MPI gives nothing else *)
Theorem C144_mpi_gives_only_serial_table : forall ps locals tgs eager kr sr ress maxb cap kg sg tab,
  0 < length locals -> Permutation (concat locals) tgs -> NoDup (map g_id tgs) -> hashes_tell_grids tgs ->
  Forall usable ps -> Forall (fun p => length locals <= length (p_zs p)) ps ->
  ring_steps (length locals) (length ps) eager kr (ring_init (length ps)) sr -> ring_finished (length locals) sr ->
  ranks_run ps locals sr = Ok ress ->
  0 < maxb -> gsteps (length ress) cap kg (gather_init maxb ress) sg -> gather_finished (length ress) sg ->
  table ps (map g_id tgs) (allresults (hd [] ress) sg) = Ok tab ->
  run ps tgs = Ok tab.
Proof.
  intros ps locals tgs eager kr sr ress maxb cap kg sg tab HP Pm N C U L Hr Hf Er Hm Hs Hg H.
  assert (R : ring_ok (length locals) (length ps) sr) by (intros r t Hlt; exact (proj1 (C20_ring_each_slice_once _ _ _ _ _ r HP Hr Hf Hlt) t)).
  destruct (mpi_serial slv argsort polyfit isqrt trans nminima nz ps locals tgs sr HP Pm N C U L R) as [_ M2].
  destruct (M2 ress Er) as (Lr & F & Nc & M). destruct (C14_gather_delivers _ maxb cap ress kg sg Hm (eq_ind_r (fun n => 1 <= n) HP Lr) F Hs Hg) as (_ & _ & D). rewrite (D Nc) in H. now apply M.
Qed.

(* with the targets handed out by DistTargetsCopy: from the list of targets to the table, whatever happens in between there is a complete
   run, and it ends with the table of the serial run *)
Theorem C144_distributed_run : forall ps (ts : list (tgt targ)) size eager maxb cap tab,
  0 < size -> 0 < maxb -> Forall (fun t => t_id t = g_id (t_data t)) ts -> NoDup (map t_id ts) -> hashes_tell_grids (map t_data ts) ->
  Forall usable ps -> Forall (fun p => size <= length (p_zs p)) ps ->
  run ps (map t_data ts) = Ok tab ->
  exists locals, length locals = size /\
    (forall rank, rank < size -> exists ids data, dist_targets_copy ts (Some (size, rank)) = Ok (ids, data) /\ map t_data data = nth rank locals [] /\ ids = map g_id (nth rank locals [])) /\
    (exists kr sr, ring_steps size (length ps) eager kr (ring_init (length ps)) sr /\ ring_finished size sr) /\
    forall kr sr, ring_steps size (length ps) eager kr (ring_init (length ps)) sr -> ring_finished size sr ->
      exists ress, ranks_run ps locals sr = Ok ress /\
        (exists kg sg, gsteps (length ress) cap kg (gather_init maxb ress) sg /\ gather_finished (length ress) sg) /\
        forall kg sg, gsteps (length ress) cap kg (gather_init maxb ress) sg -> gather_finished (length ress) sg ->
          table ps (map t_id ts) (allresults (hd [] ress) sg) = Ok tab.
Proof.
  intros ps ts size eager maxb cap tab Hs Hm Hid N C U L H.
  assert (Eid : map t_id ts = map g_id (map t_data ts)) by (rewrite map_map; apply map_ext_in; exact (proj1 (Forall_forall _ _) Hid)).
  destruct (distribute_targets_ok ts size Hs) as (d & Ed & Ld & Pd).
  set (loc := fun mine => map t_data (flat_map (fun x => match find_tgt ts x with Some t => [t] | None => [] end) mine)).
  assert (In1 : forall x, In x (map t_id ts) -> exists t, In t ts /\ t_id t = x /\ find_tgt ts x = Some t). { intros x Hx. apply in_map_iff in Hx as (t & <- & Ht). exists t. split; [exact Ht|]. split; [reflexivity|]. now apply find_tgt_in. }
  assert (Inl : forall mine, In mine d -> forall x, In x mine -> In x (map t_id ts)). { intros mine Hmi x Hx. eapply Permutation_in; [exact Pd|]. apply in_concat. now exists mine. }
  exists (map loc d). split; [now rewrite map_length|].
  assert (Pm : Permutation (concat (map loc d)) (map t_data ts)).
  { assert (E : concat (map loc d) = map t_data (flat_map (fun x => match find_tgt ts x with Some t => [t] | None => [] end) (concat d))).
    { unfold loc. clear. induction d as [|a d IH]; [reflexivity|]. cbn [map concat]. now rewrite IH, flat_map_app, map_app. }
    rewrite E. apply Permutation_map. transitivity (flat_map (fun x => match find_tgt ts x with Some t => [t] | None => [] end) (map t_id ts)); [now apply Permutation_flat_map|].
    assert (G : forall l, (forall t, In t l -> In t ts) -> flat_map (fun x => match find_tgt ts x with Some t => [t] | None => [] end) (map t_id l) = l). { induction l as [|t l IH]; intro Hl; [reflexivity|]. cbn [map flat_map]. rewrite find_tgt_in by (auto; apply Hl; now left). cbn. f_equal. apply IH. intros; apply Hl; now right. }
    rewrite G by auto. reflexivity. }
  split; [|split].
  - intros rank Hr. destruct (nth_error_lt_ex d rank ltac:(lia)) as [mine Hmi]. pose proof (nth_error_In _ _ Hmi) as Hin.
    assert (En : nth rank (map loc d) [] = loc mine). { apply nth_error_nth. rewrite nth_error_map, Hmi. reflexivity. }
    assert (X : forall l, (forall x, In x l -> In x (map t_id ts)) -> mapM (fun x => match find_tgt ts x with Some t => Ok t | None => Err KeyError end) l = Ok (flat_map (fun x => match find_tgt ts x with Some t => [t] | None => [] end) l) /\ map g_id (loc l) = l).
    { induction l as [|x l IH]; intro Hl; [split; reflexivity|]. destruct IH as [I1 I2]; [intros; apply Hl; now right|]. destruct (In1 x (Hl x (or_introl eq_refl))) as (t & Ht & Et & Ef). unfold loc in *. cbn [mapM flat_map]. rewrite Ef. cbn [rbind]. rewrite I1. cbn [rbind app map]. split; [reflexivity|]. rewrite I2. f_equal. rewrite <- Et. symmetry. exact (proj1 (Forall_forall _ _) Hid t Ht). }
    destruct (X mine (Inl mine Hin)) as [X1 X2]. exists mine, (flat_map (fun x => match find_tgt ts x with Some t => [t] | None => [] end) mine). unfold dist_targets_copy. rewrite Ed. cbn [rbind]. rewrite Hmi, X1. cbn [rbind]. split; [reflexivity|]. rewrite En. split; [reflexivity|now symmetry].
  - exact (C20_finished_run_exists size (length ps) eager Hs).
  - intros kr sr Hr Hf. rewrite Eid in *. assert (Lm : length (map loc d) = size) by now rewrite map_length.
    destruct (C144_mpi_gives_serial_table ps (map loc d) (map t_data ts) eager kr sr tab) as (ress & Er & Lr & G); try (rewrite Lm; assumption); try assumption.
    exists ress. split; [exact Er|].
    assert (R : ring_ok (length (map loc d)) (length ps) sr). { rewrite Lm. intros r t Hlt. exact (proj1 (C20_ring_each_slice_once _ _ _ _ _ r Hs Hr Hf Hlt) t). }
    destruct (mpi_serial slv argsort polyfit isqrt trans nminima nz ps (map loc d) (map t_data ts) sr) as [_ M2]; try (rewrite Lm; assumption); try assumption.
    destruct (M2 ress Er) as (_ & F & _). split.
    + apply C14_finished_run_exists; [exact Hm|exact (eq_ind_r (fun n => 1 <= n) Hs (eq_trans Lr Lm))|exact F].
    + intros kg sg. now apply G.
Qed.

(* the bound on the number of ranks is needed: with more ranks than redshifts of one template there is no table *)
Theorem C144_too_many_ranks : forall ps locals sr p,
  In p ps -> length (p_zs p) < length locals -> forall ress, ranks_run ps locals sr <> Ok ress.
Proof.
  intros ps locals sr p Hp Hl ress. unfold Model_RunMPI.ranks_run. destruct (mapM _ ps) as [pcss|] eqn:E; cbn [rbind]; [|discriminate]. exfalso.
  destruct (In_nth _ _ p Hp) as (i & Hi & Ei). pose proof (mapM_nth _ _ _ i p [] E Hi) as X. cbv beta in X. rewrite Ei in X. unfold pieces in X.
  pose proof (mapM_nth _ _ _ (length locals - 1) 0 (0, []) X) as Y. rewrite seq_length in Y. specialize (Y ltac:(lia)). rewrite seq_nth in Y by lia. cbn [Nat.add] in Y. unfold rank_piece in Y.
  rewrite (C24_more_ranks_than_redshifts_refuted (p_zs p) (length locals) Hl) in Y. discriminate.
Qed.
End Props.
Print Assumptions C144_mpi_gives_serial_table.
Print Assumptions C144_mpi_gives_only_serial_table.
Print Assumptions C144_distributed_run.
Print Assumptions C144_too_many_ranks.

(* ---------------- a concrete run ---------------- *)
Definition mrun := ranks_run demo argsort0 lagrange3 (fun x => x) no_igm 2 3.
Local Opaque mrun.
Definition tt1 : tgt targ := {| t_id := 7; t_nspec := 1; t_data := g1 |}.
Definition tt2 : tgt targ := {| t_id := 9; t_nspec := 1; t_data := g2 |}.
Example C144_nonvacuous : Permutation (concat [[g2]; [g1]]) [g1; g2] /\ Forall (fun t => t_id t = g_id (t_data t)) [tt1; tt2] /\ NoDup (map t_id [tt1; tt2]) /\ hashes_tell_grids (map t_data [tt1; tt2]) /\
  Forall usable [ga; st] /\ Forall (fun p => 2 <= length (p_zs p)) [ga; st] /\ exists tab, erun [ga; st] [g1; g2] = Ok tab /\ length tab = 4.
Proof.
  split; [apply perm_swap|]. split; [repeat constructor|]. split; [repeat constructor; cbn; intuition discriminate|]. split; [exact two_tell|]. split; [repeat constructor; cbn; try discriminate; unfold Qle; cbn; lia|].
  split; [repeat constructor|]. destruct (tell_ok _ _ _ run_two) as (tab & E & M). exists tab. split; [exact E|]. clear E. destruct tab as [|a [|b [|c [|d [|]]]]]; try discriminate M. reflexivity.
Qed.
(* the pieces of the two ranks in the order in which rank 0 and rank 1 see them *)
Example C144_run : match mrun [ga; st] [[g2]; [g1]] {| g_rk := fun r => {| k_hold := (1, r); k_phase := PDone; k_log := [(0, r); (0, 1 - r); (1, r); (1, 1 - r)] |}; g_chan := fun _ => [] |} with
  | Ok ress => match table 2 [ga; st] [7; 9]%Z (concat ress), erun [ga; st] [g1; g2] with Ok a, Ok b => a = b /\ length a = 4 | _, _ => False end
  | Err _ => False end.
Proof. vm_compute. split; reflexivity. Qed.
