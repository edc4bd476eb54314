(* What a user expects of an MPI job, and of the options of rrdesi and rrboss. *)
From Verif Require Import Prelude Model_Dist Model_Desi Model_RunDesi Model_Comm Model_CommMain.
Open Scope nat_scope.

(* at every moment of every execution the job is over, or some process is sure to move; and no execution goes on for ever *)
Definition never_hangs (P : nat) (p : nat -> prog unit) : Prop :=
  (forall s, steps P (init p) s -> ended P s \/ exists r, r < P /\ must s r) /\
  ~ exists f : nat -> st, f 0 = init p /\ forall n, step P (f n) (f (S n)).
(* moreover no process aborts the job or ends with an exception *)
Definition finishes (P : nat) (p : nat -> prog unit) : Prop :=
  never_hangs P p /\ forall s, steps P (init p) s -> aborted s = false /\ forall r, r < P -> over (code s r) -> code s r = Ret tt.

(* the ranks that rrdesi uses: all, or the first --max-gpuprocs in GPU mode *)
Definition used (o : mopts) (P : nat) : nat := match (if m_gpu o then m_maxgpu o else None) with Some k => if (k <? Z.of_nat P)%Z then Z.to_nat k else P | None => P end.
(* the options are acceptable *)
Definition options_ok (e : env) (o : mopts) (m : nat) : Prop :=
  (m_debug o = true -> m = 1) /\ (m_details o = true \/ m_outfile o = true) /\ e_files e <> [] /\ (o_ids (m_d o) = None \/ o_first (m_d o) = None) /\ (m_gpu o = true -> e_gpu_ok e = true) /\
  m_arch o <> ArchMissing /\ (forall n, m_arch o = ArchFile n -> has_dash n = true) /\ m_ids_parse o = true.
(* the targets asked for are in each file *)
Definition selection_ok (e : env) (o : mopts) : Prop := forall d, In d (e_files e) -> exists k, window (match o_ids (m_d o) with None => map fm_id (df_fm d) | Some l => l end) (o_first (m_d o)) (o_n (m_d o)) = Ok k.
(* nothing that a process does by itself fails *)
Definition no_failure (e : env) : Prop := forall r line i, e_ok e r line i = true.
(* with --gpu and without --max-gpuprocs: either every node shows its GPUs in /proc or none does (and CUDA works on all) *)
Definition alike_nodes (e : env) (o : mopts) (m : nat) : Prop := m_gpu o = true -> m_maxgpu o = None ->
  (forall r, r < m -> e_proc e r <> None) \/ (forall r, r < m -> e_proc e r = None /\ e_ok e r 251 0 = true).
(* rrboss *)
Definition boss_options_ok (o : bopts) (m : nat) : Prop := (b_debug o = true -> m = 1) /\ (b_output o = true \/ b_zbest o = true) /\ b_both o = false /\ b_ids_parse o = true.
