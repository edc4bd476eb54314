(* rrdesi with MPI gives the table of rrdesi without: C157. *)
From Verif Require Import Prelude PreludeFacts NumX Facts2 Model_Fitz Spec_Fitz Proof_Fitz Model_Rebin Model_Dist Proof_Dist3 Props_Dist Model_MPI Props_Par Model_Zscan Spec_Zscan Model_Piece Model_IO Model_Zfind Model_Targets Model_Desi Spec_Desi Proof_Desi2 Proof_Desi4 Props_Desi Proof_Table
  Model_Run Spec_Run Proof_Run Proof_Run2 Proof_Run3 Proof_Run7 Model_RunMPI Proof_RunMPI Proof_RunMPI2 Proof_RunMPI3 Props_RunMPI Model_RunDesi Spec_RunDesi Proof_RunDesi Model_RunDesiMPI Props_GPU Props_Zscan2 Props_Fitz Props_Run Props_RunDesi.
Open Scope nat_scope.

Section Props.
Variables (slv : solvers) (argsort : list xq -> list nat) (polyfit : list Q -> list Q -> option (Q * Q * Q)) (isqrt : Q -> Q).
Variable trans : option string -> Q -> Q -> Q.
Variables (nminima nz : nat).
Variables (hashf : hash_arg -> Z) (tocsr : dia -> csr) (fb : fbits).
Notation rrdesi := (rrdesi slv argsort polyfit isqrt trans nminima nz hashf tocsr fb).
Notation ranks_run := (ranks_run slv argsort polyfit isqrt trans nminima nz).
Notation root_table := (root_table nminima fb).
Notation read_ranks := (read_ranks hashf tocsr).

(* reading on the ranks and reading of all targets *)
Lemma ranks_read o fs size locals : in_order fs -> 0 < size -> read_ranks o fs size = Ok locals ->
  length locals = size /\ exists tgs, map g_id tgs = all_ids fs /\ Permutation (concat locals) tgs /\ forall g, In g tgs -> reads hashf tocsr o fs g.
Proof.
  intros (T & (mk & M) & _) Hs H. unfold Model_RunDesiMPI.read_ranks in H.
  destruct (C16_distribute_work_partition size (all_ids fs) (if o_allspec o then Some (fun t => Some (inject_Z (Z.of_nat (target_weight fs t)))) else None) None) as (dist & E & L & P); [exact Hs|intros x _; destruct (o_allspec o); discriminate|apply repeat_length|apply Forall_forall; intros x Hx; apply repeat_spec in Hx; subst; reflexivity|].
  apply mapM_Forall2 in H. assert (Ll : length locals = size) by (rewrite <- (Forall2_len _ _ _ H); apply seq_length). split; [exact Ll|].
  assert (F : Forall2 (fun my loc => map g_id loc = my /\ forall g, In g loc -> reads hashf tocsr o fs g) dist locals).
  { assert (X : forall my loc, (do sts <- load_proc (o_negflux o) fs my; mapM (fun p => prepare hashf tocsr o (fst p) (t_slots (snd p))) sts) = Ok loc -> map g_id loc = my /\ forall g, In g loc -> reads hashf tocsr o fs g).
    { intros my loc Hl. destruct (C66_target_rows (Build_dia [] [] 0) (o_negflux o) fs my mk T M) as (out & E2 & F). rewrite E2 in Hl. cbn [rbind] in Hl. pose proof (mapM_F2 _ _ _ _ _ F Hl) as G. cbv beta in G. clear -G. induction G as [|t g l l' (p & [Hp Hr] & Hg) _ [I1 I2]]; [split; [reflexivity|intros g []]|]. pose proof (prepare_id _ _ _ _ _ _ Hg) as Ei. split; [cbn [map]; rewrite I1, Ei, Hp; reflexivity|].
      intros x [<-|Hx]; [|now apply I2]. exists (t_slots (snd p)). rewrite Ei, Hp. split; [exact Hr|]. rewrite Hp in Hg. exact Hg. }
    apply (Forall2_nth_intro _ [] []); [congruence|]. intros i Hi. apply X. assert (Hi' : nth_error (seq 0 size) i = Some i) by (rewrite <- (map_id (seq 0 size)); apply nth_error_tab; lia). assert (Hl : nth_error locals i = Some (nth i locals [])) by (apply nth_error_nth'; lia).
    pose proof (Forall2_nth2 _ _ _ _ _ _ H Hi' Hl) as Y. unfold read_rank, rank_targets in Y. rewrite E in Y. cbn [rbind] in Y. rewrite (nth_error_nth' dist [] Hi) in Y. cbn [rbind] in Y. exact Y. }
  assert (Ei : map g_id (concat locals) = concat dist) by (clear -F; induction F as [|my loc d l [H _] _ IH]; [reflexivity|]; cbn [concat]; now rewrite map_app, H, IH).
  assert (R : forall g, In g (concat locals) -> reads hashf tocsr o fs g) by (intros g Hg; apply in_concat in Hg as (loc & Hl & Hg); destruct (Forall2_in_r _ _ _ _ F Hl) as (my & _ & _ & Hr); now apply Hr).
  rewrite <- Ei in P. destruct (Permutation_map_inv g_id (concat locals) (Permutation_sym P)) as (tgs & E3 & P3). exists tgs. split; [now symmetry|]. split; [exact P3|]. intros g Hg. apply R. eapply Permutation_in; [symmetry; exact P3|exact Hg].
Qed.
Lemma ranks_ready o fs size tgs : in_order fs -> 0 < size -> map g_id tgs = all_ids fs -> (forall g, In g tgs -> reads hashf tocsr o fs g) -> exists locals, read_ranks o fs size = Ok locals.
Proof.
  intros (T & (mk & M) & _) Hs Ei R. unfold Model_RunDesiMPI.read_ranks.
  destruct (C16_distribute_work_partition size (all_ids fs) (if o_allspec o then Some (fun t => Some (inject_Z (Z.of_nat (target_weight fs t)))) else None) None) as (dist & E & L & P); [exact Hs|intros x _; destruct (o_allspec o); discriminate|apply repeat_length|apply Forall_forall; intros x Hx; apply repeat_spec in Hx; subst; reflexivity|].
  destruct (mapM_choose (read_rank hashf tocsr o fs size) (fun _ _ => True) (seq 0 size)) as (locals & El & _); [|now exists locals].
  intros i Hi. apply in_seq in Hi. unfold read_rank, rank_targets. rewrite E. cbn [rbind]. rewrite (nth_error_nth' dist []) by lia. cbn [rbind]. set (my := nth i dist []).
  assert (Sub : forall t, In t my -> exists g, In g tgs /\ g_id g = t). { intros t Ht. assert (I : In t (map g_id tgs)) by (rewrite Ei; eapply Permutation_in; [exact P|]; apply in_concat; exists my; split; [apply nth_In; lia|exact Ht]). apply in_map_iff in I as (g & Eg & Ig). now exists g. }
  destruct (C66_target_rows (Build_dia [] [] 0) (o_negflux o) fs my mk T M) as (out & E2 & F). rewrite E2. cbn [rbind].
  destruct (mapM_choose (fun p => prepare hashf tocsr o (fst p) (t_slots (snd p))) (fun _ _ => True) out) as (loc & Hl & _); [|exists loc; now split].
  intros p Hp. destruct (Forall2_in_r _ _ _ _ F Hp) as (t & Ht & Hpt & Hr). destruct (Sub t Ht) as (g & Ig & Eg). destruct (R g Ig) as (sl & Hs' & Hg). rewrite Eg in *. assert (Es : sl = t_slots (snd p)) by (eapply slots_unique; eassumption). exists g. split; [|exact I]. rewrite Hpt, <- Es. exact Hg.
Qed.

(* What rrdesi gives without MPI it gives with MPI: every rank can read its targets, and for every order of the messages of the ring (blocking or eager) and of the gather (any batch size) rank 0 gets the same table.
   Runs of the ring and of the gather that finish exist. *)
Theorem C157_mpi_gives_serial_table : forall o ps ds fs size eager maxb cap tab, open_files o ds = Ok fs -> in_order fs -> 0 < size -> 0 < maxb ->
  Forall usable ps -> Forall (fun p => size <= length (p_zs p)) ps -> rrdesi o ps ds = Ok tab ->
  exists locals, read_ranks o fs size = Ok locals /\ length locals = size /\
    (exists kr sr, ring_steps size (length ps) eager kr (ring_init (length ps)) sr /\ ring_finished size sr) /\
    forall kr sr, ring_steps size (length ps) eager kr (ring_init (length ps)) sr -> ring_finished size sr ->
      exists ress, ranks_run ps locals sr = Ok ress /\
        (exists kg sg, gsteps (length ress) cap kg (gather_init maxb ress) sg /\ gather_finished (length ress) sg) /\
        forall kg sg, gsteps (length ress) cap kg (gather_init maxb ress) sg -> gather_finished (length ress) sg ->
          root_table ps ds fs (allresults (hd [] ress) sg) = Ok tab.
Proof.
  intros o ps ds fs size eager maxb cap tab E Or Hs Hm U L H. apply (rrdesi_run slv argsort polyfit isqrt trans nminima nz hashf tocsr fb o ps ds fs tab E Or) in H as (tgs0 & tab0 & Ei0 & R0 & Hr0 & ->).
  destruct (ranks_ready o fs size tgs0 Or Hs Ei0 R0) as (locals & El). destruct (ranks_read o fs size locals Or Hs El) as (Ll & tgs & Ei & P & R). exists locals. split; [exact El|]. split; [exact Ll|]. split; [exact (C20_finished_run_exists size (length ps) eager Hs)|].
  assert (Es : tgs0 = tgs). { clear -Ei0 Ei R0 R. assert (G : forall a b, map g_id a = map g_id b -> (forall g, In g a -> reads hashf tocsr o fs g) -> (forall g, In g b -> reads hashf tocsr o fs g) -> a = b); [|apply G; [congruence|assumption|assumption]].
    induction a as [|x a IH]; intros [|y b] Em Ra Rb; try discriminate; [reflexivity|]. cbn [map] in Em. injection Em as Ex Em. f_equal; [|apply IH; [exact Em|intros; apply Ra; now right|intros; apply Rb; now right]]. eapply reads_same; [now repeat split|reflexivity|exact Ex|apply Ra; now left|apply Rb; now left]. }
  subst tgs0. assert (N : NoDup (map g_id tgs)) by (rewrite Ei; apply ids_nodup). assert (C : hashes_tell_grids tgs) by (eapply reads_tell; [exact Or|exact R]).
  intros kr sr Hk Hf. destruct (C144_mpi_gives_serial_table slv argsort polyfit isqrt trans nminima nz ps locals tgs eager kr sr tab0) as (ress & Er & Lr & G); try (rewrite Ll; assumption); try assumption.
  exists ress. split; [exact Er|]. assert (Ro : ring_ok (length locals) (length ps) sr). { rewrite Ll. intros r t Hlt. exact (proj1 (C20_ring_each_slice_once _ _ _ _ _ r Hs Hk Hf Hlt) t). }
  destruct (mpi_serial slv argsort polyfit isqrt trans nminima nz ps locals tgs sr) as [_ M2]; try (rewrite Ll; assumption); try assumption. destruct (M2 ress Er) as (_ & F & _). split.
  - apply C14_finished_run_exists; [exact Hm|exact (eq_ind_r (fun n => 1 <= n) Hs (eq_trans Lr Ll))|exact F].
  - intros kg sg Hg Hgf. unfold Model_RunDesiMPI.root_table. rewrite <- Ei. rewrite (G maxb cap kg sg Hm Hg Hgf). reflexivity.
Qed.
(* ... and nothing else. *)
Theorem C157_only_serial_table : forall o ps ds fs size eager kr sr locals ress maxb cap kg sg tab, open_files o ds = Ok fs -> in_order fs -> 0 < size -> 0 < maxb ->
  Forall usable ps -> Forall (fun p => size <= length (p_zs p)) ps -> read_ranks o fs size = Ok locals ->
  ring_steps size (length ps) eager kr (ring_init (length ps)) sr -> ring_finished size sr -> ranks_run ps locals sr = Ok ress ->
  gsteps (length ress) cap kg (gather_init maxb ress) sg -> gather_finished (length ress) sg ->
  root_table ps ds fs (allresults (hd [] ress) sg) = Ok tab -> rrdesi o ps ds = Ok tab.
Proof.
  intros o ps ds fs size eager kr sr locals ress maxb cap kg sg tab E Or Hs Hm U L El Hk Hf Er Hg Hgf H. destruct (ranks_read o fs size locals Or Hs El) as (Ll & tgs & Ei & P & R). apply (rrdesi_run slv argsort polyfit isqrt trans nminima nz hashf tocsr fb o ps ds fs tab E Or).
  unfold Model_RunDesiMPI.root_table in H. destruct (table nminima ps (all_ids fs) (allresults (hd [] ress) sg)) as [tab0|] eqn:Et; cbn [rbind] in H; [|discriminate]. exists tgs, tab0. split; [exact Ei|]. split; [exact R|]. split; [|congruence].
  rewrite <- Ei in Et. apply (C144_mpi_gives_only_serial_table slv argsort polyfit isqrt trans nminima nz ps locals tgs eager kr sr ress maxb cap kg sg tab0); try (rewrite Ll; assumption); try assumption; [rewrite Ei; apply ids_nodup|eapply reads_tell; [exact Or|exact R]].
Qed.
End Props.

(* the files of Props_RunDesi.v on three ranks *)
Example C157_nonvacuous : Forall usable [ga; st] /\ Forall (fun p => 3 <= length (p_zs p)) [ga; st] /\ match read_ranks (fun _ => 3%Z) (fun r => idcsr (d_n r)) oall (opened oall [fA; fB]) 3 with Ok l => map (map g_id) l = [[5]; [7]; [8]]%Z | Err _ => False end.
Proof. split; [repeat constructor; try discriminate|]. split; [repeat constructor|]. vm_compute. reflexivity. Qed.
Print Assumptions C157_mpi_gives_serial_table. Print Assumptions C157_only_serial_table.
