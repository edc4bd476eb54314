(* C182: the model file with MPI. *)
From Verif Require Import Prelude PreludeFacts NumX Facts2 Model_Fitz Model_Rebin Model_Dist Proof_Dist3 Model_MPI Proof_Table Model_Zscan Model_Piece Model_IO Model_Zfind Model_Targets Model_Desi
  Model_Run Spec_Run Proof_Run Proof_Run3 Model_RunMPI Proof_RunMPI Model_RunDesi Spec_RunDesi Proof_RunDesi Model_RunDesiMPI Props_RunDesiMPI Model_Models Model_ModelFile Proof_ModelFile Model_ModelFileMPI Spec_ModelFileMPI Proof_ModelFileMPI
  Props_GPU Props_Zscan2 Props_Fitz Props_Run Props_RunDesi Props_ModelFile.
Open Scope nat_scope.

Section Props.
Variables (slv : solvers) (argsort : list xq -> list nat) (polyfit : list Q -> list Q -> option (Q * Q * Q)) (isqrt : Q -> Q).
Variable trans : option string -> Q -> Q -> Q.
Variables (nminima nz : nat).
Variables (hashf : hash_arg -> Z) (tocsr : dia -> csr) (fb : fbits).
Notation rrdesi := (rrdesi slv argsort polyfit isqrt trans nminima nz hashf tocsr fb).
Notation rrdesi_files := (rrdesi_files slv argsort polyfit isqrt trans nminima nz hashf tocsr fb).
Notation ranks_run := (ranks_run slv argsort polyfit isqrt trans nminima nz).
Notation root_table := (root_table nminima fb).
Notation read_ranks := (read_ranks hashf tocsr).

(* Whatever the table: the models gathered from the ranks make the same file, up to the order of the HDUs, as the models of one process. *)
Theorem C182_gathered : forall o fs size locals tgs ps tab, in_order fs -> 0 < size -> read_ranks o fs size = Ok locals -> read_targets hashf tocsr o fs = Ok tgs ->
  same_file (model_hdus ps tab tgs) (root_hdus ps tab locals).
Proof.
  intros o fs size locals tgs ps tab Or Hs El Et. destruct (ranks_read hashf tocsr o fs size locals Or Hs El) as (_ & t1 & E1 & P1 & R1). destruct (read_ok hashf tocsr o fs Or tgs Et) as (t2 & P2 & E2 & R2).
  assert (E : t1 = t2). { clear -E1 E2 R1 R2. assert (G : forall a b, map g_id a = map g_id b -> (forall g, In g a -> reads hashf tocsr o fs g) -> (forall g, In g b -> reads hashf tocsr o fs g) -> a = b); [|apply G; [congruence|assumption|assumption]].
    induction a as [|x a IH]; intros [|y b] Em Ra Rb; try discriminate; [reflexivity|]. cbn [map] in Em. injection Em as Ex Em. f_equal; [|apply IH; [exact Em|intros; apply Ra; now right|intros; apply Rb; now right]]. eapply reads_same; [now repeat split|reflexivity|exact Ex|apply Ra; now left|apply Rb; now left]. }
  subst t2. assert (P : Permutation tgs (concat locals)) by (rewrite P2; now symmetry). assert (T1 : hashes_tell_grids t1) by (eapply reads_tell; [exact Or|exact R1]).
  assert (N1 : NoDup (map g_id t1)) by (rewrite E1; apply ids_nodup).
  assert (K : forall a, Permutation a t1 -> NoDup (map g_id a) /\ hashes_tell_grids a). { intros a Pa. split; [eapply Permutation_NoDup; [apply Permutation_map; symmetry; exact Pa|exact N1]|]. intros g g' s s' I I'. apply T1; eapply Permutation_in; eauto. }
  destruct (K tgs P2) as [Na Ta]. destruct (K (concat locals) P1) as [Nb Tb]. unfold same_file. destruct (model_hdus ps tab tgs) as [h|] eqn:Eh.
  - destruct (model_perm ps tab tgs (concat locals) h Na Ta P Eh) as (h' & E' & Ph). apply root_concat in E'. rewrite E'. exact Ph.
  - destruct (root_hdus ps tab locals) as [h'|] eqn:E'; [|exact I]. apply root_concat in E'. destruct (model_perm ps tab (concat locals) tgs h' Nb Tb (Permutation_sym P) E') as (h & X & _). congruence.
Qed.
(* every run with MPI that ends with a table ends with the files of the run without: the same redshifts and the same models *)
Theorem C182_mpi_files : forall o ps ds fs size eager kr sr locals ress maxb cap kg sg tab, open_files o ds = Ok fs -> in_order fs -> 0 < size -> 0 < maxb ->
  Forall usable ps -> Forall (fun p => size <= length (p_zs p)) ps -> read_ranks o fs size = Ok locals ->
  ring_steps size (length ps) eager kr (ring_init (length ps)) sr -> ring_finished size sr -> ranks_run ps locals sr = Ok ress ->
  gsteps (length ress) cap kg (gather_init maxb ress) sg -> gather_finished (length ress) sg ->
  root_table ps ds fs (allresults (hd [] ress) sg) = Ok tab ->
  exists m, rrdesi_files o ps ds = Ok (tab, m) /\ same_file m (root_hdus ps tab locals).
Proof.
  intros o ps ds fs size eager kr sr locals ress maxb cap kg sg tab E Or Hs Hm U L El Hk Hf Er Hg Hgf H.
  pose proof (C157_only_serial_table slv argsort polyfit isqrt trans nminima nz hashf tocsr fb o ps ds fs size eager kr sr locals ress maxb cap kg sg tab E Or Hs Hm U L El Hk Hf Er Hg Hgf H) as Hr.
  apply (C181_table slv argsort polyfit isqrt trans nminima nz hashf tocsr fb) in Hr as (m & Hm2). exists m. split; [exact Hm2|].
  unfold Model_ModelFile.rrdesi_files in Hm2. rewrite E in Hm2. cbn [rbind] in Hm2. destruct (read_targets hashf tocsr o fs) as [tgs|] eqn:Et; cbn [rbind] in Hm2; [|discriminate].
  destruct (run_local _ _ _ _ _ _ _ ps tgs (all_ids fs)) as [tab0|]; cbn [rbind] in Hm2; [|discriminate]. injection Hm2 as Et2 Em. rewrite Et2 in Em. subst m. exact (C182_gathered o fs size locals tgs ps tab Or Hs El Et).
Qed.
End Props.

(* ---------------- concrete runs ---------------- *)
Local Notation dfiles := (Model_ModelFile.rrdesi_files demo argsort0 lagrange3 (fun x => x) no_igm 2 3 (fun _ => 3%Z) (fun r => idcsr (d_n r)) dbits).
Local Notation dranks := (Model_RunDesiMPI.read_ranks (fun _ => 3%Z) (fun r => idcsr (d_n r))).
(* the files of Props_RunDesi.v on three ranks: one target each; the gathered models make a file of one HDU with three rows *)
Example C182_nonvacuous : exists tab h h' locals, dfiles oall [ga; st] [fA; fB] = Ok (tab, Ok h) /\ dranks oall (opened oall [fA; fB]) 3 = Ok locals /\ map (map g_id) locals = [[5]; [7]; [8]]%Z /\
  root_hdus [ga; st] tab locals = Ok h' /\ map (fun x => (fst x, fst (snd x), map (@Datatypes.length Q) (snd (snd x)))) h' = [(198%Z, [20; 30]%Q, [2; 2; 2])].
Proof.
  assert (W : match dfiles oall [ga; st] [fA; fB], dranks oall (opened oall [fA; fB]) 3 with
              | Ok (tab, Ok h), Ok locals => (map (map g_id) locals, written (root_hdus [ga; st] tab locals)) | _, _ => ([], []) end = ([[5]; [7]; [8]]%Z, [(198%Z, [20; 30]%Q, [2; 2; 2])])) by (vm_compute; reflexivity).
  destruct (dfiles oall [ga; st] [fA; fB]) as [[tab m]|]; [|discriminate W]. destruct m as [h|]; [|discriminate W]. destruct (dranks oall (opened oall [fA; fB]) 3) as [locals|]; [|discriminate W].
  injection W as W1 W2. destruct (root_hdus [ga; st] tab locals) as [h'|] eqn:Er; [|discriminate W2]. exists tab, h, h', locals. do 2 (split; [reflexivity|]). split; [exact W1|]. split; [exact Er|exact W2].
Qed.
Print Assumptions C182_gathered. Print Assumptions C182_mpi_files.
