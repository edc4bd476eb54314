(* C95, C96: the GPU scan. *)
From Verif Require Import Prelude PreludeFacts Facts2 Model_Fitz Model_Dist Model_Rebin Model_Zscan Spec_Zscan
  Proof_Zscan Proof_Zscan2 Model_GPU Spec_GPU Proof_GPU Proof_GPU2 Proof_GPU3 Proof_Table.
Local Arguments Qred : simpl never.
Local Open Scope nat_scope.

Lemma threads_eq fp nz nb : threads fp nz nb = launched (n_3d3d nz nb (nparallel fp nz)).
Proof.
  unfold threads, launched, n_3d3d, nparallel, block_size.
  replace (nz * nb * nb * (if fp then 4 else if nz <=? 512 then 64 else 4) + 512 - 1) with
    (nz * nb * nb * (if fp then 4 else if nz <=? 512 then 64 else 4) + 511) by lia. reflexivity.
Qed.
Lemma any_order_schedule sched fp nz nb : any_order sched fp nz nb -> schedule sched fp nz nb.
Proof. unfold any_order, schedule. rewrite threads_eq. auto. Qed.

(* ================= C95 ================= *)
(* calc_zchi2_batch: whatever the order of the threads and the old contents of the device memory, the
   GPU gives exactly the numbers of the CPU at every redshift where the CPU fit did not fail *)
Theorem C95_batch_partial S alg args prior spectra tdata w f wf nz nb junk sched fp z c :
  solvers_agree S -> good_input nz nb spectra tdata -> 0 < nz -> any_order sched fp nz nb ->
  calc_zchi2_batch S alg args prior spectra tdata w f wf nz nb = Ok (z, c) ->
  exists z' c', calc_zchi2_batch_gpu junk sched fp S alg args prior spectra tdata w f wf nz nb = Ok (z', c') /\
    length z' = nz /\ length c' = nz /\
    forall i, i < nz -> ~ failed_fit nb (nth i z 0%Q) (nth i c []) ->
      nth i z' 0%Q = nth i z 0%Q /\ nth i c' [] = nth i c [].
Proof.
  intros HS HI Hn Ho HC.
  destruct (gpu_agrees S alg args prior spectra tdata w f wf nz nb junk sched fp z c HS HI Hn (any_order_schedule _ _ _ _ Ho) HC)
    as (z' & c' & E & L1 & L2 & H).
  exists z', c'. split; [exact E|]. split; [exact L1|]. split; [exact L2|]. intros i Hi Hf.
  destruct (H i Hi) as [H0|H0]; [exact H0|]. exfalso. apply Hf. exact H0.
Qed.

(* calc_zchi2: the whole scan of all targets: chi2, coefficients and penalty *)
Theorem C95_scan_partial S t tdata nz targets junk sched out :
  solvers_agree S -> (forall spectra, In spectra targets -> good_input nz (length (t_flux t)) spectra tdata) -> 0 < nz ->
  (forall j, any_order (sched j) false nz (length (t_flux t))) ->
  calc_zchi2 S t tdata nz targets = Ok out ->
  exists out', calc_zchi2_gpu junk sched S t tdata nz targets = Ok out' /\ length out' = length out /\
    forall j i, j < length out -> i < nz ->
      let '(z, c, p) := nth j out ([], [], []) in let '(z', c', p') := nth j out' ([], [], []) in
      ~ failed_fit (length (t_flux t)) (nth i z 0%Q) (nth i c []) ->
      nth i z' 0%Q = nth i z 0%Q /\ nth i c' [] = nth i c [] /\ nth i p' 0%Q = nth i p 0%Q.
Proof.
  intros HS HI Hn Ho HC. set (nb := length (t_flux t)) in *. unfold calc_zchi2 in HC. apply mapM_Forall2 in HC.
  assert (Hone : forall spectra zcp j, In spectra targets -> zchi2_target S t tdata nz spectra = Ok zcp ->
    exists zcp', zchi2_target_gpu (junk j) (sched j) S t tdata nz spectra = Ok zcp' /\ forall i, i < nz ->
      let '(z, c, p) := zcp in let '(z', c', p') := zcp' in
      ~ failed_fit nb (nth i z 0%Q) (nth i c []) ->
      nth i z' 0%Q = nth i z 0%Q /\ nth i c' [] = nth i c [] /\ nth i p' 0%Q = nth i p 0%Q).
  { intros spectra [[z c] p] j Hin E. unfold zchi2_target in E. unfold zchi2_target_gpu.
    destruct (spectral_data spectra) as [[[w f] wf]|]; [|discriminate]. cbn [rbind] in *. fold nb in E |- *.
    destruct (Qeq_bool (sumQ w) 0).
    - exists (z, c, p). split; [exact E|]. intros i Hi _. split; [reflexivity|]. split; reflexivity.
    - destruct (calc_zchi2_batch S (t_method t) None None spectra tdata w f wf nz nb) as [[z0 c0]|] eqn:EB; [|discriminate].
      cbn [rbind fst snd] in E. assert (z0 = z) as -> by congruence. assert (c0 = c) as -> by congruence.
      destruct (gpu_agrees S (t_method t) None None spectra tdata w f wf nz nb (junk j) (sched j) false z c HS (HI spectra Hin) Hn
        (any_order_schedule _ _ _ _ (Ho j)) EB) as (z' & c' & E' & L1 & L2 & H).
      rewrite E'. cbn [rbind fst snd]. eexists. split; [reflexivity|]. intros i Hi Hf.
      destruct (H i Hi) as [[H1 H2]|H0]; [|exfalso; apply Hf; exact H0]. split; [exact H1|]. split; [exact H2|].
      assert (Ep : p = match OIItemplate t with Some A => calc_negOII_penalty A c | None => repeat 0%Q nz end) by congruence.
      rewrite Ep. destruct (OIItemplate t) as [A|]; [|reflexivity]. unfold calc_negOII_penalty.
      assert (Lc : length c = nz).
      { unfold calc_zchi2_batch in EB. destruct (Qeq_bool (sumQ w) 0).
        - assert (c = repeat (repeat 0%Q nb) nz) as -> by congruence. apply repeat_length.
        - destruct (mapM _ (seq 0 nz)) as [r|] eqn:ER; [|discriminate]. cbn [rbind] in EB.
          assert (c = map snd r) as -> by congruence. apply mapM_Forall2 in ER. apply Forall2_len in ER. rewrite seq_length in ER.
          rewrite map_length. congruence. }
      rewrite (nth_indep (map (negOII_row A) c') 0%Q (negOII_row A [])) by (rewrite map_length, L2; exact Hi).
      rewrite (nth_indep (map (negOII_row A) c) 0%Q (negOII_row A [])) by (rewrite map_length, Lc; exact Hi).
      rewrite !(map_nth (negOII_row A)). rewrite H2. reflexivity. }
  unfold calc_zchi2_gpu, enum.
  assert (HG : forall k, exists out', mapM (fun p => zchi2_target_gpu (junk (fst p)) (sched (fst p)) S t tdata nz (snd p)) (enum_from k targets) = Ok out' /\
     Forall2 (fun zcp zcp' => forall i, i < nz ->
      let '(z, c, p) := zcp in let '(z', c', p') := zcp' in
      ~ failed_fit nb (nth i z 0%Q) (nth i c []) ->
      nth i z' 0%Q = nth i z 0%Q /\ nth i c' [] = nth i c [] /\ nth i p' 0%Q = nth i p 0%Q) out out').
  { clear HI. induction HC as [|spectra zcp targets out E1 HC IH]; intros k.
    - exists []. split; [reflexivity|constructor].
    - destruct (Hone spectra zcp k (or_introl eq_refl) E1) as (zcp' & E' & H').
      destruct (IH (fun sp zc j Hin => Hone sp zc j (or_intror Hin)) (Datatypes.S k)) as (out' & EO & HO).
      exists (zcp' :: out'). cbn [enum_from mapM fst snd]. rewrite E'. cbn [rbind]. rewrite EO. cbn [rbind].
      split; [reflexivity|]. constructor; [exact H'|exact HO]. }
  destruct (HG 0) as (out' & EO & HO). exists out'. split; [exact EO|]. split; [symmetry; exact (Forall2_len _ _ _ HO)|].
  intros j i Hj Hi. pose proof (Forall2_len _ _ _ HO) as HL.
  destruct (Forall2_nth _ _ _ j (nth j out ([], [], [])) HO (nth_error_nth' _ _ Hj)) as (y & Hy & Hr).
  pose proof (nth_error_nth _ _ ([], [], []) Hy) as Ey. specialize (Hr i Hi). rewrite <- Ey in Hr. exact Hr.
Qed.

(* ---- what is missing ---- *)
Definition idcsr (n : nat) : csr := {| r_nrow := n; r_ncol := n; r_val := repeat 1%Q n; r_ind := seq 0 n; r_ptr := seq 0 (S n) |}.
(* 1x1 systems; nnls never converges *)
Definition toy : solvers := {|
  linsolve := fun M y => match M, y with [[m]], [v] => if Qeq_bool m 0 then Err LinAlgError else Ok [Qred (v / m)] | _, _ => Err LinAlgError end;
  nnls := fun _ _ => Err RuntimeError;
  bvls := fun _ _ _ => Err LinAlgError;
  cusolve := fun M y => match M, y with [[m]], [v] => [Qred (v / m)] | _, _ => repeat 0%Q (length y) end |}.
Lemma toy_agree : solvers_agree toy.
Proof.
  split; [|split].
  - intros [|[|m [|]] [|]] [|v [|]]; reflexivity || (cbn; rewrite ?repeat_length; reflexivity).
  - intros [|[|m [|? ?]] [|? ?]] [|v [|? ?]] x; cbn; intros H; try discriminate. destruct (Qeq_bool m 0); [discriminate|congruence].
  - intros; discriminate.
Qed.
Definition spec2 : spectrum := {| s_hash := 1%Z; s_ivar := [1; 4]%Q; s_flux := [2; 3]%Q; s_R := idcsr 2 |}.
Definition tdata2 : tdict := [(1%Z, [[[1]; [1]]; [[1]; [2]]]%Q)].
Lemma spec2_good : good_input 2 1 [spec2] tdata2.
Proof.
  split; [discriminate|]. intros s [<-|[]]. split; [|split; [reflexivity|]].
  - split; [reflexivity|]. intros row jj Hr Hj. cbn in *. destruct row as [|[|?]]; cbn in Hj; [| |lia]; (assert (jj = 0 \/ jj = 1) as [-> | ->] by lia; cbn; lia).
  - eexists. split; [reflexivity|]. split; [reflexivity|]. intros A [<-|[<-|[]]]; (split; [reflexivity|]); intros r [<-|[<-|[]]]; reflexivity.
Qed.
(* a case with all hypotheses, threads in reverse order *)
Example C95_instance : any_order (rev (seq 0 512)) false 2 1 /\
  calc_zchi2_batch toy "PCA" None None [spec2] tdata2 [1;4]%Q [2;3]%Q [2;12]%Q 2 1 = Ok ([4#5; 4#17]%Q, [[14#5]; [26#17]]%Q) /\
  calc_zchi2_batch_gpu (fun _ => 77%Q) (rev (seq 0 512)) false toy "PCA" None None [spec2] tdata2 [1;4]%Q [2;3]%Q [2;12]%Q 2 1
    = Ok ([4#5; 4#17]%Q, [[14#5]; [26#17]]%Q).
Proof.
  split; [|split; [reflexivity|]].
  - unfold any_order. replace (threads false 2 1) with 512 by reflexivity. symmetry. apply Permutation_rev.
  - vm_compute. reflexivity.
Qed.

(* when the solver fails, the CPU reports chi2 = 9999999 and zero coefficients, the GPU reports
   coefficients of 9999999 and the chi2 of that model *)
Theorem C95_solver_failure_refuted : exists spectra tdata w f wf sched z c z' c',
  good_input 1 1 spectra tdata /\ any_order sched false 1 1 /\
  calc_zchi2_batch toy "NNLS" None None spectra tdata w f wf 1 1 = Ok (z, c) /\ failed_fit 1 (nth 0 z 0%Q) (nth 0 c []) /\
  calc_zchi2_batch_gpu (fun _ => 0%Q) sched false toy "NNLS" None None spectra tdata w f wf 1 1 = Ok (z', c') /\
  c' = [[9999999]]%Q /\ (100000000000000 <= nth 0 z' 0)%Q.
Proof.
  exists [{| s_hash := 1%Z; s_ivar := [1; 4]%Q; s_flux := [2; 3]%Q; s_R := idcsr 2 |}], [(1%Z, [[[1]; [1]]]%Q)], [1;4]%Q, [2;3]%Q, [2;12]%Q, (seq 0 512).
  do 4 eexists. split.
  - split; [discriminate|]. intros s [<-|[]]. split; [|split; [reflexivity|]].
    + split; [reflexivity|]. intros row jj Hr Hj. cbn in *. destruct row as [|[|?]]; cbn in Hj; [| |lia]; (assert (jj = 0 \/ jj = 1) as [-> | ->] by lia; cbn; lia).
    + eexists. split; [reflexivity|]. split; [reflexivity|]. intros A [<-|[]]; (split; [reflexivity|]); intros r [<-|[<-|[]]]; reflexivity.
  - split; [unfold any_order; replace (threads false 1 1) with 512 by reflexivity; apply Permutation_refl|].
    split; [reflexivity|]. split; [split; reflexivity|].
    split; [vm_compute; reflexivity|]. split; [reflexivity|]. vm_compute. discriminate.
Qed.
(* a resolution matrix that is not square: accepted on the CPU, out-of-bounds reads on the GPU *)
Theorem C95_rectangular_refuted : exists R tdata sched z c, csr_valid R /\ r_nrow R = 2 /\ r_ncol R = 1 /\ any_order sched false 2 1 /\
  let s := {| s_hash := 1%Z; s_ivar := [1; 1]%Q; s_flux := [1; 2]%Q; s_R := R |} in
  calc_zchi2_batch toy "PCA" None None [s] tdata [1;1]%Q [1;2]%Q [1;2]%Q 2 1 = Ok (z, c) /\ (forall i, i < 2 -> ~ failed_fit 1 (nth i z 0%Q) (nth i c [])) /\
  calc_zchi2_batch_gpu (fun _ => 0%Q) sched false toy "PCA" None None [s] tdata [1;1]%Q [1;2]%Q [1;2]%Q 2 1 = Err IndexError.
Proof.
  exists {| r_nrow := 2; r_ncol := 1; r_val := [1; 1]%Q; r_ind := [0; 0]; r_ptr := [0; 1; 2] |}, [(1%Z, [[[1]]; [[2]]]%Q)], (seq 0 512).
  do 2 eexists. split; [|split; [reflexivity|split; [reflexivity|split]]].
  - split; [reflexivity|]. intros row jj Hr Hj. cbn in *. destruct row as [|[|?]]; cbn in Hj; [| |lia]; (assert (jj = 0 \/ jj = 1) as [-> | ->] by lia; cbn; lia).
  - unfold any_order; replace (threads false 2 1) with 512 by reflexivity; apply Permutation_refl.
  - split; [vm_compute; reflexivity|]. split; [|vm_compute; reflexivity].
    intros [|[|i]] Hi [H _]; try lia; discriminate H.
Qed.

(* ================= C96 ================= *)
(* calc_batch_dot_product_3d3d_gpu: one value for every order of the threads.  Entry (r, c) of the t-th
   output is the sum over j of a(t)'s entry for c and b(t)'s entry for r *)
Theorem C96_any_order_transposed a b nz nrows nb sched fp : length a = nz -> length b = nz -> array3 nrows nb a -> array3 nrows nb b ->
  any_order sched fp nz nb -> exists M, dot_3d3d sched fp true nz nrows nb (flat3 a) (flat3 b) = Ok M /\ length M = nz /\ array3 nb nb M /\
  forall t r c, t < nz -> r < nb -> c < nb ->
    (at2 (nth t M []) r c == bigsum nrows (fun j => at2 (nth t a []) j c * at2 (nth t b []) j r))%Q.
Proof.
  intros La Lb Sa Sb Ho.
  destruct (dot_3d3d_ok (flat3 a) (flat3 b) nz nrows nb true (fun t c j => at2 (nth t a []) j c) (fun t r j => at2 (nth t b []) j r)) with (sched := sched) (fp := fp)
    as (Ms & E & LM & SM & HM).
  - intros t c j Ht Hc Hj. cbv beta iota. replace (t * nrows * nb + c + j * nb) with ((t * nrows + j) * nb + c) by lia. apply flat3_get; auto; lia.
  - intros t r j Ht Hr Hj. replace (t * nrows * nb + r + j * nb) with ((t * nrows + j) * nb + r) by lia. apply flat3_get; auto; lia.
  - apply any_order_schedule. exact Ho.
  - exists Ms. split; [exact E|]. split; [exact LM|]. split; [exact SM|]. intros t r c Ht Hr Hc. exact (proj2 (HM t r c Ht Hr Hc)).
Qed.
Theorem C96_any_order_plain a b nz nrows nb sched fp : length a = nz -> length b = nz -> array3 nb nrows a -> array3 nrows nb b ->
  any_order sched fp nz nb -> exists M, dot_3d3d sched fp false nz nrows nb (flat3 a) (flat3 b) = Ok M /\ length M = nz /\ array3 nb nb M /\
  forall t r c, t < nz -> r < nb -> c < nb ->
    (at2 (nth t M []) r c == bigsum nrows (fun j => at2 (nth t a []) c j * at2 (nth t b []) j r))%Q.
Proof.
  intros La Lb Sa Sb Ho.
  destruct (dot_3d3d_ok (flat3 a) (flat3 b) nz nrows nb false (fun t c j => at2 (nth t a []) c j) (fun t r j => at2 (nth t b []) j r)) with (sched := sched) (fp := fp)
    as (Ms & E & LM & SM & HM).
  - intros t c j Ht Hc Hj. cbv beta iota. replace (t * nrows * nb + c * nrows + j) with ((t * nb + c) * nrows + j) by lia. apply flat3_get; auto; lia.
  - intros t r j Ht Hr Hj. replace (t * nrows * nb + r + j * nb) with ((t * nrows + j) * nb + r) by lia. apply flat3_get; auto; lia.
  - apply any_order_schedule. exact Ho.
  - exists Ms. split; [exact E|]. split; [exact LM|]. split; [exact SM|]. intros t r c Ht Hr Hc. exact (proj2 (HM t r c Ht Hr Hc)).
Qed.
(* two runs of the same launch give identical results *)
Theorem C96_reproducible a b nz nrows nb sched sched' fp : length a = nz -> length b = nz -> array3 nrows nb a -> array3 nrows nb b ->
  any_order sched fp nz nb -> any_order sched' fp nz nb ->
  dot_3d3d sched fp true nz nrows nb (flat3 a) (flat3 b) = dot_3d3d sched' fp true nz nrows nb (flat3 a) (flat3 b).
Proof.
  intros La Lb Sa Sb Ho Ho'.
  assert (Hx : forall s, any_order s fp nz nb -> exists Ms, dot_3d3d s fp true nz nrows nb (flat3 a) (flat3 b) = Ok Ms /\
     length Ms = nz /\ (forall M, In M Ms -> length M = nb /\ forall row, In row M -> length row = nb) /\
     forall t r c, t < nz -> r < nb -> c < nb -> Qred (at2 (nth t Ms []) r c) = at2 (nth t Ms []) r c /\
      (at2 (nth t Ms []) r c == bigsum nrows (fun j => at2 (nth t a []) j c * at2 (nth t b []) j r))%Q).
  { intros s Hs. apply (dot_3d3d_ok (flat3 a) (flat3 b) nz nrows nb true (fun t c j => at2 (nth t a []) j c) (fun t r j => at2 (nth t b []) j r)).
    - intros t c j Ht Hc Hj. cbv beta iota. replace (t * nrows * nb + c + j * nb) with ((t * nrows + j) * nb + c) by lia. apply flat3_get; auto; lia.
    - intros t r j Ht Hr Hj. replace (t * nrows * nb + r + j * nb) with ((t * nrows + j) * nb + r) by lia. apply flat3_get; auto; lia.
    - apply any_order_schedule. exact Hs. }
  destruct (Hx sched Ho) as (M & E & L & SM & HM). destruct (Hx sched' Ho') as (M' & E' & L' & SM' & HM'). rewrite E, E'. f_equal.
  apply (list_ext (A := mat) []); [congruence|]. intros t Ht. rewrite L in Ht.
  destruct (SM (nth t M [])) as (A1 & A2); [apply nth_In; rewrite L; exact Ht|]. destruct (SM' (nth t M' [])) as (B1 & B2); [apply nth_In; rewrite L'; exact Ht|].
  apply (mat_ext nb nb); auto. intros r c Hr Hc. destruct (HM t r c Ht Hr Hc) as (R1 & V1). destruct (HM' t r c Ht Hr Hc) as (R2 & V2).
  rewrite <- R1, <- R2. apply Qred_complete. rewrite V1, V2. reflexivity.
Qed.
(* the documented product: entry (r, c) is the sum over j of a(r, j) * b(j, c) *)
Definition product (transpose_a : bool) (nrows nb : nat) (a b M : mat) : Prop :=
  forall r c, r < nb -> c < nb -> (at2 M r c == bigsum nrows (fun j => (if transpose_a then at2 a j r else at2 a r j) * at2 b j c))%Q.
(* false in general: the kernel gives the transposed product *)
Theorem C96_documented_product_refuted : exists a b sched M, array3 1 2 a /\ array3 1 2 b /\ any_order sched true 1 2 /\
  dot_3d3d sched true true 1 1 2 (flat3 a) (flat3 b) = Ok M /\ ~ product true 1 2 (nth 0 a []) (nth 0 b []) (nth 0 M []) /\ M = [[[3; 6]; [4; 8]]]%Q.
Proof.
  exists [[[1; 2]]]%Q, [[[3; 4]]]%Q, (seq 0 512), [[[3; 6]; [4; 8]]]%Q.
  split. { intros A [<-|[]]. split; [reflexivity|]. intros r [<-|[]]. reflexivity. }
  split. { intros A [<-|[]]. split; [reflexivity|]. intros r [<-|[]]. reflexivity. }
  split. { unfold any_order. replace (threads true 1 2) with 512 by reflexivity. apply Permutation_refl. }
  split; [vm_compute; reflexivity|]. split; [|reflexivity].
  intros H. specialize (H 0 1 ltac:(lia) ltac:(lia)). cbn in H. lra.
Qed.
(* true for the only use in the package: b is a with its rows scaled by weights *)
Theorem C96_documented_product_partial a w nz nrows nb sched fp : length a = nz -> array3 nrows nb a -> length w = nrows ->
  any_order sched fp nz nb -> exists M, dot_3d3d sched fp true nz nrows nb (flat3 a) (flat3 (map (weighted w) a)) = Ok M /\
  forall t, t < nz -> product true nrows nb (nth t a []) (weighted w (nth t a [])) (nth t M []).
Proof.
  intros La Sa Lw Ho. exists (map (normal_M nb w) a). split; [apply Ms_ok; auto using any_order_schedule|].
  intros t Ht r c Hr Hc. rewrite (nth_indep _ [] (normal_M nb w [])) by (rewrite map_length; lia). rewrite (map_nth (normal_M nb w)).
  destruct (Sa (nth t a [])) as (H1 & H2); [apply nth_In; lia|].
  rewrite normal_M_at by (auto; lia). rewrite H1. apply bigsum_ext. intros j Hj.
  rewrite weighted_at; [reflexivity|lia|lia|]. rewrite (H2 (nth j (nth t a []) [])) by (apply nth_In; lia). exact Hc.
Qed.

Print Assumptions C95_batch_partial.
Print Assumptions C95_scan_partial.
Print Assumptions C95_solver_failure_refuted.
Print Assumptions C95_rectangular_refuted.
Print Assumptions C96_any_order_transposed.
Print Assumptions C96_any_order_plain.
Print Assumptions C96_reproducible.
Print Assumptions C96_documented_product_refuted.
Print Assumptions C96_documented_product_partial.
