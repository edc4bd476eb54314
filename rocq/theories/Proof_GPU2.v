From Verif Require Import Prelude PreludeFacts Facts2 Model_Fitz Model_Dist Model_Rebin Model_Zscan Spec_Zscan
  Proof_Zscan Proof_Zscan2 Proof_Zscan3 Proof_RebinGPU Model_GPU Proof_GPU.
Local Arguments Qred : simpl never.
Local Open Scope nat_scope.

Lemma Qred_idem q : Qred (Qred q) = Qred q.
Proof. apply Qred_complete, Qred_correct. Qed.

Lemma bigsum_seq f a n : (bigsum (a + n) f == bigsum a f + sumQ (map f (seq a n)))%Q.
Proof.
  revert a; induction n as [|n IH]; intros a; [rewrite Nat.add_0_r; cbn; lra|].
  cbn [seq map sumQ fold_right]. fold (sumQ (map f (seq (S a) n))).
  replace (a + S n) with (S a + n) by lia. rewrite IH. cbn [bigsum]. lra.
Qed.

Lemma bigsum_blocks npar f : forall K, (bigsum (K * npar) f == bigsum K (fun k => bigsum npar (fun p => f (k * npar + p)%nat)))%Q.
Proof.
  induction K as [|K IH]; [reflexivity|]. cbn [bigsum]. rewrite <- IH.
  replace (S K * npar) with (K * npar + npar) by lia. rewrite bigsum_seq.
  assert (H : (sumQ (map f (seq (K * npar) npar)) == bigsum npar (fun p => f (K * npar + p)%nat))%Q).
  { rewrite seq_as_map, map_map. apply sumQ_map_seq. }
  rewrite H. reflexivity.
Qed.

Definition blk_start (nrows npar p : nat) : nat := p * (nrows / npar).
Definition blk_stop (nrows npar p : nat) : nat := if p =? npar - 1 then nrows else (p + 1) * (nrows / npar).
Definition blk (nrows npar p : nat) : list nat := seq (blk_start nrows npar p) (blk_stop nrows npar p - blk_start nrows npar p).

Lemma blk_in nrows npar p j : 0 < npar -> p < npar -> In j (blk nrows npar p) -> j < nrows.
Proof.
  intros Hn Hp Hj. apply in_seq in Hj. unfold blk_start, blk_stop in Hj.
  pose proof (Nat.mul_div_le nrows npar ltac:(lia)). destruct (Nat.eqb_spec p (npar - 1)); [nia|].
  assert ((p + 1) * (nrows / npar) <= npar * (nrows / npar)) by (apply Nat.mul_le_mono_r; lia). lia.
Qed.
Lemma blk_sum f nrows npar : 0 < npar -> (bigsum npar (fun p => sumQ (map f (blk nrows npar p))) == bigsum nrows f)%Q.
Proof.
  intros Hn. destruct npar as [|n]; [lia|].
  assert (H : forall k, k <= n -> (bigsum k (fun p => sumQ (map f (blk nrows (S n) p))) == bigsum (k * (nrows / S n)) f)%Q).
  { induction k as [|k IH]; intros Hk; [reflexivity|]. cbn [bigsum]. rewrite IH by lia.
    replace (S k * (nrows / S n)) with (k * (nrows / S n) + nrows / S n) by lia. rewrite bigsum_seq.
    unfold blk, blk_start, blk_stop. replace (k =? S n - 1) with false by (symmetry; apply Nat.eqb_neq; lia).
    replace ((k + 1) * (nrows / S n) - k * (nrows / S n)) with (nrows / S n) by lia. reflexivity. }
  cbn [bigsum]. rewrite H by lia. unfold blk, blk_start, blk_stop.
  replace (n =? S n - 1) with true by (symmetry; apply Nat.eqb_eq; lia).
  assert (Hle : n * (nrows / S n) <= nrows).
  { pose proof (Nat.mul_div_le nrows (S n) ltac:(lia)). lia. }
  rewrite <- bigsum_seq. replace (n * (nrows / S n) + (nrows - n * (nrows / S n))) with nrows by lia. reflexivity.
Qed.

Definition adds (o : res (option (nat * Q))) (m : nat) : Q :=
  match o with Ok (Some (k, x)) => if m =? k then x else 0%Q | _ => 0%Q end.
Lemma run_ok thread : forall sched M, (forall i, In i sched -> exists o, thread i = Ok o) ->
  exists M', run_3d3d thread sched M = Ok M' /\ forall m,
   (M' m == M m + sumQ (map (fun i => adds (thread i) m) sched))%Q /\ (Qred (M m) = M m -> Qred (M' m) = M' m).
Proof.
  induction sched as [|i sched IH]; intros M H; cbn [run_3d3d].
  - exists M. split; [reflexivity|]. intros m. split; [cbn; lra|auto].
  - destruct (H i (or_introl eq_refl)) as (o & Eo). rewrite Eo. cbn [rbind].
    destruct (IH (match o with None => M | Some (k, x) => fun m => if m =? k then Qred (M m + x) else M m end)) as (M' & E & HM).
    { intros; apply H; right; assumption. }
    exists M'. split; [exact E|]. intros m. destruct (HM m) as (H1 & H2). cbn [map sumQ fold_right].
    fold (sumQ (map (fun i => adds (thread i) m) sched)). rewrite Eo. unfold adds at 1. split.
    + rewrite H1. destruct o as [[k x]|]; [|lra]. destruct (m =? k); [|lra]. rewrite (Qred_correct (M m + x)). lra.
    + intros Hm. apply H2. destruct o as [[k x]|]; [|exact Hm]. destruct (m =? k); [apply Qred_idem|exact Hm].
Qed.

Lemma sumQ_perm' l l' : Permutation l l' -> (sumQ l == sumQ l')%Q.
Proof. induction 1; cbn [sumQ fold_right]; fold sumQ in *; try fold (sumQ l) in *; try fold (sumQ l') in *; lra. Qed.

Section K.
Variables (a b : list Q) (nz nrows nb : nat) (ta : bool) (fa fb : nat -> nat -> nat -> Q).
Hypothesis Ha : forall t c j, t < nz -> c < nb -> j < nrows ->
  get a (if ta then t * nrows * nb + c + j * nb else t * nrows * nb + c * nrows + j) = Ok (fa t c j).
Hypothesis Hb : forall t r j, t < nz -> r < nb -> j < nrows -> get b (t * nrows * nb + r + j * nb) = Ok (fb t r j).

Lemma npar_pos fp : 0 < nparallel fp nz.
Proof. unfold nparallel. destruct fp; [|destruct (nz <=? 512)]; lia. Qed.
Lemma npar_div fp : exists q, block_size = nparallel fp nz * q /\ q <> 0.
Proof. unfold nparallel. destruct fp; [exists 128|destruct (nz <=? 512); [exists 8|exists 128]]; split; reflexivity || discriminate. Qed.

Lemma thread_ok fp t r c p : t < nz -> r < nb -> c < nb -> p < nparallel fp nz ->
  exists x, thread_3d3d a b nrows nb nz (nparallel fp nz) ta ((t * (nb * nb) + (r * nb + c)) * nparallel fp nz + p) =
    Ok (Some (t * (nb * nb) + (r * nb + c), x)) /\
    (x == sumQ (map (fun j => fa t c j * fb t r j) (blk nrows (nparallel fp nz) p)))%Q.
Proof.
  intros Ht Hr Hc Hp. pose proof (npar_pos fp) as Hn. destruct (npar_div fp) as (q & Eq & Hq). set (np := nparallel fp nz) in *.
  set (m := t * (nb * nb) + (r * nb + c)). set (i := m * np + p).
  assert (E1 : i / np = m) by (symmetry; apply (Nat.div_unique _ _ _ p); unfold i; lia).
  assert (E2 : i mod np = p) by (symmetry; apply (Nat.mod_unique _ _ m); unfold i; lia).
  assert (Hrc : r * nb + c < nb * nb) by nia.
  assert (E3 : m / (nb * nb) = t) by (symmetry; apply (Nat.div_unique _ _ _ (r * nb + c)); unfold m; lia).
  assert (E4 : m mod (nb * nb) = r * nb + c) by (symmetry; apply (Nat.mod_unique _ _ t); unfold m; lia).
  assert (E5 : (r * nb + c) mod nb = c) by (symmetry; apply (Nat.mod_unique _ _ r); lia).
  assert (E6 : (r * nb + c) / nb = r) by (symmetry; apply (Nat.div_unique _ _ _ c); lia).
  assert (E7 : (i mod block_size) mod np = p).
  { rewrite Eq, Nat.mod_mul_r by lia. rewrite E2, (Nat.mul_comm np), Nat.mod_add by lia. apply Nat.mod_small. exact Hp. }
  assert (Hm : m < nb * nb * nz).
  { assert (S t * (nb * nb) <= nz * (nb * nb)) by (apply Nat.mul_le_mono_r; lia). unfold m. lia. }
  assert (Hg : nb * nb * nz * np <=? i = false).
  { apply Nat.leb_gt. assert (S m * np <= nb * nb * nz * np) by (apply Nat.mul_le_mono_r; lia). unfold i. lia. }
  unfold thread_3d3d. rewrite Hg. cbv zeta. rewrite E1, E3, E4, E5, E6, E7.
  fold (blk_start nrows np p). fold (blk_stop nrows np p). fold (blk nrows np p).
  destruct (accum_ok (fun j => do av <- get a (if ta then (if ta then t * nrows * nb + c else t * nrows * nb + c * nrows) + j * nb
               else (if ta then t * nrows * nb + c else t * nrows * nb + c * nrows) + j);
        do bv <- get b (t * nrows * nb + r + j * nb); Ok (av * bv)%Q) (fun j => fa t c j * fb t r j)%Q (blk nrows np p) 0%Q) as (v & E & Hv).
  { intros j Hj. apply blk_in in Hj; [|exact Hn|exact Hp]. pose proof (Ha t c j Ht Hc Hj) as HA.
    rewrite (Hb t r j Ht Hr Hj). destruct ta; rewrite HA; reflexivity. }
  rewrite E. cbn [rbind]. exists v. split; [reflexivity|]. rewrite Hv. lra.
Qed.

Lemma thread_decode fp i : i < nz * nb * nb * nparallel fp nz -> exists t r c p, t < nz /\ r < nb /\ c < nb /\ p < nparallel fp nz /\
  i = (t * (nb * nb) + (r * nb + c)) * nparallel fp nz + p.
Proof.
  intros Hi. pose proof (npar_pos fp) as Hn. set (np := nparallel fp nz) in *.
  assert (Hnb : nb <> 0) by (intros E; rewrite E in Hi; lia).
  set (m := i / np). set (p := i mod np).
  assert (E1 : i = m * np + p) by (pose proof (Nat.div_mod_eq i np); unfold m, p; lia).
  assert (Hp : p < np) by (apply Nat.mod_upper_bound; lia).
  assert (Hm : m < nz * nb * nb) by (apply Nat.div_lt_upper_bound; lia).
  set (s := m / nb). set (c := m mod nb).
  assert (E2 : m = s * nb + c) by (pose proof (Nat.div_mod_eq m nb); unfold s, c; lia).
  assert (Hc : c < nb) by (apply Nat.mod_upper_bound; lia).
  assert (Hs : s < nz * nb) by (apply Nat.div_lt_upper_bound; lia).
  set (t := s / nb). set (r := s mod nb).
  assert (E3 : s = t * nb + r) by (pose proof (Nat.div_mod_eq s nb); unfold t, r; lia).
  assert (Hr : r < nb) by (apply Nat.mod_upper_bound; lia).
  assert (Ht : t < nz) by (apply Nat.div_lt_upper_bound; lia).
  exists t, r, c, p. repeat split; try assumption. lia.
Qed.

Lemma dot_3d3d_ok sched fp : schedule sched fp nz nb -> exists Ms, dot_3d3d sched fp ta nz nrows nb a b = Ok Ms /\
  length Ms = nz /\ (forall M, In M Ms -> length M = nb /\ forall row, In row M -> length row = nb) /\
  forall t r c, t < nz -> r < nb -> c < nb ->
    Qred (at2 (nth t Ms []) r c) = at2 (nth t Ms []) r c /\
    (at2 (nth t Ms []) r c == bigsum nrows (fun j => fa t c j * fb t r j))%Q.
Proof.
  intros Hs. unfold schedule in Hs. pose proof (npar_pos fp) as Hn. unfold dot_3d3d.
  set (np := nparallel fp nz) in *. set (N := n_3d3d nz nb np) in *.
  assert (HN : N = nz * nb * nb * np) by reflexivity.
  assert (Hth : forall i, exists o, thread_3d3d a b nrows nb nz np ta i = Ok o /\ (N <= i -> o = None)).
  { intros i. destruct (Nat.lt_ge_cases i N) as [Hi|Hi].
    - rewrite HN in Hi. destruct (thread_decode fp i Hi) as (t & r & c & p & Ht & Hr & Hc & Hp & ->).
      destruct (thread_ok fp t r c p Ht Hr Hc Hp) as (x & Ex & _). unfold np. rewrite Ex. eexists. split; [reflexivity|]. unfold np in *. lia.
    - exists None. split; [|reflexivity]. unfold thread_3d3d. replace (nb * nb * nz * np <=? i) with true; [reflexivity|].
      symmetry. apply Nat.leb_le. lia. }
  destruct (run_ok (thread_3d3d a b nrows nb nz np ta) sched (fun _ => 0%Q)) as (M & E & HM).
  { intros i _. destruct (Hth i) as (o & Eo & _). eauto. }
  rewrite E. cbn [rbind]. eexists. split; [reflexivity|]. split; [rewrite map_length, seq_length; reflexivity|]. split.
  { intros B HB. apply in_map_iff in HB. destruct HB as (t & <- & _). split; [rewrite map_length, seq_length; reflexivity|].
    intros row Hrow. apply in_map_iff in Hrow. destruct Hrow as (r & <- & _). rewrite map_length, seq_length. reflexivity. }
  intros t r c Ht Hr Hc. unfold at2. rewrite nth_tab by exact Ht. rewrite nth_tab by exact Hr. rewrite nth_tab by exact Hc.
  set (m := t * (nb * nb) + (r * nb + c)). destruct (HM m) as (H1 & H2). split; [apply H2; reflexivity|].
  rewrite H1.
  rewrite (sumQ_perm' _ _ (Permutation_map (fun i => adds (thread_3d3d a b nrows nb nz np ta i) m) Hs)).
  rewrite sumQ_map_seq.
  rewrite (bigsum_extend N (launched N)); [|apply launched_ge|].
  2:{ intros i Hi. destruct (Hth i) as (o & Eo & Ho). rewrite Eo, (Ho ltac:(lia)). reflexivity. }
  replace N with (nz * nb * nb * np) by (symmetry; exact HN). rewrite bigsum_blocks.
  assert (Hm : m < nz * nb * nb).
  { assert (S t * (nb * nb) <= nz * (nb * nb)) by (apply Nat.mul_le_mono_r; lia). assert (r * nb + c < nb * nb) by nia. unfold m. lia. }
  rewrite (bigsum_single (nz * nb * nb) _ m Hm).
  - rewrite <- (blk_sum (fun j => fa t c j * fb t r j)%Q nrows np Hn). rewrite Qplus_0_l. apply bigsum_ext. intros p Hp.
    destruct (thread_ok fp t r c p Ht Hr Hc Hp) as (x & Ex & Hx). fold np in Ex, Hx. fold m in Ex. rewrite Ex. cbn [adds]. rewrite Nat.eqb_refl. exact Hx.
  - intros k Hk Hkm. apply bigsum_zero. intros p Hp.
    assert (Hi : k * np + p < nz * nb * nb * np) by (assert (S k * np <= nz * nb * nb * np) by (apply Nat.mul_le_mono_r; lia); lia).
    destruct (thread_decode fp _ Hi) as (t' & r' & c' & p' & Ht' & Hr' & Hc' & Hp' & Ei). fold np in Ei, Hp'.
    assert (Ek : k = t' * (nb * nb) + (r' * nb + c')).
    { assert (E1 : (k * np + p) / np = k) by (symmetry; apply (Nat.div_unique _ _ _ p); lia).
      rewrite Ei in E1. rewrite <- E1. symmetry. apply (Nat.div_unique _ _ _ p'); lia. }
    rewrite Ei. destruct (thread_ok fp t' r' c' p' Ht' Hr' Hc' Hp') as (x & Ex & _). fold np in Ex. rewrite Ex. cbn [adds].
    replace (m =? _) with false; [reflexivity|]. symmetry. apply Nat.eqb_neq. lia.
Qed.
End K.
