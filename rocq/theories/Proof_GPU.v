From Verif Require Import Prelude PreludeFacts Facts2 Model_Fitz Model_Dist Model_Rebin Model_Zscan Spec_Zscan
  Proof_Zscan Proof_Zscan2 Proof_Zscan3 Proof_RebinGPU Model_GPU.
Local Arguments Qred : simpl never.

(* ---------- geometry ---------- *)
Lemma launched_ge n : n <= launched n.
Proof.
  unfold launched, block_size. pose proof (Nat.div_mod_eq (n + 512 - 1) 512) as H.
  pose proof (Nat.mod_upper_bound (n + 512 - 1) 512 ltac:(lia)). lia.
Qed.

Lemma mapM_ok {A B} (f : A -> res B) (g : A -> B) l : (forall x, In x l -> f x = Ok (g x)) -> mapM f l = Ok (map g l).
Proof.
  induction l as [|x l IH]; intros H; [reflexivity|]. cbn [mapM]. rewrite (H x (or_introl eq_refl)). cbn [rbind].
  rewrite IH by (intros; apply H; right; assumption). reflexivity.
Qed.

Lemma chunk_tab {A} (f : nat -> A) n : forall k s, chunk k n (map f (seq s (k * n))) =
  map (fun q => map f (seq (s + q * n) n)) (seq 0 k).
Proof.
  induction k as [|k IH]; intros s; [reflexivity|]. cbn [chunk].
  replace (S k * n) with (n + k * n) by lia. rewrite seq_app, map_app.
  assert (Hl : length (map f (seq s n)) = n) by (rewrite map_length, seq_length; reflexivity).
  assert (Hf : firstn n (map f (seq s n)) = map f (seq s n)) by (apply firstn_all2; lia).
  assert (Hs : skipn n (map f (seq s n)) = []) by (apply skipn_all2; lia).
  rewrite firstn_app, skipn_app, Hl, Nat.sub_diag, Hf, Hs. cbn [firstn skipn app]. rewrite app_nil_r.
  rewrite IH. cbn [seq map]. f_equal; [replace (s + 0 * n) with s by lia; reflexivity|].
  rewrite <- seq_shift, map_map. apply map_ext. intros q. replace (s + n + q * n) with (s + S q * n) by lia. reflexivity.
Qed.

Lemma seq_as_map s n : seq s n = map (fun k => s + k) (seq 0 n).
Proof.
  revert s; induction n as [|n IH]; intros s; [reflexivity|]. cbn [seq map]. rewrite Nat.add_0_r. f_equal.
  rewrite IH, <- seq_shift, map_map. apply map_ext. intros; lia.
Qed.

Lemma view3_tab (f : nat -> Q) nt n m : view3 nt n m (map f (seq 0 (nt * (n * m)))) =
  map (fun it => map (fun r => map (fun c => f ((it * n + r) * m + c)) (seq 0 m)) (seq 0 n)) (seq 0 nt).
Proof.
  unfold view3. rewrite chunk_tab, map_map. apply map_ext. intros it. rewrite chunk_tab. apply map_ext. intros r.
  rewrite (seq_as_map (0 + it * (n * m) + r * m) m), map_map. apply map_ext. intros c. f_equal. lia.
Qed.

Definition shaped (n m : nat) (T : list mat) : Prop :=
  forall A, In A T -> length A = n /\ forall r, In r A -> length r = m.

Lemma flat3_concat T : flat3 T = concat (concat T).
Proof. unfold flat3. induction T as [|A T IH]; [reflexivity|]. cbn [map concat]. rewrite concat_app, IH. reflexivity. Qed.

Lemma flat3_length n m T : shaped n m T -> length (flat3 T) = length T * (n * m).
Proof.
  unfold flat3. induction T as [|A T IH]; intros H; [reflexivity|]. cbn [map concat length].
  rewrite app_length, IH by (intros B HB; apply H; right; exact HB).
  destruct (H A (or_introl eq_refl)) as (Hn & Hm). assert (Hc : length (concat A) = length A * m).
  { clear -Hm. induction A as [|r A IH]; [reflexivity|]. cbn [concat length]. rewrite app_length, IH by (intros; apply Hm; right; assumption).
    rewrite (Hm r (or_introl eq_refl)). lia. }
  rewrite Hc, Hn. lia.
Qed.

Lemma flat3_get n m T it r c : shaped n m T -> it < length T -> r < n -> c < m ->
  get (flat3 T) ((it * n + r) * m + c) = Ok (at2 (nth it T []) r c).
Proof.
  intros H Hi Hr Hc. unfold get. rewrite flat3_concat.
  assert (Hrow : forall x, In x (concat T) -> length x = m).
  { intros x Hx. apply in_concat in Hx. destruct Hx as (A & HA & Hx). exact (proj2 (H A HA) x Hx). }
  pose proof (concat_uniform T n [] (fun A HA => proj1 (H A HA)) it r Hi Hr) as H1.
  assert (Hlt : r + it * n < length (concat T)) by (apply nth_error_Some; rewrite H1; discriminate).
  pose proof (concat_uniform (concat T) m 0%Q Hrow (r + it * n) c Hlt Hc) as H2.
  replace ((it * n + r) * m + c) with (c + (r + it * n) * m) by lia. rewrite H2.
  rewrite (nth_error_nth _ _ [] H1). reflexivity.
Qed.

Lemma flat_get m (A : mat) r c : (forall x, In x A -> length x = m) -> r < length A -> c < m -> get (concat A) (r * m + c) = Ok (at2 A r c).
Proof.
  intros H Hr Hc. unfold get. pose proof (concat_uniform A m 0%Q H r c Hr Hc) as E.
  replace (r * m + c) with (c + r * m) by lia. rewrite E. reflexivity.
Qed.

Lemma accum_ok f g js : forall x, (forall j, In j js -> f j = Ok (g j)) -> exists v, accum f js x = Ok v /\ (v == x + sumQ (map g js))%Q.
Proof.
  induction js as [|j js IH]; intros x H; cbn [accum].
  - exists x. split; [reflexivity|]. cbn. lra.
  - rewrite (H j (or_introl eq_refl)). cbn [rbind].
    destruct (IH (x + g j)%Q) as (v & E & Hv); [intros; apply H; right; assumption|].
    exists v. split; [exact E|]. rewrite Hv. cbn [map sumQ fold_right]. fold (sumQ (map g js)). lra.
Qed.

(* ---------- sparse kernel ---------- *)
(* the arrays of a csr_matrix are consistent *)
Definition csr_ok (R : csr) : Prop :=
  length (r_ptr R) = S (r_nrow R) /\
  forall row jj, row < r_nrow R -> nth row (r_ptr R) O <= jj < nth (S row) (r_ptr R) O ->
    jj < length (r_val R) /\ jj < length (r_ind R) /\ nth jj (r_ind R) O < r_ncol R.

Lemma get_nth l j : j < length l -> get l j = Ok (nth j l 0%Q).
Proof. intros H. unfold get. rewrite (nth_error_nth' l 0%Q H). reflexivity. Qed.
Lemma geti_nth l j : j < length l -> geti l j = Ok (nth j l O).
Proof. intros H. unfold geti. rewrite (nth_error_nth' l O H). reflexivity. Qed.

Lemma sparse_thread_ok R nb T it row b : csr_ok R -> r_ncol R = r_nrow R -> shaped (r_nrow R) nb T ->
  it < length T -> row < r_nrow R -> b < nb ->
  sparse_thread R (flat3 T) (r_nrow R) nb ((it * r_nrow R + row) * nb + b) =
  Ok (csr_row_dot R row (fun l => at2 (nth it T []) l b)).
Proof.
  intros (Hp & Hj) Hsq HT Hit Hrow Hb.
  destruct (decode (r_nrow R) nb it row b Hrow Hb) as (D1 & D2 & D3 & _).
  unfold sparse_thread. rewrite D1, D2, D3.
  rewrite !geti_nth by lia. cbn [rbind]. replace (row + 1) with (S row) by lia.
  set (s := nth row (r_ptr R) O). set (e := nth (S row) (r_ptr R) O).
  destruct (accum_ok (fun j => do c <- geti (r_ind R) j; do v <- get (r_val R) j;
      do t <- get (flat3 T) (it * nb * r_nrow R + nb * c + b); Ok (v * t)%Q)
      (fun jj => nth jj (r_val R) 0 * at2 (nth it T []) (nth jj (r_ind R) O) b)%Q (seq s (e - s)) 0%Q) as (v & E & Hv).
  { intros j Hin. apply in_seq in Hin. destruct (Hj row j Hrow) as (H1 & H2 & H3); [fold s; fold e; lia|].
    rewrite geti_nth by exact H2. cbn [rbind]. rewrite get_nth by exact H1. cbn [rbind].
    replace (it * nb * r_nrow R + nb * nth j (r_ind R) 0 + b) with ((it * r_nrow R + nth j (r_ind R) 0) * nb + b) by lia.
    rewrite (flat3_get (r_nrow R) nb) by (auto; lia). reflexivity. }
  rewrite E. cbn [rbind]. unfold csr_row_dot. f_equal. apply Qred_complete. rewrite Hv. fold s. fold e. lra.
Qed.

Lemma sparse_gpu_ok junk R nb T : csr_ok R -> r_ncol R = r_nrow R -> shaped (r_nrow R) nb T -> 
  exists Bs, sparse_gpu junk R nb T = Ok Bs /\ length Bs = length T /\
   forall i, i < length T -> csr_dot R nb (nth i T []) = Ok (nth i Bs []).
Proof.
  intros HR Hsq HT. unfold sparse_gpu.
  pose (f := fun i => csr_row_dot R ((i mod (nb * r_nrow R)) / nb) (fun l => at2 (nth (i / (nb * r_nrow R)) T []) l (i mod nb))).
  rewrite (mapM_ok _ f).
  - cbn [rbind]. replace (r_nrow R * nb * length T) with (length T * (r_nrow R * nb)) by lia.
    rewrite view3_tab. eexists. split; [reflexivity|]. split; [rewrite map_length, seq_length; reflexivity|].
    intros i Hi. rewrite nth_tab by exact Hi. unfold csr_dot.
    rewrite (proj1 (HT (nth i T []) (nth_In _ _ Hi))), Hsq, Nat.eqb_refl. f_equal.
    apply map_ext_in. intros row Hr. apply in_seq in Hr. apply map_ext_in. intros b Hb. apply in_seq in Hb.
    unfold f. destruct (decode (r_nrow R) nb i row b ltac:(lia) ltac:(lia)) as (D1 & D2 & D3 & _). rewrite D1, D2, D3. reflexivity.
  - intros i Hi. apply in_seq in Hi. rewrite (flat3_length (r_nrow R) nb) by exact HT.
    pose proof (launched_ge (length T * (r_nrow R * nb))) as Hl.
    replace (i <? launched (length T * (r_nrow R * nb))) with true by (symmetry; apply Nat.ltb_lt; lia).
    assert (Hnb : nb <> 0) by (intros ->; lia). assert (Hnr : r_nrow R <> 0) by (intros E; rewrite E in Hi; lia).
    set (n := r_nrow R) in *. set (b := i mod nb). set (q := i / nb).
    assert (Eq : i = q * nb + b) by (pose proof (Nat.div_mod_eq i nb); unfold q, b; lia).
    set (it := q / n). set (row := q mod n).
    assert (Eq2 : q = it * n + row) by (pose proof (Nat.div_mod_eq q n); unfold it, row; lia).
    assert (Hb : b < nb) by (apply Nat.mod_upper_bound; exact Hnb).
    assert (Hrow : row < n) by (apply Nat.mod_upper_bound; exact Hnr).
    assert (Hit : it < length T).
    { destruct (Nat.lt_ge_cases it (length T)) as [?|Hge]; [assumption|exfalso].
      assert (length T * n <= it * n) by (apply Nat.mul_le_mono_r; exact Hge).
      assert (length T * n * nb <= q * nb) by (apply Nat.mul_le_mono_r; lia). lia. }
    assert (Ei : i = (it * n + row) * nb + b) by lia.
    rewrite Ei. unfold n. rewrite sparse_thread_ok by (auto; fold n; lia). f_equal. unfold f.
    fold n. destruct (decode n nb it row b Hrow Hb) as (D1 & D2 & D3 & _). rewrite D1, D2, D3. reflexivity.
Qed.

(* ---------- hstack ---------- *)
Lemma map2_len {A B C} (f : A -> B -> C) : forall a b, length b = length a -> length (map2 f a b) = length a.
Proof. induction a as [|x a IH]; intros [|y b] H; cbn in *; try lia. rewrite IH; lia. Qed.
Lemma map2_nth {A B C} (f : A -> B -> C) da db dc : forall a b i, length b = length a -> i < length a ->
  nth i (map2 f a b) dc = f (nth i a da) (nth i b db).
Proof.
  induction a as [|x a IH]; intros [|y b] i H Hi; cbn [length] in *; try lia. destruct i as [|i]; cbn [map2 nth]; [reflexivity|].
  apply IH; lia.
Qed.
Lemma hstack_rows_spec nt : forall arrays, (forall A, In A arrays -> length A = nt) ->
  length (hstack_rows arrays nt) = nt /\
  forall i, i < nt -> nth i (hstack_rows arrays nt) [] = concat (map (fun A => nth i A []) arrays).
Proof.
  induction arrays as [|A arrays IH]; intros H; cbn [hstack_rows map concat].
  - split; [apply repeat_length|]. intros i Hi. apply nth_repeat.
  - destruct IH as (IL & IN); [intros; apply H; right; assumption|]. pose proof (H A (or_introl eq_refl)) as HA.
    pose proof (eq_trans IL (eq_sym HA)) as HE.
    split; [rewrite map2_len; [exact HA|exact HE]|]. intros i Hi. rewrite (map2_nth _ [] []); [|exact HE|exact (eq_ind_r (lt i) Hi HA)]. rewrite IN by exact Hi. reflexivity.
Qed.
Lemma hstack_ok nt arrays : arrays <> [] -> (forall A, In A arrays -> length A = nt) ->
  exists T, hstack arrays = Ok T /\ length T = nt /\ forall i, i < nt -> nth i T [] = concat (map (fun A => nth i A []) arrays).
Proof.
  intros Hne H. destruct arrays as [|A r]; [contradiction|]. unfold hstack.
  assert (HA : length A = nt) by (apply H; left; reflexivity).
  assert (Hf : forallb (fun B => length B =? length A) r = true).
  { apply forallb_forall. intros B HB. apply Nat.eqb_eq. rewrite HA. apply H. right; exact HB. }
  rewrite Hf, HA. exists (hstack_rows (A :: r) nt). split; [reflexivity|]. apply hstack_rows_spec. exact H.
Qed.

(* the inputs the scan works with: one template per redshift, on the pixels of the
   spectrum, and a square resolution matrix *)
Definition scan_input (nz nb : nat) (spectra : list spectrum) (tdata : tdict) : Prop :=
  spectra <> [] /\
  forall s, In s spectra -> csr_ok (s_R s) /\ r_ncol (s_R s) = r_nrow (s_R s) /\
    exists L, dget tdata (s_hash s) = Some L /\ length L = nz /\ shaped (r_nrow (s_R s)) nb L.

Lemma bdps_gpu_ok junk nb nz spectra tdata : scan_input nz nb spectra tdata ->
  exists Tbs, batch_dot_product_sparse_gpu junk nb spectra tdata = Ok Tbs /\ length Tbs = nz /\
    forall i, i < nz -> dot_product_sparse_one nb spectra tdata i = Ok (nth i Tbs []).
Proof.
  intros (Hne & H). unfold batch_dot_product_sparse_gpu.
  assert (HB : exists bs, mapM (fun s => match dget tdata (s_hash s) with None => Err KeyError | Some T => sparse_gpu junk (s_R s) nb T end) spectra = Ok bs /\
    length bs = length spectra /\ (forall A, In A bs -> length A = nz) /\
    forall i, i < nz -> mapM (fun s => match dget tdata (s_hash s) with None => Err KeyError | Some T =>
        match nth_error T i with None => Err IndexError | Some A => csr_dot (s_R s) nb A end end) spectra = Ok (map (fun A => nth i A []) bs)).
  { clear Hne. induction spectra as [|s spectra IH].
    - exists []. split; [reflexivity|]. split; [reflexivity|]. split; [intros A []|]. intros; reflexivity.
    - destruct (H s (or_introl eq_refl)) as (HR & Hsq & L & HL & Hlen & HS).
      destruct IH as (bs & E & El & Ea & Ei); [intros; apply H; right; assumption|].
      destruct (sparse_gpu_ok junk (s_R s) nb L HR Hsq HS) as (B & EB & LB & NB).
      exists (B :: bs). cbn [mapM]. rewrite HL, EB. cbn [rbind]. rewrite E. cbn [rbind].
      split; [reflexivity|]. split; [cbn; lia|]. split; [intros A [<-|HA]; [lia|auto]|].
      intros i Hi. rewrite (nth_error_nth' L [] (n:=i)) by lia. rewrite NB by lia. cbn [rbind]. rewrite (Ei i Hi). reflexivity. }
  destruct HB as (bs & E & El & Ea & Ei). rewrite E. cbn [rbind].
  assert (Hbs : bs <> []) by (intros ->; destruct spectra; [contradiction|discriminate El]).
  destruct (hstack_ok nz bs Hbs Ea) as (T & ET & LT & NT).
  exists T. split; [exact ET|]. split; [exact LT|]. intros i Hi. unfold dot_product_sparse_one. rewrite (Ei i Hi). cbn [rbind].
  rewrite NT by exact Hi. destruct bs; [contradiction|]. reflexivity.
Qed.

(* every row of the design matrix has nb columns, and it has as many rows at every redshift *)
Lemma dpso_shape nb nz spectra tdata i T : scan_input nz nb spectra tdata -> dot_product_sparse_one nb spectra tdata i = Ok T ->
  length T = fold_right plus 0 (map (fun s => r_nrow (s_R s)) spectra) /\ forall r, In r T -> length r = nb.
Proof.
  intros (Hne & H) E. unfold dot_product_sparse_one in E.
  destruct (mapM _ spectra) as [bs|] eqn:EB; [|discriminate]. cbn [rbind] in E.
  assert (T = concat bs) as -> by (destruct bs; [discriminate|congruence]). clear E Hne.
  revert bs EB. induction spectra as [|s spectra IH]; intros bs EB.
  - cbn in EB. assert (bs = []) as -> by congruence. split; [reflexivity|intros r []].
  - destruct (H s (or_introl eq_refl)) as (HR & Hsq & L & HL & Hlen & HS).
    cbn [mapM] in EB. rewrite HL in EB. destruct (nth_error L i) as [A|]; [|discriminate].
    destruct (csr_dot (s_R s) nb A) as [B|] eqn:ED; [|discriminate]. cbn [rbind] in EB.
    destruct (mapM _ spectra) as [bs'|]; [|discriminate]. cbn [rbind] in EB. assert (bs = B :: bs') as -> by congruence.
    destruct (IH ltac:(intros; apply H; right; assumption) bs' eq_refl) as (I1 & I2).
    unfold csr_dot in ED. destruct (_ =? _); [|discriminate].
    assert (HBl : length B = r_nrow (s_R s) /\ forall r, In r B -> length r = nb).
    { injection ED as <-. split; [rewrite map_length, seq_length; reflexivity|]. intros r Hr. apply in_map_iff in Hr.
      destruct Hr as (x & <- & _). rewrite map_length, seq_length. reflexivity. }
    destruct HBl as (B1 & B2). cbn [concat map fold_right]. split; [rewrite app_length; lia|].
    intros r Hr. apply in_app_iff in Hr. destruct Hr; auto.
Qed.
