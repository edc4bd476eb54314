(* The archetype models evaluated afterwards are the models fitted. *)
From Verif Require Import Prelude PreludeFacts Facts2 NumX Model_Dist Proof_Table Model_Fitz Proof_Fitz Proof_Fitz2 Model_Zscan Spec_Zscan Proof_Zscan Proof_Zscan2 Proof_Zscan3 Proof_Zscan4 Model_IO Spec_IO Proof_IO Model_Rebin Model_Targets2 Proof_Eval Model_Arch Spec_Arch Proof_Arch Proof_Arch2 Proof_Arch3.
Local Arguments Qred : simpl never.

(* ---------- sums ---------- *)
Lemma dotf_bigsum n (f : nat -> Q) (c : list Q) : length c = n -> (dotf f (seq 0 n) c == bigsum n (fun b => f b * at1 c b))%Q.
Proof.
  intros H. unfold dotf. rewrite sumQ_bigsum. 
  assert (E : length (map2 Qmult (map f (seq 0 n)) c) = n) by (rewrite map2_length', map_length, seq_length, H; lia). rewrite E.
  apply bigsum_ext. intros i Hi. rewrite (map2_nth _ _ 0%Q 0%Q) by (rewrite ?map_length, ?seq_length; lia). rewrite nth_tab by exact Hi. reflexivity.
Qed.
Lemma bigsum_split n m f : (bigsum (n + m) f == bigsum n f + bigsum m (fun i => f (n + i)%nat))%Q.
Proof. induction m as [|m IH]; [rewrite Nat.add_0_r; cbn [bigsum]; lra|]. rewrite Nat.add_succ_r. cbn [bigsum]. rewrite IH. lra. Qed.
(* a row with a window: the n first columns and deg columns from n + deg * i on *)
Lemma bigsum_window n deg ncam i f : (i < ncam)%nat ->
  (forall k, (n <= k < n + deg * ncam)%nat -> ~ (n + deg * i <= k < n + deg * i + deg)%nat -> f k == 0)%Q ->
  (bigsum (n + deg * ncam) f == bigsum n f + bigsum deg (fun j => f (n + deg * i + j)%nat))%Q.
Proof.
  intros Hi H. replace (n + deg * ncam)%nat with ((n + deg * i + deg) + deg * (ncam - i - 1))%nat by nia. rewrite !bigsum_split.
  rewrite (bigsum_zero (deg * i)) by (intros k Hk; apply H; nia). rewrite (bigsum_zero (deg * (ncam - i - 1))) by (intros k Hk; apply H; nia). lra.
Qed.

(* ---------- evaluating one spectrum ---------- *)
Lemma vadd_len a b n : length a = n -> length b = n -> length (vadd a b) = n.
Proof. intros. unfold vadd. rewrite map2_length'. lia. Qed.
Lemma vadd_nth a b n l : length a = n -> length b = n -> (l < n)%nat -> nth l (vadd a b) 0%Q = (nth l a 0 + nth l b 0)%Q.
Proof. intros. unfold vadd. rewrite (map2_nth _ _ 0%Q 0%Q) by lia. reflexivity. Qed.

Section EvalOne.
  Variables (E : arch_env) (A : archetype) (wave : vec) (z : Q) (cols : list vec).
  Hypothesis Hlen : length (a_raw A) = length (a_flux A).
  Hypothesis Hly : length (e_lyman E z wave) = length wave.
  Hypothesis Hcols : mapM (rb1 (a_wave A) z wave) (a_flux A) = Ok cols.
  Let nw := length wave.
  Definition head (j : nat) : vec := tcol nw (Some (A1 (e_lyman E z wave))) (nth j cols []).
  Lemma head_length j : length (head j) = nw.
  Proof. unfold head, tcol. now rewrite map_length, seq_length. Qed.
  Lemma term_ok j c : (j < narch A)%nat -> exists t, eval_term E A wave z (nth j (sub_types A) EmptyString) c = Ok t /\ length t = nw /\
    forall l, (l < nw)%nat -> (nth l t 0 == nth l (head j) 0 * c)%Q.
  Proof.
    intros Hj. unfold eval_term. rewrite (first_index_nodup _ (sub_types_nodup A) j).
    2:{ apply nth_error_nth'. rewrite sub_types_length, Hlen. exact Hj. }
    rewrite (nth_error_nth' _ []) by exact Hj.
    pose proof Hcols as Hc. apply mapM_Forall2 in Hc. destruct (Forall2_nth _ _ _ j (nth j (a_flux A) []) Hc) as (col & Ec & Er); [now apply nth_error_nth'|].
    pose proof (rb1_length _ _ _ _ _ Er) as Hcl. unfold rb1 in Er. destruct (trapz_rebin_xnew _ _ _ _ _) as [[b|b|b]|]; try discriminate. cbn [rbind].
    assert (b = col) by congruence. subst b. eexists. split; [reflexivity|]. split; [rewrite map2_length'; unfold nw; lia|].
    intros l Hl. rewrite (map2_nth _ _ 0%Q 0%Q) by (unfold nw in Hl; lia). unfold head, tcol. rewrite nth_tab by exact Hl. unfold tval. rewrite Hly. unfold nw. rewrite Nat.eqb_refl.
    rewrite (nth_error_nth cols j [] Ec). lra.
  Qed.
  Lemma terms_ok : forall best ac m0, length ac = length best -> (forall j, In j best -> (j < narch A)%nat) -> length m0 = nw ->
    exists m, fold_left (fun acc nc => do m <- acc; do t <- eval_term E A wave z (fst nc) (snd nc); Ok (vadd m t))
       (combine (map (fun k => nth k (sub_types A) EmptyString) best) ac) (Ok m0) = Ok m /\ length m = nw /\
     forall l, (l < nw)%nat -> (nth l m 0 == nth l m0 0 + bigsum (length best) (fun k => nth l (head (nth k best O)) 0 * at1 ac k))%Q.
  Proof.
    induction best as [|j best IH]; intros [|c ac] m0 Hl Hb Hm; try discriminate Hl.
    - exists m0. split; [reflexivity|]. split; [exact Hm|]. intros. cbn [length bigsum]. lra.
    - cbn [map combine fold_left]. destruct (term_ok j c (Hb j (or_introl eq_refl))) as (t & Et & Htl & Ht). cbn [fst snd rbind]. rewrite Et. cbn [rbind].
      destruct (IH ac (vadd m0 t)) as (m & Em & Hml & Hmv); [cbn in Hl; lia|intros; apply Hb; now right|now apply vadd_len|].
      exists m. split; [exact Em|]. split; [exact Hml|]. intros l Hll. rewrite (Hmv l Hll). rewrite (vadd_nth _ _ nw) by assumption. rewrite (Ht l Hll). cbn [length]. rewrite bigsum_shift. unfold at1. cbn [nth]. lra.
  Qed.
  Lemma leg_ok lc L : leg_array (length lc) wave = Ok (Some L) -> length L = length lc ->
    exists t, leg_term wave lc = Ok t /\ length t = nw /\ forall l, (l < nw)%nat -> (nth l t 0 == bigsum (length lc) (fun j => nth l (nth j L []) 0 * at1 lc j))%Q.
  Proof.
    intros HL Hl. unfold leg_term. rewrite HL. cbn [rbind]. eexists. split; [reflexivity|]. split; [now rewrite map_length, seq_length|]. intros l Hll. rewrite nth_tab by exact Hll.
    rewrite sumQ_bigsum. rewrite map2_length', map_length. rewrite Hl, Nat.min_id. apply bigsum_ext. intros j Hj. rewrite (map2_nth _ _ 0%Q 0%Q) by (rewrite ?map_length; lia).
    rewrite (nth_indep _ 0%Q ((fun row : list Q => nth l row 0%Q) [])) by (rewrite map_length; lia). rewrite (map_nth (fun row : list Q => nth l row 0%Q)). reflexivity.
  Qed.
  (* the model before the resolution *)
  Lemma eval_before best ac lc L : good_names A -> best <> [] -> length ac = length best -> (forall j, In j best -> (j < narch A)%nat) ->
    leg_array (length lc) wave = Ok (Some L) -> length L = length lc ->
    exists out, length out = nw /\ (forall R, arch_eval E A (join ";" (map (fun k => nth k (sub_types A) EmptyString) best)) ac wave z (Some R) (Some lc) = csr_vec R out) /\
      forall l, (l < nw)%nat -> (nth l out 0 == bigsum (length best) (fun k => nth l (head (nth k best O)) 0 * at1 ac k) + bigsum (length lc) (fun j => nth l (nth j L []) 0 * at1 lc j))%Q.
  Proof.
    intros G Hne Hac Hb HL HlL. 
    destruct (fulltype_roundtrip A best G Hne) as [_ H2]; [intros j Hj; rewrite (gn_len A G); now apply Hb|].
    destruct (terms_ok best ac (repeat 0%Q nw) Hac Hb (repeat_length _ _)) as (m & Em & Hml & Hmv).
    destruct (leg_ok lc L HL HlL) as (t & Et & Htl & Htv).
    exists (vadd m t). split; [now apply vadd_len|]. split.
    - intros R. unfold arch_eval. rewrite H2. rewrite map_length. replace (firstn (length best) ac) with ac by (rewrite <- Hac; symmetry; apply firstn_all).
      fold nw. rewrite Em. cbn [rbind]. rewrite Et. reflexivity.
    - intros l Hl. rewrite (vadd_nth _ _ nw) by assumption. rewrite (Hmv l Hl), (Htv l Hl).
      assert (E0 : nth l (repeat 0%Q nw) 0%Q = 0%Q) by (apply nth_repeat). rewrite E0. lra.
  Qed.
End EvalOne.
