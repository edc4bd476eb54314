From Verif Require Import Prelude PreludeFacts NumX Model_Rank Spec_Rank Proof_Rank.

Lemma deltachi2_loop_length rows : length (deltachi2_loop rows) = length rows.
Proof. induction rows as [|r rest IH]; cbn; [reflexivity|rewrite IH; reflexivity]. Qed.
Lemma deltachi2_loop_nth rows i :
  nth_error (deltachi2_loop rows) i =
  option_map (fun r => deltachi2_at r (skipn (S i) rows)) (nth_error rows i).
Proof.
  revert i; induction rows as [|r rest IH]; intros [|i]; try reflexivity.
  cbn [deltachi2_loop nth_error]. rewrite IH; reflexivity.
Qed.
Lemma setzwarn_loop_nth rows i :
  nth_error (setzwarn_loop rows) i = option_map (setzwarn_at rows i) (nth_error rows i).
Proof.
  unfold setzwarn_loop, enum. rewrite nth_error_map, enum_from_nth.
  destruct (nth_error rows i); reflexivity.
Qed.

Lemma in_skipn {A} (l : list A) i s :
  In s (skipn i l) <-> exists j, i <= j /\ nth_error l j = Some s.
Proof.
  split.
  - intros H; apply In_nth_error in H as [k Hk]. exists (i + k); split; [lia|].
    rewrite <- Hk. clear. revert l; induction i as [|i IH]; intros [|a l]; try reflexivity.
    + destruct k; reflexivity.
    + cbn [skipn Nat.add nth_error]; apply IH.
  - intros (j & Hj & Hs). replace j with (i + (j - i)) in Hs by lia.
    apply nth_error_In with (n := j - i). rewrite <- Hs. clear.
    generalize (j - i); intros k. revert l; induction i as [|i IH]; intros [|a l]; try reflexivity.
    + destruct k; reflexivity.
    + cbn [skipn Nat.add nth_error]; apply IH.
Qed.
Lemma in_firstn {A} (l : list A) i s :
  In s (firstn i l) <-> exists j, j < i /\ nth_error l j = Some s.
Proof.
  revert i; induction l as [|a l IH]; intros [|i]; cbn.
  - split; [intros []|intros (j & ? & ?); lia].
  - split; [intros []|intros (j & ? & H); destruct j; discriminate].
  - split; [intros []|intros (j & ? & ?); lia].
  - rewrite IH. split.
    + intros [->|(j & Hj & H)]; [exists 0; split; [lia|reflexivity]|exists (S j); split; [lia|exact H]].
    + intros ([|j] & Hj & H); [left; injection H as ->; reflexivity|right; exists j; split; [lia|exact H]].
Qed.
Lemma in_noti {A} (l : list A) i s :
  In s (firstn i l ++ skipn (S i) l) <-> exists j, j <> i /\ nth_error l j = Some s.
Proof.
  rewrite in_app_iff, in_firstn, in_skipn. split.
  - intros [(j & Hj & H)|(j & Hj & H)]; exists j; split; auto; lia.
  - intros (j & Hj & H). destruct (Nat.lt_total j i) as [?|[?|?]]; [left|contradiction|right];
      exists j; split; auto; lia.
Qed.

Lemma npmin_fin q qs :
  exists m, npmin (Fin q) (map Fin qs) = Fin m /\ In m (q :: qs) /\ (forall y, In y (q :: qs) -> m <= y)%Q.
Proof.
  revert q; induction qs as [|a qs IH]; intros q; cbn [map npmin].
  - exists q; split; [reflexivity|split; [left; reflexivity|]]. intros y [<-|[]]; lra.
  - cbn [xmin2 xle]. destruct (Qle_bool q a) eqn:E.
    + destruct (IH q) as (m & Hm & Hi & Hl). exists m; split; [exact Hm|split].
      * destruct Hi as [->|Hi]; [left; reflexivity|right; right; exact Hi].
      * apply Qle_bool_iff in E. intros y [<-|[<-|Hy]]; [apply Hl; left; reflexivity| |apply Hl; right; exact Hy].
        eapply Qle_trans; [apply Hl; left; reflexivity|exact E].
    + destruct (IH a) as (m & Hm & Hi & Hl). exists m; split; [exact Hm|split].
      * right; exact Hi.
      * apply Qle_bool_false in E. intros y [<-|[<-|Hy]].
        -- eapply Qle_trans; [apply Hl; left; reflexivity|lra].
        -- apply Hl; left; reflexivity.
        -- apply Hl; right; exact Hy.
Qed.

Lemma okfit_iff r : okfit r = true <-> ~ is_bad (d_zwarn r).
Proof. unfold okfit; rewrite N.eqb_eq; apply land_mask_zero. Qed.

Lemma get_dv_velocity z zr : get_dv z zr = velocity z zr.
Proof. reflexivity. Qed.

(* the chi2 gaps considered for row i *)
Definition gaps (rows : list drow) (chi : nat -> Q) (i : nat) (x : Q) : Prop :=
  exists j r s, i < j /\ nth_error rows i = Some r /\ nth_error rows j = Some s /\
    ~ is_bad (d_zwarn s) /\
    (Qmin (d_lim r) (d_lim s) < Qabs (velocity (d_z s) (d_z r)))%Q /\
    x = (chi j - chi i)%Q.

Lemma deltachi2_spec rows chi :
  (forall j s, nth_error rows j = Some s -> d_chi2 s = Fin (chi j)) ->
  forall i, i < length rows ->
  exists d, nth_error (fst (calc_deltachi2 rows)) i = Some (Fin d) /\
    ((exists x, gaps rows chi i x) -> is_least (gaps rows chi i) d) /\
    ((forall x, ~ gaps rows chi i x) -> (d == 0)%Q).
Proof.
  intros Hfin i Hi. destruct (nth_error_lt_ex _ _ Hi) as [r Hr].
  cbn [calc_deltachi2 fst]. rewrite deltachi2_loop_nth, Hr. cbn [option_map].
  unfold deltachi2_at.
  set (p := fun s => (qlt (Qmin (d_lim r) (d_lim s)) (Qabs (get_dv (d_z s) (d_z r))) && okfit s)%bool).
  set (L := filter p (skipn (S i) rows)).
  assert (HL : forall s, In s L <-> exists j, i < j /\ nth_error rows j = Some s /\ ~ is_bad (d_zwarn s) /\
      (Qmin (d_lim r) (d_lim s) < Qabs (velocity (d_z s) (d_z r)))%Q).
  { intros s. unfold L. rewrite filter_In, in_skipn. unfold p. rewrite andb_true_iff, qlt_iff, okfit_iff, get_dv_velocity.
    split; [intros [(j & Hj & H) [H1 H2]]; exists j; repeat split; auto
           |intros (j & Hj & H & H1 & H2); split; [exists j; split; [lia|exact H]|split; auto]]. }
  assert (Hri : d_chi2 r = Fin (chi i)) by (apply Hfin; exact Hr).
  (* differences are finite *)
  assert (HD : exists qs, map (fun s => xsub (d_chi2 s) (d_chi2 r)) L = map Fin qs /\
            (forall x, In x qs -> exists x', gaps rows chi i x' /\ (x == x')%Q) /\
            (forall x, gaps rows chi i x -> exists x', In x' qs /\ (x == x')%Q)).
  { assert (G : forall L', (forall s, In s L' -> In s L) ->
       exists qs, map (fun s => xsub (d_chi2 s) (d_chi2 r)) L' = map Fin qs /\
            (forall x, In x qs -> exists x', gaps rows chi i x' /\ (x == x')%Q) /\
            (forall s, In s L' -> exists x', In x' qs /\ d_chi2 s = Fin (x' + chi i)%Q \/ 
                         exists x' j, In x' qs /\ d_chi2 s = Fin (chi j) /\ (x' == chi j - chi i)%Q)).
    { induction L' as [|s L' IH]; intros Hsub.
      - exists []; repeat split; [intros x []|intros s []].
      - destruct IH as (qs & Hm & H1 & H2); [intros s' Hs'; apply Hsub; right; exact Hs'|].
        destruct (proj1 (HL s) (Hsub s (or_introl eq_refl))) as (j & Hij & Hj & Hb & Hv).
        pose proof (Hfin j s Hj) as Hsj.
        exists ((chi j + - chi i)%Q :: qs). split; [|split].
        + cbn [map]. rewrite Hm, Hsj, Hri. reflexivity.
        + intros x [<-|Hx]; [|apply H1, Hx].
          exists (chi j - chi i)%Q; split; [exists j, r, s; auto 10|lra].
        + intros s' [<-|Hs'].
          * exists 0%Q; right. exists (chi j + - chi i)%Q, j; split; [left; reflexivity|split; [exact Hsj|lra]].
          * destruct (H2 s' Hs') as [x' [[Hx' He]|(x'' & j' & Hx'' & He & Hq)]].
            -- exists x'; left; split; [right; exact Hx'|exact He].
            -- exists 0%Q; right; exists x'', j'; split; [right; exact Hx''|auto]. }
    destruct (G L (fun s H => H)) as (qs & Hm & H1 & H2).
    exists qs; split; [exact Hm|split; [exact H1|]].
    intros x (j & r' & s & Hij & Hr' & Hj & Hb & Hv & Hx).
    assert (r' = r) by congruence; subst r'.
    assert (HsL : In s L) by (apply HL; exists j; auto).
    pose proof (Hfin j s Hj) as Hsj.
    destruct (H2 s HsL) as [x' [[Hx' He]|(x'' & j' & Hx'' & He & Hq)]].
    - exists x'; split; [exact Hx'|]. rewrite Hsj in He; injection He as He. rewrite Hx, He; lra.
    - exists x''; split; [exact Hx''|]. rewrite Hsj in He; injection He as He. rewrite Hx, He; lra. }
  destruct HD as (qs & Hm & H1 & H2). rewrite Hm.
  destruct qs as [|q qs]; cbn [map].
  - exists 0%Q; split; [reflexivity|split; [|intros; lra]].
    intros [x Hx]. destruct (H2 x Hx) as (x' & [] & _).
  - destruct (npmin_fin q qs) as (m & Em & Hin & Hle).
    exists m; split; [rewrite Em; reflexivity|split].
    + intros _. split.
      * destruct (H1 m Hin) as (x' & Hg & Hq). exists x'; split; [exact Hg|lra].
      * intros x Hx. destruct (H2 x Hx) as (x' & Hx' & Hq). rewrite Hq; apply Hle, Hx'.
    + intros Hn. exfalso. destruct (H1 m Hin) as (x' & Hg & _). exact (Hn x' Hg).
Qed.

Lemma setzwarn_spec rows chi :
  (forall j s, nth_error rows j = Some s -> d_chi2 s = Fin (chi j)) ->
  forall i r, nth_error rows i = Some r ->
  exists b, nth_error (snd (calc_deltachi2 rows)) i = Some b /\
   (b = true <-> exists j s, j <> i /\ nth_error rows j = Some s /\ ~ is_bad (d_zwarn s) /\
       (Qabs (chi j - chi i) < 9)%Q /\
       (Qmin (d_lim r) (d_lim s) <= Qabs (velocity (d_z s) (d_z r)))%Q).
Proof.
  intros Hfin i r Hr. cbn [calc_deltachi2 snd]. rewrite setzwarn_loop_nth, Hr. cbn [option_map].
  eexists; split; [reflexivity|].
  unfold setzwarn_at. rewrite existsb_exists.
  assert (Hri : d_chi2 r = Fin (chi i)) by (apply Hfin; exact Hr).
  assert (K : forall j s, nth_error rows j = Some s ->
     (((okfit s && xlt (xabs (xsub (d_chi2 s) (d_chi2 r))) (Fin min_deltachi2)) &&
       Qle_bool (Qmin (d_lim r) (d_lim s)) (Qabs (get_dv (d_z s) (d_z r))))%bool = true <->
      ~ is_bad (d_zwarn s) /\ (Qabs (chi j - chi i) < 9)%Q /\
       (Qmin (d_lim r) (d_lim s) <= Qabs (velocity (d_z s) (d_z r)))%Q)).
  { intros j s Hj. rewrite (Hfin j s Hj), Hri. cbn [xsub xadd xopp xabs xlt].
    rewrite !andb_true_iff, okfit_iff, qlt_iff, Qle_bool_iff, get_dv_velocity. unfold min_deltachi2.
    tauto. }
  split.
  - intros (s & Hs & H). apply in_noti in Hs as (j & Hji & Hj).
    exists j, s. apply (K j s Hj) in H. tauto.
  - intros (j & s & Hji & Hj & H). exists s; split; [apply in_noti; eauto|].
    apply (K j s Hj); exact H.
Qed.

Lemma calc_lengths rows :
  length (fst (calc_deltachi2 rows)) = length rows /\ length (snd (calc_deltachi2 rows)) = length rows.
Proof.
  cbn; split; [apply deltachi2_loop_length|].
  unfold setzwarn_loop, enum; rewrite map_length, enum_from_length; reflexivity.
Qed.

(* a table is ranked when earlier rows never rank after later ones *)
Definition ranked (rows : list drow) : Prop :=
  forall i j r s, i < j -> nth_error rows i = Some r -> nth_error rows j = Some s ->
    (is_bad (d_zwarn r) -> is_bad (d_zwarn s)) /\
    ((is_bad (d_zwarn r) <-> is_bad (d_zwarn s)) -> ~ chi2_before (d_chi2 s) (d_chi2 r)).

Lemma gaps_nonneg rows chi i x :
  (forall j s, nth_error rows j = Some s -> d_chi2 s = Fin (chi j)) ->
  ranked rows -> gaps rows chi i x -> (0 <= x)%Q.
Proof.
  intros Hfin Hrk (j & r & s & Hij & Hr & Hs & Hb & Hv & ->).
  destruct (Hrk i j r s Hij Hr Hs) as [H1 H2].
  assert (Hbr : ~ is_bad (d_zwarn r)) by tauto.
  specialize (H2 ltac:(tauto)). rewrite (Hfin _ _ Hr), (Hfin _ _ Hs) in H2. cbn in H2.
  apply Qnot_lt_le in H2. lra.
Qed.

Lemma gaps_dec rows chi i :
  (forall j s, nth_error rows j = Some s -> d_chi2 s = Fin (chi j)) ->
  i < length rows -> (exists x, gaps rows chi i x) \/ (forall x, ~ gaps rows chi i x).
Proof.
  intros Hfin Hi. destruct (nth_error_lt_ex _ _ Hi) as [r Hr].
  set (p := fun s => (qlt (Qmin (d_lim r) (d_lim s)) (Qabs (get_dv (d_z s) (d_z r))) && okfit s)%bool).
  destruct (existsb p (skipn (S i) rows)) eqn:E.
  - left. apply existsb_exists in E as (s & Hs & Hp). apply in_skipn in Hs as (j & Hj & Hs).
    unfold p in Hp; rewrite andb_true_iff, qlt_iff, okfit_iff in Hp. destruct Hp as [H1 H2].
    exists (chi j - chi i)%Q, j, r, s. rewrite get_dv_velocity in H1. repeat split; auto.
  - right. intros x (j & r' & s & Hij & Hr' & Hs & Hb & Hv & ->).
    assert (r' = r) by congruence; subst r'.
    assert (existsb p (skipn (S i) rows) = true); [|congruence].
    apply existsb_exists. exists s; split; [apply in_skipn; exists j; split; [lia|exact Hs]|].
    unfold p; rewrite andb_true_iff, qlt_iff, okfit_iff, get_dv_velocity; auto.
Qed.
