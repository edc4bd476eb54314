(* Property theorems C109-C112: the template data of a slice of redshifts, its use in the refinement. *)
From Coq Require Import Reals Qreals.
From Verif Require Import Prelude PreludeFacts NumX Facts2 Model_Fitz Spec_Fitz Proof_Fitz Proof_Fitz2 Props_Fitz Model_Rebin Spec_Rebin Proof_Rebin Proof_Rebin2 Proof_Rebin3 Proof_Table
  Model_Dist Proof_Dist Proof_Dist2 Model_IGM Spec_IGM Model_Piece Spec_Piece Proof_Piece Proof_Piece2.
Open Scope nat_scope.

(* ---------------- C109 ---------------- *)
(* what a process holds: for every grid and every one of its redshifts, the rebinned absorbed template *)
Theorem C109_rows : forall wave flux model dwave zs data,
  wave <> [] -> (0 <= nth 0 wave 0)%Q -> (0 <= nth (length wave - 1) wave 0)%Q -> is_model model -> good_z zs -> good_w dwave -> zs <> [] ->
  (local_data wave flux model dwave zs = Ok data <-> data_at wave flux model dwave zs data).
Proof. intros. now apply local_ok. Qed.
Print Assumptions C109_rows.
(* the data of the ranks, put together, are the data one process would compute, and one fails iff the other does *)
Theorem C109_slices_join : forall wave flux model dwave zs size data,
  wave <> [] -> (0 <= nth 0 wave 0)%Q -> (0 <= nth (length wave - 1) wave 0)%Q -> is_model model -> good_z zs -> good_w dwave -> 0 < size <= length zs ->
  (local_data wave flux model dwave zs = Ok data <->
   exists pieces, length pieces = size /\ (forall r, r < size -> rank_data wave flux model dwave zs size r = Ok (nth r pieces [])) /\ joined pieces data).
Proof.
  intros wave flux model dwave zs size data Hw H0 H1 Hm Gz Gw Hsz.
  assert (Hz : zs <> []) by (intros ->; cbn in Hsz; lia). rewrite local_ok by assumption.
  destruct (array_split_spec zs size ltac:(lia)) as (sl & Es & Ls & Cs & Hl).
  assert (Hne : forall s, In s sl -> s <> []).
  { intros s Hin. assert (Hv : length s = length zs / size \/ length s = S (length zs / size)) by (apply section_sizes_val with (k := size); rewrite <- Hl; now apply in_map).
    pose proof (Nat.div_le_mono size (length zs) size ltac:(lia) ltac:(lia)) as Hd. rewrite Nat.div_same in Hd by lia. intros ->. cbn in Hv. lia. }
  assert (Hgz : forall s, In s sl -> good_z s) by (intros s Hin z Iz; apply Gz; rewrite <- Cs; apply in_concat; eauto).
  assert (Hsl : sl <> []) by (intros ->; cbn in Ls; lia).
  unfold rank_data. rewrite Es. cbn [rbind].
  pose proof (pieces_of (fun kw => pixel_at wave flux model (snd kw)) dwave sl Hsl data) as P. rewrite Cs in P. unfold D in P. unfold data_at. rewrite P. clear P. split.
  - intros (ps & F & J). pose proof (Forall2_len _ _ _ F) as L. exists ps. split; [lia|]. split; [|exact J]. intros r Hr.
    destruct (nth_error_lt_ex sl r ltac:(lia)) as [s Hs]. rewrite Hs. destruct (Forall2_nth _ _ _ r s F Hs) as (p & Hp & Hd).
    apply nth_error_nth with (d := []) in Hp. rewrite Hp. apply nth_error_In in Hs. apply local_ok; auto.
  - intros (ps & L & R & J). exists ps. split; [|exact J]. apply Forall2_nth_intro with (d := []) (e := []); [lia|]. intros r Hr.
    assert (Hr' : r < size) by lia. specialize (R r Hr'). rewrite (nth_error_nth' sl [] Hr) in R. assert (I : In (nth r sl []) sl) by (now apply nth_In).
    apply local_ok in R; auto.
Qed.
Print Assumptions C109_slices_join.
Lemma good_z_Q zs : (forall z, In z zs -> (0 <= z)%Q) -> good_z zs.
Proof. intros H z Hz. specialize (H z Hz). replace 1%R with (Q2R 1) by apply RMicromega.Q2R_1. rewrite <- Q2R_plus, <- RMicromega.Q2R_0. apply Qlt_Rlt. lra. Qed.
Lemma good_w_Q (dw : list (Z * list Q)) : (forall k w l, In (k, w) dw -> In l w -> (0 < l)%Q) -> good_w dw.
Proof. intros H k w l A B. specialize (H k w l A B). rewrite <- RMicromega.Q2R_0. now apply Qlt_Rlt. Qed.
Definition dw0 : list (Z * list Q) := [(1, [4; 5]%Q); (2, [6; 8]%Q)]%Z.
Lemma dw0_good : good_w dw0.
Proof. apply good_w_Q. intros k w l H. cbn in H. destruct H as [H|[H|[]]]; injection H as <- <-; cbn; intros [<-|[<-|[]]]; lra. Qed.
Example C109_ex : exists data, local_data [1; 2; 5; 20]%Q [[1; 2; 3; 4]; [0; 1; 0; 1]]%Q None dw0 [0; 1#4; 1#2]%Q = Ok data /\ map fst data = [1; 2]%Z.
Proof.
  destruct (local_data [1; 2; 5; 20]%Q [[1; 2; 3; 4]; [0; 1; 0; 1]]%Q None dw0 [0; 1#4; 1#2]%Q) as [d|e] eqn:E.
  - exists d. split; [reflexivity|]. pose proof E as E'. apply C109_rows in E'; try discriminate.
    + unfold data_at in E'. clear E. inversion E' as [|? [k1 c1] ? ? [A _] E2]; subst. inversion E2 as [|? [k2 c2] ? ? [B _] E3]; subst. inversion E3; subst. cbn in *. now subst.
    + now left.
    + apply good_z_Q. intros z [<-|[<-|[<-|[]]]]; lra.
    + exact dw0_good.
  - exfalso. vm_compute in E. discriminate.
Qed.

(* ---------------- C110 ---------------- *)
(* a template that could be evaluated on the scan redshifts never makes the refinement fail *)
Theorem C110_refinement_never_fails : forall {E C} argsort polyfit (isqrt : Q -> E) neg1 (chi2 : list (Z * cube) -> Q) (coeff : list (Z * cube) -> C) zc mvd nminima nz
    redshifts wave flux model dwave data zchi2,
  argsort_ok argsort -> wave <> [] -> strictly_increasing wave -> (0 <= nth 0 wave 0)%Q -> (forall y, In y flux -> length y = length wave) ->
  is_model model -> good_w dwave -> (forall k w, In (k, w) dwave -> strictly_increasing w /\ 2 <= length w) ->
  2 <= length redshifts -> (forall i j, i <= j -> j < length redshifts -> (nth i redshifts 0 <= nth j redshifts 0)%Q) -> (forall z, In z redshifts -> (-1 < z)%Q) ->
  0 < nz -> length zchi2 = length redshifts ->
  local_data wave flux model dwave redshifts = Ok data ->
  exists out, fitz argsort polyfit isqrt neg1 (fun z => do d <- local_data wave flux model dwave [z]; Ok (chi2 d))
    (fun z => do d <- local_data wave flux model dwave [z]; Ok (coeff d)) zc mvd nminima nz redshifts None zchi2 = Ok out.
Proof.
  intros E C argsort polyfit isqrt neg1 chi2 coeff zc mvd nminima nz zs wave flux model dwave data zchi2 Ha Hw Hs H0 Hf Hm Gw Hg H2 Asc Pz Hn L Hd.
  assert (Gz : good_z zs).
  { intros z Hz. specialize (Pz z Hz). replace 1%R with (Q2R 1) by apply RMicromega.Q2R_1. rewrite <- Q2R_plus, <- RMicromega.Q2R_0. apply Qlt_Rlt. lra. }
  assert (E1 : hd 0%Q zs = nth 0 zs 0%Q) by (destruct zs; reflexivity). assert (E2 : last zs 0%Q = nth (length zs - 1) zs 0%Q) by (now rewrite last_nth).
  assert (I1 : In (hd 0%Q zs) zs) by (rewrite E1; apply nth_In; lia). assert (I2 : In (last zs 0%Q) zs) by (rewrite E2; apply nth_In; lia).
  assert (Cv : forall z, (hd 0%Q zs <= z)%Q -> (z <= last zs 0%Q)%Q -> covers wave dwave z) by (intros z A B; exact (covers_between wave flux model dwave Hw Hs H0 Hf Hm Gw zs data _ _ z Gz Hd I1 I2 A B)).
  apply fitz_ok; auto.
  - intros z A B. pose proof (Pz _ I1) as P1. destruct (local_z wave flux model dwave Hw Hs H0 Hf Hm Gw Hg z) as [d ->]; [lra|now apply Cv|]. cbn [rbind]. eauto.
  - intro z. destruct (local_two wave flux model dwave Hw Hs H0 Hf Hm Gw Hg z) as [[d ->]|[-> Nc]]; cbn [rbind]; [eauto|]. right. split; [reflexivity|].
    destruct (Qlt_le_dec z (hd 0%Q zs)) as [A|A]; [now left|]. destruct (Qlt_le_dec (last zs 0%Q) z) as [B|B]; [now right|]. exfalso. apply Nc. now apply Cv.
Qed.
Print Assumptions C110_refinement_never_fails.

Lemma inc_list l : (forall i, S i < length l -> (nth i l 0 < nth (S i) l 0)%Q) -> strictly_increasing l.
Proof.
  intros H i j Hij. induction j as [|j IH]; intro Hj; [lia|]. destruct (Nat.eq_dec i j) as [->|]; [now apply H|].
  eapply Qlt_trans; [apply IH; lia|now apply H].
Qed.
Example C110_ex : exists out, fitz argsort0 lagrange3 (fun a => a) 0%Q
    (fun z => do d <- local_data [1; 2; 5; 20]%Q [[1; 2; 3; 4]; [0; 1; 0; 1]]%Q None dw0 [z]; Ok 1%Q)
    (fun z => do d <- local_data [1; 2; 5; 20]%Q [[1; 2; 3; 4]; [0; 1; 0; 1]]%Q None dw0 [z]; Ok (length d)) 0 1000%Q 3 15 [0; 1#4; 1#2]%Q None [Fin 2; Fin 1; Fin 3] = Ok out.
Proof.
  destruct C109_ex as (data & Hd & _).
  apply (C110_refinement_never_fails argsort0 lagrange3 (fun a => a) 0%Q (fun _ => 1%Q) (fun d => length d)) with (data := data).
  - exact argsort0_ok.
  - discriminate.
  - apply inc_list. cbn [length]. intros [|[|[|[|i]]]] Hi; cbn [nth]; try lia; reflexivity.
  - cbn. lra.
  - intros y [<-|[<-|[]]]; reflexivity.
  - now left.
  - exact dw0_good.
  - intros k w H. cbn in H. destruct H as [H|[H|[]]]; injection H as <- <-; (split; [|cbn; lia]); apply inc_list; cbn [length]; intros [|i] Hi; cbn [nth]; try lia; reflexivity.
  - cbn. lia.
  - intros i j Hij Hj. cbn [length] in Hj. destruct i as [|[|[|i]]], j as [|[|[|j]]]; cbn [nth]; try lia; lra.
  - intros z [<-|[<-|[<-|[]]]]; reflexivity.
  - lia.
  - reflexivity.
  - exact Hd.
Qed.

(* ---------------- C111 ---------------- *)
Lemma edges_loop_arrays x y zs gpu x0 x1 d : (forall k v, In (k, v) d -> exists e, v = EArr e) ->
  edges_loop x y zs gpu x0 x1 None None d = mapM (fun ke => do b <- trapz_rebin x (Y2 y) (match snd ke with EArr e => e | ETup e _ _ => e end) (ZArray zs) gpu (Some x0) (Some x1) None None; Ok (fst ke, b)) d.
Proof.
  induction d as [|[k v] d IH]; intro H; [reflexivity|]. destruct (H k v (or_introl eq_refl)) as [e ->]. cbn [edges_loop mapM fst snd].
  destruct (trapz_rebin _ _ _ _ _ _ _ _ _); cbn [rbind]; [|reflexivity]. rewrite IH by (intros k' v' I; apply (H k' v'); now right). reflexivity.
Qed.
Lemma trapz_minmax x y e zs gpu x0 x1 : e <> [] ->
  trapz_rebin x y e zs gpu x0 x1 (Some (nth 0 e 0%Q)) (Some (nth (length e - 1) e 0%Q)) = trapz_rebin x y e zs gpu x0 x1 None None.
Proof. intro He. unfold trapz_rebin, odef. rewrite (get_nth e 0) by (destruct e; [congruence|cbn; lia]). cbn [rbind]. rewrite (getm1_0 e He). reflexivity. Qed.
Definition etup (e : list Q) : dedge := ETup e (nth 0 e 0%Q) (nth (length e - 1) e 0%Q).
Theorem C111_edges_same_as_wavelengths_partial : forall wave flux zs dw de gpu xmin xmax,
  Forall2 same_bins dw de -> arrays_first de ->
  rebin_template wave flux zs (DEdges de) gpu xmin xmax = rebin_template wave flux zs (DWave dw) gpu xmin xmax.
Proof.
  intros wave flux zs dw de gpu xmin xmax F A. unfold rebin_template.
  destruct (get wave 0) as [w0|]; cbn [rbind]; [|reflexivity]. destruct (getm1 wave 0) as [w1|]; cbn [rbind]; [|reflexivity].
  destruct (odef xmin _) as [x0|]; cbn [rbind]; [|reflexivity]. destruct (odef xmax _) as [x1|]; cbn [rbind]; [|reflexivity].
  assert (G : forall dw de mn mx, Forall2 same_bins dw de -> arrays_first de ->
    ((mn = None /\ mx = None) \/ forall k v, In (k, v) de -> exists e a b, v = ETup e a b) ->
    edges_loop wave flux zs gpu x0 x1 mn mx de = mapM (fun kw => do e <- centers2edges (snd kw); do b <- trapz_rebin wave (Y2 flux) e (ZArray zs) gpu (Some x0) (Some x1) None None; Ok (fst kw, b)) dw).
  { clear. intros dw de mn mx F. revert mn mx. induction F as [|[k w] [k' v] dw de [Ek (e & Ee & Hv)] F IH]; intros mn mx A M; [reflexivity|].
    cbn [fst snd] in *. subst k'. assert (A' : arrays_first de).
    { intros i j a b e1 m1 M1 e2 H1 H2. specialize (A (S i) (S j) a b e1 m1 M1 e2 H1 H2). lia. }
    cbn [mapM fst snd]. rewrite Ee. cbn [rbind]. destruct (c2e_len _ _ Ee) as [_ Hne]. destruct Hv as [->| ->]; cbn [edges_loop].
    - destruct M as [[-> ->]|M]; [|destruct (M k (EArr e) (or_introl eq_refl)) as (? & ? & ? & X); discriminate].
      destruct (trapz_rebin _ _ _ _ _ _ _ _ _); cbn [rbind]; [|reflexivity]. rewrite (IH None None A') by (left; now split). reflexivity.
    - rewrite trapz_minmax by exact Hne. destruct (trapz_rebin _ _ _ _ _ _ _ _ _); cbn [rbind]; [|reflexivity]. rewrite IH; [reflexivity|exact A'|]. right.
      intros k2 v2 I. destruct v2 as [e2|e2 a2 b2]; [|eauto]. apply In_nth_error in I. destruct I as [j Hj].
      specialize (A 0 (S j) k k2 e _ _ e2 eq_refl Hj). lia. }
  apply G; auto.
Qed.
Print Assumptions C111_edges_same_as_wavelengths_partial.
(* an array after a tuple is checked against the limits of the tuple: wavelengths the template does not
   cover are filled instead of raising *)
Theorem C111_stale_limits_refuted : exists wave flux zs dw de, Forall2 same_bins dw de /\
  rebin_template wave flux zs (DWave dw) false None None = Err ValueError /\
  exists r, rebin_template wave flux zs (DEdges de) false None None = Ok r.
Proof.
  exists [2; 3; 4]%Q, [[0; 0; 100]]%Q, [0]%Q, [(1, [9#4; 11#4]%Q); (2, [3#2; 5#2]%Q)]%Z.
  destruct (centers2edges [9#4; 11#4]%Q) as [e1|] eqn:E1; [|discriminate]. destruct (centers2edges [3#2; 5#2]%Q) as [e2|] eqn:E2; [|discriminate].
  exists [(1%Z, etup e1); (2%Z, EArr e2)]. split.
  - constructor; [split; [reflexivity|]; exists e1; split; [exact E1|now right]|]. constructor; [split; [reflexivity|]; exists e2; split; [exact E2|now left]|constructor].
  - vm_compute in E1, E2. injection E1 as <-. injection E2 as <-. split; [vm_compute; reflexivity|]. eexists. vm_compute. reflexivity.
Qed.
Print Assumptions C111_stale_limits_refuted.
Example C111_ex : exists de, Forall2 same_bins dw0 de /\ arrays_first de /\ length de = 2.
Proof.
  destruct (centers2edges [4; 5]%Q) as [e1|] eqn:E1; [|discriminate]. destruct (centers2edges [6; 8]%Q) as [e2|] eqn:E2; [|discriminate].
  exists [(1%Z, EArr e1); (2%Z, etup e2)]. split; [|split; [|reflexivity]].
  - constructor; [split; [reflexivity|]; exists e1; split; [exact E1|now left]|]. constructor; [split; [reflexivity|]; exists e2; split; [exact E2|now right]|constructor].
  - intros i j k k' e m M e' H1 H2. destruct i as [|[|[|i]]]; try discriminate; destruct j as [|[|[|j]]]; try discriminate; lia.
Qed.

(* ---------------- C112 ---------------- *)
(* the archetypes are compared at f_z r; the transmission they are given belongs to that redshift ... *)
Theorem C112_transmission_at_best_redshift_partial : forall {E C} polyfit (isqrt : Q -> E) neg1 scan refit (zc : C) nz redshifts imin r,
  refine polyfit isqrt neg1 scan refit zc nz redshifts imin = Ok r -> Z.testbit (f_zwarn r) 10 = false ->
  trans_redshift polyfit isqrt neg1 scan refit nz redshifts imin = Ok (Some (f_z r)).
Proof. intros E C polyfit isqrt neg1 scan refit zc nz redshifts imin r H T. destruct (trans_of_refine _ _ _ _ _ _ _ _ _ _ H) as (t & -> & K). now rewrite K. Qed.
Print Assumptions C112_transmission_at_best_redshift_partial.
(* ... but not when the parabola has its minimum outside the refined range: the archetypes are then
   compared at the scan minimum with the absorption of another redshift, or with none at all *)
Definition flat_scan (z : Q) : res Q := Ok (100 - z)%Q.
Definition bend (x : list Q) (y : list Q) : option (Q * Q * Q) := Some (1, -8, 116)%Q.
Theorem C112_transmission_of_other_redshift_refuted :
  (exists r z, refine bend (fun a => a) 0%Q flat_scan (fun _ => Ok tt) tt 3 [1; 2; 3; 4; 5]%Q 1 = Ok r /\
     trans_redshift bend (fun a => a) 0%Q flat_scan (fun _ => Ok tt) 3 [1; 2; 3; 4; 5]%Q 1 = Ok (Some z) /\ (f_z r == 3)%Q /\ (z == 4)%Q) /\
  (exists r, refine (fun _ _ => None) (fun a => a) 0%Q flat_scan (fun z => if qlt z 1 then Err ValueError else Ok tt) tt 3 [1; 2; 3; 4; 5]%Q 1 = Ok r /\
     trans_redshift (fun _ _ => None) (fun a => a) 0%Q flat_scan (fun z => if qlt z 1 then Err ValueError else Ok tt) 3 [1; 2; 3; 4; 5]%Q 1 = Ok None /\ (f_z r == 3)%Q).
Proof.
  split.
  - eexists. eexists. split; [vm_compute; reflexivity|]. split; [vm_compute; reflexivity|]. split; reflexivity.
  - eexists. split; [vm_compute; reflexivity|]. split; [vm_compute; reflexivity|]. reflexivity.
Qed.
Print Assumptions C112_transmission_of_other_redshift_refuted.
Example C112_ex : exists r, refine lagrange3 (fun a => a) 0%Q (fun z => Ok ((z - 2) * (z - 2) + 5)%Q) (fun _ => Ok tt) tt 3 [1; 3#2; 5#2; 3; 4]%Q 1 = Ok r /\ Z.testbit (f_zwarn r) 10 = false /\ (f_z r == 2)%Q.
Proof. eexists. split; [vm_compute; reflexivity|]. split; reflexivity. Qed.
