(* Proofs on the data of the slices of redshifts. *)
From Coq Require Import Reals Qreals.
From Verif Require Import Prelude PreludeFacts Facts2 Model_Fitz Proof_Fitz Model_Rebin Spec_Rebin Proof_Rebin Proof_Rebin2 Proof_Rebin3 Proof_Table Model_Dist Proof_Dist Proof_Dist2
  Model_IGM Spec_IGM Proof_IGM Props_IGM Model_Piece Spec_Piece.
Open Scope nat_scope.

Lemma guard_all x0 e zs : zs <> [] -> (0 <= x0)%Q -> (qlt e (x0 * (1 + amax zs))%Q = false <-> forall z, In z zs -> (x0 * (1 + z) <= e)%Q).
Proof.
  intros Hz H0. destruct (amax_spec zs Hz) as [I1 I2]. rewrite qlt_false. split.
  - intros H z Hin. apply I2 in Hin. eapply Qle_trans; [|exact H]. rewrite !(Qmult_comm x0). apply Qmult_le_compat_r; [lra|exact H0].
  - intro H. now apply H.
Qed.
Lemma guard_all' x1 e zs : zs <> [] -> (0 <= x1)%Q -> (qlt (x1 * (1 + amin zs))%Q e = false <-> forall z, In z zs -> (e <= x1 * (1 + z))%Q).
Proof.
  intros Hz H0. destruct (amin_spec zs Hz) as [I1 I2]. rewrite qlt_false. split.
  - intros H z Hin. apply I2 in Hin. eapply Qle_trans; [exact H|]. rewrite !(Qmult_comm x1). apply Qmult_le_compat_r; [lra|exact H0].
  - intro H. now apply H.
Qed.
Lemma transpose_nth n cols i : i < n -> nth i (transpose_cols n cols) [] = map (fun c => nth i c 0%Q) cols.
Proof. intro H. unfold transpose_cols. apply (nth_tab (fun i => map (fun c => nth i c 0%Q) cols)). exact H. Qed.
Lemma transpose_len n cols : length (transpose_cols n cols) = n.
Proof. unfold transpose_cols. now rewrite map_length, seq_length. Qed.

Lemma F2nth {A B} (P : A -> B -> Prop) d e l m : Forall2 P l m -> forall i, i < length l -> P (nth i l d) (nth i m e).
Proof. induction 1 as [|x y l m H _ IH]; intros i Hi; [cbn in Hi; lia|]. destruct i as [|i]; [exact H|]. apply IH. cbn in Hi. lia. Qed.

Section P.
Variables (wave : list Q) (flux : list (list Q)).
Hypothesis Hw : wave <> [].
Hypothesis H0 : (0 <= nth 0 wave 0)%Q.
Hypothesis H1 : (0 <= nth (length wave - 1) wave 0)%Q.

Definition guarded (edges : list Q) (z : Q) : Prop :=
  (nth 0 wave 0 * (1 + z) <= nth 0 edges 0)%Q /\ (nth (length edges - 1) edges 0 <= nth (length wave - 1) wave 0 * (1 + z))%Q.
Definition row_of (edges : list Q) (z : Q) : res (list (list Q)) :=
  do cols <- mapM (fun yb => rebin_1d (redshifted wave z) yb edges (zeros (length edges - 1))) flux; Ok (transpose_cols (length edges - 1) cols).
Lemma row_at_of edges z row : row_at wave flux edges z row <-> guarded edges z /\ row_of edges z = Ok row.
Proof.
  unfold row_at, guarded, row_of. split.
  - intros (G1 & G2 & cols & F & L & N). split; [now split|]. apply mapM_Forall2 in F. rewrite F. cbn [rbind]. f_equal.
    apply nth_ext with (d := []) (d' := []); rewrite transpose_len; [now symmetry|]. intros i Hi. rewrite transpose_nth, N by exact Hi. reflexivity.
  - intros [[G1 G2] H]. split; [exact G1|]. split; [exact G2|]. destruct (mapM _ flux) as [cols|] eqn:E; cbn [rbind] in H; [|discriminate]. injection H as <-.
    exists cols. split; [now apply mapM_Forall2|]. split; [apply transpose_len|]. intros i Hi. now apply transpose_nth.
Qed.
Lemma trapz_rows edges zs r : edges <> [] -> zs <> [] ->
  (trapz_rebin wave (Y2 flux) edges (ZArray zs) false (Some (nth 0 wave 0 * (1 + amax zs))%Q) (Some (nth (length wave - 1) wave 0 * (1 + amin zs))%Q) None None = Ok r
   <-> exists rows, r = V3 rows /\ Forall2 (row_at wave flux edges) zs rows).
Proof.
  intros He Hz.
  assert (E : trapz_rebin wave (Y2 flux) edges (ZArray zs) false (Some (nth 0 wave 0 * (1 + amax zs))%Q) (Some (nth (length wave - 1) wave 0 * (1 + amin zs))%Q) None None
     = if qlt (nth 0 edges 0%Q) (nth 0 wave 0 * (1 + amax zs))%Q || qlt (nth (length wave - 1) wave 0 * (1 + amin zs))%Q (nth (length edges - 1) edges 0%Q)
       then Err ValueError else do r <- mapM (row_of edges) zs; Ok (V3 r)).
  { unfold trapz_rebin, odef. rewrite (get_nth edges 0) by (destruct edges; [congruence|cbn; lia]). cbn [rbind]. rewrite (getm1_0 edges He). cbn [rbind].
    destruct zs as [|z0 zr]; [congruence|]. cbn [rbind]. reflexivity. }
  rewrite E. clear E. split.
  - destruct (_ || _) eqn:G; [discriminate|]. apply orb_false_iff in G. destruct G as [G1 G2].
    rewrite guard_all in G1 by assumption. rewrite guard_all' in G2 by assumption.
    destruct (mapM (row_of edges) zs) as [rows|] eqn:Em; cbn [rbind]; [|discriminate]. intro H. injection H as <-. exists rows. split; [reflexivity|].
    apply mapM_Forall2 in Em. clear Hz. induction Em as [|z row zs' rows' Hr _ IH]; constructor.
    + apply row_at_of. split; [split; [apply G1|apply G2]; now left|exact Hr].
    + apply IH; intros; [apply G1|apply G2]; now right.
  - intros (rows & -> & F). assert (G : forall z, In z zs -> guarded edges z).
    { intros z Hin. destruct (In_nth_error _ _ Hin) as [i Hi]. destruct (Forall2_nth _ _ _ i z F Hi) as (row & _ & Hr). apply row_at_of in Hr. apply Hr. }
    assert (G1 : qlt (nth 0 edges 0%Q) (nth 0 wave 0 * (1 + amax zs))%Q = false) by (apply guard_all; [exact Hz|exact H0|]; intros z Hin; now apply G).
    assert (G2 : qlt (nth (length wave - 1) wave 0 * (1 + amin zs))%Q (nth (length edges - 1) edges 0%Q) = false) by (apply guard_all'; [exact Hz|exact H1|]; intros z Hin; now apply G).
    rewrite G1, G2. cbn [orb]. assert (Em : mapM (row_of edges) zs = Ok rows).
    { apply mapM_Forall2. eapply Forall2_impl; [|exact F]. intros z row Hr. now apply row_at_of in Hr. }
    now rewrite Em.
Qed.
Lemma c2e_len lo edges : centers2edges lo = Ok edges -> length edges = S (length lo) /\ edges <> [].
Proof.
  unfold centers2edges. destruct lo as [|a [|b lo]]; try discriminate. intro H. injection H as <-. split; [|discriminate].
  cbn [length]. rewrite app_length. cbn [length]. assert (M : forall l c, length (midpoints (c :: l)) = length l).
  { induction l as [|d l IH]; intro c; [reflexivity|]. cbn [midpoints length]. now rewrite <- (IH d). }
  generalize (M (b :: lo) a). cbn [midpoints length]. lia.
Qed.
Lemma rebin_template_ok d zs data : zs <> [] ->
  (rebin_template wave flux zs (DWave d) false None None = Ok data <->
   Forall2 (fun kw kr => fst kr = fst kw /\ exists edges rows, centers2edges (snd kw) = Ok edges /\ snd kr = V3 rows /\ Forall2 (row_at wave flux edges) zs rows) d data).
Proof.
  intro Hz. unfold rebin_template, odef. rewrite (get_nth wave 0) by (destruct wave; [congruence|cbn; lia]). cbn [rbind]. rewrite (getm1_0 wave Hw). cbn [rbind].
  assert (E : forall v : Q, match zs with [] => Err ValueError | _ => Ok v end = Ok v) by (intro v; destruct zs; [congruence|reflexivity]).
  rewrite !E. cbn [rbind]. rewrite mapM_Forall2. split; apply Forall2_impl; intros [k w] [k' r]; cbn [fst snd].
  - destruct (centers2edges w) as [edges|] eqn:Ee; cbn [rbind]; [|discriminate].
    destruct (trapz_rebin _ _ _ _ _ _ _ _ _) as [r'|] eqn:Et; cbn [rbind]; [|discriminate]. intro H. injection H as <- <-. split; [reflexivity|].
    rewrite trapz_rows in Et; [|now apply c2e_len in Ee|exact Hz]. destruct Et as (rows & -> & F). exists edges, rows. now repeat split.
  - intros (-> & edges & rows & Ee & -> & F). rewrite Ee. cbn [rbind].
    assert (Et := proj2 (trapz_rows edges zs (V3 rows) (proj2 (c2e_len _ _ Ee)) Hz)). rewrite Et; [reflexivity|]. now exists rows.
Qed.
Lemma rebin_template_empty d : rebin_template wave flux [] (DWave d) false None None = Err ValueError.
Proof.
  unfold rebin_template, odef. rewrite (get_nth wave 0) by (destruct wave; [congruence|cbn; lia]). cbn [rbind]. rewrite (getm1_0 wave Hw). reflexivity.
Qed.

(* ---------- the transmission ---------- *)
Lemma times_row_ok p t out : times_row p t = Ok out <-> length p = length t /\ length out = length p /\
  forall i, i < length p -> nth i out [] = map (fun v => (v * nth i t 0)%R) (nth i p []).
Proof.
  revert t out. induction p as [|c p IH]; intros [|x t] out; cbn [times_row].
  - split; [intro H; injection H as <-; split; [reflexivity|]; split; [reflexivity|]; cbn; lia|]. intros (_ & L & _). destruct out; [reflexivity|discriminate].
  - split; [discriminate|]. intros (L & _). discriminate.
  - split; [discriminate|]. intros (L & _). discriminate.
  - split.
    + destruct (times_row p t) as [r|] eqn:E; cbn [rbind]; [|discriminate]. intro H. injection H as <-. apply IH in E. destruct E as (A & B & N).
      cbn [length]. split; [lia|]. split; [lia|]. intros [|i] Hi; [reflexivity|]. cbn [nth]. apply N. lia.
    + intros (A & B & N). destruct out as [|o out]; [discriminate|]. cbn [length] in *.
      assert (E : times_row p t = Ok out) by (apply IH; split; [lia|]; split; [lia|]; intros i Hi; apply (N (S i)); lia).
      rewrite E. cbn [rbind]. f_equal. f_equal. symmetry. apply (N 0). lia.
Qed.
Lemma times_T_ok d T out : times_T d T = Ok out <-> Forall2 (fun pt o => times_row (fst pt) (snd pt) = Ok o) (combine d T) out /\ length d = length T.
Proof.
  revert T out. induction d as [|p d IH]; intros [|t T] out; cbn [times_T combine].
  - split; [intro H; injection H as <-; split; [constructor|reflexivity]|]. intros [F _]. inversion F. reflexivity.
  - split; [discriminate|]. intros [_ L]. discriminate.
  - split; [discriminate|]. intros [_ L]. discriminate.
  - split.
    + destruct (times_row p t) as [a|] eqn:E; cbn [rbind]; [|discriminate]. destruct (times_T d T) as [r|] eqn:Er; cbn [rbind]; [|discriminate].
      intro H. injection H as <-. apply IH in Er. destruct Er as [F L]. split; [constructor; [exact E|exact F]|cbn; lia].
    + intros [F L]. inversion F as [|? ? ? ? E F']; subst. cbn [fst snd] in E. rewrite E. cbn [rbind].
      assert (Er : times_T d T = Ok l') by (apply IH; split; [exact F'|cbn in L; lia]). now rewrite Er.
Qed.

Variable model : option string.
Hypothesis Hm : is_model model.
(* one row before and after the transmission *)
Definition absorbed_row (lo : list Q) (z : Q) (p out : list (list R)) : Prop :=
  length p = length lo /\ length out = length lo /\ forall i, i < length lo -> nth i out [] = map (fun v => (v * T_of model (Q2R z) (Q2R (nth i lo 0%Q)))%R) (nth i p []).
Lemma absorb_ok zs lo d out : zs <> [] -> lo <> [] -> (forall z, In z zs -> (0 < 1 + Q2R z)%R) -> (forall l, In l lo -> (0 < Q2R l)%R) ->
  Forall (fun p => length p = length lo) d -> length d = length zs ->
  (absorb model zs lo d = Ok out <-> length out = length zs /\ forall i, i < length zs -> absorbed_row lo (nth i zs 0%Q) (nth i d []) (nth i out [])).
Proof.
  intros Hz Hl Pz Pl Hd Ld. unfold absorb.
  assert (PA : positive_args (Array (map Q2R zs)) (Array (map Q2R lo))).
  { split; [cbn; destruct zs; [congruence|discriminate]|]. split; [cbn; destruct lo; [congruence|discriminate]|]. cbn [elements].
    split; intros a Ha; apply in_map_iff in Ha; destruct Ha as (q & <- & Hq); auto. }
  assert (Hrow : forall i, i < length d -> length (nth i d []) = length lo) by (intros i Hi; rewrite Forall_forall in Hd; apply Hd, nth_In; exact Hi).
  assert (Case : transmission_Lyman (Array (map Q2R zs)) (Array (map Q2R lo)) model false = Ok NoTrans \/ transmission_Lyman (Array (map Q2R zs)) (Array (map Q2R lo)) model false <> Ok NoTrans).
  { destruct (transmission_Lyman _ _ _ _) as [[]|]; [left; reflexivity|right; discriminate|right; discriminate|right; discriminate|right; discriminate]. }
  destruct Case as [Hn|Hn].
  - rewrite Hn. cbn [rbind]. destruct (C74_skip_is_identity _ _ _ Hm PA Hn) as [_ T1]. cbn [elements] in T1.
    assert (One : forall i j, i < length zs -> j < length lo -> T_of model (Q2R (nth i zs 0%Q)) (Q2R (nth j lo 0%Q)) = 1%R).
    { intros i j Hi Hj. apply T1; apply in_map, nth_In; assumption. }
    assert (Id : forall i j, i < length zs -> j < length lo -> map (fun v => (v * T_of model (Q2R (nth i zs 0%Q)) (Q2R (nth j lo 0%Q)))%R) (nth j (nth i d []) []) = nth j (nth i d []) []).
    { intros i j Hi Hj. rewrite One by assumption. rewrite <- map_id. apply map_ext. intro v. apply Rmult_1_r. }
    split.
    + intro H. injection H as <-. split; [exact Ld|]. intros i Hi. assert (Lr := Hrow i ltac:(lia)). split; [exact Lr|]. split; [exact Lr|].
      intros j Hj. now rewrite Id.
    + intros [L N]. f_equal. apply nth_ext with (d := []) (d' := []); [lia|]. intros i Hi. rewrite Ld in Hi. destruct (N i Hi) as (A & B & D).
      apply nth_ext with (d := []) (d' := []); [lia|]. intros j Hj. rewrite D, Id by lia. reflexivity.
  - rewrite (C74_same _ _ _ Hm PA Hn), (C93_entrywise _ _ _ Hm PA). cbn [entrywise rbind]. rewrite !map_map.
    set (T := map (fun x => map (T_of model (Q2R x)) (map Q2R lo)) zs).
    assert (LT : length T = length zs) by (unfold T; now rewrite map_length).
    assert (NT : forall i, i < length zs -> nth i T [] = map (fun l => T_of model (Q2R (nth i zs 0%Q)) (Q2R l)) lo).
    { intros i Hi. unfold T. rewrite nth_indep with (d' := (fun x => map (T_of model (Q2R x)) (map Q2R lo)) 0%Q) by (rewrite map_length; exact Hi).
      rewrite (map_nth (fun x => map (T_of model (Q2R x)) (map Q2R lo))). now rewrite map_map. }
    assert (NTj : forall i j, i < length zs -> j < length lo -> nth j (nth i T []) 0%R = T_of model (Q2R (nth i zs 0%Q)) (Q2R (nth j lo 0%Q))).
    { intros i j Hi Hj. rewrite NT by exact Hi. rewrite nth_indep with (d' := (fun l => T_of model (Q2R (nth i zs 0%Q)) (Q2R l)) 0%Q) by (rewrite map_length; exact Hj).
      now rewrite (map_nth (fun l => T_of model (Q2R (nth i zs 0%Q)) (Q2R l))). }
    assert (LTi : forall i, i < length zs -> length (nth i T []) = length lo) by (intros i Hi; rewrite NT by exact Hi; apply map_length).
    rewrite times_T_ok. split.
    + intros [F _]. assert (Lo : length out = length zs) by (apply Forall2_len in F; rewrite combine_length in F; lia). split; [exact Lo|].
      intros i Hi. assert (Hc : nth_error (combine d T) i = Some (nth i d [], nth i T [])).
      { rewrite nth_error_nth' with (d := ([], [])) by (rewrite combine_length; lia). f_equal. apply combine_nth. lia. }
      destruct (Forall2_nth _ _ _ i _ F Hc) as (o & Ho & Hr). apply nth_error_nth with (d := []) in Ho. rewrite Ho. cbn [fst snd] in Hr.
      apply times_row_ok in Hr. destruct Hr as (A & B & N). split; [now apply Hrow; lia|]. split; [rewrite B; apply Hrow; lia|].
      intros j Hj. rewrite N by (rewrite Hrow; lia). now rewrite NTj.
    + intros [L N]. split; [|lia]. apply Forall2_nth_intro with (d := ([], [])) (e := []); [rewrite combine_length; lia|].
      intros i Hi. rewrite combine_length in Hi. rewrite combine_nth by lia. cbn [fst snd]. destruct (N i ltac:(lia)) as (A & B & D).
      apply times_row_ok. split; [rewrite LTi; lia|]. split; [lia|]. intros j Hj. rewrite D by lia. rewrite NTj by lia. reflexivity.
Qed.

Definition grid_ok (zs : list Q) (kw : Z * list Q) (kr : Z * rebinned) : Prop :=
  fst kr = fst kw /\ exists edges rows, centers2edges (snd kw) = Ok edges /\ snd kr = V3 rows /\ Forall2 (row_at wave flux edges) zs rows.
Definition one_grid (zs : list Q) (kd : (Z * list Q) * (Z * rebinned)) : res (Z * cube) :=
  do c <- to_cube (snd (snd kd)); do a <- absorb model zs (snd (fst kd)) c; Ok (fst (fst kd), a).
Definition good_z (zs : list Q) : Prop := forall z, In z zs -> (0 < 1 + Q2R z)%R.
Definition good_w (dwave : list (Z * list Q)) : Prop := forall k w l, In (k, w) dwave -> In l w -> (0 < Q2R l)%R.
Lemma row_len edges z row : row_at wave flux edges z row -> length row = length edges - 1.
Proof. intros (_ & _ & cols & _ & L & _). exact L. Qed.
Lemma one_grid_ok zs kw kr kd : zs <> [] -> good_z zs -> (forall l, In l (snd kw) -> (0 < Q2R l)%R) -> grid_ok zs kw kr ->
  (one_grid zs (kw, kr) = Ok kd <-> fst kd = fst kw /\ Forall2 (pixel_at wave flux model (snd kw)) zs (snd kd)).
Proof.
  intros Hz Gz Gl (_ & edges & rows & Ee & Er & F). destruct kw as [k lo], kd as [k' out]. cbn [fst snd] in *. unfold one_grid. cbn [fst snd]. rewrite Er. cbn [to_cube rbind].
  destruct (c2e_len lo edges Ee) as [Le _]. assert (Lf := Forall2_len _ _ _ F).
  assert (Hlo : lo <> []) by (intros ->; discriminate Ee).
  assert (Hd : Forall (fun p => length p = length lo) (map (map (map Q2R)) rows)).
  { apply Forall_map, Forall_forall. intros row Hin. rewrite map_length. destruct (Forall2_in_r _ _ _ row F Hin) as (z & _ & Hr). apply row_len in Hr. lia. }
  assert (Nr : forall i, nth i (map (map (map Q2R)) rows) [] = map (map Q2R) (nth i rows [])) by (intro i; apply (map_nth (map (map Q2R)) rows [] i)).
  assert (Nj : forall i j, nth j (map (map Q2R) (nth i rows [])) [] = map Q2R (nth j (nth i rows []) [])) by (intros i j; apply (map_nth (map Q2R) (nth i rows []) [] j)).
  assert (FR : forall i, i < length zs -> row_at wave flux edges (nth i zs 0%Q) (nth i rows [])) by (intros i Hi; apply F2nth; assumption).
  assert (AO := absorb_ok zs lo (map (map (map Q2R)) rows) out Hz Hlo Gz Gl Hd ltac:(rewrite map_length; lia)).
  split.
  - destruct (absorb _ _ _ _) as [a|] eqn:Ea; cbn [rbind]; [|discriminate]. intro H. injection H as <- <-. split; [reflexivity|].
    destruct (proj1 AO eq_refl) as [Lo N]. apply Forall2_nth_intro with (d := 0%Q) (e := []); [lia|]. intros i Hi. destruct (N i Hi) as (A & B & D).
    exists edges, (nth i rows []). split; [exact Ee|]. split; [now apply FR|]. split; [exact B|]. intros j Hj. rewrite D by exact Hj. rewrite Nr, Nj, map_map. reflexivity.
  - intros [-> G]. assert (Lo := Forall2_len _ _ _ G).
    assert (Ea : absorb model zs lo (map (map (map Q2R)) rows) = Ok out).
    { apply AO. split; [lia|]. intros i Hi. assert (P := F2nth _ 0%Q [] _ _ G i Hi). destruct P as (edges' & row & Ee' & Hr & B & D).
      rewrite Ee in Ee'. injection Ee' as <-. assert (E : row = nth i rows []).
      { assert (Hr2 := FR i Hi). apply row_at_of in Hr, Hr2. destruct Hr as [_ Hr], Hr2 as [_ Hr2]. congruence. }
      subst row. split; [rewrite Nr, map_length; apply FR, row_len in Hi; lia|]. split; [exact B|]. intros j Hj. rewrite D by exact Hj. rewrite Nr, Nj, map_map. reflexivity. }
    rewrite Ea. reflexivity.
Qed.
Lemma grids_exist zs dwave data : zs <> [] -> Forall2 (fun kw kd => fst kd = fst kw /\ Forall2 (pixel_at wave flux model (snd kw)) zs (snd kd)) dwave data ->
  exists g, Forall2 (grid_ok zs) dwave g.
Proof.
  intros Hz. induction 1 as [|kw kd dw da [_ F] _ [g IH]]; [exists []; constructor|].
  assert (E : exists edges, centers2edges (snd kw) = Ok edges).
  { destruct zs as [|z zs']; [congruence|]. inversion F as [|? ? ? ? (edges & row & Ee & _) _]; subst. now exists edges. }
  destruct E as [edges Ee]. assert (R : exists rows, Forall2 (row_at wave flux edges) zs rows).
  { clear - F Ee. induction F as [|z o zs' os (edges' & row & Ee' & Hr & _) _ [rows IH]]; [exists []; constructor|].
    rewrite Ee in Ee'. injection Ee' as <-. exists (row :: rows). now constructor. }
  destruct R as [rows Hr]. exists ((fst kw, V3 rows) :: g). constructor; [|exact IH]. split; [reflexivity|]. exists edges, rows. now repeat split.
Qed.
Lemma local_ok dwave zs data : zs <> [] -> good_z zs -> good_w dwave -> (local_data wave flux model dwave zs = Ok data <-> data_at wave flux model dwave zs data).
Proof.
  intros Hz Gz Gw. unfold local_data, data_at.
  assert (K : forall dw, incl dw dwave -> forall g da, Forall2 (grid_ok zs) dw g ->
     (mapM (one_grid zs) (combine dw g) = Ok da <-> Forall2 (fun kw kd => fst kd = fst kw /\ Forall2 (pixel_at wave flux model (snd kw)) zs (snd kd)) dw da)).
  { intros dw Hi g da G. rewrite mapM_Forall2. revert da. induction G as [|kw kr dw' g' Gk _ IH]; intro da; cbn [combine].
    - split; intro H; inversion H; constructor.
    - assert (Gl : forall l, In l (snd kw) -> (0 < Q2R l)%R).
      { intros l Hl. apply (Gw (fst kw) (snd kw) l); [|exact Hl]. destruct kw. apply Hi. now left. }
      assert (OK := fun kd => one_grid_ok zs kw kr kd Hz Gz Gl Gk). assert (IH' := IH ltac:(intros x Hx; apply Hi; now right)).
      split; intro H; inversion H; subst; constructor; try (now apply OK); now apply IH'. }
  split.
  - destruct (rebin_template _ _ _ _ _ _ _) as [g|] eqn:Eg; cbn [rbind]; [|discriminate]. rewrite rebin_template_ok in Eg by exact Hz.
    intro H. apply (K dwave (incl_refl _) g data Eg). exact H.
  - intro D. destruct (grids_exist zs dwave data Hz D) as [g G].
    assert (Eg := proj2 (rebin_template_ok dwave zs g Hz) G). rewrite Eg. cbn [rbind]. apply (K dwave (incl_refl _) g data G). exact D.
Qed.
Lemma local_empty dwave : local_data wave flux model dwave [] = Err ValueError.
Proof. unfold local_data. now rewrite rebin_template_empty. Qed.
End P.

(* ---------- joining ---------- *)
Section J.
Context (P : Z * list Q -> Q -> list (list R) -> Prop).
Definition D (dwave : list (Z * list Q)) (zs : list Q) (data : list (Z * cube)) : Prop :=
  Forall2 (fun kw kd => fst kd = fst kw /\ Forall2 (P kw) zs (snd kd)) dwave data.
Definition zipapp (a b : list (Z * cube)) : list (Z * cube) := map2 (fun x y => (fst x, snd x ++ snd y)) a b.
Lemma D_app dwave z1 z2 data : D dwave (z1 ++ z2) data <-> exists a b, D dwave z1 a /\ D dwave z2 b /\ data = zipapp a b.
Proof.
  unfold D. split.
  - induction 1 as [|kw [k c] dw da [Hk F] _ (a & b & A & B & ->)]; [exists [], []; now repeat split; constructor|]. cbn [fst snd] in *.
    apply Forall2_app_inv_l in F. destruct F as (c1 & c2 & F1 & F2 & ->). exists ((k, c1) :: a), ((k, c2) :: b).
    split; [constructor; [now split|exact A]|]. split; [constructor; [now split|exact B]|]. reflexivity.
  - intros (a & b & A & B & ->). revert b B. induction A as [|kw x dw a [Hk F] A IH]; intros b B; inversion B as [|? y ? b' [Hk' F'] B']; subst; cbn [zipapp map2]; constructor.
    + cbn [fst snd]. split; [exact Hk|]. now apply Forall2_app.
    + now apply IH.
Qed.
Lemma D_keys dwave zs data : D dwave zs data -> map fst data = map fst dwave.
Proof. unfold D. induction 1 as [|kw kd dw da [Hk _] _ IH]; [reflexivity|]. cbn [map]. f_equal; [exact Hk|exact IH]. Qed.
Lemma keys_len (a b : list (Z * cube)) : map fst a = map fst b -> length a = length b.
Proof. intro H. rewrite <- (map_length fst a), H. apply map_length. Qed.
Lemma zipapp_nth a b i k : map fst a = map fst b -> i < length a -> nth i (zipapp a b) (k, []) = (fst (nth i a (k, [])), snd (nth i a (k, [])) ++ snd (nth i b (k, []))).
Proof. intros H Hi. apply keys_len in H. unfold zipapp. rewrite (map2_nth (fun x y : Z * cube => (fst x, snd x ++ snd y)) (k, []) (k, []) (k, [])) by lia. reflexivity. Qed.
Lemma zipapp_fst a : forall b, map fst a = map fst b -> map fst (zipapp a b) = map fst a.
Proof. induction a as [|x a IH]; intros [|y b] H; try discriminate; [reflexivity|]. cbn in *. injection H as _ H. f_equal. now apply IH. Qed.
Lemma joined_one a : joined [a] a.
Proof.
  split; [intros p [<-|[]]; reflexivity|]. intros i k c H. cbn [map concat]. rewrite app_nil_r. apply nth_error_nth with (d := (k, [])) in H. now rewrite H.
Qed.
Lemma joined_cons a ps b : map fst a = map fst b -> joined ps b -> joined (a :: ps) (zipapp a b).
Proof.
  intros Hk [J1 J2]. split.
  - rewrite zipapp_fst by exact Hk. intros p [<-|Hp]; [reflexivity|]. rewrite Hk. now apply J1.
  - intros i k c H. assert (Hi : i < length a). { apply nth_error_Some_lt in H. unfold zipapp in H. rewrite map2_length in H. lia. }
    apply nth_error_nth with (d := (k, [])) in H. rewrite (zipapp_nth _ _ _ _ Hk Hi) in H. injection H as Ek Ec. cbn [map concat]. rewrite <- Ec. f_equal.
    assert (Hb : nth_error b i = Some (nth i b (k, []))) by (apply nth_error_nth'; apply keys_len in Hk; lia).
    assert (Kb : fst (nth i b (k, [])) = k).
    { rewrite <- Ek at 2. change (fst (nth i b (k, [])) = fst (nth i a (k, []))). rewrite <- !(map_nth fst). now rewrite Hk. }
    destruct (nth i b (k, [])) as [k0 c0] eqn:En. cbn [fst snd] in *. subst k0. now apply J2.
Qed.
Lemma joined_whole ps b b' : ps <> [] -> map fst b = map fst b' -> joined ps b -> joined ps b' -> b = b'.
Proof.
  intros Hp Hk [J1 J2] [J1' J2']. apply nth_error_ext. intro i. destruct (nth_error b i) as [[k c]|] eqn:E, (nth_error b' i) as [[k' c']|] eqn:E'.
  - assert (k = k'). { apply (map_nth_error fst) in E. apply (map_nth_error fst) in E'. rewrite Hk in E. cbn in *. congruence. }
    subst k'. rewrite (J2 _ _ _ E), (J2' _ _ _ E'). reflexivity.
  - apply nth_error_Some_lt in E. apply nth_error_None in E'. apply keys_len in Hk. lia.
  - apply nth_error_Some_lt in E'. apply nth_error_None in E. apply keys_len in Hk. lia.
  - reflexivity.
Qed.
Lemma pieces_of dwave slices : slices <> [] -> forall data, D dwave (concat slices) data <-> exists ps, Forall2 (D dwave) slices ps /\ joined ps data.
Proof.
  induction slices as [|s ss IH]; [congruence|]. intros _ data. destruct ss as [|s' ss].
  - cbn [concat]. rewrite app_nil_r. split.
    + intro H. exists [data]. split; [constructor; [exact H|constructor]|apply joined_one].
    + intros (ps & F & J). inversion F as [|? p ? ps' Hp F']; subst. inversion F'; subst.
      assert (E : data = p); [|now rewrite E]. apply (joined_whole [p]); [discriminate|destruct J as [J1 _]; symmetry; apply J1; now left|exact J|apply joined_one].
  - cbn [concat]. change (s' ++ concat ss) with (concat (s' :: ss)). specialize (IH ltac:(discriminate)). rewrite D_app. split.
    + intros (a & b & A & B & ->). apply IH in B. destruct B as (ps & F & J). exists (a :: ps). split; [now constructor|].
      apply joined_cons; [|exact J]. rewrite (D_keys _ _ _ A). symmetry. destruct ps as [|p ps]; [inversion F|]. destruct J as [J1 _]. rewrite <- (J1 p) by now left.
      inversion F; subst. now apply D_keys with (zs := s').
    + intros (ps & F & J). inversion F as [|? a ? ps' A F']; subst. destruct ps' as [|p ps']; [inversion F'|].
      assert (Kp : map fst p = map fst dwave) by (inversion F'; subst; now apply D_keys with (zs := s')).
      (* the rest is joined by the tail of data *)
      assert (Ka := D_keys _ _ _ A).
      set (b := map2 (fun (x y : Z * cube) => (fst x, concat (map (fun q => snd (nth (Z.to_nat (fst y)) q (fst x, []))) (p :: ps')))) data (map (fun i => (Z.of_nat i, [])) (seq 0 (length data)))).
      assert (Kd : map fst data = map fst a) by (destruct J as [J1 _]; symmetry; apply J1; now left).
      assert (Lb : length b = length data) by (unfold b; rewrite map2_length, map_length, seq_length; lia).
      assert (Nb : forall i k, i < length data -> nth i b (k, []) = (fst (nth i data (k, [])), concat (map (fun q => snd (nth i q (fst (nth i data (k, [])), []))) (p :: ps')))).
      { intros i k Hi. unfold b. rewrite map2_nth with (da := (k, [])) (db := ((fun i => (Z.of_nat i, []) : Z * cube) 0)) by (rewrite ?map_length, ?seq_length; lia).
        rewrite (map_nth (fun i => (Z.of_nat i, []) : Z * cube)), seq_nth by exact Hi. cbn [fst]. rewrite Nat.add_0_l, Nat2Z.id. reflexivity. }
      assert (Kb : map fst b = map fst data).
      { apply nth_ext with (d := 0%Z) (d' := 0%Z); rewrite !map_length; [exact Lb|]. intros i Hi. rewrite Lb in Hi.
        change 0%Z with (fst ((0%Z, []) : Z * cube)). rewrite !map_nth. now rewrite Nb. }
      assert (Jb : joined (p :: ps') b).
      { destruct J as [J1 J2]. split; [intros q Hq; rewrite Kb; apply J1; now right|]. intros i k c H.
        assert (Hi : i < length data) by (rewrite <- Lb; now apply nth_error_Some_lt in H).
        apply nth_error_nth with (d := (k, [])) in H. rewrite Nb in H by exact Hi. injection H as Ek Ec. rewrite <- Ec, Ek. reflexivity. }
      exists a, b. split; [exact A|]. split; [apply IH; exists (p :: ps'); now split|].
      apply (joined_whole (a :: p :: ps')); [discriminate|rewrite zipapp_fst by congruence; exact Kd|exact J|]. apply joined_cons; [congruence|exact Jb].
Qed.
End J.
