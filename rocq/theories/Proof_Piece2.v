(* Proofs on the transmission handed to the archetypes and on the success of the refinement. *)
From Coq Require Import Reals Qreals.
From Verif Require Import Prelude PreludeFacts NumX Facts2 Model_Fitz Spec_Fitz Proof_Fitz Proof_Fitz2 Model_Rebin Spec_Rebin Proof_Rebin Proof_Rebin2 Proof_Rebin3 Props_Rebin Proof_Table Model_Dist Proof_Dist Proof_Dist2
  Model_IGM Spec_IGM Proof_IGM Model_Piece Spec_Piece Proof_Piece.
Open Scope nat_scope.

Section T.
Context {E C : Type}.
Variables (polyfit : list Q -> list Q -> option (Q * Q * Q)) (isqrt : Q -> E) (neg1 : E)
  (scan : Q -> res Q) (refit : Q -> res C) (zc : C) (nz : nat) (redshifts : list Q).
Lemma lor10 w : Z.testbit (Z.lor w BAD_MINFIT) 10 = true.
Proof. rewrite Z.lor_spec, orb_true_r. reflexivity. Qed.
Lemma lor10f w : Z.testbit (Z.lor w Z_FITLIMIT) 10 = Z.testbit w 10.
Proof. rewrite Z.lor_spec. cbn. apply orb_false_r. Qed.
Lemma trans_of_refine imin r : refine polyfit isqrt neg1 scan refit zc nz redshifts imin = Ok r ->
  exists t, trans_redshift polyfit isqrt neg1 scan refit nz redshifts imin = Ok t /\ (Z.testbit (f_zwarn r) 10 = false -> t = Some (f_z r)).
Proof.
  unfold refine, trans_redshift.
  destruct (rs redshifts (imin - 1)) as [zlo|]; cbn [rbind]; [|discriminate].
  destruct (rs redshifts (Nat.min (imin + 1) (length redshifts - 1))) as [zhi|]; cbn [rbind]; [|discriminate].
  destruct (linspace zlo zhi nz) as [|z0 zr]; [discriminate|].
  destruct (mapM scan (z0 :: zr)) as [c|]; cbn [rbind]; [|discriminate].
  match goal with |- context [minfit polyfit isqrt neg1 ?a ?b] => destruct (minfit polyfit isqrt neg1 a b) as [[[zmin sigma] ymin] w0] end.
  destruct (refit zmin) as [co|e].
  - cbn [rbind]. destruct (rs redshifts 1) as [zsec|]; cbn [rbind]; [|discriminate].
    destruct (if length redshifts <? 2 then _ else _) as [zpen|]; cbn [rbind]; [|discriminate].
    intro H. exists (Some zmin). split; [reflexivity|]. set (o := qlt zmin z0 || qlt (last (z0 :: zr) 0%Q) zmin) in *. apply (f_equal (fun x => match x with Ok a => (f_z a, f_zwarn a) | Err _ => (0%Q, 0%Z) end)) in H.
    cbn [f_z f_zwarn] in H. destruct o; [|now injection H as <- _]. injection H as _ <-. intro T. exfalso.
    destruct (qlt zmin zsec || qlt zpen zmin); destruct (qlt _ zsec || qlt zpen _); rewrite ?lor10f, ?lor10 in T; discriminate.
  - destruct e; try discriminate. destruct (qlt zmin (hd 0%Q redshifts) || qlt (last redshifts 0%Q) zmin); cbn [rbind]; [|discriminate].
    destruct (rs redshifts 1) as [zsec|]; cbn [rbind]; [|discriminate].
    destruct (if length redshifts <? 2 then _ else _) as [zpen|]; cbn [rbind]; [|discriminate].
    intro H. exists None. split; [reflexivity|]. apply (f_equal (fun x => match x with Ok a => f_zwarn a | Err _ => 0%Z end)) in H. cbn [f_zwarn] in H.
    rewrite <- H. clear H. intro T. exfalso.
    destruct (qlt zmin zsec || qlt zpen zmin); destruct (qlt zmin z0 || qlt (last (z0 :: zr) 0%Q) zmin); destruct (qlt _ zsec || qlt zpen _); rewrite ?lor10f, ?lor10 in T; discriminate.
Qed.
End T.

Lemma mapM_two {A B} (f : A -> res B) v l : (forall x, In x l -> (exists b, f x = Ok b) \/ f x = Err v) -> (exists m, mapM f l = Ok m) \/ mapM f l = Err v.
Proof.
  induction l as [|a l IH]; intro H; [left; now exists []|]. cbn [mapM].
  destruct (H a (or_introl eq_refl)) as [[b E]|E]; rewrite E; cbn [rbind]; [|now right].
  destruct IH as [[m Em]|Em]; [intros x Hx; apply H; now right|left; exists (b :: m)|right]; now rewrite Em.
Qed.
Lemma F2_build {A B} (P : A -> B -> Prop) l : (forall x, In x l -> exists y, P x y) -> exists m, Forall2 P l m.
Proof.
  induction l as [|a l IH]; intro H; [exists []; constructor|].
  destruct (H a (or_introl eq_refl)) as [b Hb]. destruct IH as [m Hm]; [intros x Hx; apply H; now right|]. exists (b :: m). now constructor.
Qed.

Section W.
Variables (wave : list Q) (flux : list (list Q)) (model : option string) (dwave : list (Z * list Q)).
Hypothesis Hw : wave <> [].
Hypothesis Hs : strictly_increasing wave.
Hypothesis H0 : (0 <= nth 0 wave 0)%Q.
Hypothesis Hf : forall y, In y flux -> length y = length wave.
Hypothesis Hm : is_model model.
Hypothesis Gw : good_w dwave.
Hypothesis Hg : forall k w, In (k, w) dwave -> strictly_increasing w /\ 2 <= length w.

Lemma w1_pos : (0 <= nth (length wave - 1) wave 0)%Q.
Proof.
  destruct (Nat.eq_dec (length wave) 1) as [E|E]; [rewrite E; exact H0|].
  assert (L : 0 < length wave) by (destruct wave; [congruence|cbn; lia]).
  pose proof (Hs 0 (length wave - 1) ltac:(lia) ltac:(lia)). lra.
Qed.
Lemma edges_of k w : In (k, w) dwave -> exists e, centers2edges w = Ok e /\ strictly_increasing e /\ 2 <= length e /\ (0 < nth (length e - 1) e 0)%Q.
Proof.
  intro Hin. destruct (Hg k w Hin) as [Hi H2]. destruct (C36_edges w H2) as (e & Ee & Le & _). exists e. split; [exact Ee|].
  destruct (C36_brackets w e Hi Ee) as [Si Br]. split; [exact Si|]. split; [lia|].
  specialize (Br (length w - 1) ltac:(lia)). replace (S (length w - 1)) with (length e - 1) in Br by lia.
  assert (P : (0 < nth (length w - 1) w 0)%Q).
  { assert (I : In (nth (length w - 1) w 0%Q) w) by (apply nth_In; lia). specialize (Gw k w _ Hin I). rewrite <- RMicromega.Q2R_0 in Gw. now apply Rlt_Qlt. }
  lra.
Qed.
Lemma guarded_pos e z : (0 < nth (length e - 1) e 0)%Q -> guarded wave e z -> (0 < 1 + z)%Q.
Proof.
  intros P [_ G]. pose proof w1_pos as W. destruct (Qlt_le_dec 0 (1 + z)) as [L|L]; [exact L|].
  assert (M : (nth (length wave - 1) wave 0 * (1 + z) <= nth (length wave - 1) wave 0 * 0)%Q) by (rewrite !(Qmult_comm (nth (length wave - 1) wave 0%Q)); now apply Qmult_le_compat_r). lra.
Qed.
Lemma row_exists e z : strictly_increasing e -> 2 <= length e -> (0 < 1 + z)%Q -> guarded wave e z -> exists row, row_at wave flux e z row.
Proof.
  intros Se L2 Pz G. assert (V : valid wave e z) by (destruct G as [G1 G2]; split; [exact Hs|]; split; [exact Se|]; split; [exact L2|]; split; [exact Pz|]; split; assumption).
  destruct (rebin_batch_spec wave flux e [z]) as (r & Er & Lr & _); [intros z' [<-|[]]; exact V|exact Hf|].
  unfold rebin_batch in Er. cbn [mapM] in Er.
  change (do cols <- mapM (fun yb : list Q => rebin_1d (redshifted wave z) yb e (zeros (length e - 1))) flux; Ok (transpose_cols (length e - 1) cols)) with (row_of wave flux e z) in Er.
  destruct (row_of wave flux e z) as [row|] eqn:Ew; [|discriminate]. exists row. apply row_at_of. now split.
Qed.
Lemma trapz_one e z : e <> [] -> ~ guarded wave e z ->
  trapz_rebin wave (Y2 flux) e (ZArray [z]) false (Some (nth 0 wave 0 * (1 + amax [z]))%Q) (Some (nth (length wave - 1) wave 0 * (1 + amin [z]))%Q) None None = Err ValueError.
Proof.
  intros He Ng. unfold trapz_rebin, odef. rewrite (get_nth e 0) by (destruct e; [congruence|cbn; lia]). cbn [rbind]. rewrite (getm1_0 e He). cbn [rbind].
  destruct (qlt (nth 0 e 0%Q) (nth 0 wave 0 * (1 + amax [z]))%Q) eqn:E1; [reflexivity|].
  destruct (qlt (nth (length wave - 1) wave 0 * (1 + amin [z]))%Q (nth (length e - 1) e 0%Q)) eqn:E2; [reflexivity|].
  exfalso. apply Ng. apply qlt_false in E1, E2. now split.
Qed.
Definition covers (z : Q) : Prop := forall k w e, In (k, w) dwave -> centers2edges w = Ok e -> guarded wave e z.
Lemma local_z z : (0 < 1 + z)%Q -> covers z -> exists d, local_data wave flux model dwave [z] = Ok d.
Proof.
  intros Pz Cv. assert (Gz : good_z [z]).
  { intros z' [<-|[]]. replace 1%R with (Q2R 1) by apply RMicromega.Q2R_1. rewrite <- Q2R_plus, <- RMicromega.Q2R_0. now apply Qlt_Rlt. }
  assert (B : exists d, data_at wave flux model dwave [z] d).
  { apply F2_build. intros [k w] Hin. destruct (edges_of k w Hin) as (e & Ee & Se & L2 & _).
    destruct (row_exists e z Se L2 Pz (Cv k w e Hin Ee)) as [row Hr].
    exists (k, [map (fun i => map (fun v => (Q2R v * T_of model (Q2R z) (Q2R (nth i w 0%Q)))%R) (nth i row [])) (seq 0 (length w))]). cbn [fst snd]. split; [reflexivity|].
    constructor; [|constructor]. exists e, row. split; [exact Ee|]. split; [exact Hr|]. split; [now rewrite map_length, seq_length|]. intros i Hi.
    now rewrite (nth_tab (fun i => map (fun v => (Q2R v * T_of model (Q2R z) (Q2R (nth i w 0%Q)))%R) (nth i row []))) by exact Hi. }
  destruct B as [d Hd]. exists d. apply local_ok; auto; [apply w1_pos|discriminate].
Qed.
Lemma guarded_dec e z : guarded wave e z \/ ~ guarded wave e z.
Proof.
  unfold guarded. destruct (Qlt_le_dec (nth 0 e 0%Q) (nth 0 wave 0%Q * (1 + z))) as [A|A]; [right; intros [B _]; lra|].
  destruct (Qlt_le_dec (nth (length wave - 1) wave 0%Q * (1 + z)) (nth (length e - 1) e 0%Q)) as [B|B]; [right; intros [_ B']; lra|left; now split].
Qed.
Lemma covers_dec z : covers z \/ exists k w e, In (k, w) dwave /\ centers2edges w = Ok e /\ ~ guarded wave e z.
Proof.
  unfold covers. clear Gw Hg. induction dwave as [|[k w] d IH]; [left; now intros|].
  destruct IH as [IH|(k' & w' & e & I & Ee & N)]; [|right; exists k', w', e; split; [now right|now split]].
  destruct (centers2edges w) as [e|] eqn:Ee.
  - destruct (guarded_dec e z) as [G|G]; [|right; exists k, w, e; split; [now left|now split]].
    left. intros k' w' e' [Q|I] Ee'; [|now apply (IH k' w')]. injection Q as <- <-. congruence.
  - left. intros k' w' e' [Q|I] Ee'; [|now apply (IH k' w')]. injection Q as <- <-. congruence.
Qed.
Lemma local_two z : (exists d, local_data wave flux model dwave [z] = Ok d) \/ (local_data wave flux model dwave [z] = Err ValueError /\ ~ covers z).
Proof.
  destruct (covers_dec z) as [Cv|(k & w & e & Hin & Ee & Ng)].
  - left. destruct dwave as [|[k w] d] eqn:Ed.
    + exists []. unfold local_data, rebin_template, odef. rewrite (get_nth wave 0) by (destruct wave; [congruence|cbn; lia]). cbn [rbind]. rewrite (getm1_0 wave Hw). reflexivity.
    + rewrite <- Ed in *. assert (I : In (k, w) dwave) by (rewrite Ed; now left). destruct (edges_of k w I) as (e & Ee & _ & _ & P).
      apply local_z; [|exact Cv]. apply (guarded_pos e z P). now apply (Cv k w).
  - right. split; [|intro Cv; apply Ng; now apply (Cv k w)]. unfold local_data.
    assert (R : rebin_template wave flux [z] (DWave dwave) false None None = Err ValueError).
    { unfold rebin_template, odef. rewrite (get_nth wave 0) by (destruct wave; [congruence|cbn; lia]). cbn [rbind]. rewrite (getm1_0 wave Hw). cbn [rbind].
      match goal with |- mapM ?f _ = _ => set (g := f) end.
      assert (One : forall x, In x dwave -> (exists b, g x = Ok b) \/ g x = Err ValueError).
      { intros [k' w'] I. destruct (edges_of k' w' I) as (e' & Ee' & Se & L2 & P). unfold g. cbn [fst snd]. rewrite Ee'. cbn [rbind].
        destruct (guarded_dec e' z) as [G|G].
        - left. destruct (row_exists e' z Se L2 (guarded_pos e' z P G) G) as [row Hr].
          assert (T : trapz_rebin wave (Y2 flux) e' (ZArray [z]) false (Some (nth 0 wave 0 * (1 + amax [z]))%Q) (Some (nth (length wave - 1) wave 0 * (1 + amin [z]))%Q) None None = Ok (V3 [row])).
          { apply trapz_rows; auto; [apply w1_pos|intros ->; cbn in L2; lia|discriminate|]. exists [row]. split; [reflexivity|]. constructor; [exact Hr|constructor]. }
          rewrite T. cbn [rbind]. eauto.
        - right. rewrite trapz_one; [reflexivity|intros ->; cbn in L2; lia|exact G]. }
      destruct (mapM_two g ValueError dwave One) as [[m Em]|Em]; [|exact Em]. exfalso.
      apply mapM_Forall2 in Em. destruct (In_nth _ _ (0%Z, []) Hin) as (i & Hi & Ei).
      destruct (Forall2_nth _ _ _ i (k, w) Em) as (y & _ & Ey). { rewrite <- Ei. now apply nth_error_nth'. }
      unfold g in Ey. cbn [fst snd] in Ey. rewrite Ee in Ey. cbn [rbind] in Ey. rewrite trapz_one in Ey; [discriminate| |exact Ng].
      destruct (c2e_len _ _ Ee) as [_ N]. exact N. }
    now rewrite R.
Qed.
(* a template that could be built for the redshifts covers all the redshifts between them *)
Lemma covers_between zs data a b z : good_z zs -> local_data wave flux model dwave zs = Ok data -> In a zs -> In b zs -> (a <= z)%Q -> (z <= b)%Q -> covers z.
Proof.
  intros Gz H Ia Ib La Lb k w e Hin Ee.
  assert (Hz : zs <> []) by (intros ->; destruct Ia). apply local_ok in H; auto; [|apply w1_pos].
  destruct (In_nth _ _ (0%Z, []) Hin) as (i & Hi & Ei).
  destruct (Forall2_nth _ _ _ i (k, w) H) as ([k' c] & _ & _ & F). { rewrite <- Ei. now apply nth_error_nth'. } cbn [fst snd] in F.
  assert (G : forall z', In z' zs -> guarded wave e z').
  { intros z' Iz. destruct (In_nth _ _ 0%Q Iz) as (j & Hj & Ej). destruct (Forall2_nth _ _ _ j z' F) as (o & _ & e' & row & Ee' & Hr & _). { rewrite <- Ej. now apply nth_error_nth'. }
    rewrite Ee in Ee'. injection Ee' as <-. apply row_at_of in Hr. apply Hr. }
  destruct (G a Ia) as [_ Ga]. destruct (G b Ib) as [Gb _]. pose proof w1_pos as W. split.
  - eapply Qle_trans; [|exact Gb]. rewrite !(Qmult_comm (nth 0 wave 0%Q)). apply Qmult_le_compat_r; [lra|exact H0].
  - eapply Qle_trans; [exact Ga|]. rewrite !(Qmult_comm (nth (length wave - 1) wave 0%Q)). apply Qmult_le_compat_r; [lra|exact W].
Qed.
End W.

Section F.
Context {E C : Type}.
Variables (argsort : list xq -> list nat) (polyfit : list Q -> list Q -> option (Q * Q * Q)) (isqrt : Q -> E) (neg1 : E)
  (scan : Q -> res Q) (refit : Q -> res C) (zc : C) (mvd : Q) (nminima nz : nat) (redshifts : list Q).
Hypothesis Ha : argsort_ok argsort.
Hypothesis Hz : 2 <= length redshifts.
Hypothesis Hn : 0 < nz.
Hypothesis Asc : forall i j, i <= j -> j < length redshifts -> (nth i redshifts 0 <= nth j redshifts 0)%Q.
Notation first := (hd 0%Q redshifts).
Notation final := (last redshifts 0%Q).
Hypothesis Sc : forall z, (first <= z)%Q -> (z <= final)%Q -> exists c, scan z = Ok c.
Hypothesis Rf : forall z, (exists c, refit z = Ok c) \/ (refit z = Err ValueError /\ ((z < first)%Q \/ (final < z)%Q)).
Lemma rs_ok i : i < length redshifts -> rs redshifts i = Ok (nth i redshifts 0%Q).
Proof. intro H. unfold rs. now rewrite (nth_error_nth' redshifts 0%Q H). Qed.
Lemma ends : first = nth 0 redshifts 0%Q /\ final = nth (length redshifts - 1) redshifts 0%Q.
Proof. split; [destruct redshifts; reflexivity|]. now rewrite last_nth. Qed.
Lemma mapM_all {A B} (f : A -> res B) l : (forall x, In x l -> exists b, f x = Ok b) -> exists m, mapM f l = Ok m.
Proof.
  intro H. induction l as [|a l IH]; [now exists []|]. cbn [mapM]. destruct (H a (or_introl eq_refl)) as [b ->].
  destruct IH as [m ->]; [intros x Hx; apply H; now right|]. now exists (b :: m).
Qed.
Lemma refine_ok imin : imin < length redshifts -> exists r, refine polyfit isqrt neg1 scan refit zc nz redshifts imin = Ok r.
Proof.
  intro Hi. unfold refine. rewrite (rs_ok (imin - 1)) by lia. cbn [rbind]. rewrite (rs_ok (Nat.min (imin + 1) (length redshifts - 1))) by lia. cbn [rbind].
  set (zlo := nth (imin - 1) redshifts 0%Q). set (zhi := nth (Nat.min (imin + 1) (length redshifts - 1)) redshifts 0%Q).
  assert (Hlh : (zlo <= zhi)%Q) by (apply Asc; lia). destruct ends as [E1 E2].
  assert (Hlo : (first <= zlo)%Q) by (rewrite E1; apply Asc; lia). assert (Hhi : (zhi <= final)%Q) by (rewrite E2; apply Asc; lia).
  destruct (linspace zlo zhi nz) as [|z0 zr] eqn:El. { apply (f_equal (@List.length Q)) in El. rewrite linspace_length in El. cbn in El. lia. }
  destruct (mapM_all scan (z0 :: zr)) as [c Ec].
  { intros z Iz. rewrite <- El in Iz. apply linspace_in in Iz; [|exact Hlh]. apply Sc; lra. }
  rewrite Ec. cbn [rbind]. match goal with |- context [minfit polyfit isqrt neg1 ?a ?b] => destruct (minfit polyfit isqrt neg1 a b) as [[[zmin sigma] ymin] w0] end.
  assert (L2 : length redshifts <? 2 = false) by (apply Nat.ltb_ge; exact Hz).
  destruct (Rf zmin) as [[co ->]|[-> Ho]]; cbn [rbind].
  - rewrite (rs_ok 1) by lia. cbn [rbind]. rewrite L2. rewrite (rs_ok (length redshifts - 2)) by lia. cbn [rbind]. eauto.
  - assert (O : qlt zmin first || qlt final zmin = true) by (apply orb_true_iff; destruct Ho as [Ho|Ho]; apply qlt_iff in Ho; auto). rewrite O. cbn [rbind].
    rewrite (rs_ok 1) by lia. cbn [rbind]. rewrite L2. rewrite (rs_ok (length redshifts - 2)) by lia. cbn [rbind]. eauto.
Qed.
Lemma loop_ok minima : (forall i, In i minima -> i < length redshifts) -> forall results, exists out, fit_loop polyfit isqrt neg1 scan refit zc mvd nminima nz redshifts None minima results = Ok out.
Proof.
  induction minima as [|imin rest IH]; intros Hi results; cbn [fit_loop]; [eauto|]. destruct (_ =? _); [eauto|].
  rewrite rs_ok by (apply Hi; now left). cbn [rbind]. assert (Hr : forall i, In i rest -> i < length redshifts) by (intros i I; apply Hi; now right).
  destruct (too_close _ _ _); [now apply IH|]. destruct (refine_ok imin (Hi imin (or_introl eq_refl))) as [r ->]. cbn [rbind].
  destruct (too_close _ _ _); [now apply IH|]. cbn [finish rbind]. now apply IH.
Qed.
Lemma fitz_ok zchi2 : length zchi2 = length redshifts -> exists out, fitz argsort polyfit isqrt neg1 scan refit zc mvd nminima nz redshifts None zchi2 = Ok out.
Proof.
  intro L. unfold fitz. rewrite L, Nat.eqb_refl. cbn [negb]. destruct (find_minima_ok argsort zchi2 Ha) as (m & -> & _ & Hin & _); [intros ->; cbn in L; lia|]. cbn [rbind].
  destruct (loop_ok m) with (results := @nil (fit E C)) as [out ->]; [intros i I; apply Hin in I; destruct I as [I _]; lia|]. cbn [rbind].
  apply mapM_all. intros i I. destruct (Ha (map (fun r => Fin (f_chi2 r)) out)) as [P _]. apply (Permutation_in i) in P; [|exact I].
  apply in_seq in P. rewrite map_length in P. destruct (nth_error_lt_ex out i) as [r ->]; [lia|eauto].
Qed.
End F.
