(* Archetypes: evaluating the reported archetype gives the fitted model; several nearest archetypes. *)
From Verif Require Import Prelude PreludeFacts Facts2 NumX Model_Dist Proof_Dist3 Proof_Table Model_Fitz Proof_Fitz Proof_Fitz2 Model_Zscan Spec_Zscan Proof_Zscan Proof_Zscan2 Proof_Zscan3 Proof_Zscan4 Model_IO Spec_IO Proof_IO Model_Rebin Model_Targets2 Proof_Eval Model_Desi Model_Arch Spec_Arch Spec_Arch2 Proof_Arch Proof_Arch2 Proof_Arch3 Proof_Arch4 Proof_Arch5 Proof_Arch6 Proof_Arch7 Props_Arch.
Local Arguments Qred : simpl never.

Definition gba E A os bands w f wf z pc nn trans method prior leg :=
  snd (get_best_archetype E A (map o_spec os) bands w f wf (map o_grid os) z pc nn trans method prior leg).

(* which fit is reported, whatever n_nearest *)
Lemma gba_inv E A os bands w f wf z pc nn method prior leg deg x c ft :
  good_names A -> a_flux A <> [] -> sorts (e_argsort E) -> good_target os -> os <> [] -> legendre_of deg os leg ->
  (pc = true -> NoDup bands /\ ~ In "alpha"%string bands) -> (~ sumQ w == 0)%Q ->
  gba E A os bands w f wf z pc nn None method prior leg = Ok (x, c, ft) ->
  exists best ps, best <> [] /\ (forall j, In j best -> j < narch A) /\
    ft = make_fulltype (a_type A) (Some (join ";" (map (fun k => nth k (sub_types A) EmptyString) best))) /\
    mapM (fit_key A z (map (fun kw => (fst kw, Some (A1 (e_lyman E z (snd kw))))) (map o_grid os)) deg leg) (map o_grid os) = Ok ps /\
    if pc then exists b td alg args prior', cam_tdata (length best) deg (length best + deg * length bands) 0 (near os ps best) = Ok td /\
        calc_zchi2_batch (e_solv E) alg args prior' (map o_spec os) td w f wf 1 (length best + deg * length bands) = Ok b /\
        x = hd 0%Q (fst b) /\ c = hd [] (snd b)
    else exists alg args, zchi2_at (e_solv E) alg args None (length best + deg) (map o_spec os) (near os ps best) w f wf 0 = Ok (x, c).
Proof.
  intros G Hne Hs Hos Hos0 Hleg Hb Hw H. unfold gba, get_best_archetype in H.
  destruct leg as [|[k0 L0] leg']; [discriminate|]. cbn [snd] in H.
  assert (Hdeg : length L0 = deg) by (inversion Hleg as [|? ? ? ? [_ HL]]; subst; cbn [snd] in HL; now apply leg_array_len in HL). rewrite Hdeg in H.
  assert (Hdw : map o_grid os <> []) by (destruct os; [congruence|discriminate]).
  destruct nn as [n|].
  - destruct prior as [P|].
    2:{ unfold best_body in H. destruct (rebin_all _ _ _); cbn [rbind] in H; discriminate. }
    apply body_near in H as (ps & zc & P1 & P2 & P3); [|exact Hb].
    assert (Hlz : length (map fst zc) = narch A) by (pose proof P2 as G2; apply mapM_Forall2 in G2; apply Forall2_len in G2; rewrite seq_length in G2; rewrite map_length; lia).
    apply (near_inv E A _ _ _ _ _ _ z pc _ P _ _ n Hb (gn_len A G) Hs ps (map fst zc) x c ft P1 Hlz Hdw) in P3; [|now right].
    destruct P3 as (Hpc & Hn1 & Hn2 & B1 & B2 & B3 & b & td & B4 & B5 & B6 & B7). set (best := firstn n (e_argsort E (map fst zc))) in *. subst pc.
    exists best, ps. split; [intros E0; rewrite E0 in B1; cbn in B1; lia|]. split; [exact B2|]. split; [exact B3|]. split; [exact P1|].
    exists b, td, "bvls"%string, (Some (cam_bounds n (n + deg * length bands))), (Some P). unfold near. rewrite B1. auto.
  - destruct (single_inv _ _ _ _ _ _ _ _ _ _ _ _ _ _ _ _ _ _ Hb (gn_len A G) Hne Hdw Hw H) as (ps & j & P1 & P2 & P3 & P4).
    exists [j], ps. split; [discriminate|]. split; [intros j' [<-|[]]; exact P2|]. split; [exact P3|]. split; [exact P1|].
    cbn [length]. destruct pc.
    + destruct P4 as (b & td & Q1 & Q2 & Q3 & Q4). eexists b, td, _, _, _. split; [exact Q1|]. split; [exact Q2|]. auto.
    + eexists _, _. exact P4.
Qed.

(* ---------- C99: evaluating the reported archetypes gives back the fitted model ---------- *)
Lemma trans_dget E os z : NoDup (map o_hash os) -> forall o, In o os ->
  dget (map (fun kw => (fst kw, Some (A1 (e_lyman E z (snd kw))))) (map o_grid os)) (o_hash o) = Some (Some (A1 (e_lyman E z (o_wave o)))).
Proof.
  intros Hn o Ho. apply dget_in.
  - rewrite !map_map. exact Hn.
  - apply in_map_iff. exists (o_grid o). split; [reflexivity|now apply in_map].
Qed.
Lemma eval_model_ok E A subtype ac pad rows lg z os ms : NoDup (map o_hash os) -> length ms = length os -> length (split ";" subtype) = length ac ->
  (exists a, In a ac /\ ~ a == 0)%Q -> rows = match lg with L1 l => repeat l (length os) | L2 rows => rows end ->
  (forall i o m, nth_error os i = Some o -> nth_error ms i = Some m -> exists lc, nth_error rows i = Some lc /\ arch_eval E A subtype ac (o_wave o) z (Some (o_R o)) (Some lc) = Ok m) ->
  arch_eval_model E A subtype (ac ++ repeat 0%Q pad) lg z (map o_eval os) = Ok (combine (map o_hash os) ms).
Proof.
  intros Hn Hl Hs (a & Ha & Hna) Hr H. unfold arch_eval_model.
  assert (F : forallb (fun c => Qeq_bool c 0) (ac ++ repeat 0%Q pad) = false).
  { apply not_true_is_false. intros F. rewrite forallb_forall in F. specialize (F a (in_or_app _ _ _ (or_introl Ha))). apply Qeq_bool_iff in F. contradiction. }
  rewrite F, Hs. rewrite map_length.
  rewrite firstn_app, Nat.sub_diag, firstn_all, firstn_O, app_nil_r. rewrite <- Hr. unfold enum.
  refine (eval_model_fold E A subtype ac z rows os ms [] 0 Hn _ Hl _); [intros k []|exact H].
Qed.
Theorem C99_eval_is_fitted_partial : forall E A os bands w f wf z pc nn method prior leg deg x c ft pad,
  good_names A -> a_flux A <> [] -> sorts (e_argsort E) -> (forall wv, length (e_lyman E z wv) = length wv) ->
  good_target os -> legendre_of deg os leg ->
  (pc = true -> NoDup bands /\ ~ In "alpha"%string bands /\ length bands = length os) ->
  spectral_data (map o_spec os) = Ok (w, f, wf) -> (~ sumQ w == 0)%Q ->
  gba E A os bands w f wf z pc nn None method prior leg = Ok (x, c, ft) ->
  exists subtype, parse_fulltype ft = Ok (a_type A, subtype) /\
    let (ac, lc) := split_archetype_coeff subtype c (if pc then length bands else 1) deg in
    length ac = length (split ";" subtype) /\
    ((x = HUGE_CHI2 /\ forall v, In v c -> v = 0%Q) \/
     ((exists a, In a ac /\ ~ a == 0)%Q ->
      exists model, arch_eval_model E A subtype (ac ++ repeat 0%Q pad) (if pc then L2 lc else L1 (hd [] lc)) z (map o_eval os) = Ok model /\
        map fst model = map o_hash os /\ (x == misfit os model)%Q)).
Proof.
  intros E A os bands w f wf z pc nn method prior leg deg x c ft pad G Hne Hs Hly Hos Hleg Hb Hsd Hw H.
  assert (Hos0 : os <> []) by (intros ->; discriminate Hsd).
  assert (Hb' : pc = true -> NoDup bands /\ ~ In "alpha"%string bands) by (intros Hp; destruct (Hb Hp) as (? & ? & _); auto).
  destruct (gba_inv E A os bands w f wf z pc nn method prior leg deg x c ft G Hne Hs Hos Hos0 Hleg Hb' Hw H) as (best & ps & B1 & B2 & -> & B3 & B4).
  destruct (fulltype_roundtrip A best G B1) as [R1 R2]; [intros j Hj; rewrite (gn_len A G); now apply B2|].
  set (subtype := join ";" (map (fun k => nth k (sub_types A) EmptyString) best)) in *.
  exists subtype. split; [exact R1|].
  apply spectral_data_inv in Hsd as (Ew & Ef & _ & _). rewrite map_map in Ew, Ef. cbn [o_spec s_ivar s_flux] in Ew, Ef.
  pose proof (trans_dget E os z (proj1 Hos)) as Htr.
  assert (Hlysub : forall o, In o os -> length (e_lyman E z (o_wave o)) = length (o_wave o)) by (intros; apply Hly).
  unfold split_archetype_coeff, split_coeff. rewrite R2, map_length.
  destruct pc.
  - destruct (Hb eq_refl) as (_ & _ & Hlb). destruct B4 as (b & td & alg & args & prior' & T1 & T2 & -> & ->).
    destruct b as [zb cb]. cbn [fst snd] in *. pose proof (batch_at _ _ _ _ _ _ _ _ _ _ _ _ _ 0%nat Hw T2 (le_n 1)) as T3.
    replace (nth 0 zb 0%Q) with (hd 0%Q zb) in T3 by (destruct zb; reflexivity). replace (nth 0 cb []) with (hd [] cb) in T3 by (destruct cb; reflexivity).
    set (x := hd 0%Q zb) in *. set (c := hd [] cb) in *. clearbody x c. clear T2 zb cb. rewrite Hlb in *.
    destruct (zchi2_at_cases _ _ _ _ _ _ _ _ _ _ _ _ _ T3) as (Tb & M & D1 & D2 & D3 & D4 & D5 & [(_ & D6 & D7)|(-> & ->)]).
    2:{ split; [rewrite firstn_length, repeat_length; lia|]. left. split; [reflexivity|]. intros v Hv. now apply repeat_spec in Hv. }
    assert (Hlac : length (firstn (length best) c) = length best) by (rewrite firstn_length; unfold vec in *; lia).
    split; [exact Hlac|]. right. intros Hnz.
    pose proof (fit_cameras E A os z deg leg _ Hos Hleg Htr ps B3 best B2 c td T1 D6) as HF.
    destruct (core E A os z deg _ td c best (firstn (length best) c) (cam_rows deg best (length os) c) G Hlysub Hos D6 B1 B2 Hlac HF Tb D1) as (ms & K1 & K2 & K3).
    exists (combine (map o_hash os) ms). split; [|split].
    + fold (cam_rows deg best (length os) c). apply (eval_model_ok E A subtype _ pad (cam_rows deg best (length os) c)); [exact (proj1 Hos)|exact K1|rewrite R2, map_length; now symmetry|exact Hnz|reflexivity|exact K2].
    + clear -K1. revert ms K1. induction os as [|o os' IH]; intros [|m ms] H; try discriminate; [reflexivity|]. cbn [map combine fst]. f_equal. apply IH. cbn in H. lia.
    + rewrite D7, Ew, Ef. exact K3.
  - destruct B4 as (alg & args & T3).
    destruct (zchi2_at_cases _ _ _ _ _ _ _ _ _ _ _ _ _ T3) as (Tb & M & D1 & D2 & D3 & D4 & D5 & [(_ & D6 & D7)|(-> & ->)]).
    2:{ split; [rewrite firstn_length, repeat_length; lia|]. left. split; [reflexivity|]. intros v Hv. now apply repeat_spec in Hv. }
    assert (Hlac : length (firstn (length best) c) = length best) by (rewrite firstn_length; unfold vec in *; lia).
    split; [exact Hlac|]. right. intros Hnz.
    pose proof (fit_common E A os z deg leg _ Hos Hleg Htr ps B3 best B2 c D6) as HF.
    destruct (core E A os z deg _ _ c best (firstn (length best) c) (repeat (firstn deg (skipn (length best) c)) (length os)) G Hlysub Hos D6 B1 B2 Hlac HF Tb D1) as (ms & K1 & K2 & K3).
    exists (combine (map o_hash os) ms). split; [|split].
    + apply (eval_model_ok E A subtype _ pad (repeat (firstn deg (skipn (length best) c)) (length os))); [exact (proj1 Hos)|exact K1|rewrite R2, map_length; now symmetry|exact Hnz| |exact K2].
      cbn [seq map hd]. rewrite Nat.mul_0_l, Nat.sub_0_r. change (skipn 0 ?y) with y. replace ((0 + 1) * deg) with deg by lia. reflexivity.
    + clear -K1. revert ms K1. induction os as [|o os' IH]; intros [|m ms] H; try discriminate; [reflexivity|]. cbn [map combine fst]. f_equal. apply IH. cbn in H. lia.
    + rewrite D7, Ew, Ef. exact K3.
Qed.
(* two cameras with one polynomial each, a solver answer that uses everything: chi2 4, and the evaluated model has that misfit *)
Definition const_env (s : vec) : arch_env := {|
  e_solv := {| linsolve := fun _ _ => Ok s; nnls := fun _ _ => Ok s; bvls := fun _ _ _ => Ok s; cusolve := fun _ y => y |};
  e_argsort := toy_sort; e_lyman := fun _ w => repeat (1#2)%Q (length w) |}.
Definition two_cams : list obs :=
  [{| o_hash := 7; o_wave := [2; 3; 4]%Q; o_ivar := [1; 1; 2]%Q; o_flux := [3; 4; 6]%Q; o_R := id3 |};
   {| o_hash := 9; o_wave := [3; 7#2; 4]%Q; o_ivar := [1; 1; 1]%Q; o_flux := [2; 5#2; 2]%Q; o_R := id3 |}].
Definition two_leg : dict mat := [(7%Z, [[1; 1; 1]]%Q); (9%Z, [[1; 1; 1]]%Q)].
Lemma toy_sorts : sorts toy_sort.
Proof.
  intros l. unfold toy_sort. set (cmp := fun a b : Q * nat => Qle_bool (fst a) (fst b)). set (p := combine l (seq 0 (length l))).
  assert (Hp : Permutation (isort cmp p) p) by apply Permutation_sym, isort_perm.
  assert (Hpl : length p = length l) by (unfold p; rewrite combine_length, seq_length; lia).
  assert (Hin : forall q i, In (q, i) p -> i < length l /\ nth i l 0%Q = q).
  { intros q i H. apply (In_nth_error) in H as (k & Hk). unfold p in Hk. assert (Hkl : k < length l) by (apply nth_error_Some_lt in Hk; fold p in Hk; lia).
    assert (Hc : nth_error (combine l (seq 0 (length l))) k = Some (nth k l 0%Q, k)).
    { rewrite (nth_error_nth' _ (0%Q, 0)) by (fold p; lia). rewrite combine_nth by now rewrite seq_length. rewrite seq_nth by exact Hkl. reflexivity. }
    rewrite Hc in Hk. injection Hk as <- <-. auto. }
  split.
  - rewrite Hp. unfold p. clear. assert (G : forall (l0 : list Q) a, map snd (combine l0 (seq a (length l0))) = seq a (length l0)) by (induction l0 as [|x l0 IH]; intros a; [reflexivity|]; cbn [length seq combine map]; now rewrite IH).
    intros. rewrite (G l 0). reflexivity.
  - intros a b [Hab Hb]. assert (Hl : length (isort cmp p) = length l) by (rewrite (Permutation_length Hp); exact Hpl).
    assert (Hs : StronglySorted (fun u v => cmp u v = true) (isort cmp p)).
    { apply isort_sorted; unfold total_b, trans_b, cmp.
      - intros u v. destruct (Qle_bool (fst u) (fst v)) eqn:E1; [now left|right]. apply Qle_bool_iff. apply Qle_bool_false in E1. lra.
      - intros u v x H1 H2. apply Qle_bool_iff in H1, H2. apply Qle_bool_iff. lra. }
    assert (Hn : forall k e, nth_error (isort cmp p) k = Some e -> nth k (map snd (isort cmp p)) 0 = snd e) by (intros k e He; apply nth_error_nth; rewrite nth_error_map, He; reflexivity).
    destruct (nth_error_lt_ex (isort cmp p) a) as ([qa ia] & Ea); [lia|]. destruct (nth_error_lt_ex (isort cmp p) b) as ([qb ib] & Eb); [lia|].
    rewrite (Hn _ _ Ea), (Hn _ _ Eb). cbn [snd].
    pose proof (Permutation_in _ Hp (nth_error_In _ _ Ea)) as Ia. pose proof (Permutation_in _ Hp (nth_error_In _ _ Eb)) as Ib.
    rewrite (proj2 (Hin _ _ Ia)), (proj2 (Hin _ _ Ib)).
    pose proof (proj1 (StronglySorted_nth _ _) Hs a b _ _ Hab Ea Eb) as Hle. unfold cmp in Hle. cbn [fst] in Hle. now apply Qle_bool_iff in Hle.
Qed.

Example C99_instance : forall pc : bool, let bands := if pc then ["b"; "r"]%string else ["b"%string] in
  exists x c ft, spectral_data (map o_spec two_cams) = Ok ([1; 1; 2; 1; 1; 1], [3; 4; 6; 2; 5 # 2; 2], [3; 4; 12; 2; 5 # 2; 2])%Q /\
  gba (const_env (if pc then [2; 1; -1] else [2; 1])%Q) toy_arch two_cams bands [1; 1; 2; 1; 1; 1]%Q [3; 4; 6; 2; 5#2; 2]%Q [3; 4; 12; 2; 5#2; 2]%Q 0 pc None None "bvls" None two_leg = Ok (x, c, ft) /\
  good_names toy_arch /\ good_target two_cams /\ legendre_of 1 two_cams two_leg /\ sorts toy_sort /\ ~ (x == 0)%Q /\ x <> HUGE_CHI2 /\ hd 0%Q c = 2%Q.
Proof.
  assert (Hg : good_names toy_arch).
  { constructor; cbn [toy_arch a_raw a_flux a_type].
    - reflexivity.
    - split; [|split].
      + change "GALAXY"%string with (strip "GALAXY"). apply strip_trimmed.
      + intros H. apply contains_occurs in H. discriminate.
      + intros (u & E). do 7 (destruct u as [|? u]; [discriminate|]). destruct u; discriminate.
    - intros r [<-|[<-|[<-|[]]]]; (split; [intros H; apply contains_occurs in H; discriminate|]); cbn [has_char]; intuition discriminate. }
  assert (Ht : good_target two_cams).
  { split; [repeat constructor; cbn; intuition discriminate|]. intros o [<-|[<-|[]]]; split; reflexivity. }
  assert (Hl : legendre_of 1 two_cams two_leg).
  { repeat constructor. }
  intros [|]; cbn zeta; eexists _, _, _.
  all: split; [vm_compute; reflexivity|].
  all: split; [vm_compute; reflexivity|].
  all: split; [exact Hg|]; split; [exact Ht|]; split; [exact Hl|]; split; [exact toy_sorts|].
  all: split; [vm_compute; discriminate|]; split; [vm_compute; discriminate|reflexivity].
Qed.

(* a spectrum that is exactly 2 everywhere: the fit with one constant is perfect (chi2 0, archetype
   coefficient 0), but the model evaluated from the reported coefficients is 0 everywhere *)
Theorem C99_zero_archetype_refuted : exists E A os leg w f wf c ft subtype model,
  spectral_data (map o_spec os) = Ok (w, f, wf) /\ good_target os /\ legendre_of 1 os leg /\
  (forall d, In d os -> o_flux d = repeat 2%Q 3) /\
  gba E A os ["b"%string] w f wf 0 true None None "bvls" None leg = Ok (0%Q, c, ft) /\ parse_fulltype ft = Ok (a_type A, subtype) /\
  let (ac, lc) := split_archetype_coeff subtype c 1 1 in
  arch_eval_model E A subtype ac (L2 lc) 0 (map o_eval os) = Ok model /\ (misfit os model == 12)%Q.
Proof.
  exists (const_env [0; 2]%Q), toy_arch, [{| o_hash := 7; o_wave := [2; 3; 4]%Q; o_ivar := [1; 1; 1]%Q; o_flux := [2; 2; 2]%Q; o_R := id3 |}], [(7%Z, [[1; 1; 1]]%Q)].
  eexists _, _, _, _, _, _, _. split; [vm_compute; reflexivity|]. split; [split; [repeat constructor; cbn; tauto|intros o [<-|[]]; split; reflexivity]|].
  split; [repeat constructor|]. split; [intros d [<-|[]]; reflexivity|]. split; [vm_compute; reflexivity|]. split; [vm_compute; reflexivity|].
  cbv beta iota zeta delta [split_archetype_coeff split_coeff]. split; [vm_compute; reflexivity|]. vm_compute. reflexivity.
Qed.
(* with a transmission that is not the archetype's own (fit_z passes the template's, at the redshift
   before the last refinement), the evaluated model is not the fitted one: chi2 0, misfit 29/4 *)
Theorem C99_other_transmission_refuted : exists E A os leg w f wf c ft subtype model T,
  spectral_data (map o_spec os) = Ok (w, f, wf) /\ good_target os /\ legendre_of 0 os leg /\
  gba E A os ["b"%string] w f wf 0 true None (Some [(7%Z, Some (A2 [T]))]) "bvls" None leg = Ok (0%Q, c, ft) /\ parse_fulltype ft = Ok (a_type A, subtype) /\
  let (ac, lc) := split_archetype_coeff subtype c 1 0 in
  arch_eval_model E A subtype ac (L2 lc) 0 (map o_eval os) = Ok model /\ (misfit os model == 29 # 4)%Q.
Proof.
  exists toy_env, {| a_type := "QSO"; a_raw := ["A"%string]; a_wave := [1; 2; 3; 4; 5]%Q; a_flux := [[1; 2; 3; 4; 5]%Q] |}, [{| o_hash := 7; o_wave := [2; 3; 4]%Q; o_ivar := [1; 1; 1]%Q; o_flux := [1; 3#2; 2]%Q; o_R := id3 |}], [(7%Z, [])].
  eexists _, _, _, _, _, _, _. exists [1#2; 1#2; 1#2]%Q. split; [vm_compute; reflexivity|]. split; [split; [repeat constructor; cbn; tauto|intros o [<-|[]]; split; reflexivity]|].
  split; [repeat constructor|]. split; [vm_compute; reflexivity|]. split; [vm_compute; reflexivity|].
  cbv beta iota zeta delta [split_archetype_coeff split_coeff]. split; [vm_compute; reflexivity|]. vm_compute. reflexivity.
Qed.

(* ---------- C102: several nearest archetypes ---------- *)
Lemma only_fit E A spectra bands w f wf dwave z pc trans method prior leg nleg ps k y d :
  length (a_raw A) = length (a_flux A) -> (pc = true -> NoDup bands /\ ~ In "alpha"%string bands) ->
  mapM (fit_key A z trans nleg leg) dwave = Ok ps -> k < narch A ->
  fits E spectra bands w f wf pc method prior nleg (map2 (td_of (narch A)) dwave ps) k = Ok (y, d) ->
  exists ft, best_body E (only A k) spectra bands w f wf dwave z pc None trans method prior leg nleg = Ok (y, d, ft).
Proof.
  intros Hlen Hb Hps Hk Hf. eexists. apply (body_eq E spectra bands w f wf dwave z pc trans method prior leg nleg Hb (only A k)); [discriminate|].
  exists (map (fun p => ([nth k (fst p) []], snd p)) ps), [(y, d)]. split; [exact (only_keys A z trans nleg leg dwave ps k Hps Hk)|]. split; [|reflexivity].
  change (narch (only A k)) with 1. cbn [seq mapM].
  assert (Hpl : forall p, In p ps -> length (fst p) = narch A).
  { intros p Hp. apply mapM_Forall2 in Hps. destruct (Forall2_in_r _ _ _ _ Hps Hp) as (kw & _ & Ek). exact (proj2 (only_key _ _ _ _ _ _ _ _ Ek Hk)). }
  assert (Hf' : fits E spectra bands w f wf pc method prior nleg (map2 (td_of 1) dwave (map (fun p => ([nth k (fst p) []], snd p)) ps)) 0 = Ok (y, d)).
  { rewrite <- Hf. rewrite <- (td_slice (narch A) dwave ps k Hk Hpl). unfold fits. apply one_fit_slice; [exact Hb|]. intros h L Hin. apply td_lengths in Hin. lia. }
  rewrite Hf'. reflexivity.
Qed.
Lemma nn_inv E A spectra bands w f wf dwave z pc n trans method prior leg r :
  snd (get_best_archetype E A spectra bands w f wf dwave z pc (Some n) trans method prior leg) = Ok r ->
  exists t' P nleg, prior = Some P /\ best_body E A spectra bands w f wf dwave z pc (Some n) t' method (Some P) leg nleg = Ok r /\
    forall B prior' s, best_body E B spectra bands w f wf dwave z pc None t' method prior' leg nleg = Ok s ->
      snd (get_best_archetype E B spectra bands w f wf dwave z pc None trans method prior' leg) = Ok s.
Proof.
  unfold get_best_archetype. destruct leg as [|[k0 L0] leg]; [discriminate|].
  assert (K : forall t', best_body E A spectra bands w f wf dwave z pc (Some n) t' method prior ((k0, L0) :: leg) (length L0) = Ok r -> exists P, prior = Some P).
  { intros t'. unfold best_body. destruct (rebin_all A z dwave); cbn [rbind]; [|discriminate]. destruct prior; [eauto|discriminate]. }
  destruct trans as [t|].
  - destruct (slice_trans t) as [t' [[]|]]; cbn [snd rbind]; [|discriminate]. intros H. destruct (K _ H) as (P & ->). exists t', P, (length L0). auto.
  - cbn [snd]. intros H. destruct (K _ H) as (P & ->). eexists _, P, (length L0). split; [reflexivity|]. split; [exact H|]. intros B prior' s Hs. exact Hs.
Qed.
(* per camera: n different archetypes are combined, those with the smallest chi2 when fitted one at a time (with the
   reduced prior), named in order of increasing chi2 *)
Theorem C102_nearest_archetypes : forall E A spectra bands w f wf dwave z n trans method prior leg x c ft,
  length (a_raw A) = length (a_flux A) -> sorts (e_argsort E) -> dwave <> [] -> NoDup bands -> ~ In "alpha"%string bands ->
  let fit B nn prior := snd (get_best_archetype E B spectra bands w f wf dwave z true nn trans method prior leg) in
  fit A (Some n) prior = Ok (x, c, ft) ->
  exists P chi best, prior = Some P /\ 1 <= n <= narch A /\ length best = n /\ NoDup best /\ (forall j, In j best -> j < narch A) /\
    ft = make_fulltype (a_type A) (Some (join ";" (map (fun j => label (nth j (a_raw A) EmptyString) j) best))) /\
    (forall k, k < narch A -> exists c' ft', fit (only A k) None (Some (prior_slice n P)) = Ok (chi k, c', ft')) /\
    (forall a b, a < b < n -> (chi (nth a best O) <= chi (nth b best O))%Q) /\
    (forall j k, In j best -> k < narch A -> ~ In k best -> (chi j <= chi k)%Q).
Proof.
  intros E A spectra bands w f wf dwave z n trans method prior leg x c ft Hlen Hs Hdw Hb1 Hb2 fit H. unfold fit in *.
  apply nn_inv in H as (t' & P & nleg & -> & H & Hfit). assert (Hb : true = true -> NoDup bands /\ ~ In "alpha"%string bands) by auto.
  apply body_near in H as (ps & zc & P1 & P2 & P3); [|exact Hb]. set (zz := map fst zc) in *.
  pose proof P2 as G2. apply mapM_Forall2 in G2.
  assert (Hlz : length zz = narch A) by (unfold zz; rewrite map_length; apply Forall2_len in G2; rewrite seq_length in G2; lia).
  apply (near_inv E A _ _ _ _ _ _ z true _ P _ _ n Hb Hlen Hs ps zz x c ft P1 Hlz Hdw) in P3; [|now left].
  destruct P3 as (_ & Hn1 & Hn2 & B1 & B2 & B3 & _). set (best := firstn n (e_argsort E zz)) in *.
  destruct (Hs zz) as [Hp Hord]. assert (Hla : length (e_argsort E zz) = narch A) by (rewrite (Permutation_length Hp), seq_length; exact Hlz).
  assert (Hnd : NoDup (e_argsort E zz)) by (apply (Permutation_NoDup (Permutation_sym Hp)), seq_NoDup).
  assert (Hnth : forall a, a < n -> nth a best O = nth a (e_argsort E zz) O) by (intros a Ha; apply nth_firstn_lt; exact Ha).
  exists P, (fun k => nth k zz 0%Q), best. split; [reflexivity|]. split; [lia|]. split; [exact B1|]. split.
  { rewrite <- (firstn_skipn n) in Hnd. fold best in Hnd. clear -Hnd. induction best as [|a l IH]; [constructor|]. cbn [app] in Hnd. inversion Hnd as [|? ? Ha Hl]; subst.
    constructor; [intros Hi; apply Ha; apply in_or_app; now left|now apply IH]. }
  split; [exact B2|]. split.
  { rewrite B3. do 3 f_equal. apply map_ext_in. intros j Hj. apply nth_error_nth. apply sub_types_nth. rewrite Hlen. now apply B2. }
  split.
  { intros k Hk. destruct (Forall2_nth _ _ _ k k G2 (nth_error_seq0 _ _ Hk)) as ([y d] & Hyd & Ey).
    destruct (only_fit _ _ _ _ _ _ _ _ _ _ _ _ _ _ _ _ _ _ _ Hlen Hb P1 Hk Ey) as (ft' & Eo). exists d, ft'. apply Hfit.
    assert (Hy : nth k zz 0%Q = y) by (apply nth_error_nth; unfold zz; rewrite nth_error_map, Hyd; reflexivity). rewrite Hy. exact Eo. }
  split.
  { intros a b [Hab Hbn]. rewrite !Hnth by lia. apply Hord. unfold vec in *. lia. }
  intros j k Hj Hk Hkn. apply (In_nth _ _ O) in Hj as (a & Ha & <-). rewrite B1 in Ha. rewrite Hnth by exact Ha.
  assert (Hki : In k (e_argsort E zz)) by (apply (Permutation_in _ (Permutation_sym Hp)), in_seq; unfold vec in *; lia).
  apply (In_nth _ _ O) in Hki as (b & Hbl & <-). apply Hord. split; [|unfold vec in *; lia].
  destruct (Nat.lt_ge_cases b n) as [Hlt|]; [|lia]. exfalso. apply Hkn. rewrite <- Hnth by exact Hlt. apply nth_In. lia.
Qed.
(* asking for more archetypes than there are fails *)
Theorem C102_too_many_refuted : forall E A spectra bands w f wf dwave z n trans method prior leg r,
  length (a_raw A) = length (a_flux A) -> sorts (e_argsort E) -> dwave <> [] -> NoDup bands -> ~ In "alpha"%string bands -> narch A < n ->
  snd (get_best_archetype E A spectra bands w f wf dwave z true (Some n) trans method prior leg) <> Ok r.
Proof.
  intros E A spectra bands w f wf dwave z n trans method prior leg [[x c] ft] H1 H2 H3 H4 H5 Hn H.
  destruct (C102_nearest_archetypes E A spectra bands w f wf dwave z n trans method prior leg x c ft H1 H2 H3 H4 H5 H) as (_ & _ & _ & _ & Hle & _). lia.
Qed.
(* so does asking for neighbours without a prior, or without per-camera polynomials *)
Theorem C102_no_prior_refuted : forall E A spectra bands w f wf dwave z pc n trans method leg r,
  snd (get_best_archetype E A spectra bands w f wf dwave z pc (Some n) trans method None leg) <> Ok r.
Proof. intros E A spectra bands w f wf dwave z pc n trans method leg r H. apply nn_inv in H as (_ & P & _ & C & _). discriminate. Qed.
Theorem C102_common_polynomials_refuted : forall E A spectra bands w f wf dwave z n trans method prior leg r,
  length (a_raw A) = length (a_flux A) -> sorts (e_argsort E) -> dwave <> [] -> (~ sumQ w == 0)%Q ->
  snd (get_best_archetype E A spectra bands w f wf dwave z false (Some n) trans method prior leg) <> Ok r.
Proof.
  intros E A spectra bands w f wf dwave z n trans method prior leg [[x c] ft] Hlen Hs Hdw Hw H.
  apply nn_inv in H as (t' & P & nleg & -> & H & _). assert (Hb : false = true -> NoDup bands /\ ~ In "alpha"%string bands) by discriminate.
  apply body_near in H as (ps & zc & P1 & P2 & P3); [|exact Hb].
  assert (Hlz : length (map fst zc) = narch A) by (pose proof P2 as G2; apply mapM_Forall2 in G2; apply Forall2_len in G2; rewrite seq_length in G2; rewrite map_length; lia).
  apply (near_inv E A _ _ _ _ _ _ z false _ P _ _ n Hb Hlen Hs ps (map fst zc) x c ft P1 Hlz Hdw) in P3; [|now right]. destruct P3 as (C & _). discriminate.
Qed.
(* least squares for one unknown, a fixed answer for two *)
Definition toy_env2 (s : vec) : arch_env := {|
  e_solv := {| linsolve := toy_solve; nnls := toy_solve; bvls := fun M y _ => match y with [_] => toy_solve M y | _ => Ok s end; cusolve := fun _ y => y |};
  e_argsort := toy_sort; e_lyman := fun _ w => repeat 1%Q (length w) |}.
(* two of three archetypes: the proportional ones, in the order the sort gives *)
Example C102_instance : exists x c,
  snd (get_best_archetype (toy_env2 [1; 1]%Q) toy_arch toy_spec ["b"%string] [1; 1; 1]%Q [4; 6; 8]%Q [4; 6; 8]%Q toy_dwave 0 true (Some 2) None "bvls" (Some [[0; 0]; [0; 0]]%Q) [(7%Z, [])]) =
  Ok (x, c, "GALAXY:::RED_1;RED_2"%string).
Proof. eexists _, _. vm_compute. reflexivity. Qed.

Print Assumptions C99_eval_is_fitted_partial.
Print Assumptions C99_zero_archetype_refuted.
Print Assumptions C99_other_transmission_refuted.
Print Assumptions C102_nearest_archetypes.
Print Assumptions C102_too_many_refuted.
Print Assumptions C102_no_prior_refuted.
Print Assumptions C102_common_polynomials_refuted.
