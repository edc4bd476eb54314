(* The scan written by one run and read by another. *)
From Verif Require Import Prelude PreludeFacts NumX Facts2 Model_Fitz Model_Rebin Model_Dist Proof_Dist3 Proof_Table Model_Zscan Proof_Zscan2 Proof_Zscan3 Proof_Zscan4
  Model_Piece Model_IO Proof_IO2 Model_Zfind Proof_Zfind Model_Run Proof_Run Proof_Run2 Spec_Run Proof_Run3 Proof_Run6 Proof_RunMPI2 Model_Reuse Proof_Reuse Proof_Rank.
Open Scope nat_scope.
Local Notation dget := Model_Dist.dget.
Local Notation dset := Model_Dist.dset.
Local Notation entry := Model_IO.entry.

Lemma str_leb_leb : forall a b, str_leb a b = String.leb a b.
Proof.
  unfold String.leb. induction a as [|x a IH]; intros [|y b]; try reflexivity. cbn [str_leb String.compare]. unfold Ascii.compare.
  unfold nat_of_ascii. rewrite N2Nat.inj_compare. destruct (Nat.compare_spec (N.to_nat (N_of_ascii x)) (N.to_nat (N_of_ascii y))) as [E|L|L].
  - rewrite E, Nat.ltb_irrefl. apply IH.
  - apply Nat.ltb_lt in L. now rewrite L.
  - assert (X : (N.to_nat (N_of_ascii x) <? N.to_nat (N_of_ascii y)) = false) by (apply Nat.ltb_ge; lia). rewrite X. apply Nat.ltb_lt in L. now rewrite L.
Qed.
(* ---------- the file ---------- *)
Lemma enum_snd {A} (l : list A) : map snd (enum l) = l.
Proof. unfold enum. generalize 0. induction l as [|a l IH]; intro k; [reflexivity|]. cbn. f_equal. apply IH. Qed.
Lemma dset_all {V} (es : list (Z * V)) : NoDup (map fst es) -> fold_left (fun (d : Model_Dist.dict V) e => dset d (fst e) (snd e)) es [] = es.
Proof.
  assert (G : forall todo (dn : Model_Dist.dict V), NoDup (map fst dn ++ map fst todo) -> fold_left (fun d e => dset d (fst e) (snd e)) todo dn = dn ++ todo).
  { induction todo as [|[k v] todo IH]; intros dn N; cbn [fold_left]; [now rewrite app_nil_r|]. rewrite dset_fresh_keys.
    - rewrite IH; [rewrite <- app_assoc; reflexivity|]. rewrite map_app, <- app_assoc. exact N.
    - apply Proof_Dist3.dget_none. intro C. cbn [map] in N. apply NoDup_remove_2 in N. apply N. apply in_app_iff. now left. }
  intro N. exact (G es [] N).
Qed.
Section File.
Context {P : Type} (f32 : Q -> Q) (cast : P -> P).
Lemma write_fits_nodup (zf : list (Model_IO.frow P)) : forall ids acc o, write_fits zf ids acc = Ok o -> NoDup (map fst acc) -> NoDup (map fst acc ++ ids).
Proof.
  induction ids as [|t ids IH]; intros acc o H N; [now rewrite app_nil_r|]. cbn [write_fits] in H. destruct (dget acc t) eqn:E; [discriminate|]. apply IH in H.
  - rewrite map_app, <- app_assoc in H. exact H.
  - rewrite map_app. apply NoDup_app_intro; [exact N|constructor; [intros []|constructor]|]. intros x Hx [<-|[]]. now apply Proof_Dist3.dget_none in E.
Qed.
Lemma vstack1_same l o : vstack1 l = Ok o -> o = l.
Proof. destruct l; cbn; [discriminate|]. destruct (forallb _ _); [congruence|discriminate]. Qed.
Lemma vstack2_same l o : vstack2 l = Ok o -> o = l.
Proof. destruct l; cbn; [discriminate|]. destruct (forallb _ _); [congruence|discriminate]. Qed.
Lemma write_group_inv zs t0 ids ft x : write_group f32 zs t0 ids ft = Ok x -> exists ss s0, Forall2 (fun t s => entry zs t ft = Ok s) ids ss /\ entry zs t0 ft = Ok s0 /\
  x = (ft, {| g_z := sc_z s0; g_chi2 := map (fun s => map f32 (sc_chi2 s)) ss; g_pen := map (fun s => map f32 (sc_pen s)) ss; g_coeff := map (fun s => map (map f32) (sc_coeff s)) ss |}).
Proof.
  unfold write_group. destruct (mapM _ ids) as [ss|] eqn:Es; cbn [rbind]; [|discriminate]. destruct (vstack1 (map _ ss)) as [c|] eqn:Ec; cbn [rbind]; [|discriminate].
  destruct (vstack1 (map (fun s => map f32 (sc_pen s)) ss)) as [p|] eqn:Ep; cbn [rbind]; [|discriminate]. destruct (vstack2 _) as [k|] eqn:Ek; cbn [rbind]; [|discriminate].
  destruct (entry zs t0 ft) as [s0|] eqn:E0; cbn [rbind]; [|discriminate]. intro H. apply vstack1_same in Ec, Ep. apply vstack2_same in Ek. subst. exists ss, s0. split; [now apply mapM_Forall2 in Es|]. split; [reflexivity|]. congruence.
Qed.
Lemma by_name_fst {V} (l : list (string * V)) : map fst (by_name l) = isort String.leb (map fst l).
Proof.
  unfold by_name. induction l as [|[k v] l IH]; [reflexivity|]. cbn [map isort fst]. rewrite <- IH. generalize (isort (fun a b : string * V => str_leb (fst a) (fst b)) l) as m. induction m as [|[k' v'] m IHm]; [reflexivity|].
  cbn [insert map fst]. rewrite str_leb_leb. destruct (String.leb k k'); [reflexivity|]. cbn [map fst]. now rewrite IHm.
Qed.
(* what comes back *)
Lemma file_scan zs zfit h : write_zscan f32 cast zs zfit = Ok h -> exists zs' d0 t0, read_zscan_redrock h = Ok zs' /\ map fst zs' = h_ids h /\ NoDup (h_ids h) /\ In t0 (h_ids h) /\ dget zs t0 = Some d0 /\
  h_ids h = map Model_IO.f_tid (filter (fun r => (Model_IO.f_znum r =? 0)%Z) (map (cast_row cast) zfit)) /\
  forall t, In t (h_ids h) -> exists d, dget zs' t = Some d /\ map fst d = isort String.leb (map fst d0) /\
    forall ft v, In (ft, v) d -> exists s s0, entry zs t ft = Ok s /\ entry zs t0 ft = Ok s0 /\ v = {| sc_z := sc_z s0; sc_chi2 := map f32 (sc_chi2 s); sc_pen := map f32 (sc_pen s); sc_coeff := map (map f32) (sc_coeff s) |}.
Proof.
  unfold write_zscan. set (ids := map Model_IO.f_tid (filter _ _)). destruct ids as [|t0 rest] eqn:Ei; [discriminate|]. destruct (dget zs t0) as [d0|] eqn:E0; [|discriminate].
  destruct (mapM _ (map fst d0)) as [gs|] eqn:Eg; cbn [rbind]; [|discriminate]. destruct (write_fits _ _ []) as [fs|] eqn:Ew; cbn [rbind]; [|discriminate]. intro H.
  assert (Hh : h = {| h_ids := t0 :: rest; h_zbest := filter (fun r => (Model_IO.f_znum r =? 0)%Z) (map (cast_row cast) zfit); h_scan := gs; h_fit := fs |}) by congruence. clear H.
  assert (N : NoDup (t0 :: rest)) by exact (write_fits_nodup _ _ [] _ Ew (NoDup_nil _)).
  apply mapM_Forall2 in Eg.
  assert (K : map fst gs = map fst d0). { clear -Eg. induction Eg as [|ft x l m H F IH]; [reflexivity|]. cbn [map]. rewrite IH. apply write_group_inv in H as (ss & s0 & _ & _ & ->). reflexivity. }
  assert (G : forall g, In g (by_name gs) -> exists ss s0, Forall2 (fun t s => entry zs t (fst g) = Ok s) (t0 :: rest) ss /\ entry zs t0 (fst g) = Ok s0 /\
     snd g = {| g_z := sc_z s0; g_chi2 := map (fun s => map f32 (sc_chi2 s)) ss; g_pen := map (fun s => map f32 (sc_pen s)) ss; g_coeff := map (fun s => map (map f32) (sc_coeff s)) ss |}).
  { intros g Ig. apply (Permutation_in _ (by_name_perm gs)) in Ig. destruct (Forall2_in_r _ _ _ g Eg Ig) as (ft & _ & Hg). apply write_group_inv in Hg as (ss & s0 & F & E & ->). exists ss, s0. now repeat split. }
  (* one target *)
  assert (T : forall i t, nth_error (t0 :: rest) i = Some t -> exists d, mapM (fun g => do s <- get_scan (snd g) i; Ok (fst g, s)) (by_name gs) = Ok d /\ map fst d = map fst (by_name gs) /\
     forall ft v, In (ft, v) d -> exists s s0, entry zs t ft = Ok s /\ entry zs t0 ft = Ok s0 /\ v = {| sc_z := sc_z s0; sc_chi2 := map f32 (sc_chi2 s); sc_pen := map f32 (sc_pen s); sc_coeff := map (map f32) (sc_coeff s) |}).
  { intros i t Hi. revert G. generalize (by_name gs) as l. induction l as [|g l IH]; intro G; [exists []; repeat split; intros ft v []|].
    destruct IH as (d & Ed & Kd & Vd); [intros; apply G; now right|]. destruct (G g (or_introl eq_refl)) as (ss & s0 & F & E & Hg).
    destruct (nth_error ss i) as [s|] eqn:Es; [|exfalso; apply nth_error_None in Es; apply Forall2_len in F; apply nth_error_Some_lt in Hi; cbn [length] in *; lia].
    assert (Et : entry zs t (fst g) = Ok s). { clear -F Hi Es. revert i Hi Es. induction F as [|a b l m H F IH]; intros [|i] Hi Es; cbn in *; try discriminate; [congruence|]. now apply (IH i). }
    cbn [mapM]. rewrite Hg. unfold get_scan at 1. cbn [g_chi2 g_pen g_coeff g_z]. rewrite !nth_error_map, Es. cbn [option_map rbind]. rewrite Ed. cbn [rbind]. eexists. split; [reflexivity|]. cbn [map fst]. split; [now rewrite Kd|].
    intros ft v [X|X]; [|now apply Vd]. assert (ft = fst g) by congruence. subst ft. exists s, s0. split; [exact Et|]. split; [exact E|]. congruence. }
  assert (ES : exists es, mapM (fun p => do d <- mapM (fun g => do s <- get_scan (snd g) (fst p); Ok (fst g, s)) (by_name gs); Ok (snd p, d)) (enum (t0 :: rest)) = Ok es /\ map fst es = t0 :: rest /\
     forall t d, In (t, d) es -> map fst d = map fst (by_name gs) /\ forall ft v, In (ft, v) d -> exists s s0, entry zs t ft = Ok s /\ entry zs t0 ft = Ok s0 /\ v = {| sc_z := sc_z s0; sc_chi2 := map f32 (sc_chi2 s); sc_pen := map f32 (sc_pen s); sc_coeff := map (map f32) (sc_coeff s) |}).
  { assert (X : forall l : list (nat * Z), (forall p, In p l -> nth_error (t0 :: rest) (fst p) = Some (snd p)) -> exists es, mapM (fun p => do d <- mapM (fun g => do s <- get_scan (snd g) (fst p); Ok (fst g, s)) (by_name gs); Ok (snd p, d)) l = Ok es /\ map fst es = map snd l /\
     forall t d, In (t, d) es -> map fst d = map fst (by_name gs) /\ forall ft v, In (ft, v) d -> exists s s0, entry zs t ft = Ok s /\ entry zs t0 ft = Ok s0 /\ v = {| sc_z := sc_z s0; sc_chi2 := map f32 (sc_chi2 s); sc_pen := map f32 (sc_pen s); sc_coeff := map (map f32) (sc_coeff s) |}).
    { induction l as [|[i t] l IH]; intro Hl; [exists []; repeat split; destruct H|]. destruct IH as (es & Ee & Ke & Ve); [intros; apply Hl; now right|].
      destruct (T i t (Hl (i, t) (or_introl eq_refl))) as (d & Ed & Kd & Vd). cbn [mapM fst snd]. rewrite Ed. cbn [rbind]. rewrite Ee. cbn [rbind]. eexists. split; [reflexivity|]. cbn [map fst snd]. split; [now rewrite Ke|].
      intros t' d' [X|X]; [|now apply Ve]. assert (t' = t /\ d' = d) as [-> ->] by (split; congruence). now split. }
    destruct (X (enum (t0 :: rest))) as (es & Ee & Ke & Ve). { intros p Ip. now apply enum_lt in Ip. } exists es. split; [exact Ee|]. split; [now rewrite Ke, enum_snd|exact Ve]. }
  destruct ES as (es & Ee & Ke & Ve). exists es, d0, t0. rewrite Hh. cbn [h_ids].
  assert (Rd : read_zscan_redrock {| h_ids := t0 :: rest; h_zbest := filter (fun r => (Model_IO.f_znum r =? 0)%Z) (map (cast_row cast) zfit); h_scan := gs; h_fit := fs |} = Ok es).
  { unfold read_zscan_redrock. cbn [h_ids h_scan]. rewrite Ee. cbn [rbind]. f_equal. apply dset_all. rewrite Ke. exact N. }
  split; [exact Rd|]. split; [exact Ke|]. split; [exact N|]. split; [now left|]. split; [exact E0|]. split; [reflexivity|].
  intros t It. rewrite <- Ke in It. apply in_map_iff in It as ([t' d] & Et & Id). cbn [fst] in Et. subst t'. exists d. split; [apply Proof_Dist3.dget_in; [rewrite Ke; exact N|exact Id]|]. destruct (Ve t d Id) as [V1 V2]. split; [|exact V2].
  now rewrite V1, by_name_fst, K.
Qed.
End File.

(* ---------- templates in alphabetical order ---------- *)
Lemma by_type_perm ps : Permutation (by_type ps) ps.
Proof. apply Permutation_sym, isort_perm. Qed.
Lemma by_type_fst ps : map full_type (by_type ps) = isort String.leb (map full_type ps).
Proof.
  unfold by_type. induction ps as [|p ps IH]; [reflexivity|]. cbn [map isort]. rewrite <- IH. generalize (isort (fun a b => String.leb (full_type a) (full_type b)) ps) as m. induction m as [|q m IHm]; [reflexivity|].
  cbn [insert map]. destruct (String.leb (full_type p) (full_type q)); [reflexivity|]. cbn [map]. now rewrite IHm.
Qed.
Lemma by_type_sorted ps : StronglySorted (fun a b => String.leb (full_type a) (full_type b) = true) (by_type ps).
Proof. unfold by_type. apply isort_sorted; [intros x y; apply string_leb_total|intros x y z; apply string_leb_trans]. Qed.
Lemma strict_sorted qs : NoDup (map full_type qs) -> StronglySorted (fun a b => String.leb (full_type a) (full_type b) = true) qs -> StronglySorted (fun a b => String.leb (full_type a) (full_type b) = true /\ full_type a <> full_type b) qs.
Proof.
  intros N S. induction S as [|a l S IH F]; [constructor|]. cbn [map] in N. inversion N as [|? ? N1 N2]; subst. constructor; [now apply IH|]. apply Forall_forall. intros b Ib. split; [exact (proj1 (Forall_forall _ _) F b Ib)|].
  intro E. apply N1. rewrite E. now apply in_map.
Qed.
Lemma sorted_perm_eq a b : NoDup (map full_type a) -> Permutation a b -> StronglySorted (fun a b => String.leb (full_type a) (full_type b) = true) a -> StronglySorted (fun a b => String.leb (full_type a) (full_type b) = true) b -> a = b.
Proof.
  intros N P Sa Sb. apply (StronglySorted_unique (fun a b => String.leb (full_type a) (full_type b) = true /\ full_type a <> full_type b)); [|now apply strict_sorted|apply strict_sorted; [eapply Permutation_NoDup; [apply Permutation_map; exact P|exact N]|exact Sb]|exact P].
  intros x y [H1 H2] [H3 _]. apply H2. now apply String.leb_antisym.
Qed.
Lemma by_type_unique ps qs : NoDup (map full_type ps) -> Permutation ps qs -> by_type ps = by_type qs.
Proof.
  intros N P. apply sorted_perm_eq; [eapply Permutation_NoDup; [apply Permutation_map, Permutation_sym, by_type_perm|exact N]| |apply by_type_sorted|apply by_type_sorted].
  transitivity ps; [apply by_type_perm|]. transitivity qs; [exact P|apply Permutation_sym, by_type_perm].
Qed.
Lemma keyed_eq {V} (a b : list (string * V)) : map fst a = map fst b -> NoDup (map fst a) -> (forall k v, In (k, v) a -> In (k, v) b) -> a = b.
Proof.
  revert b. induction a as [|[k v] a IH]; intros [|[k' v'] b] E N H; cbn [map fst] in *; try discriminate; [reflexivity|]. assert (k' = k) by congruence. subst k'. assert (E' : map fst a = map fst b) by congruence.
  inversion N as [|? ? N1 N2]; subst. assert (Hv : (k, v') = (k, v)). { destruct (H k v (or_introl eq_refl)) as [X|X]; [exact X|]. exfalso. apply N1. rewrite E'. apply in_map_iff. now exists (k, v). }
  assert (v' = v) by congruence. subst v'. f_equal. apply IH; [exact E'|exact N2|]. intros x w I. destruct (H x w (or_intror I)) as [X|X]; [|exact X]. exfalso. apply N1. assert (x = k) by congruence. subst x. apply in_map_iff. now exists (k, w).
Qed.

Section S.
Variables (slv : solvers) (argsort : list xq -> list nat) (polyfit : list Q -> list Q -> option (Q * Q * Q)) (isqrt : Q -> Q).
Variable trans : option string -> Q -> Q -> Q.
Variables (nminima nz : nat).
Notation tdata := (tdata trans).
Notation zfind := (zfind slv argsort polyfit isqrt trans nminima nz).
Notation run := (run slv argsort polyfit isqrt trans nminima nz).

(* the scan of one template for one target *)
Definition one_scan (g : targ) (p : tmpl) : res (string * scan) := do td <- tdata p (grids [g]) (p_zs p); srow slv g (p, td).
Lemma srow_alone p tgs td g : hashes_tell_grids tgs -> In g tgs -> tdata p (grids tgs) (p_zs p) = Ok td -> srow slv g (p, td) = one_scan g p.
Proof.
  intros C I H. destruct (tdata_alone trans p tgs (p_zs p) td g (grids_once _ C) I H) as (td' & E & X). unfold one_scan. rewrite E. cbn [rbind]. unfold srow, scan_of. cbn [fst snd].
  rewrite (target_ext slv (p_core p) td td'); [reflexivity|]. intros s Hs. unfold data_of in Hs. apply in_map_iff in Hs as (q & <- & Hq). exact (X q Hq).
Qed.
Lemma rows_alone ps tgs tds g : hashes_tell_grids tgs -> In g tgs -> mapM (fun p => tdata p (grids tgs) (p_zs p)) ps = Ok tds -> mapM (srow slv g) (combine ps tds) = mapM (one_scan g) ps.
Proof.
  intros C I H. apply mapM_Forall2 in H. induction H as [|p td ps tds H F IH]; [reflexivity|]. cbn [combine mapM]. rewrite (srow_alone p tgs td g C I H). destruct (one_scan g p); cbn [rbind]; [|reflexivity]. now rewrite IH.
Qed.
Lemma one_scan_key g p x : one_scan g p = Ok x -> fst x = full_type p.
Proof. unfold one_scan, srow, mkscan. destruct (tdata p _ _) as [td|]; cbn [rbind]; [|discriminate]. destruct (scan_of slv (p, td) g) as [row|]; cbn [rbind]; [|discriminate]. intro H. exact (eq_sym (f_equal (fun y => match y with Ok z => fst z | Err _ => ""%string end) H)). Qed.
Lemma scans_keys g ps ds : mapM (one_scan g) ps = Ok ds -> map fst ds = map full_type ps.
Proof. intro H. apply mapM_Forall2 in H. induction H as [|p x ps ds H F IH]; [reflexivity|]. cbn [map]. now rewrite IH, (one_scan_key g p x H). Qed.
(* what zfind scans *)
Lemma calc_scan_alone ps tds tgs zs : NoDup (map g_id tgs) -> NoDup (map full_type ps) -> hashes_tell_grids tgs -> mapM (fun p => tdata p (grids tgs) (p_zs p)) ps = Ok tds ->
  (calc_scan slv ps tds tgs = Ok zs <-> exists dss, Forall2 (fun g ds => mapM (one_scan g) ps = Ok ds) tgs dss /\ zs = combine (map g_id tgs) dss).
Proof.
  intros N Nt C H. rewrite calc_scan_ok; [|exact N|exact Nt|apply mapM_Forall2 in H; now apply Forall2_len in H].
  split; intros (dss & F & ->); exists dss; (split; [|reflexivity]); (eapply Forall2_in_impl; [|exact F]); intros g ds I E; cbv beta in *; [rewrite <- (rows_alone ps tgs tds g C I H)|rewrite (rows_alone ps tgs tds g C I H)]; exact E.
Qed.
Lemma combine_get {V} (ids : list Z) (dss : list V) k d : NoDup ids -> In (k, d) (combine ids dss) -> dget (combine ids dss) k = Some d.
Proof.
  intros N. revert dss. induction ids as [|a ids IH]; intros [|x dss] I; cbn [combine] in *; try destruct I; cbn [Model_Dist.dget].
  - assert (a = k /\ x = d) as [-> ->] by (split; congruence). now rewrite Z.eqb_refl.
  - inversion N; subst. destruct (Z.eqb_spec a k) as [->|_]; [|now apply IH]. exfalso. apply in_combine_l in H. contradiction.
Qed.
Lemma combine_inv {V} (ids : list Z) (dss : list V) k d : dget (combine ids dss) k = Some d -> In (k, d) (combine ids dss).
Proof.
  revert dss. induction ids as [|a ids IH]; intros [|x dss] I; cbn [combine Model_Dist.dget] in *; try discriminate. destruct (Z.eqb_spec a k) as [->|_]; [left; congruence|right; now apply IH].
Qed.
Definition priored (pr : option (Z -> list Q -> list Q)) (k : Z) (x : string * scan) : string * scan :=
  match pr with None => x | Some f => (fst x, {| sc_z := sc_z (snd x); sc_chi2 := map2 Qplus (sc_chi2 (snd x)) (f k (sc_z (snd x))); sc_pen := sc_pen (snd x); sc_coeff := sc_coeff (snd x) |}) end.
Lemma prior_get pr zs k : dget (add_prior pr zs) k = option_map (map (priored pr k)) (dget zs k).
Proof.
  destruct pr as [f|]; cbn [add_prior].
  - induction zs as [|[a d] zs IH]; [reflexivity|]. cbn [map Model_Dist.dget fst snd]. destruct (Z.eqb_spec a k) as [->|_]; [reflexivity|exact IH].
  - destruct (dget zs k) as [d|]; [|reflexivity]. cbn [option_map]. unfold priored. now rewrite map_id.
Qed.
Lemma priored_key pr k x : fst (priored pr k x) = fst x. Proof. destruct pr; reflexivity. Qed.
Lemma prior_keys pr k d : map fst (map (priored pr k) d) = map fst d.
Proof. rewrite map_map. apply map_ext. intro. apply priored_key. Qed.
Lemma in_target tgs dss k d : In (k, d) (combine (map g_id tgs) dss) -> forall (R : targ -> list (string * scan) -> Prop), Forall2 R tgs dss -> exists g, In g tgs /\ g_id g = k /\ R g d.
Proof.
  intros I R F. revert I. induction F as [|g x tgs dss H F IH]; intro I; cbn [map combine] in I; [destruct I|]. destruct I as [E|I].
  - exists g. assert (g_id g = k /\ x = d) as [E1 E2] by (split; congruence). subst. split; [now left|now split].
  - destruct (IH I) as (g' & I' & E & H'). exists g'. split; [now right|now split].
Qed.
Lemma target_unique tgs g g' : NoDup (map g_id tgs) -> In g tgs -> In g' tgs -> g_id g = g_id g' -> g = g'.
Proof.
  induction tgs as [|a l IH]; intros N I I' E; [destruct I|]. cbn [map] in N. inversion N as [|? ? N1 N2]; subst. destruct I as [->|I], I' as [->|I']; auto; exfalso; apply N1; [rewrite E|rewrite <- E]; now apply in_map.
Qed.
End S.
