(* C120-C125: reading BOSS files, options of rrboss. *)
From Verif Require Import Prelude PreludeFacts Facts2 Model_Dist Proof_Dist2 Proof_Dist3 Model_Fitz Proof_Fitz2 Model_Zscan Model_IO Props_IO Proof_Table Model_Arch Model_Boss Spec_Boss Proof_Boss Proof_Wrap2.
Open Scope nat_scope.

(* ---------- C120 ---------- *)
Lemma read_parts frames sps targetids fiberid ts meta : read_spectra frames sps targetids fiberid = Ok (ts, meta) -> sps <> [] ->
  exists d, holds (pick targetids (observations frames sps fiberid)) d /\ map fst ts = isort Z.leb (match targetids with None => map fst d | Some l => l end) /\
    (forall t s, In (t, s) ts -> dget d t = Some s) /\ map fst meta = map fst ts /\ length (filter (fun t => existsb (Z.eqb t) (map fst ts)) (map fst d)) = length ts.
Proof.
  unfold read_spectra. cbv zeta. intros H Hne. assert (Hl : 0 < length sps) by (destruct sps; [congruence|cbn; lia]).
  destruct (read_files _ _ _ _ _ _ _ _ _) as [d|] eqn:Ed; [|discriminate]. cbn [rbind] in H. apply (read_files_inv frames sps targetids fiberid _ Hl 0 [] []) in Ed; [|apply holds_nil]. cbn [app] in Ed.
  set (ids := isort Z.leb _) in *. destruct (mapM _ ids) as [ts'|] eqn:Em; [|discriminate]. cbn [rbind] in H. destruct (Nat.eqb_spec (length (filter (fun t => existsb (Z.eqb t) ids) (map fst d))) (length ts')) as [L|]; [|discriminate].
  cbn [negb] in H. assert (ts' = ts) as -> by congruence. assert (Hm : meta = map (fun t => (t, brick_column (all_or_zero (map sp_plate sps)) (all_or_zero (map sp_mjd sps)))) ids) by congruence.
  apply build_targets in Em as [E1 E2]. exists d. split; [exact Ed|]. split; [exact E1|]. split; [exact E2|]. split; [|now rewrite E1].
  rewrite Hm, map_map, E1. cbn. apply map_id.
Qed.
(* all the objects: one target each, in increasing order, holding exactly the spectra of the object in file order *)
Theorem C120_every_spectrum : forall frames sps fiberid ts meta, sps <> [] -> read_spectra frames sps None fiberid = Ok (ts, meta) ->
  let obs := observations frames sps fiberid in
  StronglySorted Z.lt (map fst ts) /\ (forall t, In t (map fst ts) <-> In t (map fst obs)) /\
  (forall t s, In (t, s) ts -> s = spectra_of t obs /\ s <> []) /\ Permutation (concat (map snd ts)) (map snd obs) /\ map fst meta = map fst ts.
Proof.
  intros frames sps fiberid ts meta Hne H. cbv zeta. destruct (read_parts _ _ _ _ _ _ H Hne) as (d & [N G K] & E1 & E2 & E3 & _). set (obs := observations frames sps fiberid) in *.
  assert (P : pick None obs = obs). { unfold pick, wantb. clear. induction obs as [|x l IH]; [reflexivity|]. cbn. now rewrite IH. } rewrite P in *.
  assert (N2 : NoDup (map fst ts)). { rewrite E1. eapply Permutation_NoDup; [apply isort_perm|exact N]. }
  assert (K2 : forall t, In t (map fst ts) <-> In t (map fst obs)). { intro t. rewrite E1, <- K. split; apply Permutation_in; [symmetry; apply isort_perm|apply isort_perm]. }
  assert (S2 : forall t s, In (t, s) ts -> s = spectra_of t obs /\ s <> []).
  { intros t s Hi. pose proof (G t) as Gt. unfold getl in Gt. rewrite (E2 t s Hi) in Gt. split; [exact Gt|]. intros ->. symmetry in Gt. apply spectra_nil in Gt. apply Gt. apply K2. now apply (in_map fst) in Hi. }
  split; [|split; [exact K2|split; [exact S2|split; [|exact E3]]]].
  - assert (SS : StronglySorted (fun a b => (a <= b)%Z) (map fst ts)).
    { rewrite E1. eapply StronglySorted_impl; [|apply isort_sorted; [exact zleb_total|exact zleb_trans]]. cbn. intros a b _ _ Hab. now apply Z.leb_le. }
    revert SS N2. generalize (map fst ts). clear. induction l as [|a l IH]; intros SS N2; [constructor|]. inversion SS as [|? ? S1 S2]; subst. inversion N2 as [|? ? M1 M2]; subst.
    constructor; [now apply IH|]. rewrite Forall_forall in *. intros x Hx. specialize (S2 x Hx). assert (x <> a) by congruence. lia.
  - replace (map snd ts) with (map (fun t => spectra_of t obs) (map fst ts)).
    + apply perm_group; [exact N2|]. intros t Ht. now apply K2.
    + rewrite map_map. apply map_ext_in. intros [t s] Hi. cbn. symmetry. now apply S2.
Qed.
(* chosen objects *)
Theorem C120_chosen : forall frames sps l fiberid ts meta, sps <> [] -> read_spectra frames sps (Some l) fiberid = Ok (ts, meta) ->
  let obs := observations frames sps fiberid in
  StronglySorted Z.lt (map fst ts) /\ Permutation (map fst ts) l /\ forall t s, In (t, s) ts -> s = spectra_of t obs /\ s <> [].
Proof.
  intros frames sps l fiberid ts meta Hne H. cbv zeta. destruct (read_parts _ _ _ _ _ _ H Hne) as (d & [N G K] & E1 & E2 & _ & L). set (obs := observations frames sps fiberid) in *.
  assert (P : Permutation (map fst ts) l) by (rewrite E1; symmetry; apply isort_perm).
  assert (D : forall t, In t (map fst ts) -> In t (map fst d)).
  { intros t Ht. apply in_map_iff in Ht as ([a s] & <- & Hi). apply dget_keys. cbn [fst]. rewrite (E2 a s Hi). discriminate. }
  assert (N2 : NoDup (map fst ts)).
  { (* as many distinct keys as targets *)
    apply NoDup_incl_NoDup with (l := filter (fun t => existsb (Z.eqb t) (map fst ts)) (map fst d)).
    - now apply NoDup_filter.
    - rewrite L. now rewrite map_length.
    - intros t Ht. apply filter_In in Ht as [_ Ht]. apply existsb_exists in Ht as (x & Hx & E). apply Z.eqb_eq in E. now subst. }
  split; [|split; [exact P|]].
  - assert (SS : StronglySorted (fun a b => (a <= b)%Z) (map fst ts)).
    { rewrite E1. eapply StronglySorted_impl; [|apply isort_sorted; [exact zleb_total|exact zleb_trans]]. cbn. intros a b _ _ Hab. now apply Z.leb_le. }
    revert SS N2. generalize (map fst ts). clear. induction l as [|a l IH]; intros SS N2; [constructor|]. inversion SS as [|? ? S1 S2]; subst. inversion N2 as [|? ? M1 M2]; subst.
    constructor; [now apply IH|]. rewrite Forall_forall in *. intros x Hx. specialize (S2 x Hx). assert (x <> a) by congruence. lia.
  - intros t s Hi. pose proof (G t) as Gt. unfold getl in Gt. rewrite (E2 t s Hi) in Gt.
    assert (W : wantb (Some l) t = true). { cbn. apply existsb_exists. exists t. split; [|apply Z.eqb_refl]. apply (Permutation_in t P). now apply (in_map fst) in Hi. }
    rewrite spectra_pick in Gt by exact W. split; [exact Gt|]. intros ->. symmetry in Gt. apply spectra_nil in Gt. apply Gt.
    apply (in_map fst) in Hi. apply D in Hi. apply K in Hi. unfold pick in Hi. apply in_map_iff in Hi as (o & Eo & Ho). cbn [fst] in Eo. subst t. apply filter_In in Ho as [Ho _]. now apply in_map.
Qed.
Lemma build_ok (d : dic) ids : (forall t, In t ids -> In t (map fst d)) -> exists ts, mapM (fun t => match dget d t with Some s => Ok (t, s) | None => Err KeyError end) ids = Ok ts /\ length ts = length ids.
Proof.
  induction ids as [|i r IH]; intro H; cbn [mapM]; [now exists []|]. assert (Hi : dget d i <> None) by (apply dget_keys, H; now left). destruct (dget d i) as [s|]; [|congruence]. cbn [rbind].
  destruct IH as (ts & -> & L); [intros t Ht; apply H; now right|]. cbn. eexists. split; [reflexivity|]. cbn. now rewrite L.
Qed.
Lemma filter_members (a b : list Z) : NoDup a -> NoDup b -> (forall t, In t b -> In t a) -> length (filter (fun t => existsb (Z.eqb t) b) a) = length b.
Proof.
  intros Na Nb H. apply Permutation_length, NoDup_Permutation; [now apply NoDup_filter|exact Nb|]. intro x. rewrite filter_In, existsb_exists. split.
  - intros [_ (y & Hy & E)]. apply Z.eqb_eq in E. now subst.
  - intro Hx. split; [now apply H|]. exists x. split; [exact Hx|apply Z.eqb_refl].
Qed.
(* readable files and distinct chosen objects, all present: no error *)
Theorem C120_succeeds_partial : forall frames sps targetids fiberid, sps <> [] -> readable frames sps fiberid ->
  match targetids with None => True | Some l => NoDup l /\ forall t, In t l -> In t (map fst (observations frames sps fiberid)) end ->
  exists ts meta, read_spectra frames sps targetids fiberid = Ok (ts, meta).
Proof.
  intros frames sps targetids fiberid Hne Hr Ht. assert (Hl : 0 < length sps) by (destruct sps; [congruence|cbn; lia]). unfold read_spectra. cbv zeta.
  destruct (read_files_ok frames sps targetids fiberid (concat (map sp_infiles sps)) Hl) with (k := 0) (d := @nil (Z * list (nat * nat))) as (d & Ed).
  { intros inf Hi. now apply readable_files. }
  rewrite Ed. cbn [rbind]. apply (read_files_inv frames sps targetids fiberid _ Hl 0 [] []) in Ed; [|apply holds_nil]. cbn [app] in Ed. destruct Ed as [N G K]. change (concat (map _ (enum_from 0 (concat (map sp_infiles sps))))) with (observations frames sps fiberid) in *. set (obs := observations frames sps fiberid) in *.
  set (ids := isort Z.leb _). assert (Pi : Permutation (match targetids with None => map fst d | Some l => l end) ids) by apply isort_perm.
  assert (Hd : forall t, In t ids -> In t (map fst d)).
  { intros t Hi. apply (Permutation_in t (Permutation_sym Pi)) in Hi. destruct targetids as [l|]; [|exact Hi]. apply K. destruct Ht as [_ Ht]. unfold pick. specialize (Ht t Hi). apply in_map_iff in Ht as (o & <- & Ho). apply in_map, filter_In. split; [exact Ho|]. cbn. apply existsb_exists. exists (fst o). split; [exact Hi|apply Z.eqb_refl]. }
  destruct (build_ok d ids Hd) as (ts & -> & L). cbn [rbind]. rewrite L.
  assert (Ni : NoDup ids). { eapply Permutation_NoDup; [exact Pi|]. destruct targetids as [l|]; [apply Ht|exact N]. }
  rewrite (filter_members (map fst d) ids N Ni Hd), Nat.eqb_refl. cbn [negb]. eauto.
Qed.
Definition one_plate : spplate := {| sp_plate := 3586; sp_mjd := 55181; sp_infiles := [{| in_plate := 3586; in_fibers := [1; 2]; in_things := []; in_rows := 2 |}] |}.
(* an identifier that is not on the plate, or given twice, ends the run instead of giving the other targets *)
Theorem C120_missing_or_repeated_refuted : read_spectra false [one_plate] (Some [3586551810001; 3586551810003]%Z) None = Err KeyError /\ read_spectra false [one_plate] (Some [3586551810001; 3586551810001]%Z) None = Err AssertionError.
Proof. split; vm_compute; reflexivity. Qed.
Example C120_ex : readable false [one_plate] None /\ match read_spectra false [one_plate] None None with Ok (ts, _) => ts = [(3586551810001%Z, [(0, 0)]); (3586551810002%Z, [(0, 1)])] | Err _ => False end.
Proof.
  split; [|vm_compute; reflexivity]. intros s inf f [<-|[]] [<-|[]]. split; [now right|]. cbn. intros Hf. unfold row. split; [lia|lia].
Qed.

(* ---------- C121 ---------- *)
(* one plate: the number of a target gives back plate, date and fibre, and different fibres are different targets *)
Theorem C121_one_plate : forall frames s fiberid ts meta t sp, read_spectra frames [s] None fiberid = Ok (ts, meta) -> In (t, sp) ts ->
  (0 <= sp_mjd s < 100000)%Z -> (forall inf f, In inf (sp_infiles s) -> In f (in_fibers inf) -> (Z.of_nat f < 10000)%Z) ->
  exists f, targetid2platemjdfiber t = (sp_plate s, sp_mjd s, Z.of_nat f) /\
    forall k r, In (k, r) sp <-> exists inf, nth_error (sp_infiles s) k = Some inf /\ In f (selected fiberid inf) /\ r = row frames f.
Proof.
  intros frames s fiberid ts meta t sp H Hi Hm Hf. destruct (C120_every_spectrum frames [s] fiberid ts meta ltac:(discriminate) H) as (_ & _ & S2 & _). destruct (S2 t sp Hi) as [Es Hne].
  set (obs := observations frames [s] fiberid) in *.
  assert (O : forall a k r, In (a, (k, r)) obs <-> exists inf f, nth_error (sp_infiles s) k = Some inf /\ In f (selected fiberid inf) /\ a = platemjdfiber2targetid (sp_plate s) (sp_mjd s) (Z.of_nat f) /\ r = row frames f).
  { intros a k r. unfold obs, observations. cbn [map concat]. rewrite app_nil_r. rewrite in_concat. split.
    - intros (l & Hl & Hx). apply in_map_iff in Hl as ([k0 inf] & <- & Hk). apply enum_in in Hk. cbn [fst snd] in Hx. apply in_map_iff in Hx as (f & E & Hfi). injection E as <- <- <-. exists inf, f. auto.
    - intros (inf & f & Hn & Hs & -> & ->). eexists. split; [apply in_map; apply enum_in; exact Hn|]. cbn [fst snd]. apply in_map_iff. exists f. auto. }
  assert (I : forall k r, In (k, r) sp <-> In (t, (k, r)) obs).
  { intros k r. rewrite Es. unfold spectra_of. rewrite in_map_iff. split.
    - intros ([a [k0 r0]] & E & Hx). apply filter_In in Hx as [Hx E2]. cbn in *. apply Z.eqb_eq in E2. injection E as <- <-. now subst.
    - intro Hx. exists (t, (k, r)). split; [reflexivity|]. apply filter_In. split; [exact Hx|apply Z.eqb_refl]. }
  assert (B : forall inf f k, nth_error (sp_infiles s) k = Some inf -> In f (selected fiberid inf) -> (Z.of_nat f < 10000)%Z).
  { intros inf f k Hn Hs. apply (Hf inf f); [eapply nth_error_In; exact Hn|]. unfold selected in Hs. destruct fiberid; [apply filter_In in Hs; tauto|exact Hs]. }
  destruct sp as [|[k0 r0] sp']; [congruence|]. destruct (proj1 (O t k0 r0)) as (inf & f & Hn & Hs & Et & Er); [apply I; now left|].
  exists f. split; [rewrite Et; apply C64_pack_roundtrip_partial; [exact Hm|split; [lia|]; specialize (B inf f k0 Hn Hs); lia]|].
  intros k r. rewrite I, O. split.
  - intros (inf' & f' & Hn' & Hs' & Et' & Er'). exists inf'. rewrite Et in Et'. unfold platemjdfiber2targetid in Et'. assert (f' = f) by lia. subst. auto.
  - intros (inf' & Hn' & Hs' & Er'). exists inf', f. auto.
Qed.
(* several plates: spectra are joined exactly when they have the same THING_ID; objects without a match (THING_ID -1) become one target *)
Definition two_plates : list spplate :=
  [{| sp_plate := 3586; sp_mjd := 55181; sp_infiles := [{| in_plate := 3586; in_fibers := [1; 2; 3]; in_things := [-1; 77; -1]%Z; in_rows := 3 |}] |};
   {| sp_plate := 3587; sp_mjd := 55182; sp_infiles := [{| in_plate := 3587; in_fibers := [1; 2]; in_things := [77; -1]%Z; in_rows := 2 |}] |}].
Theorem C121_unmatched_joined_refuted : match read_spectra false two_plates None None with Ok (ts, _) => ts = [((-1)%Z, [(0, 0); (0, 2); (1, 1)]); (77%Z, [(0, 1); (1, 0)])] | Err _ => False end.
Proof. vm_compute. reflexivity. Qed.
Theorem C121_same_object_partial : forall frames sps fiberid ts meta t k r k' r', 1 < length sps -> read_spectra frames sps None fiberid = Ok (ts, meta) ->
  (exists sp, In (t, sp) ts /\ In (k, r) sp /\ In (k', r') sp) <->
  (In (t, (k, r)) (observations frames sps fiberid) /\ In (t, (k', r')) (observations frames sps fiberid)).
Proof.
  intros frames sps fiberid ts meta t k r k' r' Hl H. destruct (C120_every_spectrum frames sps fiberid ts meta ltac:(destruct sps; [cbn in Hl; lia|discriminate]) H) as (_ & K & S2 & _).
  set (obs := observations frames sps fiberid) in *.
  assert (I : forall k r, In (k, r) (spectra_of t obs) <-> In (t, (k, r)) obs).
  { intros a b. unfold spectra_of. rewrite in_map_iff. split.
    - intros ([x [k0 r0]] & E & Hx). apply filter_In in Hx as [Hx E2]. cbn in *. apply Z.eqb_eq in E2. injection E as <- <-. now subst.
    - intro Hx. exists (t, (a, b)). split; [reflexivity|]. apply filter_In. split; [exact Hx|apply Z.eqb_refl]. }
  split.
  - intros (sp & Hi & H1 & H2). destruct (S2 t sp Hi) as [-> _]. now rewrite <- !I.
  - intros [H1 H2]. assert (Ht : In t (map fst ts)) by (apply K; now apply (in_map fst) in H1). apply in_map_iff in Ht as ([a sp] & <- & Hi). exists sp. destruct (S2 a sp Hi) as [E _]. cbn [fst] in *. split; [exact Hi|]. rewrite E. now rewrite !I.
Qed.

(* ---------- C122 ---------- *)
Section Crop.
Variable la : list Q.
Hypothesis inc : forall i j, i < j -> j < length la -> (nth i la 0 < nth j la 0)%Q.
Hypothesis nonempty : la <> [].
Lemma nearest_spec l : nearest la l < length la /\ forall j, j < length la -> (Qabs (nth (nearest la l) la 0 - l) <= Qabs (nth j la 0 - l))%Q.
Proof.
  unfold nearest. set (f := fun x => Qabs (x - l)). destruct (argmin_spec (map f la)) as (A & B & _); [destruct la; [congruence|discriminate]|].
  rewrite map_length in *. split; [exact A|]. intros j Hj. specialize (B j Hj).
  rewrite (nth_indep (map f la) 0%Q (f 0%Q)), map_nth in B by now rewrite map_length. rewrite (nth_indep (map f la) 0%Q (f 0%Q)), map_nth in B by now rewrite map_length. exact B.
Qed.
Lemma inc_le i j : i <= j -> j < length la -> (nth i la 0 <= nth j la 0)%Q.
Proof. intros H Hj. destruct (Nat.eq_dec i j) as [->|]; [apply Qle_refl|]. apply Qlt_le_weak, inc; lia. Qed.
Lemma lo_ok k : k < length la -> (crop_low <= nth k la 0)%Q -> nearest la crop_low <= k.
Proof.
  intros Hk H. destruct (nearest_spec crop_low) as [A B]. destruct (Nat.le_gt_cases (nearest la crop_low) k); [assumption|]. exfalso. specialize (B k Hk). pose proof (inc k _ H0 A).
  rewrite !Qabs_pos in B by lra. lra.
Qed.
Lemma hi_ok k : k < length la -> (nth k la 0 <= crop_high)%Q -> k <= nearest la crop_high.
Proof.
  intros Hk H. destruct (nearest_spec crop_high) as [A B]. destruct (Nat.le_gt_cases k (nearest la crop_high)); [assumption|]. exfalso. specialize (B k Hk). pose proof (inc _ k H0 Hk).
  rewrite !Qabs_neg in B by lra. lra.
Qed.
Lemma cropped_length : length (cropped la) = nearest la crop_high - nearest la crop_low.
Proof. unfold cropped. cbv zeta. rewrite firstn_length, skipn_length. destruct (nearest_spec crop_high) as [A _]. lia. Qed.
Lemma cropped_nth i : i < length (cropped la) -> nth i (cropped la) 0%Q = nth (nearest la crop_low + i) la 0%Q.
Proof.
  intro H. rewrite cropped_length in H. unfold cropped. cbv zeta.
  assert (F : forall (l : list Q) m j, j < m -> nth j (firstn m l) 0%Q = nth j l 0%Q) by (clear; induction l as [|x l IH]; intros [|m] [|j] Hj; cbn; try reflexivity; try lia; apply IH; lia).
  rewrite F by exact H. assert (G : forall (l : list Q) m j, nth j (skipn m l) 0%Q = nth (m + j) l 0%Q) by (clear; induction l as [|x l IH]; intros [|m] j; cbn; try reflexivity; [now destruct j|apply IH]). apply G.
Qed.
(* every pixel between 3500 and 10000 is kept, except the one nearest to 10000 *)
Theorem C122_kept_partial : forall k, k < length la -> (3500 <= nth k la 0 <= 10000)%Q -> k <> nearest la 10000 -> In (nth k la 0%Q) (cropped la).
Proof.
  change 10000%Q with crop_high; try change 3500%Q with crop_low.
  intros k Hk [H1 H2] N. pose proof (lo_ok k Hk H1). pose proof (hi_ok k Hk H2). 
  assert (L : k - nearest la crop_low < length (cropped la)) by (rewrite cropped_length; lia).
  pose proof (cropped_nth _ L) as E. replace (nearest la crop_low + (k - nearest la crop_low)) with k in E by lia. rewrite <- E. now apply nth_In.
Qed.
(* outside, at most the pixel nearest to 3500 *)
Theorem C122_outside : forall x, In x (cropped la) -> (x < nth (nearest la 10000) la 0)%Q /\ ((x < 3500)%Q -> x = nth (nearest la 3500) la 0%Q).
Proof.
  change 10000%Q with crop_high; try change 3500%Q with crop_low.
  intros x Hx. apply (In_nth _ _ 0%Q) in Hx as (i & Hi & <-). rewrite cropped_nth by exact Hi. rewrite cropped_length in Hi. destruct (nearest_spec crop_high) as [A B]. split.
  - apply inc; lia.
  - intro H. destruct i as [|i]; [now rewrite Nat.add_0_r|]. exfalso. destruct (nearest_spec crop_low) as [A2 B2]. specialize (B2 (nearest la crop_low + S i) ltac:(lia)). pose proof (inc (nearest la crop_low) (nearest la crop_low + S i) ltac:(lia) ltac:(lia)).
    rewrite !Qabs_neg in B2 by lra. lra.
Qed.
(* a spectrum that ends below 10000 always loses its last pixel *)
Theorem C122_last_pixel_refuted : (nth (length la - 1) la 0 <= 10000)%Q -> ~ In (nth (length la - 1) la 0%Q) (cropped la).
Proof.
  change 10000%Q with crop_high; try change 3500%Q with crop_low.
  intros H Hi. assert (Hl : 0 < length la) by (destruct la; [congruence|cbn; lia]). pose proof (hi_ok (length la - 1) ltac:(lia) H). destruct (nearest_spec crop_high) as [A _].
  apply (In_nth _ _ 0%Q) in Hi as (i & Hi & E). rewrite cropped_nth in E by exact Hi. rewrite cropped_length in Hi. pose proof (inc (nearest la crop_low + i) (length la - 1) ltac:(lia) ltac:(lia)). rewrite E in *. lra.
Qed.
End Crop.
Example C122_ex : cropped [3000#1; 3499#1; 4000#1; 9000#1; 9500#1]%Q = [3499#1; 4000#1; 9000#1]%Q.
Proof. vm_compute. reflexivity. Qed.

(* ---------- C124 ---------- *)
(* the column has 8 characters: plate-mjd needs 10 *)
Theorem C124_brick_truncated_refuted : brickname 3586 55181 <> brickname 3586 55189 /\ brick_column 3586 55181 = brick_column 3586 55189 /\ brick_column 3586 55181 = "3586-551"%string.
Proof. split; [vm_compute; discriminate|]. split; vm_compute; reflexivity. Qed.
Theorem C124_short_partial : forall p m, String.length (brickname p m) <= 8 -> brick_column p m = brickname p m.
Proof.
  intros p m H. unfold brick_column. revert H. generalize (brickname p m) 8. clear. induction s as [|c s IH]; intros n H; [now destruct n|]. destruct n; cbn in *; [lia|]. rewrite IH by lia. reflexivity.
Qed.
Theorem C124_one_row_each : forall frames sps targetids fiberid ts meta, sps <> [] -> read_spectra frames sps targetids fiberid = Ok (ts, meta) -> map fst meta = map fst ts.
Proof. intros frames sps targetids fiberid ts meta Hne H. destruct (read_parts _ _ _ _ _ _ H Hne) as (d & _ & _ & _ & E & _). exact E. Qed.

(* files of one plate and one night: every row says that plate and night (first 8 characters) *)
Lemma all_or_zero_common l x : l <> [] -> (forall y, In y l -> y = x) -> all_or_zero l = x.
Proof.
  intros Hne H. destruct l as [|a l]; [congruence|]. cbn. rewrite (H a (or_introl eq_refl)). replace (forallb (Z.eqb x) l) with true; [reflexivity|]. symmetry. apply forallb_forall.
  intros y Hy. apply Z.eqb_eq. symmetry. apply H. now right.
Qed.
Lemma all_or_zero_mixed l x y : In x l -> In y l -> x <> y -> all_or_zero l = 0%Z.
Proof.
  intros Hx Hy D. destruct l as [|a l]; [reflexivity|]. cbn. destruct (forallb (Z.eqb a) l) eqn:E; [|reflexivity]. exfalso. rewrite forallb_forall in E.
  assert (A : forall w, In w (a :: l) -> w = a). { intros w [<-|Hw]; [reflexivity|]. symmetry. now apply Z.eqb_eq, E. }
  rewrite (A x Hx), (A y Hy) in D. now apply D.
Qed.
Lemma meta_value frames sps targetids fiberid ts meta t b : read_spectra frames sps targetids fiberid = Ok (ts, meta) -> In (t, b) meta ->
  b = brick_column (all_or_zero (map sp_plate sps)) (all_or_zero (map sp_mjd sps)).
Proof.
  unfold read_spectra. cbv zeta. intros H Hi.
  destruct (read_files _ _ _ _ _ _ _ _ _) as [d|]; [|discriminate]. cbn [rbind] in H. set (ids := isort Z.leb _) in *. destruct (mapM _ ids) as [ts'|]; [|discriminate]. cbn [rbind] in H.
  destruct (negb _); [discriminate|]. assert (Hm : meta = map (fun t => (t, brick_column (all_or_zero (map sp_plate sps)) (all_or_zero (map sp_mjd sps)))) ids) by congruence.
  rewrite Hm in Hi. apply in_map_iff in Hi as (u & E & _). congruence.
Qed.
Theorem C124_common_partial : forall frames sps targetids fiberid ts meta p m t b, sps <> [] -> (forall s, In s sps -> sp_plate s = p /\ sp_mjd s = m) ->
  read_spectra frames sps targetids fiberid = Ok (ts, meta) -> In (t, b) meta -> b = substring 0 8 (zdec p ++ "-" ++ zdec m)%string.
Proof.
  intros frames sps targetids fiberid ts meta p m t b Hne Hc H Hi. rewrite (meta_value _ _ _ _ _ _ _ _ H Hi).
  rewrite (all_or_zero_common (map sp_plate sps) p), (all_or_zero_common (map sp_mjd sps) m); [reflexivity| | | |]; try (destruct sps; [congruence|discriminate]); intros y Hy; apply in_map_iff in Hy as (s & <- & Hs); now apply Hc.
Qed.
(* files of different plates: every row says plate 0 *)
Theorem C124_mixed_refuted : forall frames sps targetids fiberid ts meta s s' t b, In s sps -> In s' sps -> sp_plate s <> sp_plate s' ->
  read_spectra frames sps targetids fiberid = Ok (ts, meta) -> In (t, b) meta -> prefix "0-" b = true.
Proof.
  intros frames sps targetids fiberid ts meta s s' t b Hs Hs' D H Hi. rewrite (meta_value _ _ _ _ _ _ _ _ H Hi).
  rewrite (all_or_zero_mixed _ (sp_plate s) (sp_plate s')); [|now apply in_map|now apply in_map|exact D].
  unfold brick_column, brickname. change (zdec 0) with "0"%string. cbn [append substring prefix]. destruct (substring 0 6 _); reflexivity.
Qed.

Example C124_ex : match read_spectra false [one_plate] None None with Ok (_, m) => m = [(3586551810001%Z, "3586-551"%string); (3586551810002%Z, "3586-551"%string)] | Err _ => False end
  /\ match read_spectra false two_plates None None with Ok (_, m) => map snd m = ["0-0"; "0-0"]%string | Err _ => False end.
Proof. split; vm_compute; reflexivity. Qed.

(* ---------- C125 ---------- *)
Theorem C125_window : forall A (l : list A) m n k, k < n -> m + k < length l -> nth_error (rrboss_select (Some m) (Some n) l) k = nth_error l (m + k).
Proof.
  intros A l m n k Hk Hl. unfold rrboss_select, pyslice. replace (m + n - m) with n by lia.
  assert (F : forall (x : list A) a j, j < a -> nth_error (firstn a x) j = nth_error x j) by (clear; induction x as [|y x IH]; intros [|a] [|j] Hj; cbn; try reflexivity; try lia; apply IH; lia).
  rewrite F by exact Hk. clear. revert m k. induction l as [|y l IH]; intros [|m] k; cbn; try reflexivity; [now destruct k|apply IH].
Qed.
Theorem C125_window_length : forall A (l : list A) m n, length (rrboss_select m (Some n) l) = Nat.min n (length l - match m with Some k => k | None => 0 end).
Proof. intros A l m n. unfold rrboss_select, pyslice. rewrite firstn_length, skipn_length. lia. Qed.
(* --mintarget alone does nothing *)
Theorem C125_mintarget_alone_refuted : forall A (l : list A) m, rrboss_select (Some m) None l = l.
Proof. reflexivity. Qed.
(* without MPI no wrong combination of options is refused; with MPI all are *)
Theorem C125_checks : forall debug output zbest targetids mintarget ntargets size,
  rrboss_checks true debug output zbest targetids mintarget ntargets size = Continues <->
  ~ ((debug = true /\ size <> 1) \/ (output = false /\ zbest = false) \/ (targetids = true /\ (mintarget = true \/ ntargets = true))).
Proof.
  intros debug output zbest targetids mintarget ntargets size. unfold rrboss_checks. destruct (Nat.eqb_spec size 1); destruct debug, output, zbest, targetids, mintarget, ntargets; cbn; split; intro H; try reflexivity; try discriminate; try (intuition congruence); exfalso; apply H; intuition congruence.
Qed.
Theorem C125_checks_without_mpi_refuted : forall debug output zbest targetids mintarget ntargets size, rrboss_checks false debug output zbest targetids mintarget ntargets size = Continues.
Proof. intros. unfold rrboss_checks. now rewrite andb_false_r. Qed.
Theorem C125_rrdesi_checks : forall mpi debug details outfile targetids mintarget ntargets, rrdesi_checks mpi debug details outfile targetids mintarget ntargets 1 = Continues <->
  (details = true \/ outfile = true) /\ ~ (targetids = true /\ (mintarget = true \/ ntargets = true)).
Proof. intros mpi debug details outfile targetids mintarget ntargets. unfold rrdesi_checks. destruct mpi, debug, details, outfile, targetids, mintarget, ntargets; cbn; intuition congruence. Qed.

Print Assumptions C120_every_spectrum.
Print Assumptions C120_chosen.
Print Assumptions C120_succeeds_partial.
Print Assumptions C121_one_plate.
Print Assumptions C121_same_object_partial.
Print Assumptions C122_kept_partial.
Print Assumptions C122_last_pixel_refuted.
Print Assumptions C125_checks.
