(* C113-C119: wrap-redrock. *)
From Verif Require Import Prelude PreludeFacts Facts2 Model_Dist Proof_Dist2 Model_Zscan Model_IO Spec_IO Proof_IO Proof_IO2 Model_Arch Spec_Arch Proof_Arch Model_Fitz Proof_Zfind Proof_Fitz Model_Wrap Spec_Wrap Proof_Wrap Proof_Wrap2 Proof_Wrap3 Proof_Wrap4.
Open Scope nat_scope.

(* a sort that satisfies the hypothesis on numpy.argsort *)
Definition argsort0 (l : list Q) : list nat := map fst (isort (fun a b : nat * Q => Qle_bool (snd a) (snd b)) (enum l)).
Lemma argsort0_q : qargsort_ok argsort0.
Proof.
  intros l. unfold argsort0. split.
  - eapply Permutation_trans; [apply Permutation_map; symmetry; apply isort_perm|].
    unfold enum. rewrite enum_from_fst. reflexivity.
  - apply StronglySorted_map_inv.
    eapply StronglySorted_in_impl; [|apply isort_sorted].
    + cbn. intros [i a] [j b] Ha Hb H. cbn in *.
      assert (G : forall i a, In (i, a) (isort (fun a b : nat * Q => Qle_bool (snd a) (snd b)) (enum l)) -> nth i l 0%Q = a).
      { intros i' a' Hi. eapply Permutation_in in Hi; [|symmetry; apply isort_perm]. 
        apply enum_in in Hi. apply nth_error_nth, Hi. }
      rewrite (G _ _ Ha), (G _ _ Hb). now apply Qle_bool_iff.
    + intros [i a] [j b]. cbn. rewrite !Qle_bool_iff. destruct (Qlt_le_dec a b); [left; lra|now right].
    + intros [i a] [j b] [k c]. cbn. rewrite !Qle_bool_iff. lra.
Qed.

(* ---------- C113 ---------- *)
Theorem C113_partition : forall argsort ws n, qargsort_ok argsort -> 0 < n -> (forall x, In x ws -> (0 <= x)%Q) ->
  exists groups sums, weighted_partition argsort ws n = Ok (groups, sums) /\ length groups = n /\ length sums = n /\
    Permutation (concat groups) (seq 0 (length ws)) /\
    (forall k, k < n -> (nth k sums 0 == group_weight ws (nth k groups []))%Q) /\
    (forall k, StronglySorted (fun i j => (nth j ws 0 <= nth i ws 0)%Q) (nth k groups [])).
Proof.
  intros argsort ws n Ha Hn Hw. destruct (weighted_partition_ok argsort ws n Ha Hn Hw) as (g & s & E & L & I). exists g, s. destruct (Ha (map Qopp ws)) as [P _]. rewrite map_length in P.
  split; [exact E|]. split; [exact L|]. split; [rewrite (iv_len _ _ _ _ I); exact L|]. split; [rewrite (iv_perm _ _ _ _ I); exact P|]. split; [|apply (iv_desc _ _ _ _ I)].
  intros k Hk. apply (iv_sum _ _ _ _ I). now rewrite L.
Qed.
(* without its last member (the smallest) a group is no longer than any other *)
Theorem C113_balance : forall argsort ws n groups sums k l g i, qargsort_ok argsort -> (forall x, In x ws -> (0 <= x)%Q) ->
  weighted_partition argsort ws n = Ok (groups, sums) -> k < n -> l < n -> nth k groups [] = g ++ [i] ->
  (group_weight ws (nth k groups []) - nth i ws 0 <= group_weight ws (nth l groups []))%Q.
Proof.
  intros argsort ws n groups sums k l g i Ha Hw E Hk Hl Eg. destruct (weighted_partition_ok argsort ws n Ha ltac:(lia) Hw) as (g' & s' & E' & L & I).
  rewrite E in E'. injection E' as <- <-. pose proof (iv_bal _ _ _ _ I k l g i ltac:(lia) ltac:(lia) Eg) as B. cbv beta in B. rewrite <- !(iv_sum _ _ _ _ I) by lia. exact B.
Qed.
(* no group exceeds the mean by more than the largest weight *)
Theorem C113_mean : forall argsort ws n groups sums k wmax, qargsort_ok argsort -> (forall x, In x ws -> (0 <= x <= wmax)%Q) -> (0 <= wmax)%Q ->
  weighted_partition argsort ws n = Ok (groups, sums) -> k < n ->
  (group_weight ws (nth k groups []) <= sumQ ws / inject_Z (Z.of_nat n) + wmax)%Q.
Proof.
  intros argsort ws n groups sums k wmax Ha Hw H0 E Hk. destruct (weighted_partition_ok argsort ws n Ha ltac:(lia)) as (g' & s' & E' & L & I); [intros x Hx; now apply Hw in Hx|].
  rewrite E in E'. injection E' as <- <-. pose proof (group_bound argsort Ha ws groups sums k wmax I ltac:(lia) Hw H0) as B. rewrite L in B. rewrite (iv_sum _ _ _ _ I) in B by lia.
  assert (Np : (0 < inject_Z (Z.of_nat n))%Q) by (change 0%Q with (inject_Z 0); rewrite <- Zlt_Qlt; lia).
  assert (D : (group_weight ws (nth k groups []) - wmax <= sumQ ws / inject_Z (Z.of_nat n))%Q) by (apply Qle_shift_div_l; [exact Np|rewrite Qmult_comm; exact B]). lra.
Qed.
Theorem C113_no_group : forall argsort ws, qargsort_ok argsort -> ws <> [] -> weighted_partition argsort ws 0 = Err ValueError.
Proof.
  intros argsort ws Ha Hne. unfold weighted_partition. destruct (Ha (map Qopp ws)) as [P _]. rewrite map_length in P. apply Permutation_length in P. rewrite seq_length in P.
  destruct ws as [|w ws]; [congruence|]. destruct (argsort _) as [|i r]; [discriminate|]. reflexivity.
Qed.
Example C113_ex : match weighted_partition argsort0 [3#1; 5#1; 2#1; 4#1]%Q 2 with Ok (g, s) => g = [[1; 2]; [3; 0]] /\ Forall2 Qeq s [7#1; 7#1]%Q | Err _ => False end.
Proof. vm_compute. split; [reflexivity|]. repeat constructor. Qed.

(* ---------- C114 ---------- *)
Section C114.
Variable argsort : list Q -> list nat.
Hypothesis Ha : qargsort_ok argsort.
Variables (count : string -> nat) (toint : string -> option Z).
Notation size comm := (match comm with Some k => k | None => 1 end).
(* conditions under which the run goes on to the spectra *)
Definition runnable (d : datatype) (specs : list string) (maxnodes : nat) (comm : option nat) : Prop :=
  specs <> [] /\ 0 < size comm /\ (match d, comm with DESI, Some _ => True | _, _ => size comm <= maxnodes end) /\
  forall f, In f specs -> toint (basename (dirname f)) <> None.
Lemma pixels_ok specs : (forall f, In f specs -> toint (basename (dirname f)) <> None) -> exists l, pixels toint specs = Ok l.
Proof.
  unfold pixels. induction specs as [|f r IH]; intro H; cbn [mapM]; [now exists []|]. pose proof (H f (or_introl eq_refl)) as Hf. destruct (toint _); [|congruence]. cbn [rbind].
  destruct IH as (l & ->); [intros x Hx; apply H; now right|]. cbn. eauto.
Qed.
Lemma pixels_err specs f : In f specs -> toint (basename (dirname f)) = None -> pixels toint specs = Err ValueError.
Proof.
  unfold pixels. induction specs as [|g r IH]; intros [].
  - subst. intro H. cbn [mapM]. now rewrite H.
  - intro Hf. cbn [mapM]. destruct (toint (basename (dirname g))); [|reflexivity]. cbn [rbind]. rewrite IH by assumption. reflexivity.
Qed.
Lemma group_n_pos specs maxnodes : specs <> [] -> 1 <= maxnodes -> 0 < Nat.min maxnodes (Z.to_nat (qceil (sumQ (map runtime (map count specs)) / 1500)%Q)).
Proof.
  intros Hne Hm. pose proof (sumQ_lower (30#1) (map runtime (map count specs))) as B.
  assert (H : (inject_Z (Z.of_nat (length (map runtime (map count specs)))) * (30#1) <= sumQ (map runtime (map count specs)))%Q).
  { apply B. intros x Hx. apply in_map_iff in Hx as (n & <- & _). apply runtime_pos. }
  rewrite !map_length in H. assert (L : (1 <= inject_Z (Z.of_nat (length specs)))%Q) by (change 1%Q with (inject_Z 1); rewrite <- Zle_Qle; destruct specs; [congruence|cbn; lia]).
  set (t := sumQ _) in *. destruct (qceil_spec (t / 1500)%Q) as [Hc _]. assert (Ht : (0 < t / 1500)%Q) by (apply Qlt_shift_div_l; [reflexivity|lra]).
  assert (Hz : (0 < qceil (t / 1500))%Z) by (rewrite Zlt_Qlt; change (inject_Z 0) with 0%Q; eapply Qlt_le_trans; eauto). lia.
Qed.
Lemma group_ok specs maxnodes comm : specs <> [] -> 0 < size comm -> match comm with Some _ => True | None => 1 <= maxnodes end ->
  exists g s n, group_specfiles argsort count specs maxnodes comm = Ok (g, s) /\ length g = n /\ n = (match comm with Some k => k | None => Nat.min maxnodes (Z.to_nat (qceil (sumQ (map runtime (map count specs)) / 1500)%Q)) end) /\
    Permutation (concat g) (seq 0 (length specs)) /\ 0 < n.
Proof.
  intros Hne Hk Hm. unfold group_specfiles. rewrite all_counts_ok by exact Hk. cbn [rbind]. set (n := match comm with Some k => k | None => _ end).
  assert (Hn : 0 < n). { unfold n. destruct comm; [exact Hk|]. now apply group_n_pos. }
  destruct (C113_partition argsort (map runtime (map count specs)) n Ha Hn) as (g & s & E & L & _ & P & _).
  { intros x Hx. apply in_map_iff in Hx as (m & <- & _). pose proof (runtime_pos m). lra. }
  exists g, s, n. cbv zeta. rewrite E. rewrite !map_length in P. auto.
Qed.
(* whenever the run goes on, each file is in the group of exactly one rank *)
Theorem C114_each_file_once : forall d specs maxnodes comm groups, run_groups argsort count toint d specs maxnodes comm = Ok groups ->
  length groups = size comm /\ Permutation (concat groups) (seq 0 (length specs)).
Proof.
  intros d specs maxnodes comm groups. unfold run_groups. set (sz := size comm).
  assert (Main : forall g0 : res (list (list nat)), (forall g, g0 = Ok g -> Permutation (concat g) (seq 0 (length specs))) ->
     (do groups <- g0; if negb (length groups =? sz) then Err AssertionError else if negb (length (concat groups) =? length specs) then Err AssertionError else do _ <- pixels toint specs; Ok groups) = Ok groups ->
     length groups = sz /\ Permutation (concat groups) (seq 0 (length specs))).
  { intros g0 Hg. destruct g0 as [g|]; [|discriminate]. cbn [rbind]. destruct (Nat.eqb_spec (length g) sz) as [L|]; [|discriminate]. cbn [negb].
    destruct (length (concat g) =? length specs); [|discriminate]. cbn [negb]. destruct (pixels toint specs); [|discriminate]. cbn. intro H. injection H as <-. split; [exact L|now apply Hg]. }
  apply Main. intros g. destruct specs as [|f0 r] eqn:Es; [intro H; injection H as <-; constructor|]. rewrite <- Es. assert (Hne : specs <> []) by (rewrite Es; discriminate).
  destruct d.
  - intro H. destruct (Nat.eq_dec sz 0) as [Z|NZ].
    + (* no rank: np.array_split fails *) exfalso. unfold group_specfiles, all_counts in H. fold sz in H. rewrite Z in H. cbn in H. discriminate.
    + destruct comm as [k|].
      * destruct (group_ok specs (Nat.min maxnodes sz) (Some k) Hne) as (g1 & s & n & E & L & _ & P & _); [cbn in *; lia|exact I|]. rewrite E in H. cbn in H. injection H as <-. exact P.
      * destruct maxnodes as [|m].
        -- exfalso. cbn [Nat.min] in H. unfold group_specfiles in H. rewrite all_counts_ok in H by lia. cbn [rbind] in H. cbv zeta in H.
           change (Nat.min 0 (Z.to_nat (qceil (sumQ (map runtime (map count specs)) / 1500)%Q))) with 0 in H. rewrite C113_no_group in H; [discriminate|exact Ha|].
           rewrite Es. discriminate.
        -- destruct (group_ok specs (Nat.min (S m) sz) None Hne) as (g1 & s & n & E & L & _ & P & _); [lia|cbn; lia|]. rewrite E in H. cbn in H. injection H as <-. exact P.
  - intro H. destruct (Nat.eq_dec (Nat.min maxnodes sz) 0) as [Z|NZ]; [rewrite Z in H; discriminate|].
    destruct (array_split_spec (seq 0 (length specs)) (Nat.min maxnodes sz)) as (g1 & E & _ & P & _); [lia|]. rewrite E in H. injection H as <-. now rewrite P.
Qed.
Theorem C114_goes_on_partial : forall d specs maxnodes comm, runnable d specs maxnodes comm -> exists groups, run_groups argsort count toint d specs maxnodes comm = Ok groups.
Proof.
  intros d specs maxnodes comm (Hne & Hsz & Hd & Hp). destruct (pixels_ok specs Hp) as (px & Epx). unfold run_groups. set (sz := size comm) in *.
  assert (Main : forall (g0 : res (list (list nat))) g, g0 = Ok g -> length g = sz -> Permutation (concat g) (seq 0 (length specs)) ->
     exists groups, (do groups <- g0; if negb (length groups =? sz) then Err AssertionError else if negb (length (concat groups) =? length specs) then Err AssertionError else do _ <- pixels toint specs; Ok groups) = Ok groups).
  { intros g0 g -> L P. cbn [rbind]. rewrite L, Nat.eqb_refl. cbn [negb]. rewrite (Permutation_length P), seq_length, Nat.eqb_refl. cbn [negb]. rewrite Epx. cbn. eauto. }
  destruct specs as [|f0 r] eqn:Es; [congruence|]. rewrite <- Es in *. destruct d.
  - destruct comm as [k|].
    + destruct (group_ok specs (Nat.min maxnodes sz) (Some k) Hne) as (g1 & s & n & E & L & En & P & _); [exact Hsz|exact I|]. eapply Main; [rewrite E; reflexivity| |exact P]. cbn [fst]. rewrite L, En. reflexivity.
    + destruct (group_ok specs (Nat.min maxnodes sz) None Hne) as (g1 & s & n & E & L & En & P & Hn); [lia|cbn in *; lia|]. eapply Main; [rewrite E; reflexivity| |exact P]. cbn [fst]. rewrite L. subst sz. cbn in *. lia.
  - assert (Hd' : sz <= maxnodes) by (destruct comm; exact Hd). destruct (array_split_spec (seq 0 (length specs)) (Nat.min maxnodes sz)) as (g1 & E & L & P & _); [lia|]. eapply Main; [exact E| |now rewrite P]. rewrite L. lia.
Qed.
(* everything already processed: the run does not end normally but fails *)
Theorem C114_nothing_left_refuted : forall d maxnodes comm, 0 < size comm -> run_groups argsort count toint d [] maxnodes comm = Err AssertionError.
Proof. intros d maxnodes comm H. unfold run_groups. cbn [rbind length]. destruct (size comm); [lia|reflexivity]. Qed.
(* BOSS with more ranks than --maxnodes *)
Theorem C114_boss_ranks_refuted : forall specs maxnodes k, specs <> [] -> 0 < maxnodes < k -> run_groups argsort count toint BOSS specs maxnodes (Some k) = Err AssertionError.
Proof.
  intros specs maxnodes k Hne Hk. unfold run_groups. destruct specs as [|f0 r] eqn:Es; [congruence|]. rewrite <- Es. rewrite Nat.min_l by lia.
  destruct (array_split_spec (seq 0 (length specs)) maxnodes) as (g & E & L & _); [lia|]. rewrite E. cbn [rbind]. rewrite L. destruct (Nat.eqb_spec maxnodes k); [lia|]. reflexivity.
Qed.
(* a file whose directory is not a number stops every rank before any file is done *)
Theorem C114_directory_name_refuted : forall d specs maxnodes comm f groups, In f specs -> toint (basename (dirname f)) = None -> run_groups argsort count toint d specs maxnodes comm <> Ok groups.
Proof.
  intros d specs maxnodes comm f groups Hi Hf. unfold run_groups. rewrite (pixels_err specs f Hi Hf). destruct (match specs with [] => _ | _ => _ end) as [g|]; [|discriminate]. cbn [rbind].
  destruct (negb _); [discriminate|]. destruct (negb _); discriminate.
Qed.
(* with MPI every rank counts the targets of its slice: the counts come back in the order of the files *)
Theorem C114_counts : forall specs k, 0 < k -> all_counts count specs k = Ok (map count specs).
Proof. exact (all_counts_ok count). Qed.
(* without MPI, at most maxnodes groups; one or more *)
Theorem C114_plan_nodes : forall specs maxnodes, specs <> [] -> 0 < maxnodes -> exists g s, group_specfiles argsort count specs maxnodes None = Ok (g, s) /\ 1 <= length g <= maxnodes /\
  Permutation (concat g) (seq 0 (length specs)) /\
  (length g = maxnodes \/ (sumQ (map (fun f => runtime (count f)) specs) <= inject_Z (Z.of_nat (length g)) * 1500)%Q).
Proof.
  intros specs maxnodes Hne Hm. destruct (group_ok specs maxnodes None Hne) as (g & s & n & E & L & En & P & Hn); [lia|exact Hm|]. exists g, s. split; [exact E|]. split; [subst n; lia|]. split; [exact P|].
  rewrite map_map in En. set (t := sumQ (map (fun x => runtime (count x)) specs)) in *. destruct (qceil_spec (t / 1500)%Q) as [Hc _].
  destruct (Nat.le_gt_cases maxnodes (Z.to_nat (qceil (t / 1500)%Q))) as [H|H]; [left; lia|right]. rewrite L, En. rewrite Nat.min_r by lia.
  rewrite Z2Nat.id. 2:{ assert (0 < Z.to_nat (qceil (t / 1500)))%nat by lia. lia. }
  setoid_replace t with (t / 1500 * 1500)%Q at 1 by field. apply Qmult_le_compat_r; [exact Hc|discriminate].
Qed.
End C114.
Example C114_ex : runnable (fun s => if String.eqb s "12" then Some 12%Z else None) DESI ["/r/12/spectra-1.fits"; "/r/12/spectra-2.fits"]%string 256 (Some 3).
Proof. split; [discriminate|]. split; [lia|]. split; [exact I|]. intros f [<-|[<-|[]]]; vm_compute; discriminate. Qed.
Example C114_run : run_groups argsort0 (fun _ => 5) (fun s => if String.eqb s "12" then Some 12%Z else None) DESI ["/r/12/spectra-1.fits"; "/r/12/spectra-2.fits"]%string 256 (Some 3) = Ok [[0]; [1]; []].
Proof. vm_compute. reflexivity. Qed.

(* ---------- C115 ---------- *)
(* a spectra file d/<prefix><m>.fits whose name has the prefix only at the start and .fits only at the end *)
Definition regular (p d m : string) : Prop := plain_dir d /\ p <> EmptyString /\ ~ has_char "/" (p ++ m ++ ".fits") /\
  only_at_start p (p ++ m ++ ".fits")%string /\ only_at_end ".fits" (p ++ m ++ ".fits")%string.
Lemma regular_nos p d m q e : regular p d m -> ~ has_char "/" q -> ~ has_char "/" e -> ~ has_char "/" (q ++ m ++ e).
Proof. intros (_ & _ & H & _) Hq He. rewrite !hc_app in *. tauto. Qed.
Theorem C115_names_partial : forall p d m outdir, regular p d m ->
  rrfile p outdir (d ++ "/" ++ p ++ m ++ ".fits")%string = path_join (match outdir with None => d | Some o => o end) ("redrock" ++ m ++ ".fits") /\
  detailsfile p outdir (d ++ "/" ++ p ++ m ++ ".fits")%string = path_join (match outdir with None => d | Some o => o end) ("rrdetails" ++ m ++ ".h5").
Proof.
  intros p d m outdir R. pose proof R as (Hd & Hp & Hs & H1 & H2). unfold rrfile, detailsfile. rewrite !outfile_in by assumption. split; f_equal.
  - now rewrite out_name_plain.
  - now apply out_name_h5.
Qed.
(* beside the spectra file, and different files have different outputs *)
Theorem C115_injective_partial : forall p d1 m1 d2 m2, regular p d1 m1 -> regular p d2 m2 ->
  rrfile p None (d1 ++ "/" ++ p ++ m1 ++ ".fits")%string = (d1 ++ "/" ++ "redrock" ++ m1 ++ ".fits")%string /\
  (rrfile p None (d1 ++ "/" ++ p ++ m1 ++ ".fits")%string = rrfile p None (d2 ++ "/" ++ p ++ m2 ++ ".fits")%string \/
   detailsfile p None (d1 ++ "/" ++ p ++ m1 ++ ".fits")%string = detailsfile p None (d2 ++ "/" ++ p ++ m2 ++ ".fits")%string -> d1 = d2 /\ m1 = m2).
Proof.
  intros p d1 m1 d2 m2 R1 R2. destruct (C115_names_partial p d1 m1 None R1) as [A1 B1]. destruct (C115_names_partial p d2 m2 None R2) as [A2 B2].
  assert (Nr : ~ has_char "/" "redrock" /\ ~ has_char "/" "rrdetails" /\ ~ has_char "/" ".fits" /\ ~ has_char "/" ".h5") by (cbn; intuition discriminate). destruct Nr as (N1 & N2 & N3 & N4).
  assert (D1 : plain_dir d1) by apply R1. assert (D2 : plain_dir d2) by apply R2.
  rewrite path_join_in in A1, B1, A2, B2 by (assumption || (eapply regular_nos; eassumption)).
  split; [exact A1|]. rewrite A1, B1, A2, B2. intros [E|E].
  - apply name_inj in E as [-> E]; [|eapply regular_nos; eassumption|eapply regular_nos; eassumption]. split; [reflexivity|]. apply app_inv_head_s in E. now apply app_inv_tail_s in E.
  - apply name_inj in E as [-> E]; [|eapply regular_nos; eassumption|eapply regular_nos; eassumption]. split; [reflexivity|]. apply app_inv_head_s in E. now apply app_inv_tail_s in E.
Qed.
(* the redshift file and the details file never coincide *)
Theorem C115_two_outputs : forall p d m outdir, regular p d m -> rrfile p outdir (d ++ "/" ++ p ++ m ++ ".fits")%string <> detailsfile p outdir (d ++ "/" ++ p ++ m ++ ".fits")%string.
Proof.
  intros p d m outdir R E. destruct (C115_names_partial p d m outdir R) as [A B]. rewrite A, B in E. revert E. generalize (match outdir with None => d | Some o => o end). intros o E.
  assert (N : forall x y : string, ("redrock" ++ x)%string <> ("rrdetails" ++ y)%string) by (intros x y Exy; discriminate).
  unfold path_join in E. cbn [append] in E. destruct o; [discriminate|]. destruct (ends_slash _); [apply app_inv_head_s in E; discriminate|]. apply app_inv_head_s in E. discriminate.
Qed.
(* no output is taken for a spectra file by the next run *)
Theorem C115_outputs_not_inputs : forall p m, String.prefix p "redrock" = false -> String.prefix "redrock" p = false -> String.prefix p ("redrock" ++ m ++ ".fits") && ends_with ".fits" ("redrock" ++ m ++ ".fits") = false.
Proof.
  intros p m H1 H2. destruct (String.prefix p ("redrock" ++ m ++ ".fits")) eqn:E; [|reflexivity]. exfalso. apply prefix_inv in E as (r & E).
  assert (G : forall q s x y : string, (q ++ x)%string = (s ++ y)%string -> String.prefix q s = true \/ String.prefix s q = true).
  { clear. induction q as [|c q IH]; intros s x y E; [left; now destruct s|]. destruct s as [|e s]; [right; reflexivity|]. cbn in E. injection E as -> E. cbn. destruct (ascii_dec e e); [|congruence].
    now apply (IH s x y). }
  destruct (G _ _ _ _ E) as [G1|G1]; congruence.
Qed.
Theorem C115_details_not_inputs : forall m, ends_with ".fits" ("rrdetails" ++ m ++ ".h5") = false.
Proof.
  intro m. destruct (ends_with ".fits" ("rrdetails" ++ m ++ ".h5")) eqn:E; [|reflexivity]. exfalso. apply ends_with_iff in E as (r & E).
  change ".h5"%string with (".h" ++ "5")%string in E. change ".fits"%string with (".fit" ++ "s")%string in E. rewrite !app_assoc_s in E.
  assert (G : forall a b c d, (a ++ String c "")%string = (b ++ String d "")%string -> c = d).
  { clear. induction a as [|x a IH]; intros b c d E; destruct b as [|y b]; cbn in E; injection E; intros; subst; auto; try (destruct a; discriminate); try (destruct b; discriminate). eapply IH; eassumption. }
  apply G in E. discriminate.
Qed.
(* with --outdir, files of the same name in different directories have the same outputs *)
Theorem C115_outdir_collision_refuted : forall p o d1 d2 m, regular p d1 m -> regular p d2 m ->
  rrfile p (Some o) (d1 ++ "/" ++ p ++ m ++ ".fits")%string = rrfile p (Some o) (d2 ++ "/" ++ p ++ m ++ ".fits")%string /\
  detailsfile p (Some o) (d1 ++ "/" ++ p ++ m ++ ".fits")%string = detailsfile p (Some o) (d2 ++ "/" ++ p ++ m ++ ".fits")%string.
Proof. intros p o d1 d2 m R1 R2. destruct (C115_names_partial p d1 m (Some o) R1) as [-> ->]. destruct (C115_names_partial p d2 m (Some o) R2) as [-> ->]. auto. Qed.
(* a name that repeats the prefix: two spectra files, one output *)
Theorem C115_prefix_twice_refuted : rrfile "spectra" None "/r/12/spectra-spectra.fits" = rrfile "spectra" None "/r/12/spectra-redrock.fits".
Proof. vm_compute. reflexivity. Qed.
(* the log file is named by a replacement in the whole path *)
Theorem C115_log_directory_refuted : log_name (rrfile "spectra" None "/r.fits/12/spectra-1.fits") = "/r.log/12/redrock-1.log"%string.
Proof. vm_compute. reflexivity. Qed.
Theorem C115_log_partial : forall p d m, regular p d m -> only_at_end ".fits" (d ++ "/redrock" ++ m ++ ".fits")%string ->
  log_name (rrfile p None (d ++ "/" ++ p ++ m ++ ".fits")%string) = (d ++ "/" ++ "redrock" ++ m ++ ".log")%string.
Proof.
  intros p d m R He. destruct (C115_injective_partial p d m d m R R) as [-> _]. unfold log_name.
  assert (N : (".fits"%string <> ""%string)) by discriminate.
  pose proof (replace_one ".fits" ".log" (d ++ "/redrock" ++ m) "" N) as Q. rewrite !app_nil_r_s, <- !app_assoc_s in Q. change ("/" ++ "redrock" ++ m ++ ".fits")%string with ("/redrock" ++ m ++ ".fits")%string. change ("/" ++ "redrock" ++ m ++ ".log")%string with ("/redrock" ++ m ++ ".log")%string. apply Q.
  intros u v E. pose proof (He u v E) as ->. split; [|reflexivity]. rewrite app_nil_r_s in E. rewrite !app_assoc_s in E. apply app_inv_tail_s in E. rewrite <- !app_assoc_s in E. now symmetry.
Qed.
Lemma has_dec c s : {has_char c s} + {~ has_char c s}.
Proof. induction s as [|d s IH]; cbn [has_char]; [now right|]. destruct (ascii_dec d c) as [->|N]; [left; now left|]. destruct IH; [left; tauto|right; intros [H|H]; congruence || tauto]. Qed.
Lemma only_start_b a s : a <> EmptyString -> contains a (substring 1 (String.length s) s) = false -> only_at_start a s.
Proof.
  intros Hne H u v E. destruct u as [|c u]; [reflexivity|]. exfalso. rewrite E in H. cbn [append substring String.length] in H.
  assert (Q : forall x m, (String.length x <= m)%nat -> substring 0 m x = x) by (clear; induction x as [|c x IH]; intros [|m] L; cbn in *; try reflexivity; try lia; now rewrite IH by lia).
  rewrite Q in H by lia. assert (T : contains a (u ++ a ++ v) = true) by (apply contains_occurs; now exists u, v). congruence.
Qed.
Lemma contains_cut a s : forall u v, (s = u ++ a ++ v)%string -> v <> EmptyString -> contains a (substring 0 (String.length s - 1) s) = true.
Proof.
  intros u v E Hv. apply contains_occurs. destruct (snoc_cases v) as [->|(w & c & ->)]; [congruence|]. exists u, w. subst s.
  replace (u ++ a ++ w ++ String c "")%string with ((u ++ a ++ w) ++ String c "")%string by now rewrite <- !app_assoc_s.
  replace (String.length ((u ++ a ++ w) ++ String c "") - 1)%nat with (String.length (u ++ a ++ w)) by (rewrite (app_length_s (u ++ a ++ w)); cbn; lia). apply substring_pre.
Qed.
Lemma only_end_b a s : contains a (substring 0 (String.length s - 1) s) = false -> only_at_end a s.
Proof. intros H u v E. destruct v as [|c v]; [reflexivity|]. exfalso. rewrite (contains_cut a s u (String c v) E) in H; discriminate. Qed.
Example C115_ex : regular "spectra" "/r/12" "-64-12" /\ String.prefix "spectra" "redrock" = false /\ String.prefix "redrock" "spectra" = false.
Proof.
  split; [|split; reflexivity]. split; [exists "/r/1"%string, "2"%char; split; [reflexivity|discriminate]|]. split; [discriminate|].
  split; [cbn; intuition discriminate|]. split; [apply only_start_b; [discriminate|reflexivity]|apply only_end_b; reflexivity].
Qed.

(* ---------- C116 ---------- *)
Theorem C116_todo : forall norm prefix avoid outdir ex root t l, find_specfiles norm prefix avoid outdir ex root t = Ok l ->
  forall f, In f l <-> spectra_file norm prefix avoid root t f /\ ~ (ex (rrfile prefix outdir f) = true /\ ex (detailsfile prefix outdir f) = true).
Proof. intros norm prefix avoid outdir ex root t l. apply find_ok. Qed.
Theorem C116_none_found : forall norm prefix avoid outdir ex root t e, find_specfiles norm prefix avoid outdir ex root t = Err e <-> e = OSError /\ forall f, ~ spectra_file norm prefix avoid root t f.
Proof. intros. apply find_err. Qed.
(* a run interrupted before both outputs of a file exist leaves the file to the next run; a file with both is left alone *)
Theorem C116_resume : forall norm prefix avoid outdir ex1 ex2 root t l1 l2 f,
  find_specfiles norm prefix avoid outdir ex1 root t = Ok l1 -> find_specfiles norm prefix avoid outdir ex2 root t = Ok l2 -> In f l1 ->
  (In f l2 <-> ex2 (rrfile prefix outdir f) = false \/ ex2 (detailsfile prefix outdir f) = false).
Proof.
  intros norm prefix avoid outdir ex1 ex2 root t l1 l2 f H1 H2 Hf. rewrite (find_ok _ _ _ _ _ _ _ _ H2 f). apply (find_ok _ _ _ _ _ _ _ _ H1) in Hf as [Hf _].
  destruct (ex2 (rrfile prefix outdir f)), (ex2 (detailsfile prefix outdir f)); intuition congruence.
Qed.
Definition ex_tree : tree := Dir [] [("spectra", Dir ["spPlate-1.fits"] [("a", Dir ["spPlate-2.fits"] [])]); ("12", Dir ["spPlate-3.fits"; "other.fits"] [])]%string.
(* the files directly in the avoided directory are still taken *)
Theorem C116_avoided_directory_refuted : exists f, spectra_file (fun s => s) "spPlate" (Some "/r/spectra"%string) "/r" ex_tree f /\ f = "/r/spectra/spPlate-1.fits"%string /\
  find_specfiles (fun s => s) "spPlate" (Some "/r/spectra"%string) None (fun _ => false) "/r" ex_tree = Ok ["/r/spectra/spPlate-1.fits"; "/r/12/spPlate-3.fits"]%string.
Proof.
  exists "/r/spectra/spPlate-1.fits"%string. split; [|split; [reflexivity|vm_compute; reflexivity]]. apply all_specfiles_iff. vm_compute. now left.
Qed.
(* a relative --reduxdir never equals the absolute path made for BOSS: the directory is not avoided *)
Theorem C116_relative_refuted : find_specfiles (fun s => s) "spPlate" (Some "/home/u/r/spectra"%string) None (fun _ => false) "r" ex_tree = Ok ["r/spectra/spPlate-1.fits"; "r/spectra/a/spPlate-2.fits"; "r/12/spPlate-3.fits"]%string.
Proof. vm_compute. reflexivity. Qed.

(* ---------- C117 ---------- *)
Theorem C117_nothing_overwritten : forall C (fs fs' : list (string * C)) logfile, backup_logs fs logfile = Ok fs' ->
  exists n c, sget fs logfile = Some c /\ sget fs (logfile ++ "." ++ dec n)%string = None /\
    sget fs' logfile = None /\ sget fs' (logfile ++ "." ++ dec n)%string = Some c /\ forall x, x <> logfile -> x <> (logfile ++ "." ++ dec n)%string -> sget fs' x = sget fs x.
Proof.
  intros C fs fs' logfile H. apply backup_ok in H as (n & c & Ec & En & _ & Hx). exists n, c. split; [exact Ec|]. split; [exact En|].
  assert (N : logfile <> (logfile ++ "." ++ dec n)%string). { intro E. apply (f_equal String.length) in E. rewrite !app_length_s in E. cbn in E. lia. }
  split; [|split].
  - rewrite Hx, String.eqb_refl. destruct (String.eqb_spec logfile (logfile ++ "." ++ dec n)); [contradiction|reflexivity].
  - now rewrite Hx, String.eqb_refl.
  - intros x N1 N2. rewrite Hx. destruct (String.eqb_spec x (logfile ++ "." ++ dec n)); [contradiction|]. destruct (String.eqb_spec x logfile); [contradiction|reflexivity].
Qed.
Theorem C117_numbered_partial : forall C (fs : list (string * C)) logfile n c, numbered fs logfile n -> sget fs logfile = Some c ->
  exists fs', backup_logs fs logfile = Ok fs' /\ numbered fs' logfile (S n) /\ sget fs' (logfile ++ "." ++ dec n)%string = Some c.
Proof. intros C. apply numbered_backup. Qed.
(* one log removed by hand, or another name.*: the next backup fails although its name would be free *)
Theorem C117_gap_refuted : backup_logs [("x.log", 0); ("x.log.1", 1)]%string "x.log" = Err AssertionError /\ backup_logs [("x.log", 0); ("x.log.2", 1); ("x.log.gz", 2)]%string "x.log" = Err AssertionError.
Proof. split; vm_compute; reflexivity. Qed.
Example C117_ex : numbered [("x.log", 0); ("x.log.0", 1)]%string "x.log" 1.
Proof.
  split; [constructor; [intros [H|[]]; discriminate|constructor; [intros []|constructor]]|]. intro name. split.
  - intros [[<-|[<-|[]]] H]; [discriminate H|]. exists 0. split; [lia|reflexivity].
  - intros (k & Hk & ->). assert (k = 0) as -> by lia. split; [right; left; reflexivity|reflexivity].
Qed.

(* ---------- C118 ---------- *)
Theorem C118_tries_partial : forall C (run : nat -> outcome) (log : nat -> C) logfile fs n, numbered fs logfile n ->
  exists fs' ts s, attempt maxtries 0 run log logfile fs = (fs', ts, s) /\ (exists n', numbered fs' logfile n') /\
    match run 0 with
    | Exit 0 => ts = [0] /\ s = Finished /\ sget fs' logfile = Some (log 0)
    | Raises => ts = [0] /\ s = Excepted
    | Exit (S _) => ts = [0; 1] /\ s = (match run 1 with Exit 0 => Finished | Exit (S _) => Failed | Raises => Excepted end) /\ sget fs' logfile = Some (log 1) /\ exists k, sget fs' (logfile ++ "." ++ dec k)%string = Some (log 0)
    end.
Proof.
  intros C run log logfile fs n Hn. unfold maxtries. cbn [attempt]. destruct (step_numbered logfile fs n Hn) as (fs1 & n1 & E & H1 & _ & _). rewrite E.
  pose proof (numbered_write fs1 logfile n1 (log 0) H1) as H2. set (fs2 := sset fs1 logfile (log 0)) in *.
  assert (G2 : sget fs2 logfile = Some (log 0)) by (unfold fs2; rewrite sget_sset, String.eqb_refl; reflexivity).
  destruct (run 0) as [[|code]|] eqn:R0.
  - exists fs2, [0], Finished. split; [reflexivity|]. split; [now exists n1|]. auto.
  - destruct (step_numbered logfile fs2 n1 H2) as (fs3 & n3 & E3 & H3 & _ & Hc). rewrite E3. specialize (Hc (log 0) G2).
    pose proof (numbered_write fs3 logfile n3 (log 1) H3) as H4. set (fs4 := sset fs3 logfile (log 1)) in *.
    assert (G4 : sget fs4 logfile = Some (log 1)) by (unfold fs4; rewrite sget_sset, String.eqb_refl; reflexivity).
    assert (G5 : sget fs4 (logfile ++ "." ++ dec n1)%string = Some (log 0)).
    { unfold fs4. rewrite sget_sset. destruct (String.eqb_spec logfile (logfile ++ "." ++ dec n1)) as [Eq|]; [|exact Hc]. exfalso. apply (f_equal String.length) in Eq. rewrite !app_length_s in Eq. cbn in Eq. lia. }
    destruct (run 1) as [[|code1]|] eqn:R1; (exists fs4; eexists; eexists; split; [reflexivity|]; split; [now exists n3|]; split; [reflexivity|]; split; [reflexivity|]; split; [exact G4|]; now exists n1).
  - exists fs2, [0], Excepted. split; [reflexivity|]. split; [now exists n1|]. auto.
Qed.
(* whatever happens: at most two runs, a second one only after a failed first one *)
Theorem C118_at_most_two : forall C (run : nat -> outcome) (log : nat -> C) logfile fs fs' ts s, attempt maxtries 0 run log logfile fs = (fs', ts, s) ->
  ts = [] /\ s = Excepted \/ ts = [0] \/ (ts = [0; 1] /\ exists code, run 0 = Exit (S code)).
Proof.
  intros C run log logfile fs fs' ts s. unfold maxtries. cbn [attempt]. destruct (match sget fs logfile with Some _ => _ | None => _ end) as [fs1|e]; [|intro H; injection H as _ <- <-; auto].
  set (fs2 := sset fs1 logfile (log 0)). destruct (run 0) as [[|code]|].
  - intro H. injection H as _ <- _. auto.
  - destruct (match sget fs2 logfile with Some _ => _ | None => _ end) as [fs3|e].
    + destruct (run 1) as [[|c1]|]; intro H; injection H as _ <- _; right; right; (split; [reflexivity|now exists code]).
    + intro H; injection H as _ <- _. auto.
  - intro H. injection H as _ <- _. auto.
Qed.
(* no log is lost *)
Theorem C118_logs_kept : forall C (run : nat -> outcome) (log : nat -> C) logfile fs fs' ts s, attempt maxtries 0 run log logfile fs = (fs', ts, s) ->
  (forall x c, x <> logfile -> sget fs x = Some c -> sget fs' x = Some c) /\ (forall c, sget fs logfile = Some c -> exists x, sget fs' x = Some c).
Proof. intros C run log logfile fs fs' ts s. apply attempt_keeps. Qed.
(* the failures of a file do not stop the others: every file of the rank is attempted, in order *)
Theorem C118_all_files : forall C group (run : nat -> nat -> outcome) (log : nat -> nat -> C) logfile fs fs' l, run_rank false group run log logfile fs = (fs', l) -> map (fun r => fst (fst r)) l = group.
Proof.
  intros C group run log logfile. induction group as [|i r IH]; intros fs fs' l; cbn [run_rank]; [intro H; injection H as _ <-; reflexivity|].
  destruct (attempt maxtries 0 (run i) (log i) (logfile i) fs) as [[fs1 ts] s]. destruct (run_rank false r run log logfile fs1) as [fs2 l2] eqn:E. intro H. injection H as _ <-. cbn. f_equal. now apply (IH fs1 fs2 l2).
Qed.
Theorem C118_dryrun : forall C group (run : nat -> nat -> outcome) (log : nat -> nat -> C) logfile fs, run_rank true group run log logfile fs = (fs, []).
Proof. intros C group run log logfile fs. induction group as [|i r IH]; [reflexivity|]. exact IH. Qed.
(* old logs x.log and x.log.1: the command is never run, now or at any later run *)
Theorem C118_never_run_refuted : forall (run : nat -> outcome) (log : nat -> nat), attempt maxtries 0 run log "x.log" [("x.log", 7); ("x.log.1", 8)]%string = ([("x.log", 7); ("x.log.1", 8)]%string, [], Excepted).
Proof. intros run log. vm_compute. reflexivity. Qed.
Example C118_ex : let r := attempt maxtries 0 (fun k => match k with 0 => Exit 1 | _ => Exit 0 end) (fun k => 10 + k) "x.log" [("x.log", 7); ("x.log.0", 8)]%string in
  snd (fst r) = [0; 1] /\ snd r = Finished /\ sget (fst (fst r)) "x.log" = Some 11 /\ sget (fst (fst r)) "x.log.1" = Some 7 /\ sget (fst (fst r)) "x.log.2" = Some 10 /\ sget (fst (fst r)) "x.log.0" = Some 8.
Proof. vm_compute. auto 10. Qed.

(* ---------- C119 ---------- *)
Theorem C119_time : forall t h m s, hms t = (h, m, s) -> h * 3600 + m * 60 + s = t /\ m < 60 /\ s < 60.
Proof.
  intros t h m s. unfold hms. cbv zeta. intro H.
  assert (H1 : h = t / 3600) by congruence. assert (H2 : m = (t - t / 3600 * 3600) / 60) by congruence. assert (H3 : s = t - t / 3600 * 3600 - (t - t / 3600 * 3600) / 60 * 60) by congruence. clear H. subst s m h. pose proof (Nat.div_mod_eq t 3600) as D. pose proof (Nat.mod_upper_bound t 3600 ltac:(lia)) as M.
  set (h := t / 3600) in *. pose proof (Nat.div_mod_eq (t - h * 3600) 60) as D2. pose proof (Nat.mod_upper_bound (t - h * 3600) 60 ltac:(lia)) as M2. set (m := (t - h * 3600) / 60) in *.
  split; [lia|]. split; lia.
Qed.
Theorem C119_scale_partial : forall d times maxproc mp m, m = match mp with Some k => k | None => maxproc / 2 end ->
  (d = DESI /\ 0 < m) \/ maxproc / 2 <= m ->
  exists l, scaled_times d times maxproc mp = Ok l /\ length l = length times /\ (maxproc / 2 <= m -> l = times) /\
    (m < maxproc / 2 -> forall i, i < length times -> (nth i l 0 * inject_Z (Z.of_nat m) == nth i times 0 * inject_Z (Z.of_nat (maxproc / 2)))%Q).
Proof.
  intros d times maxproc mp m Em H. unfold scaled_times. cbv zeta. replace (match mp with None => maxproc / 2 | Some k => k end) with m by (rewrite Em; now destruct mp).
  destruct (Nat.ltb_spec m (maxproc / 2)) as [E|E].
  - destruct H as [[-> Hm]|H]; [|lia]. destruct (Nat.eqb_spec m 0); [lia|]. eexists. split; [reflexivity|]. split; [apply map_length|]. split; [lia|]. intros _ i Hi.
    set (f := fun t => (t * _)%Q). rewrite (nth_indep _ 0%Q (f 0%Q)) by now rewrite map_length. rewrite map_nth. unfold f. field.
    intro Hz. unfold inject_Z, Qeq in Hz. cbn in Hz. lia.
  - exists times. split; [reflexivity|]. split; [reflexivity|]. split; [auto|lia].
Qed.
(* BOSS with fewer processes than half of the cores: TypeError instead of a plan *)
Theorem C119_boss_scale_refuted : forall times maxproc k, 0 < k < maxproc / 2 -> scaled_times BOSS times maxproc (Some k) = Err TypeError.
Proof. intros times maxproc k H. unfold scaled_times. cbv zeta. destruct (Nat.ltb_spec k (maxproc / 2)); [|lia]. destruct (Nat.eqb_spec k 0); [lia|reflexivity]. Qed.
Theorem C119_zero_processes_refuted : forall d times maxproc, 2 <= maxproc -> scaled_times d times maxproc (Some 0) = Err ZeroDivisionError.
Proof. intros d times maxproc H. unfold scaled_times. cbv zeta. assert (0 < maxproc / 2) by (apply Nat.div_str_pos; lia). destruct (Nat.ltb_spec 0 (maxproc / 2)); [reflexivity|lia]. Qed.
Example C119_ex : hms 7265 = (2, 1, 5) /\ scaled_times BOSS [30#1]%Q 64 (Some 16) = Err TypeError.
Proof. vm_compute. auto. Qed.

Print Assumptions C113_partition.
Print Assumptions C113_balance.
Print Assumptions C113_mean.
Print Assumptions C113_no_group.
Print Assumptions C114_each_file_once.
Print Assumptions C114_goes_on_partial.
Print Assumptions C114_plan_nodes.
Print Assumptions C115_names_partial.
Print Assumptions C115_injective_partial.
Print Assumptions C115_outputs_not_inputs.
Print Assumptions C116_todo.
Print Assumptions C116_resume.
Print Assumptions C117_numbered_partial.
Print Assumptions C118_tries_partial.
Print Assumptions C118_logs_kept.
Print Assumptions C119_scale_partial.
