(* C168-C170: bin edges, the fine redshift grid and the range check in double precision. *)
From Verif Require Import Prelude.
From Coq Require Import Reals Lra.
From Flocq Require Import Core.Core IEEE754.BinarySingleNaN.
From Verif Require Import Model_Float Model_Float2 Spec_Float Proof_Float Proof_Float2 Proof_Float3 Proof_Float4 Proof_Float5.
Import ListNotations.
Open Scope R_scope.

(* C168 *)
Theorem C168_between : forall a b l,
  rising (a :: b :: l) -> Forall (within 1000) (a :: b :: l) -> interleaved (a :: b :: l) (edges a b l).
Proof. exact edges_interleaved. Qed.

Theorem C168_increasing_partial : forall a b l,
  rising (a :: b :: l) -> Forall (within 1000) (a :: b :: l) ->
  bpow radix2 (-1000) <= B2R a -> roomy (a :: b :: l) ->
  rising (edges a b l).
Proof. intros. now apply edges_rising. Qed.

(* three neighbouring floats: 1 + 2^-52, 1 + 2 2^-52, 1 + 3 2^-52 *)
Definition nb (k : Z) : b64 := flit (2 ^ 52 + k) (-52).
Lemma nb_val k : (0 <= k < 10)%Z -> finite (nb k) /\ B2R (nb k) = 1 + IZR k * bpow radix2 (-52).
Proof.
  intros H. assert (k = 0 \/ k = 1 \/ k = 2 \/ k = 3 \/ k = 4 \/ k = 5 \/ k = 6 \/ k = 7 \/ k = 8 \/ k = 9)%Z by lia.
  repeat (destruct H0 as [->|H0]); [..|subst]; (split; [reflexivity|vm_compute; lra]).
Qed.
Lemma nb_within k : (0 <= k < 10)%Z -> within 1000 (nb k).
Proof.
  intros H. destruct (nb_val k H) as [F E]. split; [exact F|]. rewrite E.
  assert (bpow radix2 (-52) <= 1) by (change 1 with (bpow radix2 0); now apply bpow_le). pose proof (bpow_gt_0 radix2 (-52)).
  assert (0 <= IZR k <= 9) by (split; apply IZR_le; lia).
  assert (bpow radix2 4 <= bpow radix2 1000) by (apply bpow_le; lia). change (bpow radix2 4) with 16 in *.
  rewrite Rabs_pos_eq by nra. nra.
Qed.
Lemma rising_step l : rising l -> forall i, (S i < length l)%nat -> B2R (nth i l fzero) < B2R (nth (S i) l fzero).
Proof.
  induction 1 as [|a Fa|a b l Fa L H IH]; intros i Hi; cbn [length] in Hi; [lia|lia|].
  destruct i as [|i]; [exact L|]. apply (IH i). cbn [length]. lia.
Qed.
Lemma nb3_rising : rising [nb 1; nb 2; nb 3].
Proof.
  pose proof (bpow_gt_0 radix2 (-52)).
  destruct (nb_val 1 ltac:(lia)) as [F1 E1], (nb_val 2 ltac:(lia)) as [F2 E2], (nb_val 3 ltac:(lia)) as [F3 E3].
  constructor; [easy|lra|]. constructor; [easy|lra|]. now constructor.
Qed.
Theorem C168_increasing_refuted : exists a b l,
  rising (a :: b :: l) /\ Forall (within 1000) (a :: b :: l) /\ ~ rising (edges a b l).
Proof.
  exists (nb 1), (nb 2), [nb 3]. split; [exact nb3_rising|].
  split; [repeat (apply Forall_cons; [apply nb_within; lia|]); apply Forall_nil|].
  intros R. pose proof (rising_step _ R 1 ltac:(cbn; lia)) as L.
  assert (F1 : finite (nth 1 (edges (nb 1) (nb 2) [nb 3]) fzero)) by reflexivity.
  assert (F2 : finite (nth 2 (edges (nb 1) (nb 2) [nb 3]) fzero)) by reflexivity.
  pose proof (ltb_fin _ _ F1 F2) as E. rewrite Rlt_bool_true in E by exact L.
  vm_compute in E. discriminate.
Qed.

(* centers 3600, 3601, 3603 meet the hypotheses *)
Example C168_case : rising [fint 3600; fint 3601; fint 3603] /\ Forall (within 1000) [fint 3600; fint 3601; fint 3603] /\
  bpow radix2 (-1000) <= B2R (fint 3600) /\ roomy [fint 3600; fint 3601; fint 3603] /\
  map (fun p => Beqb (fst p) (snd p)) (combine (edges (fint 3600) (fint 3601) [fint 3603])
     [flit 7199 (-1); flit 7201 (-1); fint 3602; fint 3604]) = [true; true; true; true].
Proof.
  assert (V : forall n, (0 <= n <= 4000)%Z -> finite (fint n) /\ B2R (fint n) = IZR n) by (intros n Hn; apply fint_val; lia).
  destruct (V 3600%Z ltac:(lia)) as [F0 E0], (V 3601%Z ltac:(lia)) as [F1 E1], (V 3603%Z ltac:(lia)) as [F3 E3], (V 3602%Z ltac:(lia)) as [F2 E2].
  assert (B : bpow radix2 12 <= bpow radix2 1000) by (apply bpow_le; lia). change (bpow radix2 12) with 4096 in B.
  assert (B' : bpow radix2 (-1000) <= bpow radix2 0) by (apply bpow_le; lia). change (bpow radix2 0) with 1 in B'.
  split; [constructor; [easy|lra|]; constructor; [easy|lra|]; now constructor|].
  split; [repeat (apply Forall_cons; [split; [assumption|rewrite ?E0, ?E1, ?E3, Rabs_pos_eq; lra]|]); apply Forall_nil|].
  split; [lra|]. split; [|vm_compute; reflexivity].
  split; [|split; [|exact Logic.I]].
  - exists (flit 7201 (-1)). assert (B2R (flit 7201 (-1)) = 3600.5) by (vm_compute; lra). lra.
  - exists (fint 3602). lra.
Qed.

(* C169 *)
Theorem C169_shape : forall lo hi n, (2 <= n)%nat ->
  length (linspace lo hi n) = n /\ last (linspace lo hi n) fzero = hi.
Proof.
  intros lo hi n Hn. unfold linspace. split; [now rewrite map_length, seq_length|].
  destruct n as [|n]; [lia|]. rewrite seq_S, map_app. change (map (lin_at lo hi (S n)) [(0 + n)%nat]) with [lin_at lo hi (S n) n]. rewrite last_last. unfold lin_at. now rewrite Nat.eqb_refl.
Qed.
Lemma ascending_nth : forall l, (forall i, (S i < length l)%nat -> B2R (nth i l fzero) <= B2R (nth (S i) l fzero)) -> ascending l.
Proof.
  induction l as [|a [|b l] IH]; intros H; [exact Logic.I|exact Logic.I|]. split; [apply (H 0%nat); cbn; lia|].
  apply IH. intros i Hi. apply (H (S i)). cbn [length] in *. lia.
Qed.
Theorem C169_in_range_partial : forall lo hi n, (2 <= n)%nat -> (Z.of_nat n <= 2 ^ 20)%Z ->
  within 900 lo -> within 900 hi -> bpow radix2 (-900) <= B2R hi - B2R lo ->
  Forall (fun v => finite v /\ B2R lo <= B2R v <= B2R hi) (linspace lo hi n) /\
  ascending (linspace lo hi n) /\ B2R (hd fzero (linspace lo hi n)) = B2R lo.
Proof.
  intros lo hi n N2 N20 Wl Wh G. pose proof (bpow_gt_0 radix2 (-900)) as P900.
  assert (Lst : lin_at lo hi n (n - 1) = hi).
  { unfold lin_at. replace (S (n - 1)) with n by lia. now rewrite Nat.eqb_refl. }
  assert (A : forall i, (i < n)%nat -> finite (lin_at lo hi n i) /\ B2R lo <= B2R (lin_at lo hi n i) <= B2R hi).
  { intros i Hi. destruct (Nat.eq_dec (S i) n) as [E|E].
    - replace i with (n - 1)%nat by lia. rewrite Lst. split; [apply Wh|lra].
    - destruct (lin_inner lo hi n Wl Wh N2 N20 G i ltac:(lia)) as (F & B & _). auto. }
  assert (Nth : forall i, (i < n)%nat -> nth i (linspace lo hi n) fzero = lin_at lo hi n i).
  { intros i Hi. unfold linspace. rewrite (nth_indep _ fzero (lin_at lo hi n 0)) by now rewrite map_length, seq_length.
    rewrite map_nth, seq_nth by easy. reflexivity. }
  split; [|split].
  - apply Forall_forall. intros v Hv. apply in_map_iff in Hv. destruct Hv as (i & <- & Hi). apply in_seq in Hi. apply A. lia.
  - apply ascending_nth. intros i Hi. unfold linspace in Hi. rewrite map_length, seq_length in Hi.
    rewrite !Nth by lia. destruct (Nat.eq_dec (S (S i)) n) as [E|E].
    + replace (S i) with (n - 1)%nat by lia. rewrite Lst. apply A. lia.
    + destruct (lin_inner lo hi n Wl Wh N2 N20 G i ltac:(lia)) as (_ & _ & ->).
      destruct (lin_inner lo hi n Wl Wh N2 N20 G (S i) ltac:(lia)) as (_ & _ & ->).
      destruct (step_spec lo hi n Wl Wh N2 N20 G) as (_ & _ & Ls & _). pose proof (bpow_gt_0 radix2 (-920)).
      apply rnd_mono. apply Rplus_le_compat_r. apply rnd_mono. apply Rmult_le_compat_r; [lra|]. rewrite S_INR. lra.
  - assert (E : hd fzero (linspace lo hi n) = lin_at lo hi n 0) by (rewrite <- (Nth 0%nat) by lia; now destruct (linspace lo hi n)).
    rewrite E. destruct (lin_inner lo hi n Wl Wh N2 N20 G 0 ltac:(lia)) as (_ & _ & ->).
    cbn [INR]. rewrite Rmult_0_l, rnd_0, Rplus_0_l. apply rnd_B.
Qed.
(* from zero to eight times the smallest positive float: overshoots *)
Theorem C169_in_range_refuted : exists lo hi, within 900 lo /\ within 900 hi /\ B2R lo < B2R hi /\
  Exists (fun v => B2R hi < B2R v) (linspace lo hi 15).
Proof.
  exists fzero, (flit 8 (-1074)).
  assert (F : finite (flit 8 (-1074))) by reflexivity.
  assert (E : B2R (flit 8 (-1074)) = bpow radix2 (-1071)) by (vm_compute; lra).
  assert (B : bpow radix2 (-1071) <= bpow radix2 900) by (apply bpow_le; lia).
  pose proof (bpow_gt_0 radix2 900). pose proof (bpow_gt_0 radix2 (-1071)).
  split; [split; [reflexivity|]; change (B2R fzero) with 0; rewrite Rabs_R0; lra|].
  split; [split; [exact F|]; rewrite E, Rabs_pos_eq; lra|]. split; [rewrite E; exact H0|].
  apply Exists_exists. exists (lin_at fzero (flit 8 (-1074)) 15 13). split.
  - apply in_map, in_seq. lia.
  - assert (F' : finite (lin_at fzero (flit 8 (-1074)) 15 13)) by reflexivity.
    pose proof (ltb_fin _ _ F F') as L. revert L. case Rlt_bool_spec; [easy|]. intros _ L. vm_compute in L. discriminate.
Qed.
Example C169_case : (2 <= 15)%nat /\ (Z.of_nat 15 <= 2 ^ 20)%Z /\ within 900 (fint 1) /\ within 900 (fint 2) /\
  bpow radix2 (-900) <= B2R (fint 2) - B2R (fint 1).
Proof.
  destruct one as [F1 E1], two as [F2 E2].
  assert (B : bpow radix2 1 <= bpow radix2 900) by (apply bpow_le; lia). change (bpow radix2 1) with 2 in B.
  assert (B' : bpow radix2 (-900) <= bpow radix2 0) by (apply bpow_le; lia). change (bpow radix2 0) with 1 in B'.
  split; [lia|]. split; [lia|]. split; [split; [easy|]; rewrite E1, Rabs_pos_eq; lra|].
  split; [split; [easy|]; rewrite E2, Rabs_pos_eq; lra|]. lra.
Qed.

(* C170 *)
Theorem C170_every_redshift : forall x y edges z zs,
  length y = length x -> x <> [] -> Forall (within 500) x -> 0 <= B2R (hd fzero x) -> 0 <= B2R (last x fzero) ->
  Forall (within 499) (z :: zs) -> rising edges -> edges <> [] ->
  let inside z := rounded (B2R (hd fzero x) * rounded (1 + B2R z)) <= B2R (hd fzero edges) /\
                  B2R (last edges fzero) <= rounded (B2R (last x fzero) * rounded (1 + B2R z)) in
  (Forall inside (z :: zs) -> exists r, trapz x y edges z zs = Ok r /\ length r = S (length zs) /\
     Forall (fun v => length v = (length edges - 1)%nat) r) /\
  (Exists (fun z => ~ inside z) (z :: zs) -> trapz x y edges z zs = Err ValueError).
Proof.
  intros x y edges z zs Ly Nx Wx P0 P1 Wz R Ne inside.
  assert (Fz : Forall finite (z :: zs)) by (eapply Forall_impl; [|exact Wz]; now intros v [F _]).
  inversion Fz as [|z' zs' Fz0 Fzs]; subst.
  destruct (minimum_spec z zs Fz0 Fzs) as [I1 M1]. destruct (maximum_spec z zs Fz0 Fzs) as [I2 M2].
  assert (Wh : within 500 (hd fzero x)) by (destruct x; [easy|]; now inversion Wx).
  assert (Wl : within 500 (last x fzero)).
  { rewrite Forall_forall in Wx. destruct (last_in x fzero) as [E|E]; [|now apply Wx]. rewrite <- E. split; [reflexivity|].
    change (B2R fzero) with 0. rewrite Rabs_R0. apply bpow_ge_0. }
  rewrite Forall_forall in Wz.
  destruct (one_plus _ (Wz _ I1)) as [Wm Em]. destruct (one_plus _ (Wz _ I2)) as [WM EM].
  destruct (rounds_prod_fin _ _ Wh WM) as [Fa Ea]. destruct (rounds_prod_fin _ _ Wl Wm) as [Fb Eb].
  rewrite EM in Ea. rewrite Em in Eb.
  destruct edges as [|e es]; [easy|]. pose proof (rising_hd e es R) as Fe.
  assert (Fl : finite (last (e :: es) fzero)).
  { destruct (last_in (e :: es) fzero) as [E|E]; [rewrite <- E; reflexivity|]. now apply (rising_in _ (e :: es)). }
  set (ed := e :: es) in *. assert (Fh : finite (hd fzero ed)) by exact Fe.
  unfold trapz. cbv zeta. rewrite !ltb_fin by assumption. rewrite Ea, Eb.
  split.
  - intros A. rewrite Forall_forall in A. rewrite Rlt_bool_false by (apply (A _ I2)). rewrite Rlt_bool_false by (apply (A _ I1)). cbn [orb].
    assert (K : forall v, In v (z :: zs) -> exists r, trapz_1d (shifted x v) y ed = Ok r /\ length r = (length ed - 1)%nat).
    { intros v Hv. destruct (one_plus _ (Wz _ Hv)) as [Wv Ev]. destruct (A _ Hv) as [A1 A2].
      apply trapz_1d_ok; auto.
      - unfold shifted. now rewrite map_length.
      - destruct x; easy.
      - apply Forall_forall. intros w Hw. apply in_map_iff in Hw. destruct Hw as (w' & <- & Hw).
        rewrite Forall_forall in Wx. now apply rounds_prod_fin; [apply Wx|].
      - destruct x as [|x0 x]; [easy|]. cbn [shifted map hd] in *. destruct (rounds_prod_fin _ _ Wh Wv) as [_ ->]. rewrite Ev. exact A1.
      - assert (EL : last (shifted x v) fzero = fmul (last x fzero) (fadd (fint 1) v)).
        { clear -Nx. unfold shifted. induction x as [|a [|b l] IH]; [easy|reflexivity|]. apply IH. easy. }
        rewrite EL. destruct (rounds_prod_fin _ _ Wl Wv) as [_ ->]. rewrite Ev. exact A2. }
    assert (Q : forall l, (forall v, In v l -> exists r, trapz_1d (shifted x v) y ed = Ok r /\ length r = (length ed - 1)%nat) ->
      exists r, mapM (fun v => trapz_1d (shifted x v) y ed) l = Ok r /\ length r = length l /\ Forall (fun v => length v = (length ed - 1)%nat) r).
    { clear. induction l as [|v l IH]; intros K; [exists []; auto|]. destruct (K v (or_introl eq_refl)) as (r & Er & Lr).
      destruct (IH (fun v Hv => K v (or_intror Hv))) as (rs & Ers & Lrs & Frs). exists (r :: rs).
      cbn [mapM]. rewrite Er. cbn [rbind]. rewrite Ers. cbn [rbind length]. auto. }
    exact (Q (z :: zs) K).
  - intros A. apply Exists_exists in A. destruct A as (v & Hv & Nv).
    destruct (Rlt_bool_spec (B2R (hd fzero ed)) (rnd (B2R (hd fzero x) * rnd (1 + B2R (maximum z zs))))) as [C|C]; [reflexivity|].
    destruct (Rlt_bool_spec (rnd (B2R (last x fzero) * rnd (1 + B2R (minimum z zs)))) (B2R (last ed fzero))) as [D|D]; [reflexivity|].
    exfalso. apply Nv. unfold inside. change rounded with (fun r => rnd r). cbv beta. split.
    + apply (Rle_trans _ _ _ (rnd_mono _ _ (Rmult_le_compat_l _ _ _ P0 (rnd_mono _ _ (Rplus_le_compat_l 1 _ _ (M2 v Hv))))) C).
    + apply (Rle_trans _ _ _ D). apply rnd_mono, Rmult_le_compat_l; [exact P1|]. apply rnd_mono, Rplus_le_compat_l. now apply M1.
Qed.

(* equal edges (what centers2edges returns for the three neighbouring floats above)
   pass the range check and divide by zero *)
Theorem C170_equal_edges_refuted : exists x y a b l z,
  length y = length x /\ Forall (within 500) x /\ rising x /\ rising (a :: b :: l) /\
  trapz x y (edges a b l) z [] = Err ZeroDivisionError.
Proof.
  exists [fint 0; fint 1; fint 2], [fint 3; fint 3; fint 3], (nb 1), (nb 2), [nb 3], fzero.
  destruct one as [F1 E1], two as [F2 E2]. destruct (fint_val 0 ltac:(lia)) as [F0 E0].
  assert (B : bpow radix2 1 <= bpow radix2 500) by (apply bpow_le; lia). change (bpow radix2 1) with 2 in B.
  split; [reflexivity|].
  split; [repeat (apply Forall_cons; [split; [assumption|rewrite ?E0, ?E1, ?E2, Rabs_pos_eq; lra]|]); apply Forall_nil|].
  split; [constructor; [easy|lra|]; constructor; [easy|lra|]; now constructor|].
  split; [exact nb3_rising|]. vm_compute. reflexivity.
Qed.

(* two redshifts, three bins: the hypotheses are met, inside and outside the range *)
Definition ramp : list b64 := [fint 100; fint 200; fint 300; fint 400].
Example C170_case : Forall (within 500) ramp /\ Forall (within 499) [fint 0; fint 1] /\
  rising [fint 200; fint 250; fint 390] /\ 0 <= B2R (hd fzero ramp) /\ 0 <= B2R (last ramp fzero) /\
  match trapz ramp ramp [fint 200; fint 250; fint 390] (fint 0) [fint 1] with
  | Ok r => map (map (fun v => Beqb v (fint 225) || Beqb v (fint 320) || Beqb v (flit 225 (-1)) || Beqb v (fint 160)))%bool r
  | Err _ => []
  end = [[true; true]; [true; true]] /\
  trapz ramp ramp [fint 200; fint 250; fint 390] (fint 0) [fint 2] = Err ValueError.
Proof.
  assert (V : forall n, (0 <= n <= 400)%Z -> finite (fint n) /\ B2R (fint n) = IZR n) by (intros n Hn; apply fint_val; lia).
  assert (W : forall n, (0 <= n <= 400)%Z -> within 499 (fint n)).
  { intros n Hn. destruct (V n Hn) as [F E]. split; [exact F|]. rewrite E.
    assert (B : bpow radix2 9 <= bpow radix2 499) by (apply bpow_le; lia). change (bpow radix2 9) with 512 in B.
    assert (0 <= IZR n <= 400) by (split; apply IZR_le; lia). rewrite Rabs_pos_eq; lra. }
  assert (W' : forall n, (0 <= n <= 400)%Z -> within 500 (fint n)).
  { intros n Hn. destruct (W n Hn) as [F B]. split; [exact F|]. apply (Rle_trans _ _ _ B). now apply bpow_le. }
  destruct (V 100%Z ltac:(lia)) as [F1 E1], (V 400%Z ltac:(lia)) as [F4 E4].
  destruct (V 200%Z ltac:(lia)) as [F2 E2], (V 250%Z ltac:(lia)) as [F3 E3], (V 390%Z ltac:(lia)) as [F5 E5].
  split; [repeat (apply Forall_cons; [apply W'; lia|]); apply Forall_nil|].
  split; [repeat (apply Forall_cons; [apply W; lia|]); apply Forall_nil|].
  split; [constructor; [easy|lra|]; constructor; [easy|lra|]; now constructor|].
  split; [cbn [hd ramp]; lra|]. split; [cbn [last ramp]; lra|].
  split; vm_compute; reflexivity.
Qed.

Print Assumptions C168_between.
Print Assumptions C168_increasing_partial.
Print Assumptions C168_increasing_refuted.
Print Assumptions C169_shape.
Print Assumptions C169_in_range_partial.
Print Assumptions C169_in_range_refuted.
Print Assumptions C170_every_redshift.
Print Assumptions C170_equal_edges_refuted.
