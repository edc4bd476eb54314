(* C176: spectra that are exactly a template at a redshift of the grid. *)
From Verif Require Import Prelude PreludeFacts NumX Model_Fitz Spec_Fitz Props_Fitz Model_Rebin Spec_Rebin Model_Dist Model_Rank Spec_Rank Spec_Zfind Proof_Table Model_Zscan Spec_Zscan Proof_Zscan Props_Zscan2 Model_Piece Spec_Piece Proof_Piece Model_IO Spec_IO Proof_IO Model_Zfind Proof_Zfind
  Model_Run Spec_Run Proof_Run Proof_Run2 Proof_Run3 Proof_Run4 Proof_Run5 Proof_Run6 Proof_Run8 Props_Run Spec_Perfect Proof_Perfect.
Open Scope nat_scope.

Lemma F2_at {A B} (R : A -> B -> Prop) l m : Forall2 R l m -> forall i d e, i < length l -> R (nth i l d) (nth i m e).
Proof. intro F. induction F as [|a b l m H _ IH]; intros i d e Hi; cbn in Hi; [lia|]. destruct i; [exact H|]. apply IH. lia. Qed.

Lemma rows_finite slv argsort polyfit isqrt trans nminima nz : argsort_ok argsort -> forall ps tgs tab o, NoDup (map g_id tgs) -> run slv argsort polyfit isqrt trans nminima nz ps tgs = Ok tab -> In o tab -> exists q, Model_Zfind.f_chi2 o = Fin q.
Proof. intros A ps tgs tab o N H Ho. destruct (row_source _ _ _ _ _ _ _ A ps tgs tab o N H Ho) as (g & p & td & row & fs & x & ts & _ & _ & _ & _ & _ & _ & _ & _ & _ & _ & _ & _ & _ & _ & E & _). exists (Model_Fitz.f_chi2 x); exact E. Qed.

Section Props.
Variables (slv : solvers) (argsort : list xq -> list nat) (polyfit : list Q -> list Q -> option (Q * Q * Q)) (isqrt : Q -> Q).
Variable trans : option string -> Q -> Q -> Q.
Variables (nminima nz : nat).
Notation run := (run slv argsort polyfit isqrt trans nminima nz).

(* what a run of redrock on sound input is: p is a PCA template, the only one of its type; g has data *)
Definition runs_on (ps : list tmpl) (tgs : list targ) (tab : list frow) (p : tmpl) (g : targ) : Prop :=
  argsort_ok argsort /\ linsolve_ok slv /\ fails_when_singular slv (nbasis p) /\ NoDup (map g_id tgs) /\ hashes_tell_grids tgs /\ 3 <= nz /\ run ps tgs = Ok tab /\ In g tgs /\ In p ps /\
  (forall q, In q ps -> plain_names q) /\ full_type p <> "meta"%string /\ alone_of_type ps p /\
  (usable p /\ t_method (p_core p) = "PCA"%string /\ nondecreasing (p_zs p) /\ Forall (fun z => (-1 < z)%Q) (p_zs p) /\ Forall (fun r => length r = length (t_wave (p_core p))) (t_flux (p_core p))) /\
  (Forall (fun s => wf_csr (s_R s) /\ nonneg (s_ivar s)) (data_of g) /\ ~ (sumQ (pixels s_ivar g) == 0)%Q).

Lemma perfect_core ps tgs tab p g i : runs_on ps tgs tab p g -> i < length (p_zs p) -> is_template trans p g (nth i (p_zs p) 0%Q) ->
  (forall t, t < length (p_zs p) -> t <> i -> not_template trans p g (nth t (p_zs p) 0%Q)) ->
  exists o zlo zhi, In o (rows_of (g_id g) tab) /\ f_type o = stake 6 (t_rrtype (p_core p)) /\ f_sub o = p_sub p /\ nth_error (p_zs p) (i - 1) = Some zlo /\ nth_error (p_zs p) (Nat.min (i + 1) (length (p_zs p) - 1)) = Some zhi /\
    (zlo <= Model_Zfind.f_z o /\ Model_Zfind.f_z o <= zhi)%Q /\
    (polyfit3_ok polyfit -> (zlo < zhi)%Q -> (exists t, t < nz /\ is_template trans p g (zlo + inject_Z (Z.of_nat t) * (zhi - zlo) / inject_Z (Z.of_nat (nz - 1)))%Q) -> N.testbit (Model_Zfind.f_zwarn o) 10 = true).
Proof.
  intros (A & HS & Sing & N & C & Hnz & H & Ig & Ip & PN & NM & AL & (U & Hm & Mono & Hm1 & Hr) & (Hwn & Hz)) Hi IT NT.
  assert (Hw : Forall (fun s => wf_csr (s_R s)) (data_of g)) by (eapply Forall_impl; [|exact Hwn]; intros s [W _]; exact W).
  assert (Hn : Forall (fun s => nonneg (s_ivar s)) (data_of g)) by (eapply Forall_impl; [|exact Hwn]; intros s [_ W]; exact W).
  assert (Hnn : nonneg (pixels s_ivar g)).
  { unfold nonneg, pixels. apply Forall_forall. intros v Hv. apply in_concat in Hv as (l & Hl & Hv). apply in_map_iff in Hl as (s & <- & Hs). pose proof (proj1 (Forall_forall _ _) Hn s Hs) as Q. unfold nonneg in Q. exact (proj1 (Forall_forall _ _) Q v Hv). }
  assert (C1 : hashes_tell_grids [g]) by (eapply hashes_incl; [|exact C]; intros g' [<-|[]]; exact Ig).
  destruct (kept_row slv argsort polyfit isqrt trans nminima nz A ps tgs tab g p N H Ig Ip PN NM AL) as (td & row & fs & Ht & Hrow & Hfit & Pm & K).
  assert (SC : Forall2 (on_curve slv trans p g) (p_zs p) (map2 Qplus (fst (fst row)) (snd row))).
  { apply (scan_curve slv trans p g (grids tgs) td); auto.
    - intros s Hs. apply (grids_get tgs (q_hash s) (q_wave s) (grids_once tgs C)). exists s. split; [apply in_flat_map; now exists g|now split].
    - intro Z0. rewrite Z0 in Hi. cbn in Hi. lia. }
  set (zc := map2 Qplus (fst (fst row)) (snd row)) in *.
  pose proof (Forall2_len _ _ _ SC) as Lz.
  assert (AT : forall t, t < length (p_zs p) -> on_curve slv trans p g (nth t (p_zs p) 0%Q) (nth t zc 0%Q)) by (intros t Ht'; exact (F2_at _ _ _ SC t 0%Q 0%Q Ht')).
  assert (V0 : (nth i zc 0 == 0)%Q) by (apply (perfect_value slv trans p g (nth i (p_zs p) 0%Q)); auto).
  destruct (fit_first slv argsort polyfit isqrt trans nminima nz A p g zc fs i Mono Hm1 Hnz Pm Hfit) as (x & w & f & wf & zlo & zhi & zz & yy & k & Ix & RNG & Ed & Lo & Hh & Ezz & FG & Hyy & SM & RO).
  - now rewrite <- Lz.
  - intros t Ht' Ne. rewrite V0. apply (pos_value slv trans p g (nth t (p_zs p) 0%Q)); [exact Hnn|apply NT; [now rewrite Lz|exact Ne]|apply AT; now rewrite Lz].
  - destruct (K x Ix) as (o & Io & O1 & O2 & O3 & O4 & O5 & O6). exists o, zlo, zhi. split; [unfold rows_of; apply filter_In; split; [exact Io|now apply Z.eqb_eq]|]. split; [exact O2|]. split; [exact O3|]. split; [exact Lo|]. split; [exact Hh|]. split; [now rewrite O4|].
    intros PF Hlt (t & Ht' & Hpt). rewrite O6. pose proof FG as [Lzz Fv].
    assert (CV : Forall2 (on_curve slv trans p g) zz yy).
    { apply mapM_Forall2 in Hyy. eapply Forall2_impl; [|exact Hyy]. intros a b. cbv beta. apply (fine_curve slv trans p g HS Hm U Hr Hw Hn Hz); assumption. }
    pose proof (Forall2_len _ _ _ CV) as Lyy.
    assert (YT : (nth t yy 0 == 0)%Q).
    { apply (perfect_value slv trans p g (nth t zz 0%Q)); [exact Hnn|exact Sing|rewrite Ezz, linspace_nth by lia; exact Hpt|exact (F2_at _ _ _ CV t 0%Q 0%Q ltac:(rewrite Lzz; exact Ht'))]. }
    apply (zero_flagged polyfit isqrt nz zlo zhi zz yy k (Model_Fitz.f_z x) (Model_Fitz.f_chi2 x) _ PF FG Hlt); auto. destruct SM as (S1 & S2 & _).
    assert (Y0 : (0 <= nth k yy 0)%Q) by (apply (curve_nonneg slv trans p g (nth k zz 0%Q)); [exact Hnn|apply (F2_at _ _ _ CV k 0%Q 0%Q); lia]).
    pose proof (S2 t ltac:(lia)) as Y1. lra.
Qed.

(* a target that is exactly one template at one redshift of its grid, and at no other of them, has a row of that template within one step of that redshift *)
Theorem C176_recovered_partial : forall ps tgs tab p g i, runs_on ps tgs tab p g -> i < length (p_zs p) -> is_template trans p g (nth i (p_zs p) 0%Q) ->
  (forall t, t < length (p_zs p) -> t <> i -> not_template trans p g (nth t (p_zs p) 0%Q)) ->
  exists o zlo zhi, In o (rows_of (g_id g) tab) /\ f_type o = stake 6 (t_rrtype (p_core p)) /\ f_sub o = p_sub p /\ nth_error (p_zs p) (i - 1) = Some zlo /\ nth_error (p_zs p) (Nat.min (i + 1) (length (p_zs p) - 1)) = Some zhi /\
    (zlo <= Model_Zfind.f_z o /\ Model_Zfind.f_z o <= zhi)%Q.
Proof. intros ps tgs tab p g i H Hi H1 H2. destruct (perfect_core ps tgs tab p g i H Hi H1 H2) as (o & zlo & zhi & A & B & D & E & F & G & _). exists o, zlo, zhi. now repeat split. Qed.
(* if the redshift is also on the fine grid that row is flagged as a bad fit *)
Theorem C176_perfect_is_flagged : forall ps tgs tab p g i zlo zhi t, runs_on ps tgs tab p g -> polyfit3_ok polyfit -> i < length (p_zs p) -> is_template trans p g (nth i (p_zs p) 0%Q) ->
  (forall t, t < length (p_zs p) -> t <> i -> not_template trans p g (nth t (p_zs p) 0%Q)) ->
  nth_error (p_zs p) (i - 1) = Some zlo -> nth_error (p_zs p) (Nat.min (i + 1) (length (p_zs p) - 1)) = Some zhi -> (zlo < zhi)%Q ->
  t < nz -> is_template trans p g (zlo + inject_Z (Z.of_nat t) * (zhi - zlo) / inject_Z (Z.of_nat (nz - 1)))%Q ->
  exists o, In o (rows_of (g_id g) tab) /\ f_type o = stake 6 (t_rrtype (p_core p)) /\ f_sub o = p_sub p /\ (zlo <= Model_Zfind.f_z o /\ Model_Zfind.f_z o <= zhi)%Q /\ N.testbit (Model_Zfind.f_zwarn o) 10 = true.
Proof.
  intros ps tgs tab p g i zlo zhi t H PF Hi H1 H2 L1 L2 Hlt Ht HT. destruct (perfect_core ps tgs tab p g i H Hi H1 H2) as (o & zlo' & zhi' & A & B & D & E & F & G & K).
  assert (zlo' = zlo) by congruence. assert (zhi' = zhi) by congruence. subst. exists o. split; [exact A|]. split; [exact B|]. split; [exact D|]. split; [exact G|]. apply K; auto. exists t. now split.
Qed.
End Props.

(* ---------------- a galaxy at redshift 1/2 ---------------- *)
Definition tm5 (ty sub : string) (fl : list Q) : tmpl := {| p_core := {| t_rrtype := ty; t_method := "PCA"; t_wave := [5; 10; 20; 40]; t_flux := [fl] |}; p_sub := sub; p_igm := None; p_zs := [0; 1#4; 1#2; 3#4; 1] |}%Q.
Definition ga5 := tm5 "GALAXY" "" [1; 2; 1; 1]%Q.
Definition st5 := tm5 "STAR" "F" [1; 2; 3; 5]%Q.
Definition gp := tg 7 1 [20; 30]%Q [1; 1]%Q [20; 13]%Q.

Lemma gp_design z T row : row_of (t_wave (p_core ga5)) (t_flux (p_core ga5)) [30#2; 50#2; 70#2]%Q z = Ok row -> design_of no_igm ga5 gp z T ->
  length T = 2 /\ (at2 T 0 0 == nth 0 (nth 0 row []) 0 /\ at2 T 1 0 == nth 0 (nth 1 row []) 0)%Q.
Proof.
  intros Hr (blocks & -> & F). inversion F as [|? B ? bl (A & (edges & row' & Ec & Hrow & LA & HA) & LB & HB) F']; subst. inversion F'; subst. cbn [concat]. rewrite app_nil_r.
  assert (E : edges = [30#2; 50#2; 70#2]%Q).
  { assert (K : match centers2edges [20; 30]%Q with Ok e => e | _ => [] end = [30#2; 50#2; 70#2]%Q) by (vm_compute; reflexivity). cbn [q_wave gp tg g_spectra] in Ec. rewrite Ec in K. exact K. }
  subst edges. apply row_at_of in Hrow as [_ Hrow]. rewrite Hr in Hrow. injection Hrow as <-.
  cbn [q_spec q_wave gp tg g_spectra s_R] in *. change (r_nrow (Props_GPU.idcsr (length [20; 30]%Q))) with 2 in *. change (r_ncol (Props_GPU.idcsr (length [20; 30]%Q))) with 2 in *.
  assert (R1 : forall i l, i < 2 -> l < 2 -> Rent (Props_GPU.idcsr (length [20; 30]%Q)) i l = if i =? l then 1%Q else 0%Q).
  { intros i l Hi Hl. destruct i as [|[|]], l as [|[|]]; try lia; vm_compute; reflexivity. }
  assert (E : forall k, k < 2 -> (at2 B k 0 == at2 A k 0)%Q).
  { intros k Hk. rewrite (HB k 0) by (cbn; lia). change (bigsum 2 (fun l => Rent (Props_GPU.idcsr (length [20; 30]%Q)) k l * at2 A l 0) == at2 A k 0)%Q. cbn [bigsum]. rewrite !R1 by lia. destruct k as [|[|]]; [| |lia]; cbn [Nat.eqb]; ring. }
  split; [exact LB|]. rewrite (E 0), (E 1) by lia. unfold at2. rewrite (HA 0), (HA 1) by (cbn; lia).
  assert (X : forall r : list Q, (nth 0 (map (fun v => Qred (v * no_igm (p_igm ga5) z (nth 0 [20; 30]%Q 0%Q))) r) 0 == nth 0 r 0)%Q) by (intros [|v r]; [reflexivity|]; cbn [map nth]; rewrite Qred_correct; unfold no_igm; ring).
  assert (Y : forall r : list Q, (nth 0 (map (fun v => Qred (v * no_igm (p_igm ga5) z (nth 1 [20; 30]%Q 0%Q))) r) 0 == nth 0 r 0)%Q) by (intros [|v r]; [reflexivity|]; cbn [map nth]; rewrite Qred_correct; unfold no_igm; ring).
  now split; [rewrite X|rewrite Y].
Qed.
Lemma gp_model T c i : (model_at (nbasis ga5) T c i == at2 T i 0 * at1 c 0)%Q.
Proof. unfold model_at. change (nbasis ga5) with 1. cbn [bigsum]. ring. Qed.
Definition val (row : list (list Q)) (i : nat) : Q := nth 0 (nth i row []) 0%Q.
Lemma gp_is z row : row_of (t_wave (p_core ga5)) (t_flux (p_core ga5)) [30#2; 50#2; 70#2]%Q z = Ok row -> (~ val row 0 == 0)%Q -> (13 * val row 0 == 20 * val row 1)%Q -> is_template no_igm ga5 gp z.
Proof.
  intros Hr Na Hab. split.
  - intros T v HT Lv H j Hj. destruct (gp_design z T row Hr HT) as (LT & E0 & _). fold (val row 0) in E0. assert (j = 0) by (change (nbasis ga5) with 1 in Hj; lia). subst j.
    destruct (H 0 ltac:(lia)) as [C|C]; [exfalso; vm_compute in C; discriminate|]. rewrite gp_model, E0 in C. apply Qmult_integral in C as [C|C]; [contradiction|exact C].
  - exists [20 / val row 0]%Q. split.
    + split; [reflexivity|]. intros T i HT Hi. destruct (gp_design z T row Hr HT) as (LT & E0 & E1). fold (val row 0) in E0. fold (val row 1) in E1. right. rewrite gp_model. unfold at1 at 2. cbn [nth]. rewrite LT in Hi.
      destruct i as [|[|i]]; [| |lia].
      * rewrite E0. change (at1 (pixels s_flux gp) 0) with 20%Q. field. exact Na.
      * rewrite E1. change (at1 (pixels s_flux gp) 1) with 13%Q. setoid_replace (val row 1) with ((13 # 20) * val row 0)%Q by lra. field. exact Na.
    + intros _. unfold OII_flux. cbn. discriminate.
Qed.
Lemma gp_not z row : row_of (t_wave (p_core ga5)) (t_flux (p_core ga5)) [30#2; 50#2; 70#2]%Q z = Ok row -> (~ 13 * val row 0 == 20 * val row 1)%Q -> not_template no_igm ga5 gp z.
Proof.
  intros Hr Nab T c HT Lc. destruct (gp_design z T row Hr HT) as (LT & E0 & E1). fold (val row 0) in E0. fold (val row 1) in E1.
  destruct (Qeq_dec 20 (val row 0 * at1 c 0)) as [E|E].
  - exists 1. split; [lia|]. split; [vm_compute; discriminate|]. rewrite gp_model, E1. change (at1 (pixels s_flux gp) 1) with 13%Q. intro E'. apply Nab.
    setoid_replace (13 * val row 0)%Q with ((val row 1 * at1 c 0) * val row 0)%Q by (rewrite <- E'; ring). setoid_replace (20 * val row 1)%Q with ((val row 0 * at1 c 0) * val row 1)%Q by (rewrite <- E; ring). ring.
  - exists 0. split; [lia|]. split; [vm_compute; discriminate|]. rewrite gp_model, E0. exact E.
Qed.
Definition row_at_z (z : Q) : list (list Q) := match row_of (t_wave (p_core ga5)) (t_flux (p_core ga5)) [30#2; 50#2; 70#2]%Q z with Ok r => r | Err _ => [] end.
Definition ok_at (z : Q) : bool := match row_of (t_wave (p_core ga5)) (t_flux (p_core ga5)) [30#2; 50#2; 70#2]%Q z with Ok r => true | Err _ => false end.
Lemma ok_at_row z : ok_at z = true -> row_of (t_wave (p_core ga5)) (t_flux (p_core ga5)) [30#2; 50#2; 70#2]%Q z = Ok (row_at_z z).
Proof. unfold ok_at, row_at_z. destruct (row_of _ _ _ _); [reflexivity|discriminate]. Qed.
Lemma gp_is_b z : (ok_at z && negb (Qeq_bool (val (row_at_z z) 0) 0) && Qeq_bool (13 * val (row_at_z z) 0) (20 * val (row_at_z z) 1))%Q%bool = true -> is_template no_igm ga5 gp z.
Proof.
  intro H. apply andb_true_iff in H as [H H3]. apply andb_true_iff in H as [H1 H2]. apply (gp_is z _ (ok_at_row z H1)); [|now apply Qeq_bool_iff].
  intro C. apply Qeq_bool_iff in C. rewrite C in H2. discriminate.
Qed.
Lemma gp_not_b z : (ok_at z && negb (Qeq_bool (13 * val (row_at_z z) 0) (20 * val (row_at_z z) 1)))%Q%bool = true -> not_template no_igm ga5 gp z.
Proof. intro H. apply andb_true_iff in H as [H1 H2]. apply (gp_not z _ (ok_at_row z H1)). intro C. apply Qeq_bool_iff in C. rewrite C in H2. discriminate. Qed.
Lemma demo_fails : fails_when_singular demo 1.
Proof.
  intros M y e Ly [LM FM] H. destruct M as [|r [|]]; try discriminate. inversion FM as [|? ? Lr _]; subst. destruct r as [|m [|]]; try discriminate. destruct y as [|v [|]]; try discriminate.
  cbn [linsolve demo] in H. destruct (Qeq_bool m 0) eqn:E; [|discriminate]. apply Qeq_bool_iff in E. exists [1%Q]. split; [reflexivity|]. split.
  - exists 0. split; [lia|]. cbn. discriminate.
  - intros r Hr. assert (r = 0) by lia. subst r. cbn [bigsum]. unfold at2, at1. cbn [nth]. rewrite E. ring.
Qed.
Local Notation prun ps := (run demo argsort0 lagrange3 (fun x => x) no_igm 2 3 ps [gp]).
Definition told (r : res (list frow)) : list (string * N * bool) := match r with Ok t => map (fun o => (f_type o, f_zwarn o, match Model_Zfind.f_chi2 o with Fin q => qlt 0 q | _ => false end)) t | Err _ => [] end.
Lemma told_both : told (prun [ga5; st5]) = [("STAR"%string, 2%N, true); ("GALAXY"%string, 1026%N, false)].
Proof. vm_compute. reflexivity. Qed.
Lemma told_ok r a b : told r = [a; b] -> exists o1 o2, r = Ok [o1; o2] /\ (f_type o1, f_zwarn o1, match Model_Zfind.f_chi2 o1 with Fin q => qlt 0 q | _ => false end) = a /\ (f_type o2, f_zwarn o2, match Model_Zfind.f_chi2 o2 with Fin q => qlt 0 q | _ => false end) = b.
Proof. destruct r as [[|o1 [|o2 [|o3 t]]]|e]; cbn; try discriminate. intro H. injection H as <- <-. exists o1, o2. now repeat split. Qed.
Lemma gp_runs_on tab : prun [ga5; st5] = Ok tab -> runs_on demo argsort0 lagrange3 (fun x => x) no_igm 2 3 [ga5; st5] [gp] tab ga5 gp.
Proof.
  intro H. assert (O1 : forall t, In t ["GALAXY"; "STAR"; "F"; ""]%string -> name_ok t).
  { intros t Ht. destruct Ht as [<-|[<-|[<-|[<-|[]]]]]; (split; [match goal with |- trimmed ?x => exact (strip_trimmed x) end|intro C; apply contains_occurs in C; discriminate]). }
  assert (W : forall n, wf_csr (Props_GPU.idcsr n)).
  { intros n row jj Hr Hj. cbn in *. change (seq 0 (S n)) with (0 :: seq 1 n) in *. destruct row as [|row]; cbn [nth] in Hj; rewrite ?seq_nth in Hj by lia; rewrite seq_nth by lia; lia. }
  split; [exact argsort0_ok|]. split; [exact demo_linsolve|]. split; [exact demo_fails|]. split; [apply one_nodup|]. split.
  { intros g g' s s' [<-|[]] [<-|[]] [<-|[]] [<-|[]] _. reflexivity. }
  split; [lia|]. split; [exact H|]. split; [now left|]. split; [now left|]. split.
  { intros q [<-|[<-|[]]]; (split; [apply O1; cbn; tauto|split; [apply O1; cbn; tauto|]]); [now left|right]. intros [a E]. destruct a as [|? [|? [|? [|? [|? ?]]]]]; discriminate. }
  split; [discriminate|]. split. { intros q [<-|[<-|[]]] E; [reflexivity|discriminate]. }
  split.
  - split; [split; [discriminate|split; cbn; discriminate]|]. split; [reflexivity|]. split; [cbn; repeat constructor; discriminate|]. split; cbn; repeat constructor.
  - split; [constructor; [split; [apply W|repeat constructor; discriminate]|constructor]|vm_compute; discriminate].
Qed.
Lemma gp_grid : is_template no_igm ga5 gp (nth 2 (p_zs ga5) 0%Q) /\ (forall t, t < length (p_zs ga5) -> t <> 2 -> not_template no_igm ga5 gp (nth t (p_zs ga5) 0%Q)) /\ is_template no_igm ga5 gp ((1#4) + inject_Z (Z.of_nat 1) * ((3#4) - (1#4)) / inject_Z (Z.of_nat (3 - 1)))%Q.
Proof.
  split; [apply gp_is_b; vm_compute; reflexivity|]. split; [|apply gp_is_b; vm_compute; reflexivity].
  intros t Ht Ne. cbn [ga5 tm5 p_zs length] in Ht. destruct t as [|[|[|[|[|t]]]]]; try lia; apply gp_not_b; vm_compute; reflexivity.
Qed.
Example C176_nonvacuous : exists tab, runs_on demo argsort0 lagrange3 (fun x => x) no_igm 2 3 [ga5; st5] [gp] tab ga5 gp /\ 2 < length (p_zs ga5) /\ polyfit3_ok lagrange3 /\ nth_error (p_zs ga5) (2 - 1) = Some (1#4)%Q /\ nth_error (p_zs ga5) (Nat.min (2 + 1) (length (p_zs ga5) - 1)) = Some (3#4)%Q.
Proof.
  destruct (told_ok _ _ _ told_both) as (o1 & o2 & E & _ & _). exists [o1; o2]. split; [now apply gp_runs_on|]. split; [cbn; lia|]. split; [exact lagrange3_ok|]. now split.
Qed.
(* it need not be the best row: here a star template, with a worse chi2 but no flag, is put before the galaxy that fits exactly; the chi2 reported for the galaxy is negative *)
Theorem C176_best_row_refuted : exists ps tab p g i o o', runs_on demo argsort0 lagrange3 (fun x => x) no_igm 2 3 ps [g] tab p g /\ i < length (p_zs p) /\ is_template no_igm p g (nth i (p_zs p) 0%Q) /\ (forall t, t < length (p_zs p) -> t <> i -> not_template no_igm p g (nth t (p_zs p) 0%Q)) /\
  tab = [o; o'] /\ t_rrtype (p_core p) = "GALAXY"%string /\ f_type o = "STAR"%string /\ f_type o' = "GALAXY"%string /\ match Model_Zfind.f_chi2 o, Model_Zfind.f_chi2 o' with Fin a, Fin b => (0 < a /\ b <= 0)%Q | _, _ => False end.
Proof.
  destruct (told_ok _ _ _ told_both) as (o1 & o2 & E & M1 & M2). destruct gp_grid as (G1 & G2 & _).
  exists [ga5; st5], [o1; o2], ga5, gp, 2, o1, o2. split; [now apply gp_runs_on|]. split; [cbn; lia|]. split; [exact G1|]. split; [exact G2|]. split; [reflexivity|]. split; [reflexivity|].
  injection M1 as T1 _ C1. injection M2 as T2 _ C2. split; [exact T1|]. split; [exact T2|].
  assert (F1 : exists q, Model_Zfind.f_chi2 o1 = Fin q) by (destruct (Model_Zfind.f_chi2 o1); [now eexists|discriminate..]). 
  assert (F2 : exists q, Model_Zfind.f_chi2 o2 = Fin q). { destruct (rows_finite _ _ _ _ _ _ _ argsort0_ok _ _ _ o2 (one_nodup gp) E (or_intror (or_introl eq_refl))) as [q Hq]. now exists q. }
  destruct F1 as [q1 F1], F2 as [q2 F2]. rewrite F1 in *. rewrite F2 in *. split; [now apply qlt_iff|now apply qlt_false].
Qed.
Print Assumptions C176_recovered_partial. Print Assumptions C176_perfect_is_flagged. Print Assumptions C176_best_row_refuted.
