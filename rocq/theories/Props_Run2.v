(* Whole runs: the redshift and the chi2 of a row (C139), runs that succeed (C145). *)
From Verif Require Import Prelude PreludeFacts NumX Model_Fitz Spec_Fitz Props_Fitz Model_Rebin Spec_Rebin Model_Dist Model_Rank Spec_Rank Spec_Zfind Proof_Table Model_Zscan Spec_Zscan Props_Zscan2 Props_GPU Model_Piece Model_IO Spec_IO Proof_IO Model_Zfind Proof_Zfind
  Model_Run Spec_Run Proof_Run Proof_Run2 Proof_Run3 Proof_Run4 Proof_Run5 Proof_Run6 Proof_Run8 Proof_Run9 Props_Run.
Open Scope nat_scope.

Section Props.
Variables (slv : solvers) (argsort : list xq -> list nat) (polyfit : list Q -> list Q -> option (Q * Q * Q)) (isqrt : Q -> Q).
Variable trans : option string -> Q -> Q -> Q.
Variables (nminima nz : nat).
Notation run := (run slv argsort polyfit isqrt trans nminima nz).
Notation on_curve := (on_curve slv trans).

(* cc is the chi2 curve of the coarse scan, yy that of the fine scan between the neighbours of one of its dips, and the row is read off it *)
Theorem C139_chi2 : forall ps tgs tab o, argsort_ok argsort -> linsolve_ok slv -> NoDup (map g_id tgs) -> hashes_tell_grids tgs -> 3 <= nz -> run ps tgs = Ok tab -> In o tab ->
  (forall p, In p ps -> plain_names p /\ usable p /\ t_method (p_core p) = "PCA"%string /\ nondecreasing (p_zs p) /\ Forall (fun z => (-1 < z)%Q) (p_zs p) /\ Forall (fun r => length r = length (t_wave (p_core p))) (t_flux (p_core p))) ->
  (forall g, In g tgs -> Forall (fun s => wf_csr (s_R s) /\ nonneg (s_ivar s)) (data_of g) /\ ~ (sumQ (pixels s_ivar g) == 0)%Q) ->
  exists g p cc i zlo zhi zz yy k y, In g tgs /\ In p ps /\ f_tid o = g_id g /\ f_type o = stake 6 (t_rrtype (p_core p)) /\ f_sub o = p_sub p /\
    Forall2 (on_curve p g) (p_zs p) cc /\ dip cc i /\
    nth_error (p_zs p) (i - 1) = Some zlo /\ nth_error (p_zs p) (Nat.min (i + 1) (length (p_zs p) - 1)) = Some zhi /\ fine_grid zlo zhi nz zz /\
    Forall2 (on_curve p g) zz yy /\ smallest_at yy k /\ Model_Zfind.f_chi2 o = Fin y /\ read_off polyfit zz yy k (Model_Zfind.f_z o) y (N.testbit (Model_Zfind.f_zwarn o) 10).
Proof.
  intros ps tgs tab o A HS N C Hnz H Ho HP HG. destruct (row_source _ _ _ _ _ _ _ A ps tgs tab o N H Ho) as (g & p & td & row & fs & x & ts & Ig & Ip & _ & _ & Hparse & Ht & Hrow & Hfit & Ix & E1 & E2 & E3 & E4 & E5 & E6 & E7 & E8 & E9 & small & E10).
  destruct (HP p Ip) as ((N1 & N2 & N3) & U & Hm & Mono & Hm1 & Hr). destruct (HG g Ig) as [Hwn Hz].
  assert (Hw : Forall (fun s => wf_csr (s_R s)) (data_of g)) by (eapply Forall_impl; [|exact Hwn]; intros s [W _]; exact W).
  assert (Hn : Forall (fun s => nonneg (s_ivar s)) (data_of g)) by (eapply Forall_impl; [|exact Hwn]; intros s [_ W]; exact W).
  destruct N1 as [T1 O1], N2 as [T2 O2]. unfold full_type in Hparse. rewrite parse_make in Hparse by (rewrite ?(strip_id _ T1), ?(strip_id _ T2); auto). rewrite (strip_id _ T1), (strip_id _ T2) in Hparse. assert (ts = (t_rrtype (p_core p), p_sub p)) by congruence. subst ts. cbn [fst snd] in *.
  assert (C1 : hashes_tell_grids [g]) by (eapply hashes_incl; [|exact C]; intros g' [<-|[]]; exact Ig).
  destruct (fit_curve slv argsort polyfit isqrt trans nminima nz A p g _ fs x Mono Hm1 Hnz Hfit Ix) as (w & f & wf & i & zlo & zhi & zz & yy & k & Ed & Di & Lc & Lo & Hi & FG & Hyy & SM & RO).
  assert (B10 : N.testbit (Model_Zfind.f_zwarn o) 10 = Z.testbit (Model_Fitz.f_zwarn x) 10) by (rewrite E10; cbn [N.eqb Pos.eqb andb]; now rewrite !orb_false_r).
  exists g, p, (map2 Qplus (fst (fst row)) (snd row)), i, zlo, zhi, zz, yy, k, (Model_Fitz.f_chi2 x). split; [exact Ig|]. split; [exact Ip|]. split; [exact E1|]. split; [exact E2|]. split; [exact E3|]. split.
  { apply (scan_curve slv trans p g (grids tgs) td); auto.
    - intros s Hs. apply (grids_get tgs (q_hash s) (q_wave s) (grids_once tgs C)). exists s. split; [apply in_flat_map; now exists g|now split].
    - intro Z0. rewrite Z0 in Lo. destruct (i - 1); discriminate. }
  split; [exact Di|]. split; [exact Lo|]. split; [exact Hi|]. split; [exact FG|]. split.
  { apply mapM_Forall2 in Hyy. eapply Forall2_impl; [|exact Hyy]. intros a b. cbv beta. apply (fine_curve slv trans p g HS Hm U Hr Hw Hn Hz); assumption. }
  split; [exact SM|]. split; [exact E6|]. rewrite E4, B10. exact RO.
Qed.

(* ---------------- C145: when a run succeeds ---------------- *)
Lemma plain_parse p : plain_names p -> exists ts, parse_fulltype (full_type p) = Ok ts.
Proof. intros (N1 & N2 & N3). destruct N1 as [T1 O1], N2 as [T2 O2]. unfold full_type. rewrite parse_make by (rewrite ?(strip_id _ T1), ?(strip_id _ T2); auto). now eexists. Qed.
Theorem C145_succeeds : forall ps tgs, argsort_ok argsort -> solvers_return slv -> 0 < nz -> 0 < nminima -> ps <> [] -> tgs <> [] ->
  NoDup (map full_type ps) -> NoDup (map g_id tgs) -> hashes_tell_grids tgs ->
  (forall p, In p ps -> sound_template p /\ plain_names p /\ full_type p <> "meta"%string) -> (forall g, In g tgs -> sound_target g) ->
  ((exists tab, run ps tgs = Ok tab) <-> forall p g s z, In p ps -> In g tgs -> In s (g_spectra g) -> In z (p_zs p) -> covered p (q_wave s) z).
Proof.
  intros ps tgs A HR Hn Hm Np Nt Nf Ni C HP HG. apply run_covered; auto. intros p Ip. destruct (HP p Ip) as (S & P & M). split; [exact S|]. split; [exact M|]. now apply plain_parse.
Qed.
(* then every target gets rows, every template has its best fit among them (C139_no_template_lost) *)
Theorem C145_every_target : forall ps tgs tab g, argsort_ok argsort -> NoDup (map g_id tgs) -> hashes_tell_grids tgs -> run ps tgs = Ok tab -> In g tgs -> rows_of (g_id g) tab <> [].
Proof.
  intros ps tgs tab g A N C H I. destruct (run_alone _ _ _ _ _ _ _ A _ _ _ _ N C H I) as (t & Ht & F).
  destruct (run_parts _ _ _ _ _ _ _ A _ _ _ (one_nodup g) Ht) as (tds & bss & ts & cut & _ & P & _ & F2 & E & _).
  assert (Ne : t <> []). { destruct bss as [|bs bss]; [inversion F2; subst; cbn in *; exfalso|]. 2:{ cbn [combine] in F2. inversion F2 as [|? t1 ? ts' A1 F3]; subst. pose proof (out_nonempty _ _ _ _ _ A1 P) as Hne. cbn [map concat]. destruct t1; [congruence|discriminate]. }
    apply run_one in Ht as (tds' & bs & t1 & _ & _ & At & St). pose proof (out_nonempty _ _ _ _ _ At P) as Hne. destruct (standardise_eq _ _ _ St) as (_ & cut' & E' & _). destruct t1; [congruence|discriminate]. }
  intro E0. rewrite E0 in F. inversion F. congruence.
Qed.
End Props.
Example C139_chi2_nonvacuous : argsort_ok argsort0 /\ linsolve_ok demo /\ 3 <= 3 /\ (forall p, In p [ga; st] -> Forall (fun z => (-1 < z)%Q) (p_zs p) /\ Forall (fun r => length r = length (t_wave (p_core p))) (t_flux (p_core p))) /\
  exists tab o, erun [ga; st] [g1; g2] = Ok tab /\ In o tab /\ N.testbit (Model_Zfind.f_zwarn o) 10 = false.
Proof.
  split; [exact argsort0_ok|]. split; [exact demo_linsolve|]. split; [lia|]. split; [intros p [<-|[<-|[]]]; split; repeat constructor; reflexivity|]. apply C139_nonvacuous.
Qed.
Lemma inc2 l : (forall i, S i < length l -> (nth i l 0 < nth (S i) l 0)%Q) -> strictly_increasing l.
Proof.
  intros H i j Hij. induction j as [|j IH]; intro Hj; [lia|]. destruct (Nat.eq_dec i j) as [->|]; [now apply H|].
  eapply Qlt_trans; [apply IH; lia|now apply H].
Qed.
Lemma ga_sound : forall p, In p [ga; st] -> sound_template p.
Proof.
  intros p Hp. assert (E : t_wave (p_core p) = [5; 10; 20; 40]%Q /\ p_zs p = [0; 1#2; 1]%Q /\ Forall (fun r => length r = 4) (t_flux (p_core p))) by (destruct Hp as [<-|[<-|[]]]; repeat split; repeat constructor).
  destruct E as (E1 & E2 & E3). unfold sound_template. rewrite E1, E2. split; [discriminate|]. split; [apply inc2; cbn [length]; intros [|[|[|[|i]]]] Hi; cbn [nth]; try lia; reflexivity|]. split; [cbn; lra|]. split; [exact E3|]. split; [cbn; lia|]. split; repeat constructor; discriminate.
Qed.
Lemma tg_sound i h a b iv fl : (0 < a)%Q -> (a < b)%Q -> length iv = 2 -> length fl = 2 -> sound_target (tg i h [a; b] iv fl).
Proof.
  intros P L Hi Hf. split; [discriminate|]. constructor; [|constructor]. cbn. split; [lia|]. split; [|split; [exact P|split; [reflexivity|now split]]].
  apply inc2. cbn [length]. intros [|[|i']] Hx; cbn [nth]; try lia. exact L.
Qed.
Example C145_nonvacuous : solvers_return demo /\ (forall p, In p [ga; st] -> sound_template p) /\ (forall g, In g [g1; g2; gout] -> sound_target g) /\
  (exists tab, erun [ga; st] [g1; g2] = Ok tab) /\ err (erun [ga; st] [g1; gout]) = Some ValueError /\ ~ covered ga (q_wave (hd (Build_rspec [] (Build_spectrum 0 [] [] (idcsr 0))) (g_spectra gout))) 0.
Proof.
  split; [|split; [exact ga_sound|split; [|split; [|split]]]].
  - split; [|split]; intros; [| |reflexivity]; unfold demo; cbn [linsolve nnls].
    + destruct M as [|[|m [|]] [|]], y as [|v [|]]; try reflexivity. now destruct (Qeq_bool m 0).
    + destruct M as [|[|a [|b [|]]] [|[|c [|d [|]]] [|]]], y as [|u [|v [|]]]; try exact Logic.I. now destruct (_ && _).
  - intros g [<-|[<-|[<-|[]]]]; apply tg_sound; reflexivity.
  - destruct (tell_ok _ _ _ run_two) as (tab & E & _). now exists tab.
  - vm_compute. reflexivity.
  - intros [_ H]. vm_compute in H. now apply H.
Qed.
Print Assumptions C139_chi2.
Print Assumptions C145_succeeds. Print Assumptions C145_every_target.
