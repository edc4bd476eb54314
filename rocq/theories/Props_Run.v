(* Whole runs: C138-C143. *)
From Verif Require Import Prelude PreludeFacts NumX Model_Fitz Spec_Fitz Props_Fitz Model_Rebin Model_Dist Model_Rank Spec_Rank Spec_Zfind Proof_Table Model_Zscan Spec_Zscan Props_Zscan2 Props_GPU Model_Piece Model_IO Spec_IO Proof_IO Model_Zfind Proof_Zfind
  Model_Run Spec_Run Proof_Run Proof_Run2 Proof_Run3 Proof_Run4 Proof_Run5 Proof_Run6 Proof_Run7.
Open Scope nat_scope.

Section Props.
Variables (slv : solvers) (argsort : list xq -> list nat) (polyfit : list Q -> list Q -> option (Q * Q * Q)) (isqrt : Q -> Q).
Variable trans : option string -> Q -> Q -> Q.
Variables (nminima nz : nat).
Notation run := (run slv argsort polyfit isqrt trans nminima nz).

(* ---------------- C138: the other targets do not matter ---------------- *)
Theorem C138_isolated : forall ps tgs tab g, argsort_ok argsort -> NoDup (map g_id tgs) -> hashes_tell_grids tgs -> run ps tgs = Ok tab -> In g tgs ->
  exists tab1, run ps [g] = Ok tab1 /\ Forall2 same_row (rows_of (g_id g) tab) tab1.
Proof. intros ps tgs tab g A. now apply run_alone. Qed.
Theorem C138_neighbours : forall ps tgs tgs' tab tab' g, argsort_ok argsort -> NoDup (map g_id tgs) -> NoDup (map g_id tgs') -> hashes_tell_grids tgs -> hashes_tell_grids tgs' ->
  run ps tgs = Ok tab -> run ps tgs' = Ok tab' -> In g tgs -> In g tgs' -> Forall2 same_row (rows_of (g_id g) tab) (rows_of (g_id g) tab').
Proof. intros ps tgs tgs' tab tab' g A. now apply neighbours. Qed.
Theorem C138_all_or_none : forall ps tgs, argsort_ok argsort -> NoDup (map g_id tgs) -> hashes_tell_grids tgs -> tgs <> [] ->
  ((exists tab, run ps tgs = Ok tab) <-> forall g, In g tgs -> exists tab1, run ps [g] = Ok tab1).
Proof.
  intros ps tgs A N C NE. split.
  - intros [tab H] g I. destruct (run_alone _ _ _ _ _ _ _ A _ _ _ _ N C H I) as (t & Ht & _). now exists t.
  - now apply run_all.
Qed.
(* targets in the order given, their rows together; no target without rows, no other rows *)
Theorem C138_order : forall ps tgs tab, argsort_ok argsort -> NoDup (map g_id tgs) -> run ps tgs = Ok tab ->
  tab = flat_map (fun g => rows_of (g_id g) tab) tgs.
Proof. intros ps tgs tab A. now apply run_order. Qed.

(* ---------------- C139: where a row comes from ---------------- *)
Definition plain_names (p : tmpl) : Prop := name_ok (t_rrtype (p_core p)) /\ name_ok (p_sub p) /\ (p_sub p = ""%string \/ ~ ends_colon (t_rrtype (p_core p))).
Theorem C139_row : forall ps tgs tab o, argsort_ok argsort -> NoDup (map g_id tgs) -> run ps tgs = Ok tab -> In o tab -> (forall p, In p ps -> plain_names p /\ nondecreasing (p_zs p)) ->
  exists g p, In g tgs /\ In p ps /\ f_tid o = g_id g /\ f_type o = stake 6 (t_rrtype (p_core p)) /\ f_sub o = p_sub p /\
   (hd 0 (p_zs p) <= Model_Zfind.f_z o /\ Model_Zfind.f_z o <= last (p_zs p) 0)%Q /\
   f_npix o = N.of_nat (length (filter (fun v => qlt 0 v) (pixels s_ivar g))) /\ f_ncoeff o = N.of_nat (length (t_flux (p_core p))) /\
   (forall k, length (t_flux (p_core p)) <= k -> nth k (Model_Zfind.f_coeff o) 0%Q = 0%Q) /\
   (N.testbit (Model_Zfind.f_zwarn o) 9 = true <-> f_npix o = 0%N) /\ (N.testbit (Model_Zfind.f_zwarn o) 1 = true <-> (f_npix o < 10 * f_ncoeff o)%N) /\
   (forall b, N.testbit (Model_Zfind.f_zwarn o) b = true -> In b [1; 2; 5; 9; 10]%N).
Proof.
  intros ps tgs tab o A N H Ho HP. destruct (row_source _ _ _ _ _ _ _ A ps tgs tab o N H Ho) as (g & p & td & row & fs & x & ts & Ig & Ip & _ & _ & Hparse & Ht & Hrow & Hfit & Ix & E1 & E2 & E3 & E4 & E5 & E6 & E7 & E8 & E9 & small & E10).
  destruct (HP p Ip) as [(N1 & N2 & N3) Mono]. exists g, p. split; [exact Ig|]. split; [exact Ip|]. split; [exact E1|].
  destruct N1 as [T1 O1], N2 as [T2 O2]. unfold full_type in Hparse. rewrite parse_make in Hparse by (rewrite ?(strip_id _ T1), ?(strip_id _ T2); auto). rewrite (strip_id _ T1), (strip_id _ T2) in Hparse. assert (ts = (t_rrtype (p_core p), p_sub p)) by congruence. subst ts. cbn [fst snd] in *.
  split; [exact E2|]. split; [exact E3|]. split; [rewrite E4; eapply fit_range; eassumption|]. split; [rewrite E7; reflexivity|]. split; [exact E8|]. split.
  { intros k Hk. rewrite E9. destruct (fit_facts _ _ _ _ _ _ _ A _ _ _ _ Hfit) as (_ & _ & F). rewrite Forall_forall in F. apply nth_overflow. rewrite (F x Ix). exact Hk. }
  assert (FB : forall b, Z.testbit (Model_Fitz.f_zwarn x) b = true -> b = 5%Z \/ b = 10%Z) by (intros b; eapply fit_bits; eassumption).
  split; [|split].
  - rewrite E10, E7. destruct (Z.testbit (Model_Fitz.f_zwarn x) (Z.of_N 9)) eqn:Eb; [apply FB in Eb; lia|]. cbn [orb N.eqb andb Pos.eqb]. rewrite !orb_false_r. apply N.eqb_eq.
  - rewrite E10, E7, E8. destruct (Z.testbit (Model_Fitz.f_zwarn x) (Z.of_N 1)) eqn:Eb; [apply FB in Eb; lia|]. cbn [orb N.eqb andb Pos.eqb]. rewrite !orb_false_r. apply N.ltb_lt.
  - intros b Hb. rewrite E10 in Hb. apply orb_true_iff in Hb as [Hb|Hb]; [apply orb_true_iff in Hb as [Hb|Hb]; [apply orb_true_iff in Hb as [Hb|Hb]|]|].
    + apply FB in Hb. assert (b = 5 \/ b = 10)%N as [-> | ->] by lia; cbn; tauto.
    + apply andb_true_iff in Hb as [Hb _]. apply N.eqb_eq in Hb as ->. cbn; tauto.
    + apply andb_true_iff in Hb as [Hb _]. apply N.eqb_eq in Hb as ->. cbn; tauto.
    + apply andb_true_iff in Hb as [Hb _]. apply N.eqb_eq in Hb as ->. cbn; tauto.
Qed.
(* the coefficients of a row without BAD_MINFIT are the best ones at the redshift of the row *)
Theorem C139_coefficients : forall ps tgs tab o, argsort_ok argsort -> linsolve_ok slv -> NoDup (map g_id tgs) -> hashes_tell_grids tgs -> run ps tgs = Ok tab -> In o tab ->
  (forall p, In p ps -> usable p /\ t_method (p_core p) = "PCA"%string) ->
  (forall g, In g tgs -> Forall (fun s => wf_csr (s_R s) /\ nonneg (s_ivar s)) (data_of g) /\ ~ (sumQ (pixels s_ivar g) == 0)%Q) ->
  N.testbit (Model_Zfind.f_zwarn o) 10 = false ->
  exists g p T c, In g tgs /\ In p ps /\ f_tid o = g_id g /\ design_of trans p g (Model_Zfind.f_z o) T /\ length c = length (t_flux (p_core p)) /\ (forall k, nth k (Model_Zfind.f_coeff o) 0%Q = nth k c 0%Q) /\
   ((forall c', length c' = length c -> (chi2 (length T) (length c) (pixels s_ivar g) (pixels s_flux g) T c <= chi2 (length T) (length c) (pixels s_ivar g) (pixels s_flux g) T c')%Q)
    \/ (c = repeat 0%Q (length c) /\ exists M y e, linsolve slv M y = Err e)).
Proof.
  intros ps tgs tab o A HS N C H Ho HP HG Hb. destruct (row_source _ _ _ _ _ _ _ A ps tgs tab o N H Ho) as (g & p & td & row & fs & x & ts & Ig & Ip & _ & _ & Hparse & Ht & Hrow & Hfit & Ix & E1 & E2 & E3 & E4 & E5 & E6 & E7 & E8 & E9 & small & E10).
  destruct (HP p Ip) as [U Hm]. destruct (HG g Ig) as [Hw Hz].
  assert (Hf : Z.testbit (Model_Fitz.f_zwarn x) 10 = false). { specialize (E10 10%N). rewrite Hb in E10. symmetry in E10. apply orb_false_iff in E10 as [E10 _]. apply orb_false_iff in E10 as [E10 _]. apply orb_false_iff in E10 as [E10 _]. exact E10. }
  assert (C1 : hashes_tell_grids [g]) by (eapply hashes_incl; [|exact C]; intros g' [<-|[]]; exact Ig).
  destruct (unflagged_optimal slv argsort polyfit isqrt trans nminima nz A p g (map2 Qplus (fst (fst row)) (snd row)) fs x HS Hm U C1) as (T & D & L & Q); auto.
  { eapply Forall_impl; [|exact Hw]. intros s [W _]. exact W. } { eapply Forall_impl; [|exact Hw]. intros s [_ W]. exact W. }
  exists g, p, T, (Model_Fitz.f_coeff x). split; [exact Ig|]. split; [exact Ip|]. split; [exact E1|]. rewrite E4. split; [exact D|]. split; [exact L|]. split; [exact E9|]. rewrite L. destruct Q as [Q|(Q1 & Q2)]; [left; exact Q|right]. split; [exact Q1|exact Q2].
Qed.
(* no template is lost: of the fits of every single template a row of the same type, ranked no worse, is in the table *)
Theorem C139_no_template_lost : forall ps tgs tab g p, argsort_ok argsort -> NoDup (map g_id tgs) -> hashes_tell_grids tgs -> NoDup (map full_type ps) -> full_type p <> "meta"%string -> run ps tgs = Ok tab -> In g tgs -> In p ps ->
  exists tab1, run [p] [g] = Ok tab1 /\ tab1 <> [] /\ forall o1, In o1 tab1 -> exists o, In o (rows_of (g_id g) tab) /\ f_type o = f_type o1 /\ ranks_no_worse o o1.
Proof.
  intros ps tgs tab g p A N C Nf M H I Ip. destruct (run_alone _ _ _ _ _ _ _ A _ _ _ _ N C H I) as (t & Ht & F).
  destruct (run_single _ _ _ _ _ _ _ A ps g t p Nf M Ip Ht) as (tds & bs & b & t1 & tab1 & _ & _ & _ & _ & R1 & A1 & (m & cut & E) & _).
  exists tab1. split; [exact R1|]. split.
  - destruct (run_parts _ _ _ _ _ _ _ A _ _ _ (one_nodup g) R1) as (_ & _ & _ & _ & _ & P & _). pose proof (out_nonempty _ _ _ _ _ A1 P) as Hne. rewrite E. destruct t1; [congruence|discriminate].
  - intros o1 Ho1. destruct (best_kept _ _ _ _ _ _ _ A ps g t p tab1 o1 Nf M Ip Ht R1 Ho1) as (o & Io & Et & Hr). destruct (Forall2_in_r _ _ _ o F Io) as (o' & Io' & S'). exists o'. split; [exact Io'|].
    destruct S' as (_ & S1 & _ & _ & _ & S2 & S3 & _). split; [congruence|]. unfold ranks_no_worse in *. now rewrite S2, S3.
Qed.

(* ---------------- C140: the order of the templates does not matter ---------------- *)
Theorem C140_template_order_partial : forall ps ps' tgs tab, argsort_ok argsort -> NoDup (map g_id tgs) -> hashes_tell_grids tgs -> NoDup (map full_type ps) -> (forall p, In p ps -> full_type p <> "meta"%string) -> Permutation ps ps' -> run ps tgs = Ok tab ->
  (forall g p p' t t' o o', In g tgs -> In p ps -> In p' ps -> full_type p <> full_type p' -> run [p] [g] = Ok t -> run [p'] [g] = Ok t' -> In o t -> In o' t' -> ~ ties o o') ->
  exists tab', run ps' tgs = Ok tab' /\ Forall2 same_row tab tab'.
Proof. intros ps ps' tgs tab A. now apply run_perm. Qed.

(* ---------------- C141: a target without data ---------------- *)
Theorem C141_no_data : forall ps tgs tab g o, argsort_ok argsort -> NoDup (map g_id tgs) -> run ps tgs = Ok tab -> In g tgs -> Forall (fun s => Forall (fun v => v == 0)%Q (s_ivar s)) (data_of g) -> In o (rows_of (g_id g) tab) ->
  f_npix o = 0%N /\ N.testbit (Model_Zfind.f_zwarn o) 9 = true /\ (forall k, nth k (Model_Zfind.f_coeff o) 0%Q = 0%Q).
Proof.
  intros ps tgs tab g o A N H I Z0 Ho. unfold rows_of in Ho. apply filter_In in Ho as [Ho Hid]. apply Z.eqb_eq in Hid.
  destruct (row_source _ _ _ _ _ _ _ A ps tgs tab o N H Ho) as (g' & p & td & row & fs & x & ts & Ig & Ip & _ & _ & Hparse & Ht & Hrow & Hfit & Ix & E1 & E2 & E3 & E4 & E5 & E6 & E7 & E8 & E9 & small & E10).
  assert (g' = g). { clear -N I Ig Hid E1. rewrite Hid in E1. induction tgs as [|a l IH]; [destruct I|]. cbn [map] in N. inversion N as [|? ? N1 N2]; subst. destruct I as [->|I], Ig as [->|Ig]; auto; exfalso; apply N1; [rewrite E1|rewrite <- E1]; now apply in_map. }
  subst g'.
  assert (NP : npixels g = 0%N). { unfold npixels. replace (filter (fun v => qlt 0 v) (concat (map s_ivar (data_of g)))) with (@nil Q); [reflexivity|]. symmetry.
    assert (G : forall l, (forall v, In v l -> (v == 0)%Q) -> filter (fun v => qlt 0 v) l = []). { induction l as [|v l IH]; intro Hl; [reflexivity|]. cbn [filter]. destruct (qlt 0 v) eqn:Eq; [apply qlt_iff in Eq; rewrite (Hl v (or_introl eq_refl)) in Eq; now apply Qlt_irrefl in Eq|]. apply IH. intros; apply Hl. now right. }
    apply G. intros v Hv. apply in_concat in Hv as (l & Hl & Hv). apply in_map_iff in Hl as (s & <- & Hs). pose proof (proj1 (Forall_forall _ _) Z0 s Hs) as Q. exact (proj1 (Forall_forall _ _) Q v Hv). }
  split; [congruence|]. split; [rewrite E10, NP; cbn; now rewrite orb_true_r|]. intro k. rewrite E9, (nodata_coeff _ _ _ _ _ _ _ A p g _ fs x Z0 Hfit Ix). clear. generalize (nbasis p). intro n. revert k. induction n; intros [|k]; cbn; auto.
Qed.

(* ---------------- C142: two templates of the same full type ---------------- *)
(* the rows come from the last of them *)
Theorem C142_last_of_a_name : forall ps tgs tab o, argsort_ok argsort -> NoDup (map g_id tgs) -> run ps tgs = Ok tab -> In o tab -> (forall p, In p ps -> plain_names p) ->
  exists before p after, ps = before ++ p :: after /\ (forall q, In q after -> full_type q <> full_type p) /\ f_type o = stake 6 (t_rrtype (p_core p)) /\ f_sub o = p_sub p /\ f_ncoeff o = N.of_nat (length (t_flux (p_core p))).
Proof.
  intros ps tgs tab o A N H Ho HP. destruct (row_source _ _ _ _ _ _ _ A ps tgs tab o N H Ho) as (g & p & td & row & fs & x & ts & Ig & Ip & Pk & _ & Hparse & Ht & Hrow & Hfit & Ix & E1 & E2 & E3 & E4 & E5 & E6 & E7 & E8 & E9 & small & E10).
  destruct (HP p Ip) as ([T1 O1] & [T2 O2] & N3). unfold full_type in Hparse. rewrite parse_make in Hparse by (rewrite ?(strip_id _ T1), ?(strip_id _ T2); auto). rewrite (strip_id _ T1), (strip_id _ T2) in Hparse. assert (ts = (t_rrtype (p_core p), p_sub p)) by congruence. subst ts. cbn [fst snd] in *.
  assert (X : exists before after, ps = before ++ p :: after /\ forall q, In q after -> full_type q <> full_type p).
  { clear -Pk. unfold pick in Pk. revert Pk. generalize (full_type p) at 1 as ft. intros ft. induction ps as [|a l IH] using rev_ind; [discriminate|]. rewrite rev_app_distr. cbn [rev app find]. destruct (String.eqb_spec (full_type a) ft) as [E|E]; intro F.
    - injection F as <-. exists l, []. split; [reflexivity|intros q []].
    - destruct (IH F) as (b & af & -> & Hq). exists b, (af ++ [a]). split; [now rewrite <- app_assoc|]. intros q Iq. apply in_app_or in Iq as [Iq|[<-|[]]]; [now apply Hq|]. apply find_some in F as [_ F]. apply String.eqb_eq in F. congruence. }
  destruct X as (b & af & Eps & Hq). exists b, p, af. now repeat split.
Qed.
(* an earlier one may be replaced by any other of the name *)
Theorem C142_earlier_ignored : forall a q q' b p c tgs tab tab', argsort_ok argsort -> NoDup (map g_id tgs) -> hashes_tell_grids tgs -> full_type q = full_type p -> full_type q' = full_type p ->
  run (a ++ q :: b ++ p :: c) tgs = Ok tab -> run (a ++ q' :: b ++ p :: c) tgs = Ok tab' -> Forall2 same_row tab tab'.
Proof. intros a q q' b p c tgs tab tab' A N C E E'. destruct (pick_shadow a q q' b p c E E'). now apply run_picks. Qed.
(* but it must have as many redshifts *)
Theorem C142_lengths : forall ps tgs tab p q, argsort_ok argsort -> NoDup (map g_id tgs) -> run ps tgs = Ok tab -> In p ps -> In q ps -> full_type p = full_type q -> length (p_zs p) = length (p_zs q).
Proof. intros ps tgs tab p q A. now apply dup_lengths. Qed.

(* ---------------- C143: the refined scan, all redshifts at once or one by one ---------------- *)
Theorem C143_batch : forall p g w f wf zz l, usable p -> zz <> [] ->
  (scan_batch slv trans p g w f wf zz = Ok l <-> mapM (fine_scan slv trans p g w f wf) zz = Ok l).
Proof. intros p g w f wf zz l. now apply scan_batch_ok. Qed.
(* the template data of several redshifts are those of the single ones, and exist when those exist *)
Theorem C143_template_data : forall p dw zs td, usable p -> zs <> [] ->
  (tdata trans p dw zs = Ok td <-> Forall2 (fun kw kd => fst kd = fst kw /\ Forall2 (template_on trans p (snd kw)) zs (snd kd)) dw td).
Proof. intros p dw zs td. now apply tdata_rows. Qed.
End Props.

(* ---------------- concrete runs ---------------- *)
Definition no_igm (_ : option string) (_ _ : Q) : Q := 1%Q.
Definition tm (ty sub : string) (fl : list Q) : tmpl := {| p_core := {| t_rrtype := ty; t_method := "PCA"; t_wave := [5; 10; 20; 40]; t_flux := [fl] |}; p_sub := sub; p_igm := None; p_zs := [0; 1#2; 1] |}%Q.
Definition tg (i h : Z) (w iv fl : list Q) : targ := {| g_id := i; g_spectra := [{| q_wave := w; q_spec := {| s_hash := h; s_ivar := iv; s_flux := fl; s_R := idcsr (length w) |} |}] |}.
Definition ga := tm "GALAXY" "" [1; 2; 1; 1]%Q.
Definition st := tm "STAR" "F" [1; 3; 2; 1]%Q.
Definition g1 := tg 7 1 [20; 30]%Q [1; 1]%Q [5; 2]%Q.
Definition g2 := tg 9 2 [20; 28]%Q [1; 2]%Q [2; 1]%Q.
(* no pixel with weight *)
Definition g0 := tg 4 2 [20; 28]%Q [0; 0]%Q [2; 1]%Q.
(* wavelengths outside the templates *)
Definition gout := tg 5 3 [200; 300]%Q [1; 1]%Q [2; 1]%Q.
(* the hash of g1 for other wavelengths *)
Definition gclash := tg 6 1 [12; 14]%Q [1; 2]%Q [1; 2]%Q.
Definition erun := run demo argsort0 lagrange3 (fun x => x) no_igm 2 3.
Local Opaque erun.
Definition tell (r : res (list frow)) : list (Z * string * N) := match r with Ok t => map (fun o => (f_tid o, f_type o, Model_Zfind.f_zwarn o)) t | Err _ => [] end.
Definition err (r : res (list frow)) : option exn := match r with Ok _ => None | Err e => Some e end.
Lemma tell_ok r x l : tell r = x :: l -> exists tab, r = Ok tab /\ map (fun o => (f_tid o, f_type o, Model_Zfind.f_zwarn o)) tab = x :: l.
Proof. destruct r as [tab|]; [|discriminate]. intro H. now exists tab. Qed.
Example run_two : tell (erun [ga; st] [g1; g2]) = [(7%Z, "GALAXY"%string, 34%N); (7%Z, "STAR"%string, 1058%N); (9%Z, "GALAXY"%string, 34%N); (9%Z, "STAR"%string, 34%N)].
Proof. vm_compute. reflexivity. Qed.
Lemma two_tell : hashes_tell_grids [g1; g2].
Proof. intros a b s s' [<-|[<-|[]]] [<-|[<-|[]]] [<-|[]] [<-|[]] E; cbn in *; congruence. Qed.
Example C138_nonvacuous : argsort_ok argsort0 /\ NoDup (map g_id [g1; g2]) /\ hashes_tell_grids [g1; g2] /\ exists tab, erun [ga; st] [g1; g2] = Ok tab /\ length (rows_of 7 tab) = 2 /\ length (rows_of 9 tab) = 2.
Proof.
  split; [exact argsort0_ok|]. split; [cbn; repeat constructor; cbn; intuition discriminate|]. split; [exact two_tell|]. destruct (tell_ok _ _ _ run_two) as (tab & E & M). exists tab. split; [exact E|].
  clear E. destruct tab as [|a [|b [|c [|d [|]]]]]; try discriminate M. cbn in M. injection M as Ea _ _ Eb _ _ Ec _ _ Ed _ _. unfold rows_of. cbn [filter]. rewrite Ea, Eb, Ec, Ed. now split.
Qed.
(* what the hypotheses are for: one target outside the templates stops the run of all; a repeated target id does; and with
   one hash for two wavelength grids a target depends on its neighbours *)
Example C138_one_stops_all : err (erun [ga] [g1; gout]) = Some ValueError /\ err (erun [ga] [g1]) = None.
Proof. vm_compute. now split. Qed.
Example C138_repeated_id : err (erun [ga] [g1; g1]) = Some KeyError.
Proof. vm_compute. reflexivity. Qed.
Example C138_hash_clash : match erun [ga] [g1; gclash], erun [ga] [gclash] with Ok t, Ok t1 => map (fun o => Qred (Model_Zfind.f_z o)) (rows_of 6 t) <> map (fun o => Qred (Model_Zfind.f_z o)) t1 | _, _ => False end.
Proof. vm_compute. discriminate. Qed.

Example C139_nonvacuous : (forall p, In p [ga; st] -> plain_names p /\ nondecreasing (p_zs p) /\ usable p /\ t_method (p_core p) = "PCA"%string) /\ NoDup (map full_type [ga; st]) /\ linsolve_ok demo /\
  (forall g, In g [g1; g2] -> Forall (fun s => wf_csr (s_R s) /\ nonneg (s_ivar s)) (data_of g) /\ ~ (sumQ (pixels s_ivar g) == 0)%Q) /\
  exists tab o, erun [ga; st] [g1; g2] = Ok tab /\ In o tab /\ N.testbit (Model_Zfind.f_zwarn o) 10 = false.
Proof.
  assert (O1 : forall t, In t ["GALAXY"; "STAR"; "F"; ""]%string -> name_ok t).
  { intros t Ht. destruct Ht as [<-|[<-|[<-|[<-|[]]]]]; (split; [match goal with |- trimmed ?x => exact (strip_trimmed x) end|intro H; apply contains_occurs in H; discriminate]). }
  split; [|split; [|split; [exact demo_linsolve|split]]].
  - intros p Hp. assert (Hu : usable p) by (destruct Hp as [<-|[<-|[]]]; (split; [discriminate|split; cbn; discriminate])).
    destruct Hp as [<-|[<-|[]]]; (split; [split; [apply O1; cbn; tauto|split; [apply O1; cbn; tauto|]]|split; [|split; [exact Hu|reflexivity]]]); [now left|cbn; repeat constructor; discriminate|right|cbn; repeat constructor; discriminate]. intros [a E]. destruct a as [|? [|? [|? [|? [|? ?]]]]]; discriminate.
  - cbn. repeat constructor; cbn; intuition discriminate.
  - intros g Hg. assert (W : forall n, wf_csr (idcsr n)).
    { intros n row jj Hr Hj. cbn in *. change (seq 0 (S n)) with (0 :: seq 1 n) in *. destruct row as [|row]; cbn [nth] in Hj; rewrite ?seq_nth in Hj by lia; rewrite seq_nth by lia; lia. }
    destruct Hg as [<-|[<-|[]]]; (split; [constructor; [split; [apply W|repeat constructor; discriminate]|constructor]|vm_compute; discriminate]).
  - destruct (tell_ok _ _ _ run_two) as (tab & E & M). destruct tab as [|a tab]; [discriminate M|]. exists (a :: tab), a. split; [exact E|]. clear E. split; [now left|]. cbn [map] in M. assert (X : Model_Zfind.f_zwarn a = 34%N) by congruence. now rewrite X.
Qed.

(* a target without data: all its fits tie, and the template given first comes first *)
Theorem C140_template_order_refuted : exists ps ps' g tab tab' o o', Permutation ps ps' /\ NoDup (map full_type ps) /\ erun ps [g] = Ok tab /\ erun ps' [g] = Ok tab' /\ hd_error tab = Some o /\ hd_error tab' = Some o' /\ f_type o <> f_type o'.
Proof.
  assert (T1 : tell (erun [ga; st] [g0]) = [(4%Z, "GALAXY"%string, 1570%N); (4%Z, "GALAXY"%string, 1570%N); (4%Z, "STAR"%string, 1570%N); (4%Z, "STAR"%string, 1570%N)]) by (vm_compute; reflexivity).
  assert (T2 : tell (erun [st; ga] [g0]) = [(4%Z, "STAR"%string, 1570%N); (4%Z, "STAR"%string, 1570%N); (4%Z, "GALAXY"%string, 1570%N); (4%Z, "GALAXY"%string, 1570%N)]) by (vm_compute; reflexivity).
  destruct (tell_ok _ _ _ T1) as (tab & E & M), (tell_ok _ _ _ T2) as (tab' & E' & M'). destruct tab as [|o tab]; [discriminate M|]. destruct tab' as [|o' tab']; [discriminate M'|].
  exists [ga; st], [st; ga], g0, (o :: tab), (o' :: tab'), o, o'. cbn [map] in M, M'. assert (H : f_type o = "GALAXY"%string) by (clear -M; congruence). assert (H0 : f_type o' = "STAR"%string) by (clear -M'; congruence).
  split; [apply perm_swap|]. split; [cbn; repeat constructor; cbn; intuition discriminate|]. split; [exact E|]. split; [exact E'|]. split; [reflexivity|]. split; [reflexivity|]. rewrite H, H0. discriminate.
Qed.
Example C140_nonvacuous : forall g p p' t t' o o', In g [g1; g2] -> In p [ga; st] -> In p' [ga; st] -> full_type p <> full_type p' -> erun [p] [g] = Ok t -> erun [p'] [g] = Ok t' -> In o t -> In o' t' -> ~ ties o o'.
Proof.
  assert (K : forallb (fun g => match erun [ga] [g], erun [st] [g] with Ok t, Ok t' => forallb (fun o => forallb (fun o' => negb (row_le o o' && row_le o' o)) t') t | _, _ => false end) [g1; g2] = true) by (vm_compute; reflexivity).
  intros g p p' t t' o o' Ig Ip Ip' Ne R R' Io Io' [T1 T2]. rewrite forallb_forall in K. specialize (K g Ig).
  unfold ranks_no_worse in *. apply row_le_no_worse in T1, T2.
  destruct Ip as [<-|[<-|[]]], Ip' as [<-|[<-|[]]]; try (exfalso; apply Ne; reflexivity); rewrite R, R' in K; clear R R'; rewrite forallb_forall in K; [specialize (K o Io)|specialize (K o' Io')]; rewrite forallb_forall in K; [specialize (K o' Io')|specialize (K o Io)]; rewrite T1, T2 in K; discriminate K.
Qed.
Example C141_nonvacuous : Forall (fun s => Forall (fun v => v == 0)%Q (s_ivar s)) (data_of g0) /\ tell (erun [ga; st] [g1; g0]) = [(7%Z, "GALAXY"%string, 34%N); (7%Z, "STAR"%string, 1058%N); (4%Z, "GALAXY"%string, 1570%N); (4%Z, "GALAXY"%string, 1570%N); (4%Z, "STAR"%string, 1570%N); (4%Z, "STAR"%string, 1570%N)].
Proof. split; [repeat constructor|vm_compute; reflexivity]. Qed.
(* another galaxy template of the same name, and one with other redshifts *)
Definition ga2 := tm "GALAXY" "" [2; 1; 1; 1]%Q.
Definition ga3 := {| p_core := p_core ga; p_sub := ""; p_igm := None; p_zs := [0; 1#2]%Q |}.
Example C142_nonvacuous : full_type ga2 = full_type ga /\ err (erun ([] ++ ga2 :: [st] ++ ga :: []) [g1]) = None /\ err (erun ([] ++ ga :: [st] ++ ga :: []) [g1]) = None /\ err (erun [ga3; ga] [g1]) = Some AssertionError.
Proof. split; [reflexivity|]. vm_compute. now repeat split. Qed.
Example C143_nonvacuous : usable ga /\ match scan_batch demo no_igm ga g1 [1; 1]%Q [5; 2]%Q [5; 2]%Q [0; 1#2]%Q with Ok l => length l = 2 | Err _ => False end.
Proof. split; [split; [discriminate|split; cbn; discriminate]|]. vm_compute. reflexivity. Qed.

Print Assumptions C138_isolated. Print Assumptions C138_neighbours. Print Assumptions C138_all_or_none. Print Assumptions C138_order.
Print Assumptions C139_row. Print Assumptions C139_coefficients. Print Assumptions C139_no_template_lost.
Print Assumptions C140_template_order_partial. Print Assumptions C140_template_order_refuted. Print Assumptions C141_no_data.
Print Assumptions C142_last_of_a_name. Print Assumptions C142_earlier_ignored. Print Assumptions C142_lengths. Print Assumptions C143_batch. Print Assumptions C143_template_data.
