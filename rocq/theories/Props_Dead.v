(* Pixels that carry no information do not change the result of rrdesi: C155. *)
From Verif Require Import Prelude PreludeFacts NumX Facts2 Model_Fitz Proof_Fitz Model_Rebin Model_Dist Model_Zscan Model_Piece Model_IO Model_Zfind Model_Targets Model_Desi Spec_Desi Proof_Desi2 Proof_Desi4 Props_Desi Proof_Table
  Model_Run Proof_Run Proof_Run2 Proof_Run3 Proof_Run7 Model_RunMPI Model_RunDesi Spec_RunDesi Proof_RunDesi Spec_Dead Proof_Dead Proof_Dead2 Props_GPU Props_Zscan2 Props_Fitz Props_Run Props_RunDesi.
Open Scope nat_scope.

Lemma live_sym n {R} (r r' : fullrow R) : same_live n r r' -> same_live n r' r.
Proof.
  intros (A & B & C & D & E & F). split; [now symmetry|]. split; [now symmetry|]. split; [now symmetry|]. split; [congruence|]. split; [congruence|]. intros i Hi. destruct (F i ltac:(lia)) as [G H]. split; [now symmetry|]. intro L. apply G in L. destruct (H L). now split.
Qed.
Lemma alike_sym n {R} (f f' : sfile R) : alike n f f' -> alike n f' f.
Proof. intros (A & B & C & D). split; [now symmetry|]. split; [now symmetry|]. split; [now symmetry|]. intros b Hb. rewrite <- C in Hb. apply F2_sym; [|exact (D b Hb)]. intros x y. apply live_sym. Qed.
Lemma alike_rows n {R} (fs fs' : list (sfile R)) t : Forall2 (alike n) fs fs' -> Forall2 (same_live n) (target_rows fs t) (target_rows fs' t).
Proof.
  intro F. unfold target_rows. induction F as [|f f' fs fs' (A & B & C & D) _ IH]; [constructor|]. cbn [filter]. rewrite <- B. destruct (zmem t (sf_keep f)); [|exact IH]. cbn [map concat]. apply Forall2_app; [|exact IH]. rewrite <- C, <- A.
  assert (G : forall bs, incl bs (sf_bands f) -> Forall2 (same_live n) (concat (map (fun b => Spec_Desi.rows_of (sf_ids f) t (full_rows f b)) bs)) (concat (map (fun b => Spec_Desi.rows_of (sf_ids f) t (full_rows f' b)) bs))); [|apply G, incl_refl].
  induction bs as [|b bs IHb]; intro I; [constructor|]. cbn [map concat]. apply Forall2_app; [|apply IHb; intros x Hx; apply I; now right]. specialize (D b (I b (or_introl eq_refl))). clear -D. unfold Spec_Desi.rows_of. revert D. generalize (full_rows f b) as l. generalize (full_rows f' b) as l'. generalize (sf_ids f) as ids. clear.
  induction ids as [|i ids IH]; intros l' l D; [constructor|]. destruct D as [|r r' l l' H D]; [constructor|]. cbn [combine filter fst]. destruct (i =? t)%Z; cbn [map snd]; [constructor; [exact H|]|]; now apply IH.
Qed.
Lemma alike_ids n (fs fs' : list (sfile dia)) : Forall2 (alike n) fs fs' -> map sf_keep fs = map sf_keep fs'.
Proof. induction 1 as [|f f' l l' (_ & B & _) _ IH]; [reflexivity|]. cbn [map]. now rewrite B, IH. Qed.

Section Props.
Variables (slv : solvers) (argsort : list xq -> list nat) (polyfit : list Q -> list Q -> option (Q * Q * Q)) (isqrt : Q -> Q).
Variable trans : option string -> Q -> Q -> Q.
Variables (nminima nz : nat).
Variables (hashf : hash_arg -> Z) (tocsr : dia -> csr) (fb : fbits).
Notation rrdesi := (rrdesi slv argsort polyfit isqrt trans nminima nz hashf tocsr fb).

(* Files that differ only in pixels that are masked, not finite, significantly negative or of zero inverse variance give the same table, bit for bit. *)
Theorem C155_dead_pixels : forall o ps ds ds' fs fs' tab, open_files o ds = Ok fs -> open_files o ds' = Ok fs' -> in_order fs -> in_order fs' ->
  Forall2 (alike (o_negflux o)) fs fs' -> map df_fm ds = map df_fm ds' -> (rrdesi o ps ds = Ok tab <-> rrdesi o ps ds' = Ok tab).
Proof.
  assert (G : forall o ps ds ds' fs fs' tab, open_files o ds = Ok fs -> open_files o ds' = Ok fs' -> in_order fs -> in_order fs' -> Forall2 (alike (o_negflux o)) fs fs' -> map df_fm ds = map df_fm ds' -> rrdesi o ps ds = Ok tab -> rrdesi o ps ds' = Ok tab).
  { intros o ps ds ds' fs fs' tab E E' Or Or' F Fm H. apply (rrdesi_run slv argsort polyfit isqrt trans nminima nz hashf tocsr fb o ps ds fs tab E Or) in H as (tgs & tab0 & Ei & R & Hr & ->). apply (rrdesi_run slv argsort polyfit isqrt trans nminima nz hashf tocsr fb o ps ds' fs' _ E' Or').
    assert (X : exists tgs', Forall2 gveq tgs tgs' /\ forall g, In g tgs' -> reads hashf tocsr o fs' g).
    { clear -R F Or'. induction tgs as [|g tgs IH]; [exists []; split; [constructor|intros g []]|]. destruct IH as (m & Fm & Rm); [intros; apply R; now right|].
      destruct (reads_dead hashf tocsr o fs fs' g (alike_rows _ _ _ _ F)) as (g' & Rg & Vg); [|apply R; now left|].
      - intros r' Hr. pose proof (expect_rows (Build_dia [] [] 0) (o_negflux o) fs' (g_id g) (proj1 Or')) as Ex. destruct (Forall2_in_r _ _ _ _ Ex Hr) as (s & _ & Hs). now exists s.
      - exists (g' :: m). split; [now constructor|]. intros x [<-|Hx]; auto. }
    destruct X as (tgs' & V & R'). exists tgs', tab0. rewrite <- (gveq_ids _ _ V), Ei. split; [unfold all_ids; now rewrite (alike_ids _ _ _ F)|]. split; [exact R'|]. rewrite <- (run_dead slv argsort polyfit isqrt trans nminima nz ps _ _ V). split; [exact Hr|].
    f_equal. f_equal. clear -F Fm. unfold fibermap. revert ds ds' Fm. induction F as [|f f' fs fs' (_ & B & _) _ IH]; intros [|d ds] [|d' ds'] Fm; try discriminate; [reflexivity..|]. cbn [combine map concat fst snd]. injection Fm as Ed Fm. rewrite Ed, B, (IH ds ds' Fm). reflexivity. }
  intros o ps ds ds' fs fs' tab E E' Or Or' F Fm. split; eapply G; try eassumption; [|now symmetry]. apply F2_sym; [|exact F]. intros x y. apply alike_sym.
Qed.

(* ---------------- C156 ---------------- *)
(* Coadded spectra: a pixel where the resolution matrix of the spectrum sums to less than 0.99 has no weight in the scan and the fit. *)
Theorem C156_coadd : forall o fs g s, o_allspec o = false -> reads hashf tocsr o fs g -> In s (data_of g) -> length (Model_Zscan.s_ivar s) = length (Model_Zscan.s_flux s) /\
  exists r, s_R s = tocsr r /\ forall i, (row_sum r i < 99 # 100)%Q -> nth i (Model_Zscan.s_ivar s) 0%Q = 0%Q.
Proof.
  intros o fs g s Ho (sl & _ & Hp) Is. unfold prepare in Hp. rewrite Ho in Hp. destruct (mapM (spec_of o) sl) as [l|]; cbn [rbind] in Hp; [|discriminate]. destruct (compute_coadd hashf true (o_cosmics o) l) as [m|] eqn:Ec; cbn [rbind] in Hp; [|discriminate].
  destruct (mapM (seen tocsr o) m) as [qs|] eqn:Eq; cbn [rbind] in Hp; [|discriminate]. unfold data_of in Is. pose proof (f_equal (fun x => match x with Ok y => g_spectra y | Err _ => [] end) Hp) as Eg. cbn [g_spectra] in Eg. rewrite <- Eg in Is. apply in_map_iff in Is as (q & <- & Iq). apply mapM_Forall2 in Eq. destruct (Forall2_in_r _ _ _ _ Eq Iq) as (c & Ic & Hc).
  pose proof (compute_len hashf true (o_cosmics o) l m c Ec Ic) as Lc. unfold compute_coadd in Ec. apply mapM_Forall2 in Ec. destruct (Forall2_in_r _ _ _ _ Ec Ic) as (k & _ & Hk). cbv beta in Hk. clear -Hk Hc Lc.
  unfold seen in Hc. destruct (sp_R c) as [r|] eqn:Er; [|discriminate]. assert (Eqq : q = {| q_wave := sp_wave c; q_spec := {| s_hash := key_code (sp_hash c); Model_Zscan.s_ivar := mask_sky o (sp_wave c) (sp_ivar c); Model_Zscan.s_flux := sp_flux c; s_R := tocsr r |} |}) by congruence. subst q. cbn [q_spec Model_Zscan.s_ivar Model_Zscan.s_flux s_R]. clear Hc.
  assert (X : length (sp_flux c) = length (sp_wave c) /\ forall i, (row_sum r i < 99 # 100)%Q -> nth i (sp_ivar c) 0%Q = 0%Q).
  { unfold coadd_group in Hk. destruct (group_of l k) as [|s0 rest]; [discriminate|]. destruct (sp_R s0) as [R0|]; [|discriminate]. cbv zeta in Hk. destruct (scale_data _ _) as [rd|]; cbn [rbind] in Hk; [|discriminate]. destruct (acc_R _ _ _) as [Rd|]; cbn [rbind] in Hk; [|discriminate].
    destruct (if qlt 0 (o_cosmics o) then _ else _) as [iv|]; cbn [rbind] in Hk; [|discriminate]. destruct (negb _); [discriminate|]. unfold spectrum_init in Hk.
    match type of Hk with context [mask_lowres ?a ?b] => destruct (mask_lowres a b) as [iw|] eqn:Em end; cbn [rbind] in Hk; [|discriminate]. destruct (wavehash _ _ _ _) as [h|]; cbn [rbind] in Hk; [|discriminate]. cbn [fst] in Hk. set (R1 := {| d_off := d_off R0; d_data := _; d_n := _ |}) in *.
    assert (Ei : sp_ivar c = iw) by (injection Hk as <-; reflexivity). assert (ER : sp_R c = Some R1) by (injection Hk as <-; reflexivity). assert (Ef : length (sp_flux c) = length (sp_wave c)) by (injection Hk as <-; cbn [sp_flux sp_wave]; apply tab_length). split; [exact Ef|].
    assert (R1 = r) by congruence. subst r. rewrite Ei. clear -Em. intros i Hi. unfold mask_lowres in Em. destruct (_ =? _); [|discriminate]. assert (Ew : iw = map (fun p => if qlt (row_sum R1 (fst p)) min_resolution_integral then 0%Q else snd p) (enum (sum0 (length (sp_wave s0)) iv))) by congruence. rewrite Ew. clear Em Ew.
    destruct (Nat.lt_ge_cases i (length (sum0 (length (sp_wave s0)) iv))) as [L|L]; [|apply nth_overflow; unfold enum; rewrite map_length, enum_from_length; exact L].
    unfold enum. rewrite (nth_enum _ _ _ _ _ 0%Q) by exact L. cbn [fst snd]. rewrite Nat.add_0_l. destruct (qlt (row_sum R1 i) min_resolution_integral) eqn:Hq; [reflexivity|]. apply qlt_false in Hq. exfalso. unfold min_resolution_integral in Hq. apply Qle_not_lt in Hq. contradiction. }
  destruct X as [Lf X]. assert (Ls : length (mask_sky o (sp_wave c) (sp_ivar c)) = length (sp_wave c)) by (unfold mask_sky; destruct (o_skymask o); [unfold skymask; rewrite !map_length, combine_length, map_length, Lc; apply Nat.min_id|exact Lc]).
  split; [rewrite Ls; now symmetry|]. exists r. split; [reflexivity|]. intros i Hi. specialize (X i Hi). unfold mask_sky. destruct (o_skymask o); [|exact X]. unfold skymask. rewrite map_map. clear -X. revert i X. generalize (sp_wave c) as w. induction (sp_ivar c) as [|v l IH]; intros w i X; [destruct w, i; reflexivity|]. destruct w as [|x w]; [destruct i; reflexivity|]. cbn [map combine]. destruct i as [|i]; cbn [nth] in *; [|now apply IH]. cbn [fst snd]. rewrite X. destruct (_ || _); reflexivity.
Qed.
End Props.

(* ---------------- concrete runs ---------------- *)
Definition dM (fl iv : list (list xq)) (mk : list (list Z)) (r : dia) : dfile :=
  {| df_coadded := false; df_fm := map (fun t => {| fm_id := t; fm_status := 0; fm_objtype := "TGT" |}) [5; 7]%Z; df_exp := [5; 7; 5]%Z; df_bands := ["b"%string]; df_wave := fun _ => [20; 30]%Q;
     df_flux := fun _ => fl; df_ivar := fun _ => iv; df_mask := fun _ => Some mk; df_res := fun _ => map (fun _ => r) fl |}.
Definition m1 := dM [[Fin 5; Fin 2]; [Fin 2; Fin 1]; [Fin 4; Fin 2]] [[Fin 1; Fin 1]; [Fin 1; Fin 1]; [Fin 1; Fin 1]] [[0; 0]; [0; 0]; [0; 1]]%Z rid.
Definition m2 := dM [[Fin 5; Fin 2]; [Fin 2; Fin 1]; [Fin 4; NaN]] [[Fin 1; Fin 1]; [Fin 1; Fin 1]; [Fin 1; Fin 7]] [[0; 0]; [0; 0]; [0; 4]]%Z rid.
Definition m3 := dM [[Fin 5; Fin 2]; [Fin 2; Fin 1]; [Fin 3; Fin 2]] [[Fin 1; Fin 1]; [Fin 1; Fin 1]; [Fin 1; Fin 1]] [[0; 0]; [0; 0]; [0; 1]]%Z rid.
Local Notation drun := (rrdesi demo argsort0 lagrange3 (fun x => x) no_igm 2 3 (fun _ => 3%Z) (fun r => idcsr (d_n r)) dbits).
Definition sM (d : dfile) : sfile dia := {| sf_ids := input_ids d; sf_keep := [5; 7]%Z; sf_bands := df_bands d; sf_wave := df_wave d; sf_flux := df_flux d; sf_ivar := df_ivar d; sf_mask := df_mask d; sf_res := df_res d |}.
Lemma sM_order : in_order [sM m1] /\ in_order [sM m2].
Proof.
  split; (split; [intros f [<-|[]] b _; cbn; repeat split; try discriminate; try (intros md E; injection E as <-; reflexivity); try (intro j; destruct j as [|[|[|[|j]]]]; reflexivity); intros md j E; injection E as <-; destruct j as [|[|[|[|j]]]]; reflexivity|]);
    (split; [exists true; intros f b [<-|[]] _; cbn; split; congruence|intros f f' b [<-|[]] [<-|[]] _ _; reflexivity]).
Qed.
Lemma sM_alike : Forall2 (alike 5) [sM m1] [sM m2].
Proof.
  constructor; [|constructor]. split; [reflexivity|]. split; [reflexivity|]. split; [reflexivity|]. intros b _. cbn.
  constructor; [|constructor; [|constructor; [|constructor]]]; (split; [reflexivity|]; split; [reflexivity|]; split; [reflexivity|]; split; [reflexivity|]; split; [reflexivity|]); cbn [r_flux length]; intros i Hi; (destruct i as [|[|i]]; [| |lia]); try (split; [reflexivity|intros _; split; reflexivity]).
  split; [split|]; intros [(a & b' & _ & _ & _ & Z) _]; cbn in Z; discriminate.
Qed.
Definition chis (r : res (list frow)) : list Q := match r with Ok t => map (fun o => match Model_Zfind.f_chi2 o with Fin q => Qred q | _ => 0%Q end) t | Err _ => [] end.
Example C155_nonvacuous : open_files oall [m1] = Ok [sM m1] /\ open_files oall [m2] = Ok [sM m2] /\ in_order [sM m1] /\ in_order [sM m2] /\ Forall2 (alike (o_negflux oall)) [sM m1] [sM m2] /\ map df_fm [m1] = map df_fm [m2] /\ tell (drun oall [ga; st] [m1]) <> [] /\ chis (drun oall [ga; st] [m1]) <> chis (drun oall [ga; st] [m3]).
Proof. split; [reflexivity|]. split; [reflexivity|]. split; [apply sM_order|]. split; [apply sM_order|]. split; [exact sM_alike|]. split; [reflexivity|]. split; [vm_compute; discriminate|]. vm_compute. discriminate. Qed.

(* With --allspec such pixels count: the second pixel of every spectrum has a resolution sum of 1/2, and its flux changes the result. *)
Definition rlow : dia := {| d_off := [0%Z]; d_data := [[1; 1 # 2]%Q]; d_n := 2 |}.
Definition oeach : dopts := {| o_ids := None; o_first := None; o_n := None; o_allspec := true; o_cosmics := 0; o_negflux := 5; o_skymask := true |}.
Definition l1 := dM [[Fin 5; Fin 2]; [Fin 2; Fin 1]; [Fin 4; Fin 2]] [[Fin 1; Fin 1]; [Fin 1; Fin 1]; [Fin 1; Fin 1]] [[0; 0]; [0; 0]; [0; 0]]%Z rlow.
Definition l2 := dM [[Fin 5; Fin 3]; [Fin 2; Fin 9]; [Fin 4; Fin 4]] [[Fin 1; Fin 1]; [Fin 1; Fin 1]; [Fin 1; Fin 1]] [[0; 0]; [0; 0]; [0; 0]]%Z rlow.
Theorem C156_allspec_refuted : exists o d d', o_allspec o = true /\ (row_sum rlow 1 < 99 # 100)%Q /\ (forall b, df_res d b = map (fun _ => rlow) (df_flux d b)) /\
  (forall b i, map (fun r => nth i r NaN) (df_flux d b) = map (fun r => nth i r NaN) (df_flux d' b) \/ i = 1) /\ df_ivar d = df_ivar d' /\ df_mask d = df_mask d' /\ chis (drun o [ga; st] [d]) <> chis (drun o [ga; st] [d']).
Proof.
  exists oeach, l1, l2. split; [reflexivity|]. split; [reflexivity|]. split; [reflexivity|]. split; [intros b [|[|[|i]]]; [left; reflexivity|right; reflexivity|left; reflexivity|left; reflexivity]|]. split; [reflexivity|]. split; [reflexivity|]. vm_compute. discriminate.
Qed.
(* the same files without --allspec: no difference *)
Example C156_coadd_same : drun oall [ga; st] [l1] = drun oall [ga; st] [l2] /\ length (chis (drun oall [ga; st] [l1])) = 8.
Proof. vm_compute. now split. Qed.
Print Assumptions C155_dead_pixels. Print Assumptions C156_coadd. Print Assumptions C156_allspec_refuted.
