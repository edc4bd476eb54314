(* C183: the fits of a table evaluated again with templates.eval_model. *)
From Verif Require Import Prelude PreludeFacts NumX Facts2 Model_Fitz Spec_Fitz Proof_Fitz2 Props_Fitz Model_Rebin Spec_Rebin Model_Dist Proof_Dist3 Model_Rank Proof_Table Model_Zscan Spec_Zscan Proof_Zscan Props_Zscan2 Props_GPU Model_Piece Model_IO Spec_IO Proof_IO Model_Targets Model_Targets2 Model_Desi Model_Zfind Proof_Zfind Proof_Piece2
  Model_Run Spec_Run Proof_Run Proof_Run2 Proof_Run3 Proof_Run5 Proof_Run8 Proof_Run9 Props_Eval Props_Run Props_Run2 Props_Desi2 Model_RunDesi Spec_RunDesi Proof_RunDesi Props_RunDesi Model_Models Spec_Models Proof_Models Props_Models Proof_ModelFile Model_EvalTable Spec_EvalTable.
Open Scope nat_scope.

Section Props.
Variables (slv : solvers) (argsort : list xq -> list nat) (polyfit : list Q -> list Q -> option (Q * Q * Q)) (isqrt : Q -> Q).
Variable trans : option string -> Q -> Q -> Q.
Variables (nminima nz : nat).
Variables (hashf : hash_arg -> Z) (tocsr : dia -> csr) (fb : fbits).
Notation run := (run slv argsort polyfit isqrt trans nminima nz).
Notation rrdesi := (rrdesi slv argsort polyfit isqrt trans nminima nz hashf tocsr fb).

(* eval_model when every row can be evaluated *)
Lemma eval_rows ps rows w Rs (P : frow -> csr -> list Q -> Prop) : length rows <= length Rs ->
  (forall r, In r rows -> exists p, template_of ps (f_type r) (f_sub r) = Some p /\ forall R, In R Rs -> exists m, template_eval (t_wave (p_core p)) (t_flux (p_core p)) (Model_Zfind.f_coeff r) w (Model_Zfind.f_z r) (Some R) = Ok m /\ P r R m) ->
  exists out, eval_table ps rows w (Some Rs) = Ok out /\ Forall2 (fun rR m => P (fst rR) (snd rR) m) (combine rows Rs) out.
Proof.
  intros L H. unfold eval_table, mod_eval_model.
  assert (G : forall rows k, (forall r, In r rows -> exists p, template_of ps (f_type r) (f_sub r) = Some p /\ forall R, In R Rs -> exists m, template_eval (t_wave (p_core p)) (t_flux (p_core p)) (Model_Zfind.f_coeff r) w (Model_Zfind.f_z r) (Some R) = Ok m /\ P r R m) ->
     k + length rows <= length Rs -> exists data out, mapM (with_template ps) rows = Ok data /\
     mapM (fun p : nat * fitrow => match nth_error Rs (fst p) with None => Err IndexError | Some r => template_eval (fr_wave (snd p)) (fr_flux (snd p)) (fr_coeff (snd p)) w (fr_z (snd p)) (Some r) end) (enum_from k data) = Ok out /\
     Forall2 (fun rR m => P (fst rR) (snd rR) m) (combine rows (skipn k Rs)) out).
  { clear. induction rows as [|r rows IH]; intros k H L; [exists [], []; cbn; repeat split; constructor|]. cbn [length] in L. destruct (H r (or_introl eq_refl)) as (p & Ep & Hp).
    destruct (IH (S k)) as (data & out & E1 & E2 & F); [intros x Hx; apply H; now right|lia|]. destruct (nth_error Rs k) as [R|] eqn:Er; [|apply nth_error_None in Er; lia]. destruct (Hp R (nth_error_In _ _ Er)) as (m & Em & Hm).
    eexists. exists (m :: out). cbn [mapM]. unfold with_template at 1. rewrite Ep. cbn [rbind]. rewrite E1. cbn [rbind]. split; [reflexivity|]. cbn [enum_from mapM fst snd fr_wave fr_flux fr_coeff fr_z]. rewrite Er, Em. cbn [rbind]. rewrite E2. cbn [rbind]. split; [reflexivity|].
    assert (Sk : skipn k Rs = R :: skipn (S k) Rs). { clear -Er. revert Rs Er. induction k as [|k IH]; intros [|x l] E; cbn in *; try discriminate; [congruence|]. now apply IH. }
    rewrite Sk. cbn [combine]. constructor; [exact Hm|exact F]. }
  destruct (G rows 0 H L) as (data & out & E1 & E2 & F). rewrite E1. cbn [rbind]. exists out. split; [exact E2|exact F].
Qed.
(* The rows of the table of a run (best or not), evaluated with the templates of the run on any wavelengths which the templates cover, with any resolution matrices: every model is
   resolution times template at the row's redshift times the row's coefficients.  Missing: rows reset for lack of data (below), absorption, type names of more than six
   characters. *)
Theorem C183_reevaluated_partial : forall o ps ds fs tab rows w Rs, argsort_ok argsort -> NoDup (map full_type ps) ->
  (forall p, In p ps -> sound_template p /\ plain_names p /\ String.length (t_rrtype (p_core p)) <= 6) ->
  open_files o ds = Ok fs -> in_order fs -> rrdesi o ps ds = Ok tab ->
  incl rows tab -> (forall r, In r rows -> ~ some_row (fibermap ds fs) (f_tid r) (no_data fb)) ->
  2 <= length w -> strictly_increasing w -> (0 < nth 0 w 0)%Q -> (forall p z, In p ps -> In z (p_zs p) -> covered p w z) ->
  (forall p z l, In p ps -> (hd 0 (p_zs p) <= z)%Q -> (z <= last (p_zs p) 0)%Q -> In l w -> (trans (p_igm p) z l == 1)%Q) ->
  length rows <= length Rs -> Forall (fun R => wf_csr R /\ r_ncol R = length w) Rs ->
  exists out, eval_table ps rows w (Some Rs) = Ok out /\ Forall2 (fun rR m => evaluated trans ps w (fst rR) (snd rR) m) (combine rows Rs) out.
Proof.
  intros o ps ds fs tab rows w Rs A Nf HP E Or H Sub Nd W1 W2 W3 Cv HT L HR. apply (rrdesi_run slv argsort polyfit isqrt trans nminima nz hashf tocsr fb o ps ds fs tab E Or) in H as (tgs & tab0 & Ei & R & Hr & ->).
  assert (N : NoDup (map g_id tgs)) by (rewrite Ei; apply ids_nodup). apply (eval_rows ps rows w Rs (evaluated trans ps w) L). intros r Ir. pose proof (Sub r Ir) as It. apply in_map_iff in It as (r0 & Er & Ir0).
  destruct (C139_row slv argsort polyfit isqrt trans nminima nz ps tgs tab0 r0 A N Hr Ir0) as (g & p & Ig & Ip & Et & Ey & Es & [Z0 Z1] & _ & Enc & _); [intros p Ip; destruct (HP p Ip) as ((_ & _ & _ & _ & _ & M & _) & b & _); now split|].
  destruct (HP p Ip) as (Sp & Pp & L6). rewrite (stake_short 6 _ L6) in Ey.
  pose proof (enough slv argsort polyfit isqrt trans nminima nz ps tgs tab0 r0 A N Hr Ir0 ltac:(exists p; split; [exact Ip|exact Enc])) as Le. rewrite Enc, Nnat.Nat2N.id in Le.
  assert (Q : f_type r = f_type r0 /\ f_sub r = f_sub r0 /\ Model_Zfind.f_z r = Model_Zfind.f_z r0 /\ Model_Zfind.f_coeff r = Model_Zfind.f_coeff r0).
  { destruct (C71_reset fb (fibermap ds fs) (to_w r0)) as (_ & _ & _ & K). destruct K as (K1 & K2 & K3 & _ & K4); [intro X; apply (Nd r Ir); rewrite <- Er; exact X|]. rewrite <- Er. unfold reflag. cbn [f_type f_sub Model_Zfind.f_z Model_Zfind.f_coeff]. now repeat split. }
  destruct Q as (Q1 & Q2 & Q3 & Q4). exists p. split; [rewrite Q1, Q2, Ey, Es; apply template_found; assumption|]. intros M IM. rewrite Forall_forall in HR. destruct (HR M IM) as [Wf Wc].
  pose proof Sp as (_ & _ & _ & _ & L2 & _ & Gt). rewrite Forall_forall in Gt.
  assert (I0 : In (hd 0%Q (p_zs p)) (p_zs p)) by (destruct (p_zs p); [cbn in L2; lia|now left]).
  assert (I1 : In (last (p_zs p) 0%Q) (p_zs p)) by (apply last_in; intro X; rewrite X in L2; cbn in L2; lia).
  destruct (eval_on trans p w (Model_Zfind.f_z r0) (Model_Zfind.f_coeff r0) M) as (B & m & HB & Em & Lm & Hm); auto; [now repeat split|pose proof (Gt _ I0) as X; cbv beta in X; lra|apply (between p w (hd 0%Q (p_zs p)) (last (p_zs p) 0%Q)); auto|].
  exists m. rewrite Q3, Q4. split; [exact Em|]. exists p, B. split; [exact Ip|]. split; [congruence|]. split; [congruence|]. rewrite Q3. split; [exact HB|]. split; [exact Lm|]. intros i Hi. rewrite Q4, <- Wc. apply Hm. congruence.
Qed.
(* a row that was reset is a fit of a template of type GALAXY without subtype: without such a template eval_model raises KeyError on every table with this row *)
Theorem C183_reset_needs_galaxy : forall o ps ds fs tab r rows w R, open_files o ds = Ok fs -> rrdesi o ps ds = Ok tab -> In r tab -> In r rows ->
  some_row (fibermap ds fs) (f_tid r) (no_data fb) -> (forall p, In p ps -> ~ (t_rrtype (p_core p) = "GALAXY"%string /\ p_sub p = ""%string)) ->
  eval_table ps rows w R = Err KeyError.
Proof.
  intros o ps ds fs tab r rows w R E H It Ir Sn Np. unfold Model_RunDesi.rrdesi in H. rewrite E in H. cbn [rbind] in H. destruct (read_targets hashf tocsr o fs) as [tgs|]; cbn [rbind] in H; [|discriminate].
  destruct (run_local _ _ _ _ _ _ _ ps tgs (all_ids fs)) as [tab0|]; cbn [rbind] in H; [|discriminate]. injection H as <-. apply in_map_iff in It as (r0 & Er & _).
  destruct (C71_reset fb (fibermap ds fs) (to_w r0)) as (_ & _ & K & _). destruct K as (_ & K1 & K2 & _); [rewrite <- Er in Sn; exact Sn|].
  assert (Q : f_type r = "GALAXY"%string /\ f_sub r = ""%string) by (rewrite <- Er; now split). destruct Q as [Q1 Q2].
  assert (X : with_template ps r = Err KeyError). { unfold with_template. destruct (template_of ps (f_type r) (f_sub r)) as [p|] eqn:Ep; [|reflexivity]. exfalso. unfold template_of in Ep. apply find_some in Ep as [Ip Eb]. apply in_rev in Ip. apply andb_true_iff in Eb as [B1 B2]. apply String.eqb_eq in B1, B2. apply (Np p Ip). split; congruence. }
  assert (Y : mapM (with_template ps) rows = Err KeyError); [|unfold eval_table; now rewrite Y].
  induction rows as [|x l IH]; [destruct Ir|]. cbn [mapM]. destruct (with_template ps x) as [d|e] eqn:Ex.
  - cbn [rbind]. destruct Ir as [->|Ir]; [congruence|]. now rewrite (IH Ir).
  - cbn [rbind]. f_equal. unfold with_template in Ex. destruct (template_of _ _ _); congruence.
Qed.
End Props.

(* ---------------- concrete runs ---------------- *)
Local Notation drun := (Model_RunDesi.rrdesi demo argsort0 lagrange3 (fun x => x) no_igm 2 3 (fun _ => 3%Z) (fun r => idcsr (d_n r)) dbits).
Lemma covers_demo : forall p z, In p [ga; st] -> In z (p_zs p) -> covered p [20; 30]%Q z.
Proof. intros p z [<-|[<-|[]]] Hz; cbn in Hz; repeat (destruct Hz as [<-|Hz]; [split; vm_compute; discriminate|]); destruct Hz. Qed.
(* all six rows of the run of Props_RunDesi.v *)
Example C183_nonvacuous : exists fs tab, open_files oall [fA; fB] = Ok fs /\ in_order fs /\ drun oall [ga; st] [fA; fB] = Ok tab /\ length tab = 6 /\ (forall r, In r tab -> ~ some_row (fibermap [fA; fB] fs) (f_tid r) (no_data dbits)) /\
  (forall p z, In p [ga; st] -> In z (p_zs p) -> covered p [20; 30]%Q z) /\ Forall (fun R => wf_csr R /\ r_ncol R = 2) (repeat (idcsr 2) 6) /\
  exists out, eval_table [ga; st] tab [20; 30]%Q (Some (repeat (idcsr 2) 6)) = Ok out /\ length out = 6.
Proof.
  destruct (ex_order oall ltac:(now repeat split) [fA; fB] (incl_refl _)) as (fs & E & Or). destruct (tell_ok _ _ _ ex_two) as (tab & Et & Tt). exists fs, tab. split; [exact E|]. split; [exact Or|]. split; [exact Et|].
  assert (L : length tab = 6) by (rewrite <- (map_length (fun r => (f_tid r, f_type r, Model_Zfind.f_zwarn r))); apply (f_equal (@Datatypes.length _)) in Tt; etransitivity; [|exact Tt]; rewrite !map_length; reflexivity).
  assert (Nd : forall r, In r tab -> ~ some_row (fibermap [fA; fB] fs) (f_tid r) (no_data dbits)).
  { intros r _ (x & Ix & _ & Hx). assert (F : fibermap [fA; fB] (opened oall [fA; fB]) = fibermap [fA; fB] fs) by (unfold opened; now rewrite E). rewrite <- F in Ix. vm_compute in Ix.
    repeat (destruct Ix as [<-|Ix]; [unfold no_data, has, other_type in Hx; cbn in Hx; intuition congruence|]). destruct Ix. }
  assert (RR : Forall (fun R => wf_csr R /\ r_ncol R = 2) (repeat (idcsr 2) 6)). { apply Forall_forall. intros R HR. apply repeat_spec in HR. subst R. destruct (tg_plain 5 1 [20; 30]%Q [1; 1]%Q [1; 1]%Q) as [W _]. destruct (W _ (or_introl eq_refl)) as [W1 _]. split; [exact W1|reflexivity]. }
  split; [exact L|]. split; [exact Nd|]. split; [exact covers_demo|]. split; [exact RR|].
  destruct (C183_reevaluated_partial demo argsort0 lagrange3 (fun x => x) no_igm 2 3 (fun _ => 3%Z) (fun r => idcsr (d_n r)) dbits oall [ga; st] [fA; fB] fs tab tab [20; 30]%Q (repeat (idcsr 2) 6)) as (out & Eo & F);
    [exact argsort0_ok|cbn; repeat constructor; cbn; intuition discriminate| |exact E|exact Or|exact Et|apply incl_refl|exact Nd|cbn; lia| |reflexivity|exact covers_demo|reflexivity|rewrite L; cbn; lia|exact RR|].
  - intros p Hp. split; [now apply ga_sound|]. destruct Hp as [<-|[<-|[]]]; (split; [split; [apply name_of; reflexivity|split; [apply name_of; reflexivity|]]|cbn; lia]); [now left|right]. intros [a X]. destruct a as [|? [|? [|? [|? [|? ?]]]]]; discriminate.
  - apply inc2. cbn [length]. intros [|[|i']] Hx; cbn [nth]; try lia. reflexivity.
  - exists out. split; [exact Eo|]. rewrite <- (Forall2_len _ _ _ F), combine_length, L. reflexivity.
Qed.
(* a target on a badly positioned fibre, fitted with star templates only: its rows bear the type GALAXY *)
Definition fbad : dfile := {| df_coadded := false; df_fm := [{| fm_id := 5; fm_status := 4; fm_objtype := "TGT" |}]; df_exp := [5]%Z; df_bands := ["b"%string]; df_wave := fun _ => [20; 30]%Q;
  df_flux := fun _ => [map Fin [5; 2]%Q]; df_ivar := fun _ => [map Fin [1; 1]%Q]; df_mask := fun _ => None; df_res := fun _ => [rid] |}.
Lemma run_bad : tell (drun oall [st] [fbad]) = [(5%Z, "GALAXY"%string, 1570%N)]. Proof. vm_compute. reflexivity. Qed.
Theorem C183_no_data_refuted : exists tab, drun oall [st] [fbad] = Ok tab /\ tab <> [] /\ forall rows w R, (exists r, In r rows /\ In r tab) -> eval_table [st] rows w R = Err KeyError.
Proof.
  destruct (tell_ok _ _ _ run_bad) as (tab & E & T). exists tab. split; [exact E|]. split; [intro X; subst tab; discriminate T|]. intros rows w R (r & I1 & I2).
  destruct (open_files oall [fbad]) as [fs|] eqn:Eo; [|vm_compute in Eo; discriminate Eo].
  assert (Ir : f_tid r = 5%Z). { apply (in_map (fun r => f_tid r)) in I2. assert (X : map (fun r => f_tid r) tab = [5]%Z) by (apply (f_equal (map (fun x => fst (fst x)))) in T; rewrite map_map in T; exact T). rewrite X in I2. destruct I2 as [X2|[]]; congruence. }
  apply (C183_reset_needs_galaxy demo argsort0 lagrange3 (fun x => x) no_igm 2 3 (fun _ => 3%Z) (fun r => idcsr (d_n r)) dbits oall [st] [fbad] fs tab r rows w R Eo E I2 I1).
  - assert (F : fibermap [fbad] (opened oall [fbad]) = fibermap [fbad] fs) by (unfold opened; now rewrite Eo). rewrite <- F, Ir. eexists. split; [vm_compute; now left|]. split; [reflexivity|]. left. vm_compute. discriminate.
  - intros p [<-|[]] [X _]. discriminate X.
Qed.
Print Assumptions C183_reevaluated_partial. Print Assumptions C183_reset_needs_galaxy. Print Assumptions C183_no_data_refuted.
