(* compute_coadd over a list; permutations; single exposures; cosmics. *)
From Verif Require Import Prelude PreludeFacts Facts2 Model_Fitz Proof_Fitz Proof_Table Model_Dist Proof_Dist3
  Model_Targets Spec_Targets Proof_Targets Proof_Targets2.
Local Open Scope Q_scope.

Lemma group_in l k e : In e (group_of l k) <-> In e l /\ sp_hash e = k.
Proof. unfold group_of. rewrite filter_In. destruct (key_eqb_spec (sp_hash e) k); intuition congruence. Qed.
Lemma group_same l k : compatible l -> same_grid (group_of l k).
Proof.
  intros H s s' Hs Hs'. apply group_in in Hs as [A B]. apply group_in in Hs' as [C D]. destruct (H s s' A C) as [E F]; [congruence|].
  split; [exact E|]. split; [exact F|congruence].
Qed.
Lemma group_wf hashf l k : Forall (wf_spec hashf) l -> Forall (wf_spec hashf) (group_of l k).
Proof. intros H. apply Forall_forall. intros e He. apply group_in in He as [He _]. now apply (proj1 (Forall_forall _ _) H). Qed.
Lemma Permutation_filter' {A} (f : A -> bool) l l' : Permutation l l' -> Permutation (filter f l) (filter f l').
Proof.
  induction 1 as [|x l l' H IH|x y l|l m n H1 IH1 H2 IH2]; cbn [filter].
  - constructor.
  - destruct (f x); [now constructor|exact IH].
  - destruct (f x), (f y); try apply Permutation_refl. apply perm_swap.
  - now transitivity (filter f m).
Qed.
Lemma coadd_inv hashf cache nsig l c : compute_coadd hashf cache nsig l = Ok c ->
  Forall2 (fun k s => coadd_group hashf cache nsig (group_of l k) = Ok s) (first_seen (map sp_hash l)) c.
Proof. apply mapM_Forall2. Qed.
Lemma first_seen_in l k : In k (first_seen l) <-> In k l.
Proof. apply first_seen_ok. Qed.
Lemma coadd_hashes hashf cache nsig l c : Forall (wf_spec hashf) l -> compatible l ->
  compute_coadd hashf cache nsig l = Ok c -> map sp_hash c = first_seen (map sp_hash l) /\
  forall s, In s c -> coadd_group hashf cache nsig (group_of l (sp_hash s)) = Ok s /\ exists e, In e (group_of l (sp_hash s)).
Proof.
  intros Hw Hc H. apply coadd_inv in H.
  assert (Hk : forall k, In k (first_seen (map sp_hash l)) -> exists e, In e (group_of l k)).
  { intros k Hk. rewrite first_seen_in in Hk. apply in_map_iff in Hk as (e & <- & He). exists e. now apply group_in. }
  assert (Hh : forall k s, In k (first_seen (map sp_hash l)) -> coadd_group hashf cache nsig (group_of l k) = Ok s -> sp_hash s = k).
  { intros k s Hin Hs. destruct (coadd_group_spec _ _ _ _ _ (group_wf _ _ k Hw) (group_same _ k Hc) Hs) as (kept & _ & _ & _ & _ & _ & Hb & _).
    destruct (Hk k Hin) as (e & He). destruct (Hb e He) as (Eh & _). apply group_in in He as [_ He]. congruence. }
  revert H Hk Hh. generalize (first_seen (map sp_hash l)). intros ks H. induction H as [|k s ks ss Hs _ IH]; intros Hk Hh.
  - split; [reflexivity|]. intros s [].
  - destruct IH as [IH1 IH2]; [intros; apply Hk; now right|intros k' s' Hin; apply Hh; now right|].
    assert (Ek : sp_hash s = k) by (apply Hh; [now left|exact Hs]). split.
    + cbn [map]. now rewrite IH1, Ek.
    + intros s' [<-|Hin]; [|now apply IH2]. rewrite Ek. split; [exact Hs|]. apply Hk. now left.
Qed.
Lemma coadd_ok hashf cache nsig l : Forall (wf_spec hashf) l -> compatible l -> nsig <= 0 ->
  exists c, compute_coadd hashf cache nsig l = Ok c.
Proof.
  intros Hw Hc Hn. unfold compute_coadd.
  destruct (mapM_ok (fun k => coadd_group hashf cache nsig (group_of l k)) (fun _ _ => True) (first_seen (map sp_hash l))) as (m & Hm & _); [|eauto].
  intros k Hk. destruct (coadd_group_ok hashf cache nsig (group_of l k)) as (s & Hs); eauto using group_wf, group_same.
  rewrite first_seen_in in Hk. apply in_map_iff in Hk as (e & <- & He). intros E.
  assert (Hi : In e (group_of l (sp_hash e))) by now apply group_in. rewrite E in Hi. exact Hi.
Qed.

(* total over kept weights of the plain coadd *)
Lemma weight_plain g p : weight (map sp_ivar g) g p = total g (fun e => px (sp_ivar e) p).
Proof. rewrite weight_total by apply map_length. apply total_map. Qed.
Lemma cell_plain g k p d : (k < length g)%nat -> cell (map sp_ivar g) k p = px (sp_ivar (nth k g d)) p.
Proof. intros H. unfold cell. now rewrite (nth_map_row _ _ _ d). Qed.
Lemma total_enum_snd {A} (l : list A) (f : A -> Q) : total (enum l) (fun ke => f (snd ke)) = total l f.
Proof. rewrite <- (total_map f snd). unfold enum. now rewrite enum_from_snd. Qed.
Lemma enum_in_nth {A} (l : list A) k e d : In (k, e) (enum l) -> (k < length l)%nat /\ nth k l d = e.
Proof.
  intros H. apply (In_nth _ _ (O, d)) in H as (i & Hi & E). rewrite enum_length in Hi. rewrite enum_nth in E by exact Hi.
  injection E as <- <-. auto.
Qed.
Lemma wflux_plain g p : total (enum g) (fun ke => cell (map sp_ivar g) (fst ke) p * px (sp_flux (snd ke)) p) ==
  total g (fun e => px (sp_ivar e) p * px (sp_flux e) p).
Proof.
  rewrite <- (total_enum_snd g). apply total_ext. intros [k e] Hk. cbn [fst snd]. destruct (enum_in_nth _ _ _ e Hk) as [H1 H2].
  rewrite (cell_plain _ _ _ e) by exact H1. rewrite H2. reflexivity.
Qed.
Lemma Qred_eq_canon a b : a = Qred a -> b = Qred b -> a == b -> a = b.
Proof. intros Ha Hb H. rewrite Ha, Hb. now apply Qred_complete. Qed.
Lemma list_px l m n : length l = n -> length m = n -> (forall p, (p < n)%nat -> px l p = px m p) -> l = m.
Proof. intros Hl Hm H. apply (nth_ext l m 0 0); [congruence|]. intros p Hp. apply H. lia. Qed.

Lemma spec_ext s s' : sp_wave s = sp_wave s' -> sp_flux s = sp_flux s' -> sp_ivar s = sp_ivar s' -> sp_R s = sp_R s' ->
  sp_Rcsr s = sp_Rcsr s' -> sp_band s = sp_band s' -> sp_hash s = sp_hash s' -> s = s'.
Proof. destruct s, s'. cbn. congruence. Qed.
Lemma coadd_group_perm hashf cache nsig g g' s s' : Forall (wf_spec hashf) g -> same_grid g -> nsig <= 0 -> Permutation g g' ->
  coadd_group hashf cache nsig g = Ok s -> coadd_group hashf cache nsig g' = Ok s' -> s = s'.
Proof.
  intros Hw Hg Hn HP H H'.
  assert (Hw' : Forall (wf_spec hashf) g') by (eapply Permutation_Forall; eassumption).
  assert (Hg' : same_grid g') by (intros a b Ha Hb; apply Hg; (eapply Permutation_in; [apply Permutation_sym; exact HP|assumption])).
  destruct (coadd_group_spec _ _ _ _ _ Hw Hg H) as (kept & _ & Hk & _ & HC & (Hf1 & Hi1 & _) & Hb & _ & Hcan & Hdl & Hcell & Hred & Hrc & _).
  destruct (coadd_group_spec _ _ _ _ _ Hw' Hg' H') as (kept' & _ & Hk' & _ & HC' & (Hf1' & Hi1' & _) & Hb' & _ & Hcan' & Hdl' & Hcell' & Hred' & Hrc' & _).
  rewrite (Hk Hn) in *. rewrite (Hk' Hn) in *. clear Hk Hk' kept kept'.
  assert (Hne : exists e, In e g). { destruct g as [|e g0]; [discriminate|]. exists e. now left. }
  destruct Hne as (e & He). assert (He' : In e g') by (eapply Permutation_in; eassumption).
  destruct HC as (Hwv & Hfl & Hil & Hwd & Hdn & HV). destruct HC' as (Hwv' & Hfl' & Hil' & Hwd' & Hdn' & HV').
  destruct (Hb e He) as (A1 & A2 & A3). destruct (Hb' e He') as (B1 & B2 & B3).
  assert (EW : sp_wave s = sp_wave s') by (rewrite <- (Hwv e He), <- (Hwv' e He'); reflexivity).
  set (n := length (sp_wave s)) in *. rewrite <- EW in *. fold n in Hfl', Hil', Hdn', HV', Hcell', Hred'.
  assert (Ew : forall p, weight (map sp_ivar g) g p == weight (map sp_ivar g') g' p).
  { intros p. rewrite !weight_plain. now apply total_perm. }
  assert (Ed : d_data (Rof s) = d_data (Rof s')).
  { destruct Hwd as (C1 & C2 & C3), Hwd' as (D1 & D2 & D3). rewrite Hdn in C3. rewrite Hdn' in D3.
    apply (canon_ext _ _ n); try assumption; [congruence|].
    intros k j Hk Hj. pose proof (Hcell k j Hj) as E1. pose proof (Hcell' k j Hj) as E2.
    rewrite (total_perm _ _ _ HP) in E1. rewrite <- E2 in E1.
    destruct (Qeq_bool (weight (map sp_ivar g) g j) 0) eqn:Q1, (Qeq_bool (weight (map sp_ivar g') g' j) 0) eqn:Q2.
    - lra.
    - apply Qeq_bool_iff in Q1. apply Qeq_bool_neq in Q2. rewrite Ew in Q1. contradiction.
    - apply Qeq_bool_iff in Q2. apply Qeq_bool_neq in Q1. rewrite <- Ew in Q2. contradiction.
    - apply Qeq_bool_neq in Q1. rewrite <- (Ew j) in E1. apply Qmult_inj_r in E1; [exact E1|exact Q1]. }
  assert (ER : sp_R s = sp_R s').
  { destruct (coadd_group_spec _ _ _ _ _ Hw Hg H) as (_ & _ & _ & _ & _ & (_ & _ & HRs & _) & _).
    destruct (coadd_group_spec _ _ _ _ _ Hw' Hg' H') as (_ & _ & _ & _ & _ & (_ & _ & HRs' & _) & _).
    destruct HRs as (R & ER & _). destruct HRs' as (R' & ER' & _). unfold Rof in *. rewrite ER, ER' in *.
    destruct R as [o d m], R' as [o' d' m']. cbn [d_off d_data d_n] in *. subst. congruence. }
  assert (ERo : Rof s = Rof s') by (unfold Rof; now rewrite ER).
  assert (Hfx : forall p, (p < n)%nat -> px (sp_flux s) p = px (sp_flux s') p).
  { intros p Hp. destruct (Hred p Hp) as [R1 _]. destruct (Hred' p Hp) as [R1' _]. apply Qred_eq_canon; [exact R1|exact R1'|].
    destruct (HV p Hp) as (_ & _ & V3 & V4). destruct (HV' p Hp) as (_ & _ & V3' & V4').
    fold (weight (map sp_ivar g) g p) in V3, V4. fold (weight (map sp_ivar g') g' p) in V3', V4'. rewrite wflux_plain in V3, V3'.
    rewrite <- (Ew p), <- (total_perm _ _ _ HP) in V3'. rewrite <- (Ew p), <- (total_perm _ _ _ HP), <- (Permutation_length HP) in V4'.
    destruct (Qeq_dec (weight (map sp_ivar g) g p) 0) as [Q1|Q1].
    - specialize (V4 Q1). specialize (V4' Q1). rewrite <- V4 in V4'. symmetry. apply Qmult_inj_r in V4'; [exact V4'|].
      destruct g as [|e0 g0]; [destruct He|]. cbn [length]. intros E0. unfold Qeq, inject_Z in E0. cbn [Qnum Qden] in E0. lia.
    - specialize (V3 Q1). specialize (V3' Q1). rewrite <- V3 in V3'. symmetry. apply Qmult_inj_r in V3'; assumption. }
  assert (Hix : forall p, (p < n)%nat -> px (sp_ivar s) p = px (sp_ivar s') p).
  { intros p Hp. destruct (Hred p Hp) as [_ R1]. destruct (Hred' p Hp) as [_ R1']. apply Qred_eq_canon; [exact R1|exact R1'|].
    destruct (HV p Hp) as (V1 & V2 & _). destruct (HV' p Hp) as (V1' & V2' & _).
    fold (weight (map sp_ivar g) g p) in V2. fold (weight (map sp_ivar g') g' p) in V2'. rewrite <- ERo in V1', V2'.
    destruct (low_res_dec (Rof s) p) as [L|L]; [rewrite (V1 L), (V1' L); reflexivity|]. rewrite (V2 L), (V2' L). apply Ew. }
  pose proof (list_px _ _ n Hfl Hfl' Hfx) as E1. pose proof (list_px _ _ n Hil Hil' Hix) as E2.
  rewrite ER in Hrc. apply spec_ext; congruence.
Qed.
Lemma coadd_perm hashf cache nsig l l' c : Forall (wf_spec hashf) l -> compatible l -> nsig <= 0 -> Permutation l l' ->
  compute_coadd hashf cache nsig l = Ok c -> exists c', compute_coadd hashf cache nsig l' = Ok c' /\ Permutation c c'.
Proof.
  intros Hw Hc Hn HP H.
  assert (Hw' : Forall (wf_spec hashf) l') by (eapply Permutation_Forall; eassumption).
  assert (Hc' : compatible l') by (intros a b Ha Hb; apply Hc; (eapply Permutation_in; [apply Permutation_sym; exact HP|assumption])).
  destruct (coadd_ok hashf cache nsig l' Hw' Hc' Hn) as (c' & H'). exists c'. split; [exact H'|].
  destruct (coadd_hashes _ _ _ _ _ Hw Hc H) as [E1 G1]. destruct (coadd_hashes _ _ _ _ _ Hw' Hc' H') as [E2 G2].
  assert (Hsame : forall s s', In s c -> In s' c' -> sp_hash s = sp_hash s' -> s = s').
  { intros s s' Hs Hs' E. destruct (G1 s Hs) as [A _]. destruct (G2 s' Hs') as [B _]. rewrite <- E in B.
    eapply (coadd_group_perm hashf cache nsig); [apply (group_wf _ _ (sp_hash s) Hw)|apply (group_same _ _ Hc)|exact Hn| |exact A|exact B].
    now apply Permutation_filter'. }
  assert (N1 : NoDup (map sp_hash c)) by (rewrite E1; apply first_seen_ok).
  assert (N2 : NoDup (map sp_hash c')) by (rewrite E2; apply first_seen_ok).
  assert (HI : forall h, In h (map sp_hash c) <-> In h (map sp_hash c')).
  { intros h. rewrite E1, E2, !first_seen_in. split; intros Hin; (eapply Permutation_in; [|exact Hin]); apply Permutation_map; [exact HP|now apply Permutation_sym]. }
  apply NoDup_Permutation; [eapply NoDup_map_inv; exact N1|eapply NoDup_map_inv; exact N2|].
  intros s. split; intros Hs.
  - assert (Hh : In (sp_hash s) (map sp_hash c')) by (apply HI, in_map, Hs). apply in_map_iff in Hh as (s' & E & Hs').
    rewrite (Hsame s s' Hs Hs'); [exact Hs'|now symmetry].
  - assert (Hh : In (sp_hash s) (map sp_hash c)) by (apply HI, in_map, Hs). apply in_map_iff in Hh as (s' & E & Hs').
    rewrite <- (Hsame s' s Hs' Hs); [exact Hs'|exact E].
Qed.

(* ---- one exposure ---- *)
Lemma coadd_single hashf cache nsig s s' : wf_spec hashf s -> coadd_group hashf cache nsig [s] = Ok s' ->
  sp_wave s' = sp_wave s /\ sp_hash s' = sp_hash s /\ sp_band s' = sp_band s /\ wf_spec hashf s' /\
  forall p, (p < length (sp_wave s))%nat ->
    px (sp_flux s') p == px (sp_flux s) p /\
    (low_res (Rof s') p -> px (sp_ivar s') p = 0) /\ (~ low_res (Rof s') p -> px (sp_ivar s') p == px (sp_ivar s) p) /\
    (forall i, px (sp_ivar s) p == 0 -> entry (Rof s') i p == 0) /\
    (forall i, ~ px (sp_ivar s) p == 0 -> entry (Rof s') i p == entry (Rof s) i p).
Proof.
  intros Hw H.
  assert (Hg : same_grid [s]) by (intros a b [<-|[]] [<-|[]]; auto).
  destruct (coadd_group_spec hashf cache nsig [s] s') as (kept & _ & _ & Hk & HC & Hws & Hb & He & _); auto.
  rewrite (Hk eq_refl) in *. clear Hk kept. destruct HC as (Hwv & Hfl & Hil & Hwd & Hdn & HV).
  specialize (Hwv s (or_introl eq_refl)). destruct (Hb s (or_introl eq_refl)) as (A & B & C).
  split; [now symmetry|]. split; [now symmetry|]. split; [now symmetry|]. split; [exact Hws|]. rewrite Hwv in *. intros p Hp.
  assert (EW : weight (map sp_ivar [s]) [s] p == px (sp_ivar s) p) by (rewrite weight_plain, total_cons, total_nil; lra).
  destruct (HV p Hp) as (V1 & V2 & V3 & V4). fold (weight (map sp_ivar [s]) [s] p) in V2, V3, V4.
  rewrite wflux_plain, total_cons, total_nil, EW in V3. rewrite EW in V2. rewrite total_cons, total_nil, EW in V4. specialize (He p Hp).
  split; [|split; [exact V1|split; [exact V2|]]].
  - destruct (Qeq_dec (px (sp_ivar s) p) 0) as [Q1|Q1].
    + specialize (V4 Q1). change (inject_Z (Z.of_nat (length [s]))) with 1 in V4. lra.
    + specialize (V3 Q1). assert (E : px (sp_flux s') p * px (sp_ivar s) p == px (sp_flux s) p * px (sp_ivar s) p) by lra.
      apply Qmult_inj_r in E; assumption.
  - split; intros i Q1; specialize (He i); rewrite total_cons, total_nil in He.
    + destruct (Qeq_bool (weight (map sp_ivar [s]) [s] p) 0) eqn:B1. { rewrite Q1 in He. lra. }
      apply Qeq_bool_neq in B1. rewrite EW in B1. contradiction.
    + destruct (Qeq_bool (weight (map sp_ivar [s]) [s] p) 0) eqn:B1. { apply Qeq_bool_iff in B1. rewrite EW in B1. contradiction. }
      rewrite EW in He. assert (E : entry (Rof s') i p * px (sp_ivar s) p == entry (Rof s) i p * px (sp_ivar s) p) by lra.
      apply Qmult_inj_r in E; assumption.
Qed.
