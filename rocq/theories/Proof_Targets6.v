From Verif Require Import Prelude PreludeFacts Facts2 Model_Fitz Proof_Fitz Proof_Table Model_Dist Proof_Dist3 Model_Zscan Model_Targets Model_Targets2 Spec_Targets
  Spec_Targets2 Proof_Targets Proof_Targets2 Proof_Targets3 Proof_Targets5.
Local Open Scope Q_scope.
Local Arguments Qred : simpl never.

Lemma qmin_least l : forall m, least (qmin_from m l) (m :: l).
Proof.
  induction l as [|x l IH]; intros m; cbn [qmin_from]; [split; [now left|intros y [->|[]]; lra]|].
  destruct (qlt x m) eqn:E.
  - destruct (IH x) as [A B]. apply qlt_iff in E. split; [right; exact A|]. intros y [->|Hy]; [|now apply B].
    specialize (B x (or_introl eq_refl)). lra.
  - destruct (IH m) as [A B]. apply qlt_false in E. split; [destruct A as [A|A]; [left; exact A|right; right; exact A]|].
    intros y [->|[->|Hy]]; [apply B; now left| |apply B; now right]. specialize (B m (or_introl eq_refl)). lra.
Qed.
Lemma qmax_greatest l : forall m, greatest (qmax_from m l) (m :: l).
Proof.
  induction l as [|x l IH]; intros m; cbn [qmax_from]; [split; [now left|intros y [->|[]]; lra]|].
  destruct (qlt m x) eqn:E.
  - destruct (IH x) as [A B]. apply qlt_iff in E. split; [right; exact A|]. intros y [->|Hy]; [|now apply B].
    specialize (B x (or_introl eq_refl)). lra.
  - destruct (IH m) as [A B]. apply qlt_false in E. split; [destruct A as [A|A]; [left; exact A|right; right; exact A]|].
    intros y [->|[->|Hy]]; [apply B; now left| |apply B; now right]. specialize (B m (or_introl eq_refl)). lra.
Qed.
Lemma reduced_spec w lo hi : least lo w -> greatest hi w -> lo < hi ->
  exists rw, reduced_wavelength w = Ok (Some rw) /\ length rw = length w /\
    forall j, (j < length w)%nat -> px rw j == 2 * (px w j - lo) / (hi - lo) - 1.
Proof.
  intros [L1 L2] [G1 G2] Hlt. destruct w as [|w0 w]; [destruct L1|]. unfold reduced_wavelength.
  destruct (qmin_least w w0) as [A1 A2]. destruct (qmax_greatest w w0) as [B1 B2].
  set (mn := qmin_from w0 w) in *. set (mx := qmax_from w0 w) in *.
  assert (Em : mn == lo) by (apply Qle_antisym; [now apply A2|now apply L2]).
  assert (Ex : mx == hi) by (apply Qle_antisym; [now apply G2|now apply B2]).
  destruct (Qeq_bool mx mn) eqn:E; [apply Qeq_bool_iff in E; lra|].
  eexists. split; [reflexivity|]. split; [apply map_length|]. intros j Hj.
  unfold px. rewrite (nth_indep _ 0 (Qred (2 * (0 - mn) / (mx - mn) - 1))) by (rewrite map_length; exact Hj).
  rewrite (map_nth (fun w => Qred (2 * (w - mn) / (mx - mn) - 1))).
  pose proof (Qred_correct (2 * (nth j (w0 :: w) 0 - mn) / (mx - mn) - 1)) as HQ. rewrite HQ, Em, Ex. reflexivity.
Qed.
Lemma reduced_inv w rw : reduced_wavelength w = Ok (Some rw) -> exists lo hi, least lo w /\ greatest hi w /\ lo < hi.
Proof.
  unfold reduced_wavelength. destruct w as [|w0 w]; [discriminate|]. destruct (qmin_least w w0) as [A1 A2]. destruct (qmax_greatest w w0) as [B1 B2].
  destruct (Qeq_bool _ _) eqn:E; [discriminate|]. intros _. exists (qmin_from w0 w), (qmax_from w0 w). split; [split; assumption|]. split; [split; assumption|].
  apply Qeq_bool_neq in E. assert (qmin_from w0 w <= qmax_from w0 w) by now apply B2.
  destruct (Qlt_le_dec (qmin_from w0 w) (qmax_from w0 w)) as [?|H1]; [assumption|]. exfalso. apply E. apply Qle_antisym; assumption.
Qed.
(* the recurrence *)
Lemma leg_step k x : leg (S (S k)) x == ((Z.of_nat (2 * k + 3) # 1) * x * leg (S k) x - (Z.of_nat (k + 1) # 1) * leg k x) / (Z.of_nat (k + 2) # 1).
Proof.
  unfold leg. cbn [leg_pair]. destruct (leg_pair k x) as [a b] eqn:E. cbn [fst]. apply Qred_correct.
Qed.
Lemma leg_is_legendre : is_legendre leg.
Proof.
  intros x. split; [reflexivity|]. split; [reflexivity|]. intros k. rewrite leg_step. unfold inject_Z.
  set (c := Z.of_nat (k + 2) # 1). assert (Hc : ~ c == 0) by (unfold c, Qeq; cbn; lia). field. exact Hc.
Qed.
Lemma legendre_unique P P' : is_legendre P -> is_legendre P' -> forall i x y, x == y -> P i x == P' i y.
Proof.
  intros H H' i x y E. enough (P i x == P' i y /\ P (S i) x == P' (S i) y) by tauto. induction i as [|k [IH1 IH2]].
  - destruct (H x) as (A & B & _), (H' y) as (A' & B' & _). rewrite A, B, A', B'. split; [reflexivity|exact E].
  - split; [exact IH2|]. destruct (H x) as (_ & _ & C), (H' y) as (_ & _ & C'). specialize (C k). specialize (C' k).
    rewrite IH1, IH2 in C.
    assert (F : inject_Z (Z.of_nat (2 * k + 3)) * x * P' (S k) y == inject_Z (Z.of_nat (2 * k + 3)) * y * P' (S k) y) by (rewrite E; reflexivity).
    rewrite F, <- C' in C. apply Qmult_inj_l in C; [exact C|]. unfold inject_Z, Qeq; cbn; lia.
Qed.
Lemma leg_array_spec n w lo hi : least lo w -> greatest hi w -> lo < hi ->
  exists A, leg_array n w = Ok (Some A) /\ length A = n /\
    forall i j P, (i < n)%nat -> (j < length w)%nat -> is_legendre P -> cell A i j == P i (2 * (px w j - lo) / (hi - lo) - 1).
Proof.
  intros HL HG Hlt. destruct n as [|n]; [exists []; split; [reflexivity|]; split; [reflexivity|]; intros; lia|].
  destruct (reduced_spec w lo hi HL HG Hlt) as (rw & E & Hl & Hv). unfold leg_array. rewrite E. cbn [rbind].
  eexists. split; [reflexivity|]. split; [apply tab_length|]. intros i j P Hi Hj HP. unfold cell. rewrite nth_tab by exact Hi.
  rewrite (nth_indep _ 0 (leg i 0)) by (rewrite map_length, Hl; exact Hj). rewrite (map_nth (leg i)).
  apply legendre_unique; [apply leg_is_legendre|exact HP|]. apply (Hv j Hj).
Qed.

(* dwave_of *)
Lemma kget_keys_none {V} (d : list (key * V)) k : ~ In k (map fst d) -> kget d k = None.
Proof.
  induction d as [|[a b] d IH]; intros H; [reflexivity|]. cbn [kget map fst] in *. destruct (key_eqb_spec a k) as [->|]; [exfalso; apply H; now left|].
  apply IH. intros Hin; apply H; now right.
Qed.
Lemma first_seen_acc_ext l : forall s s', (forall k, In k s <-> In k s') -> first_seen_acc s l = first_seen_acc s' l.
Proof.
  induction l as [|k l IH]; intros s s' H; [reflexivity|]. cbn [first_seen_acc].
  assert (E : existsb (key_eqb k) s = existsb (key_eqb k) s').
  { destruct (existsb (key_eqb k) s) eqn:A, (existsb (key_eqb k) s') eqn:B; try reflexivity.
    - apply existsb_key in A. apply H in A. apply existsb_key in A. congruence.
    - apply existsb_key in B. apply H in B. apply existsb_key in B. congruence. }
  rewrite E. destruct (existsb (key_eqb k) s'); [now apply IH|]. f_equal. apply IH. intros x. cbn. now rewrite H.
Qed.
Section DW.
  Variable W : key -> list Q.
  Let g (k : key) : key * list Q := (k, W k).
  Lemma kset_same ks k : In k ks -> kset (map g ks) k (W k) = map g ks.
  Proof.
    induction ks as [|a ks IH]; intros H; [destruct H|]. cbn [map g kset]. destruct (key_eqb_spec a k) as [->|]; [reflexivity|].
    destruct H as [H|H]; [congruence|]. fold g. now rewrite IH.
  Qed.
  Lemma kset_new ks k : ~ In k ks -> kset (map g ks) k (W k) = map g (ks ++ [k]).
  Proof.
    induction ks as [|a ks IH]; intros H; [reflexivity|]. cbn [map g kset app]. destruct (key_eqb_spec a k) as [->|]; [exfalso; apply H; now left|].
    fold g. rewrite IH; [reflexivity|]. intros Hin; apply H; now right.
  Qed.
  Lemma dwave_fold l : forall ks, (forall s, In s l -> W (sp_hash s) = sp_wave s) ->
    fold_left (fun d s => kset d (sp_hash s) (sp_wave s)) l (map g ks) = map g (ks ++ first_seen_acc ks (map sp_hash l)).
  Proof.
    induction l as [|s l IH]; intros ks H; cbn [fold_left map first_seen_acc]; [now rewrite app_nil_r|].
    rewrite <- (H s (or_introl eq_refl)). destruct (existsb (key_eqb (sp_hash s)) ks) eqn:E.
    - apply existsb_key in E. rewrite kset_same by exact E. apply IH. intros; apply H; now right.
    - rewrite kset_new by (intros Hin; apply existsb_key in Hin; congruence). rewrite IH by (intros; apply H; now right).
      rewrite <- app_assoc. cbn [app]. do 2 f_equal. f_equal. apply first_seen_acc_ext. intros k. rewrite in_app_iff. cbn. tauto.
  Qed.
End DW.
Definition Wof (l : list spec) (k : key) : list Q := match find (fun s => key_eqb (sp_hash s) k) l with Some s => sp_wave s | None => [] end.
Definition same_waves (l : list spec) : Prop := forall s s', In s l -> In s' l -> sp_hash s = sp_hash s' -> sp_wave s = sp_wave s'.
Lemma Wof_spec l s : same_waves l -> In s l -> Wof l (sp_hash s) = sp_wave s.
Proof.
  intros H Hs. unfold Wof. destruct (find _ l) as [e|] eqn:E.
  - apply find_some in E as [He Hk]. destruct (key_eqb_spec (sp_hash e) (sp_hash s)); [|discriminate]. now apply H.
  - apply (find_none _ _ E) in Hs. destruct (key_eqb_spec (sp_hash s) (sp_hash s)); [discriminate|congruence].
Qed.
Lemma dwave_first l (W : key -> list Q) : (forall s, In s l -> W (sp_hash s) = sp_wave s) ->
  dwave_of l = map (fun k => (k, W k)) (first_seen (map sp_hash l)).
Proof. intros H. exact (dwave_fold W l [] H). Qed.
Lemma compat_waves l : compatible l -> same_waves l.
Proof. intros H s s' A B E. now apply H. Qed.
Lemma first_seen_idem l : first_seen (first_seen l) = first_seen l.
Proof.
  assert (Hn : NoDup (first_seen l)) by apply first_seen_ok. revert Hn. generalize (first_seen l). intros ks Hn.
  unfold first_seen. assert (H : forall seen, (forall k, In k ks -> ~ In k seen) -> first_seen_acc seen ks = ks); [|apply H; intros ? _ []].
  induction Hn as [|k ks Hk _ IH]; intros seen Hd; [reflexivity|]. cbn [first_seen_acc].
  destruct (existsb (key_eqb k) seen) eqn:E; [apply existsb_key in E; exfalso; exact (Hd k (or_introl eq_refl) E)|]. f_equal. apply IH.
  intros k' Hk' [->|Hin]; [contradiction|]. exact (Hd k' (or_intror Hk') Hin).
Qed.
(* coadding keeps grids and keys *)
Lemma coadd_same_dwave hashf cache nsig l c : Forall (wf_spec hashf) l -> compatible l -> compute_coadd hashf cache nsig l = Ok c ->
  dwave_of c = dwave_of l /\ Forall (wf_spec hashf) c /\ compatible c.
Proof.
  intros Hw Hc H. destruct (coadd_hashes _ _ _ _ _ Hw Hc H) as [Hh Hg].
  assert (Hs : forall s, In s c -> exists e, In e l /\ sp_hash e = sp_hash s /\ sp_wave e = sp_wave s /\ d_off (Rof e) = d_off (Rof s) /\ wf_spec hashf s).
  { intros s Hs. destruct (Hg s Hs) as [Hgr (e & He)].
    destruct (coadd_group_spec _ _ _ _ _ (group_wf _ _ (sp_hash s) Hw) (group_same _ _ Hc) Hgr) as (kept & _ & _ & _ & HC & Hwf & Heq & _).
    exists e. destruct (Heq e He) as (A & B & _). destruct HC as (C & _). specialize (C e He). apply group_in in He as [He _].
    split; [exact He|]. split; [exact A|]. split; [exact C|]. split; [exact B|exact Hwf]. }
  split; [|split].
  - rewrite (dwave_first l (Wof l)) by (intros; apply Wof_spec; [now apply compat_waves|assumption]).
    rewrite (dwave_first c (Wof l)); [now rewrite Hh, first_seen_idem|].
    intros s Hin. destruct (Hs s Hin) as (e & He & E1 & E2 & _). rewrite <- E1, <- E2. apply Wof_spec; [now apply compat_waves|exact He].
  - apply Forall_forall. intros s Hin. now destruct (Hs s Hin) as (e & _ & _ & _ & _ & ?).
  - intros s s' A B E. destruct (Hs s A) as (e & He & E1 & E2 & E3 & _). destruct (Hs s' B) as (e' & He' & E1' & E2' & E3' & _).
    destruct (Hc e e' He He') as [F1 F2]; [congruence|]. split; congruence.
Qed.
Lemma leg_dict_dwave n l l' : dwave_of l = dwave_of l' -> leg_dict n l = leg_dict n l'.
Proof. unfold leg_dict. now intros ->. Qed.
Lemma kget_mapM {B} (f : list Q -> res B) dw d : mapM (fun kw => do a <- f (snd kw); Ok (fst kw, a)) dw = Ok d ->
  forall k w, kget dw k = Some w -> exists a, f w = Ok a /\ kget d k = Some a.
Proof.
  revert d. induction dw as [|[k0 w0] dw IH]; intros d H k w Hk; [discriminate|]. cbn [mapM fst snd] in H.
  destruct (f w0) as [a|] eqn:Ef; [|discriminate]. cbn [rbind] in H. destruct (mapM _ dw) as [m|] eqn:Em; [|discriminate]. cbn [rbind] in H.
  assert (Ed : d = (k0, a) :: m) by congruence. subst d. cbn [kget] in *. destruct (key_eqb k0 k).
  - assert (w = w0) by congruence. subst w. eauto.
  - now apply (IH m).
Qed.
Lemma kget_first ks (W : key -> list Q) k : In k ks -> kget (map (fun k => (k, W k)) ks) k = Some (W k).
Proof.
  induction ks as [|a ks IH]; intros H; [destruct H|]. cbn [map kget]. destruct (key_eqb_spec a k) as [->|]; [reflexivity|].
  destruct H as [|H]; [congruence|]. now apply IH.
Qed.
Lemma leg_dict_basis n l d : same_waves l -> leg_dict n l = Ok d -> legendre_basis n l d.
Proof.
  intros Hc H s lo hi Hs HL HG Hlt. destruct (leg_array_spec n _ lo hi HL HG Hlt) as (A & EA & Hl & HA).
  assert (Hk : kget (dwave_of l) (sp_hash s) = Some (sp_wave s)).
  { rewrite (dwave_first l (Wof l)) by (intros; now apply Wof_spec). rewrite kget_first; [f_equal; now apply Wof_spec|]. apply first_seen_in. now apply in_map. }
  destruct (kget_mapM (leg_array n) _ _ H _ _ Hk) as (a & E1 & E2). rewrite EA in E1. assert (a = Some A) by congruence. subst a.
  exists A. auto.
Qed.
Lemma leg_dict_ok n l : (forall s, In s l -> sp_wave s <> []) -> exists d, leg_dict n l = Ok d.
Proof.
  intros H. unfold leg_dict.
  assert (HA : forall w, w <> [] -> exists a, leg_array n w = Ok a).
  { intros w Hw. unfold leg_array. destruct n; [eauto|]. unfold reduced_wavelength. destruct w; [congruence|]. destruct (Qeq_bool _ _); cbn [rbind]; eauto. }
  assert (HD : forall k w, In (k, w) (dwave_of l) -> w <> []).
  { unfold dwave_of. assert (G : forall l d, (forall s, In s l -> sp_wave s <> []) -> (forall k w, In (k, w) d -> w <> []) ->
       forall k w, In (k, w) (fold_left (fun d s => kset d (sp_hash s) (sp_wave s)) l d) -> w <> []).
    { clear. induction l as [|s l IH]; intros d Hl Hd; [exact Hd|]. cbn [fold_left]. apply IH; [intros; apply Hl; now right|].
      intros k w Hin. assert (Hor : forall (d : list (key * list Q)) k0 w0, In (k, w) (kset d k0 w0) -> In (k, w) d \/ w = w0).
      { clear. induction d as [|[a b] d IH]; intros k0 w0 H; cbn [kset] in H; [destruct H as [H|[]]; right; congruence|].
        destruct (key_eqb a k0); destruct H as [H|H]; [right; congruence|left; now right|left; now left|]. destruct (IH _ _ H) as [?|?]; [left; now right|now right]. }
      destruct (Hor _ _ _ Hin) as [H|H]; [exact (Hd _ _ H)|rewrite H; apply Hl; now left]. }
    apply G; [exact H|]. intros k w []. }
  destruct (mapM_ok (fun kw => do a <- leg_array n (snd kw); Ok (fst kw, a)) (fun _ _ => True) (dwave_of l)) as (m & E & _); [|eauto].
  intros [k w] Hin. destruct (HA w (HD k w Hin)) as (a & Ea). cbn [snd fst]. rewrite Ea. cbn [rbind]. eauto.
Qed.
