(* C54, C56, C57, C77, C80, C81, C87: shared memory, caches, grids, GPU mode. *)
From Verif Require Import Prelude PreludeFacts Facts2 Model_Fitz Model_Dist Spec_Dist Proof_Dist Proof_Dist2 Proof_Dist3 Props_Dist Model_Zscan
  Model_Targets Model_Targets2 Spec_Targets Spec_Targets2 Proof_Targets Proof_Targets3 Proof_Targets5 Proof_Targets6 Proof_Fitz Props_Targets.
Local Open Scope Q_scope.
Local Arguments Qred : simpl never.

(* ================= C54 ================= *)
(* Any history of pack, unpack, Rcsr, R on a spectrum with a square resolution
   matrix: the arrays are the original ones, Rcsr always returns the original
   matrix (the one given, or the conversion of R), after unpack R is the
   original, and packing and unpacking never fail. *)
Theorem C54_history_partial : forall tocsr wave flux ivar R cache h,
  gd_rows R = gd_width R -> gd_cols R = gd_width R -> Forall (fun row => length row = gd_width R) (gd_data R) ->
  let s := shm_run tocsr (shm_init wave flux ivar (Some R) cache) h in
  sh_wave s = wave /\ sh_flux s = flux /\ sh_ivar s = ivar /\
  snd (shm_Rcsr tocsr s) = Ok (match cache with Some c => c | None => tocsr R end) /\
  snd (shm_pack s) = Ok tt /\ snd (shm_unpack s) = Ok tt /\
  shm_getR (fst (shm_unpack s)) = Ok (Some R) /\
  sh_wave (fst (shm_unpack s)) = wave /\ sh_wave (fst (shm_pack s)) = wave /\
  (shm_getR s = Ok (Some R) \/ (sh_shared s = true /\ shm_getR s = Err AttributeError)).
Proof.
  intros tocsr wave flux ivar R cache h H1 H2 H3 s.
  assert (HI := run_inv wave flux ivar R cache tocsr (conj H1 H2) H3 h _ (or_introl (init_U wave flux ivar R cache tocsr))). fold s in HI.
  assert (HC := rcsr_any wave flux ivar R cache tocsr (conj H1 H2) H3 s HI). destruct HC as [_ HC]. unfold origc in HC.
  assert (Ha : same_arrays wave flux ivar s) by (destruct HI as [(_ & ? & _)|(_ & ? & _)]; assumption).
  destruct Ha as (A1 & A2 & A3). split; [exact A1|]. split; [exact A2|]. split; [exact A3|]. split; [exact HC|].
  destruct HI as [HI|HI].
  - destruct (pack_U _ _ _ _ _ tocsr H3 s HI) as [P1 P2]. split; [exact P2|].
    assert (U := unpack_U _ _ _ _ _ _ s HI). rewrite U. cbn [fst snd]. split; [reflexivity|].
    destruct HI as (_ & _ & HR & _). unfold shm_getR. rewrite HR. split; [reflexivity|]. split; [exact A1|].
    split; [destruct P1 as (_ & (? & _) & _); assumption|]. now left.
  - rewrite (pack_P _ _ _ _ _ _ s HI). cbn [fst snd]. split; [reflexivity|].
    destruct (unpack_P _ _ _ _ _ _ (conj H1 H2) H3 s HI) as [P1 P2]. split; [exact P2|].
    destruct P1 as (_ & (B1 & _) & HR & _). unfold shm_getR at 1. rewrite HR. split; [reflexivity|]. split; [exact B1|]. split; [exact A1|].
    destruct HI as (Hs & _ & HR' & _). right. split; [exact Hs|]. unfold shm_getR. now rewrite HR'.
Qed.
(* while packed, the attribute R does not exist *)
Theorem C54_R_while_packed_refuted : forall tocsr wave flux ivar R cache,
  shm_getR (shm_run tocsr (shm_init wave flux ivar (Some R) cache) [OpPack]) = Err AttributeError.
Proof. intros. destruct cache; reflexivity. Qed.
(* a matrix whose data array is not as wide as the grid comes back with another shape *)
Theorem C54_rectangular_refuted : forall tocsr wave flux ivar, exists R R',
  shm_getR (shm_run tocsr (shm_init wave flux ivar (Some R) None) [OpPack; OpUnpack]) = Ok (Some R') /\ gd_rows R = 3%nat /\ gd_rows R' = 2%nat.
Proof.
  intros. exists {| gd_off := [0]%Z; gd_data := [[1;1]]; gd_width := 2; gd_rows := 3; gd_cols := 3 |}. eexists.
  split; [vm_compute; reflexivity|]. split; reflexivity.
Qed.
(* a spectrum without resolution cannot be packed, but keeps its arrays *)
Theorem C54_no_resolution_refuted : forall wave flux ivar cache,
  let s := shm_init wave flux ivar None cache in
  snd (shm_pack s) = Err AttributeError /\ sh_flux (fst (shm_pack s)) = flux /\ sh_ivar (fst (shm_pack s)) = ivar.
Proof. intros. split; [reflexivity|]. split; reflexivity. Qed.
Example C54_instance : forall tocsr,
  let R := {| gd_off := [1;0]%Z; gd_data := [[0;2#5];[1;3#5]]; gd_width := 2; gd_rows := 2; gd_cols := 2 |} in
  shm_getR (shm_run tocsr (shm_init [1;2] [3;4] [1;1] (Some R) None) [OpPack; OpRcsr; OpPack; OpPack; OpUnpack]) = Ok (Some R).
Proof. intros. vm_compute. reflexivity. Qed.

(* ================= C77 ================= *)
Theorem C77_range : forall w rw, reduced_wavelength w = Ok (Some rw) ->
  length rw = length w /\
  (forall i, (i < length w)%nat -> -1 <= px rw i <= 1) /\
  (exists i, (i < length w)%nat /\ px rw i == -1) /\ (exists i, (i < length w)%nat /\ px rw i == 1) /\
  (forall i j, (i < length w)%nat -> (j < length w)%nat -> px w i < px w j -> px rw i < px rw j) /\
  exists a b, 0 < a /\ forall i, (i < length w)%nat -> px rw i == a * px w i + b.
Proof.
  intros w rw H. destruct (reduced_inv w rw H) as (lo & hi & HL & HG & Hlt).
  destruct (reduced_spec w lo hi HL HG Hlt) as (rw' & E & Hl & Hv). rewrite H in E. assert (rw' = rw) by congruence. subst rw'.
  assert (Hd : 0 < hi - lo) by lra. assert (Hinv : 0 < / (hi - lo)) by (now apply Qinv_lt_0_compat).
  set (a := 2 * / (hi - lo)). assert (Ha : 0 < a) by (unfold a; lra).
  assert (Hva : forall i, (i < length w)%nat -> px rw i == a * px w i + (- a * lo - 1)).
  { intros i Hi. rewrite (Hv i Hi). unfold a, Qdiv. ring. }
  assert (Hal : a * lo + (- a * lo - 1) == -1) by ring. assert (Hah : a * hi + (- a * lo - 1) == 1) by (unfold a; field; lra).
  assert (Hmono : forall x y, x <= y -> a * x <= a * y) by (intros x y Hxy; rewrite !(Qmult_comm a); apply Qmult_le_compat_r; lra).
  split; [exact Hl|]. split; [|split; [|split; [|split]]].
  - intros i Hi. rewrite (Hva i Hi). assert (Hin : In (px w i) w) by (apply nth_In; exact Hi).
    pose proof (Hmono _ _ (proj2 HL _ Hin)). pose proof (Hmono _ _ (proj2 HG _ Hin)). split; lra.
  - destruct (In_nth _ _ 0 (proj1 HL)) as (i & Hi & E1). exists i. split; [exact Hi|]. rewrite (Hva i Hi). unfold px. rewrite E1. exact Hal.
  - destruct (In_nth _ _ 0 (proj1 HG)) as (i & Hi & E1). exists i. split; [exact Hi|]. rewrite (Hva i Hi). unfold px. rewrite E1. exact Hah.
  - intros i j Hi Hj Hij. rewrite (Hva i Hi), (Hva j Hj). assert (a * px w i < a * px w j) by (rewrite !(Qmult_comm a); apply Qmult_lt_compat_r; lra). lra.
  - exists a, (- a * lo - 1). split; [exact Ha|exact Hva].
Qed.
Theorem C77_defined : forall w, (exists a b, In a w /\ In b w /\ a < b) -> exists rw, reduced_wavelength w = Ok (Some rw).
Proof.
  intros w (a & b & Ha & Hb & Hab). destruct w as [|w0 w]; [destruct Ha|]. unfold reduced_wavelength.
  destruct (qmin_least w w0) as [_ A]. destruct (qmax_greatest w w0) as [_ B].
  destruct (Qeq_bool _ _) eqn:E; [|eauto]. apply Qeq_bool_iff in E. specialize (A a Ha). specialize (B b Hb). lra.
Qed.
(* all wavelengths equal: 0/0, no values *)
Theorem C77_constant_refuted : forall w c, w <> [] -> (forall x, In x w -> x == c) -> reduced_wavelength w = Ok None.
Proof.
  intros [|w0 w] c Hne H; [congruence|]. unfold reduced_wavelength.
  destruct (qmin_least w w0) as [A _]. destruct (qmax_greatest w w0) as [B _]. rewrite (proj2 (Qeq_bool_iff _ _)); [reflexivity|].
  rewrite (H _ A), (H _ B). reflexivity.
Qed.
Example C77_instance : reduced_wavelength [3600; 4000; 5600] = Ok (Some [-1; -3#5; 1]).
Proof. vm_compute. reflexivity. Qed.

(* ================= C56 ================= *)
(* invariants of the cache *)
Definition leg_inv (dw : nat -> res legdict) (c : tcache) : Prop := forall d, tc_leg c = Some d -> dw (tc_nleg c) = Ok d.
Definition gpu_inv (dw : nat -> res legdict) (c : tcache) : Prop := forall d, tc_gpuleg c = Some d -> dw (tc_nleg c) = Ok d.
Lemma legendre_cpu l n c c' d : leg_inv (fun n => leg_dict n l) c -> legendre l n false c = Ok (c', d) ->
  leg_dict n l = Ok d /\ leg_inv (fun n => leg_dict n l) c'.
Proof.
  intros HI H. unfold legendre in H. cbn [andb] in H.
  assert (HC : (do d <- leg_dict n l; Ok ({| tc_leg := Some d; tc_gpuleg := tc_gpuleg c; tc_nleg := n; tc_gpu := tc_gpu c |}, d)) = Ok (c', d) ->
     leg_dict n l = Ok d /\ leg_inv (fun n => leg_dict n l) c').
  { destruct (leg_dict n l) as [x|] eqn:E; [|discriminate]. cbn [rbind]. intros Hx. assert (x = d) by congruence. subst x. split; [reflexivity|].
    intros e He. assert (Ec : c' = {| tc_leg := Some d; tc_gpuleg := tc_gpuleg c; tc_nleg := n; tc_gpu := tc_gpu c |}) by congruence. subst c'. cbn in *.
    rewrite E. congruence. }
  destruct (tc_leg c) as [x|] eqn:El; [|now apply HC]. destruct (tc_nleg c =? n)%nat eqn:En; [|now apply HC]. apply Nat.eqb_eq in En.
  assert (c' = c /\ x = d) as [-> ->] by (split; congruence). split; [rewrite <- En; now apply HI|exact HI].
Qed.
Lemma legendre_gpu_keeps l n c c' d : leg_inv (fun n => leg_dict n l) c -> legendre l n true c = Ok (c', d) -> leg_inv (fun n => leg_dict n l) c'.
Proof.
  intros HI H. unfold legendre in H. cbn [andb] in H.
  assert (HC : (do d <- leg_dict n l; Ok ({| tc_leg := Some d; tc_gpuleg := Some d; tc_nleg := n; tc_gpu := tc_gpu c |}, d)) = Ok (c', d) ->
     leg_inv (fun n => leg_dict n l) c').
  { destruct (leg_dict n l) as [x|] eqn:E; [|discriminate]. cbn [rbind]. intros Hx.
    assert (Ec : c' = {| tc_leg := Some d; tc_gpuleg := Some d; tc_nleg := n; tc_gpu := tc_gpu c |}) by congruence. subst c'. intros e He. cbn in *. congruence. }
  destruct (tc_nleg c =? n)%nat eqn:En.
  - destruct (tc_gpuleg c); [assert (c' = c) as -> by congruence; exact HI|].
    destruct (tc_leg c) as [x|] eqn:El; [|now apply HC].
    assert (Ec : c' = {| tc_leg := Some x; tc_gpuleg := Some x; tc_nleg := tc_nleg c; tc_gpu := tc_gpu c |}) by congruence. subst c'.
    intros e He. cbn in *. apply HI. congruence.
  - destruct (tc_leg c) as [x|]; now apply HC.
Qed.
Lemma legendre_gpu l n c c' d : leg_inv (fun n => leg_dict n l) c -> gpu_inv (fun n => leg_dict n l) c -> legendre l n true c = Ok (c', d) ->
  leg_dict n l = Ok d /\ gpu_inv (fun n => leg_dict n l) c'.
Proof.
  intros HI HG H. unfold legendre in H. cbn [andb] in H.
  assert (HC : (do d <- leg_dict n l; Ok ({| tc_leg := Some d; tc_gpuleg := Some d; tc_nleg := n; tc_gpu := tc_gpu c |}, d)) = Ok (c', d) ->
     leg_dict n l = Ok d /\ gpu_inv (fun n => leg_dict n l) c').
  { destruct (leg_dict n l) as [x|] eqn:E; [|discriminate]. cbn [rbind]. intros Hx.
    assert (Ec : c' = {| tc_leg := Some d; tc_gpuleg := Some d; tc_nleg := n; tc_gpu := tc_gpu c |}) by congruence. subst c'. split; [congruence|]. intros e He. cbn in *. congruence. }
  destruct (tc_nleg c =? n)%nat eqn:En.
  - apply Nat.eqb_eq in En. destruct (tc_gpuleg c) as [g|] eqn:Eg; [assert (c' = c /\ g = d) as [-> ->] by (split; congruence); split; [rewrite <- En; now apply HG|exact HG]|].
    destruct (tc_leg c) as [x|] eqn:El; [|now apply HC].
    assert (Ec : c' = {| tc_leg := Some x; tc_gpuleg := Some x; tc_nleg := tc_nleg c; tc_gpu := tc_gpu c |} /\ x = d) by (split; congruence). destruct Ec as [-> ->].
    split; [rewrite <- En; now apply HI|]. intros e He. cbn in *. apply HI. congruence.
  - destruct (tc_leg c) as [x|]; now apply HC.
Qed.
(* the state after a history *)
Definition good (hashf : hash_arg -> Z) (l0 : list spec) (s : tg_state) : Prop :=
  Forall (wf_spec hashf) (fst s) /\ compatible (fst s) /\ dwave_of (fst s) = dwave_of l0 /\
  leg_inv (fun n => leg_dict n l0) (snd s).
Lemma step_good hashf l0 s o : good hashf l0 s -> good hashf l0 (tg_step hashf s o).
Proof.
  intros (Hw & Hc & Hd & Hl). destruct s as [l c]. cbn [fst snd] in *. destruct o as [n g| |ca ns]; cbn [tg_step fst snd].
  - destruct (legendre l n g c) as [[c' d]|] eqn:E; [|split; auto]. split; [exact Hw|]. split; [exact Hc|]. split; [exact Hd|]. cbn [snd].
    assert (HI : leg_inv (fun n => leg_dict n l) c) by (intros e He; rewrite (leg_dict_dwave _ l l0 Hd); now apply Hl).
    assert (HI' : leg_inv (fun n => leg_dict n l) c') by (destruct g; [exact (legendre_gpu_keeps _ _ _ _ _ HI E)|exact (proj2 (legendre_cpu _ _ _ _ _ HI E))]).
    intros e He. rewrite <- (leg_dict_dwave _ l l0 Hd). now apply HI'.
  - destruct (gpu_spectral_data l c) as [[c' v]|] eqn:E; [|split; auto]. split; [exact Hw|]. split; [exact Hc|]. split; [exact Hd|]. cbn [snd].
    unfold gpu_spectral_data in E. destruct (tc_gpu c); [assert (c' = c) as -> by congruence; exact Hl|]. destruct (spec_arrays l); [|discriminate]. cbn [rbind] in E.
    intros e He. assert (Ec : tc_leg c' = tc_leg c /\ tc_nleg c' = tc_nleg c).
    { injection E as E1 _. rewrite <- E1. split; reflexivity. }
    destruct Ec as [E1 E2]. rewrite E2. apply Hl. congruence.
  - destruct (compute_coadd hashf ca ns l) as [sp|] eqn:E; [|split; auto]. destruct (coadd_same_dwave _ _ _ _ _ Hw Hc E) as (A & B & C).
    split; [exact B|]. split; [exact C|]. split; [cbn [fst]; congruence|exact Hl].
Qed.
Lemma run_good hashf l0 h : forall s, good hashf l0 s -> good hashf l0 (tg_run hashf s h).
Proof. induction h as [|o h IH]; intros s H; [exact H|]. cbn. apply IH. now apply step_good. Qed.
Lemma good_init hashf l : Forall (wf_spec hashf) l -> compatible l -> good hashf l (l, tcache0).
Proof. intros Hw Hc. split; [exact Hw|]. split; [exact Hc|]. split; [reflexivity|]. intros d H. discriminate H. Qed.

(* CPU calls: right after any history of Legendre calls, GPU calls and coadds *)
Theorem C56_cpu_fresh : forall hashf l h n c d, Forall (wf_spec hashf) l -> compatible l ->
  let s := tg_run hashf (l, tcache0) h in
  legendre (fst s) n false (snd s) = Ok (c, d) -> legendre_basis n (fst s) d.
Proof.
  intros hashf l h n c d Hw Hc s H. assert (G := run_good hashf l h _ (good_init hashf l Hw Hc)). fold s in G. destruct G as (Hw' & Hc' & Hd & Hl).
  assert (HI : leg_inv (fun n => leg_dict n (fst s)) (snd s)) by (intros e He; rewrite (leg_dict_dwave _ _ l Hd); now apply Hl).
  apply leg_dict_basis; [now apply compat_waves|]. exact (proj1 (legendre_cpu _ _ _ _ _ HI H)).
Qed.
(* GPU calls: when the CPU is never asked for a number of terms other than n *)
Definition cpu_only_n (n : nat) (o : tg_op) : Prop := match o with OpLeg m false => m = n | _ => True end.
Definition no_cpu (o : tg_op) : Prop := match o with OpLeg _ false => False | _ => True end.
Lemma run_gpu hashf l0 (ok : tg_op -> Prop) (J : tcache -> Prop) h : forall s, Forall ok h -> good hashf l0 s -> J (snd s) ->
  (forall s o, ok o -> good hashf l0 s -> J (snd s) -> J (snd (tg_step hashf s o))) -> good hashf l0 (tg_run hashf s h) /\ J (snd (tg_run hashf s h)).
Proof.
  induction h as [|o h IH]; intros s Hok HG HJ Hst; [split; assumption|]. inversion Hok; subst. cbn. apply IH; auto. now apply step_good.
Qed.
Lemma gpu_step hashf l0 s o : good hashf l0 s -> gpu_inv (fun n => leg_dict n l0) (snd s) ->
  (no_cpu o \/ exists n, cpu_only_n n o /\ (tc_gpuleg (snd s) = None \/ tc_nleg (snd s) = n)) -> gpu_inv (fun n => leg_dict n l0) (snd (tg_step hashf s o)).
Proof.
  intros (Hw & Hc & Hd & Hl) Hg Ho. destruct s as [l c]. cbn [fst snd] in *.
  assert (HI : leg_inv (fun n => leg_dict n l) c) by (intros e He; rewrite (leg_dict_dwave _ l l0 Hd); now apply Hl).
  assert (HG : gpu_inv (fun n => leg_dict n l) c) by (intros e He; rewrite (leg_dict_dwave _ l l0 Hd); now apply Hg).
  destruct o as [n [|]| |ca ns]; cbn [tg_step fst snd].
  - destruct (legendre l n true c) as [[c' d]|] eqn:E; [|exact Hg]. cbn [snd]. intros e He. rewrite <- (leg_dict_dwave _ l l0 Hd).
    exact (proj2 (legendre_gpu _ _ _ _ _ HI HG E) e He).
  - destruct (legendre l n false c) as [[c' d]|] eqn:E; [|exact Hg]. cbn [snd].
    destruct Ho as [[]|(m & Hm & Hn)]. cbn in Hm. subst m.
    unfold legendre in E. cbn [andb] in E. intros e He.
    assert (Ecase : c' = c \/ (tc_gpuleg c' = tc_gpuleg c /\ tc_nleg c' = n)).
    { destruct (tc_leg c) as [x|].
      - destruct (tc_nleg c =? n)%nat; [left; congruence|]. destruct (leg_dict n l) as [y|]; [|discriminate]. cbn [rbind] in E. right. injection E as E1 _. rewrite <- E1. split; reflexivity.
      - destruct (leg_dict n l) as [y|]; [|discriminate]. cbn [rbind] in E. right. injection E as E1 _. rewrite <- E1. split; reflexivity. }
    destruct Ecase as [->|[E1 E2]]; [now apply Hg|]. rewrite E1 in He. destruct Hn as [Hn|Hn]; [congruence|]. rewrite E2, <- Hn. now apply Hg.
  - destruct (gpu_spectral_data l c) as [[c' v]|] eqn:E; [|exact Hg]. cbn [snd].
    unfold gpu_spectral_data in E. destruct (tc_gpu c); [assert (c' = c) as -> by congruence; exact Hg|]. destruct (spec_arrays l); [|discriminate]. cbn [rbind] in E.
    intros e He. assert (Ec : tc_gpuleg c' = tc_gpuleg c /\ tc_nleg c' = tc_nleg c) by (injection E as E1 _; rewrite <- E1; split; reflexivity).
    destruct Ec as [E1 E2]. rewrite E2. apply Hg. congruence.
  - destruct (compute_coadd hashf ca ns l) as [sp|] eqn:E; exact Hg.
Qed.
Theorem C56_gpu_only_partial : forall hashf l h n c d, Forall (wf_spec hashf) l -> compatible l -> Forall no_cpu h ->
  let s := tg_run hashf (l, tcache0) h in
  legendre (fst s) n true (snd s) = Ok (c, d) -> legendre_basis n (fst s) d.
Proof.
  intros hashf l h n c d Hw Hc Hh s H.
  destruct (run_gpu hashf l no_cpu (gpu_inv (fun n => leg_dict n l)) h (l, tcache0) Hh (good_init hashf l Hw Hc)) as [(Hw' & Hc' & Hd & Hl) HG].
  { intros e He. discriminate He. }
  { intros s' o Ho Hgs HJ. apply gpu_step; [exact Hgs|exact HJ|now left]. }
  fold s in Hw', Hc', Hd, Hl, HG.
  assert (HI : leg_inv (fun n => leg_dict n (fst s)) (snd s)) by (intros e He; rewrite (leg_dict_dwave _ _ l Hd); now apply Hl).
  assert (HG' : gpu_inv (fun n => leg_dict n (fst s)) (snd s)) by (intros e He; rewrite (leg_dict_dwave _ _ l Hd); now apply HG).
  apply leg_dict_basis; [now apply compat_waves|]. exact (proj1 (legendre_gpu _ _ _ _ _ HI HG' H)).
Qed.
Definition same_n (n : nat) (o : tg_op) : Prop := match o with OpLeg m _ => m = n | _ => True end.
Theorem C56_one_degree_partial : forall hashf l h n c d gpu, Forall (wf_spec hashf) l -> compatible l -> Forall (same_n n) h ->
  let s := tg_run hashf (l, tcache0) h in
  legendre (fst s) n gpu (snd s) = Ok (c, d) -> legendre_basis n (fst s) d.
Proof.
  intros hashf l h n c d gpu Hw Hc Hh s H. destruct gpu; [|exact (C56_cpu_fresh hashf l h n c d Hw Hc H)].
  destruct (run_gpu hashf l (same_n n) (fun c => gpu_inv (fun n => leg_dict n l) c /\ (tc_gpuleg c = None \/ tc_nleg c = n)) h (l, tcache0) Hh (good_init hashf l Hw Hc)) as [(Hw' & Hc' & Hd & Hl) [HG _]].
  { split; [intros e He; discriminate He|now left]. }
  { intros s' o Ho Hgs [HJ1 HJ2]. split.
    - apply gpu_step; [exact Hgs|exact HJ1|]. destruct o as [m [|]| |]; [now left| |now left|now left]. right. exists n. split; [exact Ho|exact HJ2].
    - destruct s' as [l' c']. cbn [snd] in *. destruct o as [m g| |ca ns]; cbn [tg_step fst snd].
      + cbn in Ho. subst m. destruct (legendre l' n g c') as [[c2 d2]|] eqn:E; [|exact HJ2]. cbn [snd]. right.
        unfold legendre in E. destruct g; cbn [andb] in E.
        * destruct (tc_nleg c' =? n)%nat eqn:En.
          -- apply Nat.eqb_eq in En. destruct (tc_gpuleg c'); [assert (c2 = c') as -> by congruence; exact En|].
             destruct (tc_leg c'); [injection E as E1 _; rewrite <- E1; exact En|].
             destruct (leg_dict n l'); [|discriminate]. cbn [rbind] in E. injection E as E1 _. rewrite <- E1. reflexivity.
          -- destruct (tc_leg c'); (destruct (leg_dict n l'); [|discriminate]); cbn [rbind] in E; injection E as E1 _; rewrite <- E1; reflexivity.
        * destruct (tc_leg c'); [destruct (tc_nleg c' =? n)%nat eqn:En; [apply Nat.eqb_eq in En; assert (c2 = c') as -> by congruence; exact En|]|];
            (destruct (leg_dict n l'); [|discriminate]); cbn [rbind] in E; injection E as E1 _; rewrite <- E1; reflexivity.
      + destruct (gpu_spectral_data l' c') as [[c2 v]|] eqn:E; [|exact HJ2]. cbn [snd]. unfold gpu_spectral_data in E.
        destruct (tc_gpu c'); [assert (c2 = c') as -> by congruence; exact HJ2|]. destruct (spec_arrays l'); [|discriminate]. cbn [rbind] in E. injection E as E1 _. rewrite <- E1. exact HJ2.
      + destruct (compute_coadd hashf ca ns l'); exact HJ2. }
  fold s in Hw', Hc', Hd, Hl, HG.
  assert (HI : leg_inv (fun n => leg_dict n (fst s)) (snd s)) by (intros e He; rewrite (leg_dict_dwave _ _ l Hd); now apply Hl).
  assert (HG' : gpu_inv (fun n => leg_dict n (fst s)) (snd s)) by (intros e He; rewrite (leg_dict_dwave _ _ l Hd); now apply HG).
  apply leg_dict_basis; [now apply compat_waves|]. exact (proj1 (legendre_gpu _ _ _ _ _ HI HG' H)).
Qed.
(* CPU and GPU mixed with two degrees: the GPU returns the old basis *)
Theorem C56_mixed_refuted : forall hashf, exists l c d A, Forall (wf_spec hashf) l /\ compatible l /\
  let s := tg_run hashf (l, tcache0) [OpLeg 3 false; OpLeg 3 true; OpLeg 2 false] in
  legendre (fst s) 2 true (snd s) = Ok (c, d) /\ kget d (KBand "b") = Some (Some A) /\ length A = 3%nat.
Proof.
  intros hashf. exists [mk [1;2;3] [1;1;1] (toep 1 0 3)]. eexists. eexists. eexists.
  split; [constructor; [apply mk_wf; [reflexivity|apply toep_wf|reflexivity]|constructor]|].
  split; [intros s s' [<-|[]] [<-|[]] _; split; reflexivity|]. cbv zeta.
  split; [vm_compute; reflexivity|]. split; reflexivity.
Qed.
(* the call succeeds *)
Theorem C56_defined : forall l n gpu c, (forall s, In s l -> sp_wave s <> []) -> exists r, legendre l n gpu c = Ok r.
Proof.
  intros l n gpu c H. destruct (leg_dict_ok n l H) as (d & E). unfold legendre. rewrite E. cbn [rbind].
  destruct (gpu && (tc_nleg c =? n)%nat); [destruct (tc_gpuleg c); [eauto|]|]; destruct (tc_leg c); try destruct (tc_nleg c =? n)%nat; destruct gpu; eauto.
Qed.
Example C56_instance : exists c, legendre [mk [1;2;3] [1;1;1] (toep 1 0 3)] 3 false tcache0 = Ok (c, [(KBand "b", Some [[1;1;1];[-1;0;1];[1;-1#2;1]])]).
Proof. eexists. vm_compute. reflexivity. Qed.

(* ================= C87 ================= *)
(* arrays on the GPU: those of the current spectra as long as nothing is coadded *)
Definition no_coadd (o : tg_op) : Prop := match o with OpCoadd _ _ => False | _ => True end.
Theorem C87_no_coadd_partial : forall hashf l h c v, Forall no_coadd h ->
  let s := tg_run hashf (l, tcache0) h in
  gpu_spectral_data (fst s) (snd s) = Ok (c, v) -> fst s = l /\ spec_arrays l = Ok v.
Proof.
  intros hashf l h c v Hh s H.
  assert (HI : forall h s0, Forall no_coadd h -> fst s0 = l -> (forall v, tc_gpu (snd s0) = Some v -> spec_arrays l = Ok v) ->
     fst (tg_run hashf s0 h) = l /\ (forall v, tc_gpu (snd (tg_run hashf s0 h)) = Some v -> spec_arrays l = Ok v)).
  { clear. induction h as [|o h IH]; intros [l' c] Hh E HI; [split; assumption|]. inversion Hh as [|? ? Ho Hh']; subst. cbn [fst snd] in *. cbn [tg_run fold_left].
    apply IH; [exact Hh'| |].
    - destruct o; cbn [tg_step fst snd]; [|destruct (gpu_spectral_data l' c) as [[? ?]|]; reflexivity|destruct Ho].
      destruct (legendre l' nleg gpu c) as [[? ?]|]; reflexivity.
    - destruct o as [n g| |]; cbn [tg_step fst snd]; [| |destruct Ho].
      + destruct (legendre l' n g c) as [[c' d]|] eqn:E; [|exact HI]. cbn [snd].
        assert (Eg : tc_gpu c' = tc_gpu c); [|rewrite Eg; exact HI].
        unfold legendre in E.
        destruct (g && (tc_nleg c =? n)%nat); [destruct (tc_gpuleg c); [congruence|]|]; destruct (tc_leg c); try (destruct (tc_nleg c =? n)%nat; [congruence|]);
          try (destruct (leg_dict n l'); [|discriminate]; cbn [rbind] in E; destruct g); injection E as E1 _; rewrite <- E1; reflexivity.
      + destruct (gpu_spectral_data l' c) as [[c' d]|] eqn:E; [|exact HI]. cbn [snd]. unfold gpu_spectral_data in E.
        destruct (tc_gpu c) eqn:Eg; [assert (c' = c) as -> by congruence; rewrite Eg; exact HI|].
        destruct (spec_arrays l') as [x|] eqn:Ex; [|discriminate]. cbn [rbind] in E. injection E as E1 E2. rewrite <- E1. cbn [tc_gpu]. intros y Hy. congruence. }
  destruct (HI h (l, tcache0) Hh eq_refl) as [H1 H2]; [discriminate|]. fold s in H1, H2. split; [exact H1|].
  unfold gpu_spectral_data in H. rewrite H1 in H. destruct (tc_gpu (snd s)) as [x|] eqn:E; [rewrite (H2 x eq_refl); congruence|].
  destruct (spec_arrays l) as [x|]; [|discriminate]. cbn [rbind] in H. congruence.
Qed.
(* after a coadd the GPU still holds the single exposures *)
Theorem C87_after_coadd_refuted : forall hashf, exists l c v, Forall (wf_spec hashf) l /\ compatible l /\
  let s := tg_run hashf (l, tcache0) [OpGpu; OpCoadd false 0] in
  gpu_spectral_data (fst s) (snd s) = Ok (c, v) /\ spec_arrays (fst s) = Ok ([2;2;2], [1;2;3], [2;4;6]) /\ v = ([1;1;1;1;1;1], [1;2;3;1;2;3], [1;2;3;1;2;3]).
Proof.
  intros hashf. set (A := mk [1;2;3] [1;1;1] (toep 1 0 3)). exists [A; A]. eexists. eexists.
  assert (HA : wf_spec hashf A) by (apply mk_wf; [reflexivity|apply toep_wf|reflexivity]).
  split; [constructor; [exact HA|constructor; [exact HA|constructor]]|].
  split; [intros s s' [<-|[<-|[]]] [<-|[<-|[]]] _; split; reflexivity|]. cbv zeta.
  split; [vm_compute; reflexivity|]. split; [vm_compute; reflexivity|]. reflexivity.
Qed.

(* ================= C57 ================= *)
(* every rank gets the grid of every spectrum of every rank, and nothing else *)
Theorem C57_wavegrids_mpi : forall locals, same_waves (concat (concat locals)) -> forall rank,
  (forall ts t s, In ts locals -> In t ts -> In s t -> kget (wavegrids true locals rank) (sp_hash s) = Some (sp_wave s)) /\
  (forall k w, kget (wavegrids true locals rank) k = Some w -> exists ts t s, In ts locals /\ In t ts /\ In s t /\ sp_hash s = k /\ sp_wave s = w) /\
  NoDup (map fst (wavegrids true locals rank)) /\
  (forall rank', wavegrids true locals rank' = wavegrids true locals rank).
Proof.
  intros locals Hs rank. unfold wavegrids.
  assert (HG : forall k, kget (fold_left (fun d p => fold_left add_new p d) (map my_dwave locals) []) k = kget (pairs (concat (concat locals))) k) by (intros; apply merge_get).
  split; [|split; [|split; [|reflexivity]]].
  - intros ts t s H1 H2 H3. rewrite HG.
    assert (Hin : In s (concat (concat locals))) by (apply in_concat; exists t; split; [apply in_concat; exists ts; auto|exact H3]).
    destruct (kget_pairs_some _ _ Hin) as (w & E). rewrite E. destruct (kget_pairs_in _ _ _ E) as (s' & A & B & C). rewrite <- C. f_equal. now apply Hs.
  - intros k w H. rewrite HG in H. destruct (kget_pairs_in _ _ _ H) as (s & A & B & C). apply in_concat in A as (t & A1 & A2). apply in_concat in A1 as (ts & A3 & A4).
    exists ts, t, s. auto.
  - generalize (map my_dwave locals). intros dl. assert (H : forall d : list (key * list Q), NoDup (map fst d) -> NoDup (map fst (fold_left (fun d p => fold_left add_new p d) dl d))).
    { induction dl as [|p dl IH]; intros d Hd; [exact Hd|]. cbn. apply IH. now apply add_new_keys. }
    apply H. constructor.
Qed.
Theorem C57_wavegrids_serial : forall local, same_waves (concat local) ->
  (forall t s, In t local -> In s t -> kget (wavegrids false [local] 0) (sp_hash s) = Some (sp_wave s)) /\
  (forall k w, kget (wavegrids false [local] 0) k = Some w -> exists t s, In t local /\ In s t /\ sp_hash s = k /\ sp_wave s = w).
Proof.
  intros local Hs. unfold wavegrids. cbn [nth]. split.
  - intros t s H1 H2. rewrite my_dwave_get. assert (Hin : In s (concat local)) by (apply in_concat; eauto).
    destruct (kget_pairs_some _ _ Hin) as (w & E). rewrite E. destruct (kget_pairs_in _ _ _ E) as (s' & A & B & C). rewrite <- C. f_equal. now apply Hs.
  - intros k w H. rewrite my_dwave_get in H. destruct (kget_pairs_in _ _ _ H) as (s & A & B & C). apply in_concat in A as (t & A1 & A2). exists t, s. auto.
Qed.
Example C57_instance : let A := mk [1;2;3] [1;1;1] (toep 1 0 3) in
  let Z := {| sp_wave := [7;8]; sp_flux := [5;5]; sp_ivar := [2;2]; sp_R := None; sp_Rcsr := None; sp_band := Some "z"%string; sp_hash := KBand "z" |} in
  same_waves (concat (concat [[[A]; [A]]; []; [[Z; A]]])) /\
  wavegrids true [[[A]; [A]]; []; [[Z; A]]] 1 = [(KBand "b", [1;2;3]); (KBand "z", [7;8])].
Proof.
  intros A Z. split; [|vm_compute; reflexivity]. intros s s' H H' E. cbn in H, H'.
  destruct H as [<-|[<-|[<-|[<-|[]]]]]; destruct H' as [<-|[<-|[<-|[<-|[]]]]]; try discriminate E; reflexivity.
Qed.

(* ================= C81 ================= *)
(* without a band the hash fixes the length and the four outer points *)
Theorem C81_outer_points_partial : forall hashf w w' R R' h, (forall a b, hashf a = hashf b -> a = b) ->
  wavehash hashf w R None = Ok h -> wavehash hashf w' R' None = Ok h ->
  length w = length w' /\ px w 0 = px w' 0 /\ px w 1 = px w' 1 /\ px w (length w - 2) = px w' (length w - 2) /\ px w (length w - 1) = px w' (length w - 1).
Proof.
  intros hashf w w' R R' h Hinj H H'. unfold wavehash in *. destruct (length w <? 2)%nat; [discriminate|]. destruct (length w' <? 2)%nat; [discriminate|].
  assert (E : KHash (hashf (length w, px w 0, px w 1, px w (length w - 2), px w (length w - 1), match R with Some r => Some (length (d_data r)) | None => None end)) =
              KHash (hashf (length w', px w' 0, px w' 1, px w' (length w' - 2), px w' (length w' - 1), match R' with Some r => Some (length (d_data r)) | None => None end))) by (unfold px; congruence).
  injection E as E. apply Hinj in E. injection E as E1 E2 E3 E4 E5 _. rewrite <- E1 in E4, E5. auto.
Qed.
(* which determines linear and logarithmic grids *)
Definition linear_grid (w : list Q) : Prop := forall i, (S (S i) < length w)%nat -> px w (S (S i)) - px w (S i) == px w (S i) - px w i.
Definition log_grid (w : list Q) : Prop := (forall i, (i < length w)%nat -> 0 < px w i) /\
  forall i, (S (S i) < length w)%nat -> px w (S (S i)) * px w i == px w (S i) * px w (S i).
Lemma grid_determined (f : Q -> Q -> Q) (w w' : list Q) : length w = length w' -> px w 0 = px w' 0 -> px w 1 = px w' 1 ->
  (forall a b c d, a == c -> b == d -> f a b == f c d) ->
  (forall i, (S (S i) < length w)%nat -> px w (S (S i)) == f (px w i) (px w (S i))) ->
  (forall i, (S (S i) < length w')%nat -> px w' (S (S i)) == f (px w' i) (px w' (S i))) ->
  forall i, (i < length w)%nat -> px w i == px w' i.
Proof.
  intros Hl H0 H1 Hf Hw Hw' i. enough ((i < length w)%nat -> px w i == px w' i /\ ((S i < length w)%nat -> px w (S i) == px w' (S i))) by tauto.
  induction i as [|i IH]; intros Hi; [rewrite H0, H1; split; [reflexivity|reflexivity]|].
  destruct (IH ltac:(lia)) as [A B]. split; [now apply B|]. intros Hi'. rewrite (Hw i Hi'), (Hw' i) by lia. apply Hf; [exact A|apply B; lia].
Qed.
Theorem C81_regular_grids_partial : forall hashf w w' R R' h, (forall a b, hashf a = hashf b -> a = b) ->
  (linear_grid w /\ linear_grid w' \/ log_grid w /\ log_grid w') ->
  wavehash hashf w R None = Ok h -> wavehash hashf w' R' None = Ok h ->
  length w = length w' /\ forall i, (i < length w)%nat -> px w i == px w' i.
Proof.
  intros hashf w w' R R' h Hinj Hg H H'. destruct (C81_outer_points_partial _ _ _ _ _ _ Hinj H H') as (E1 & E2 & E3 & _). split; [exact E1|].
  destruct Hg as [[G G']|[[Gp G] [Gp' G']]].
  - apply (grid_determined (fun a b => 2 * b - a)); auto.
    + intros a b c d Ha Hb. rewrite Ha, Hb. reflexivity.
    + intros i Hi. specialize (G i Hi). lra.
    + intros i Hi. specialize (G' i Hi). lra.
  - assert (HD : forall x a b, 0 < a -> x * a == b * b -> x == b * b / a) by (intros x a b Ha E; rewrite <- E; field; lra).
    apply (grid_determined (fun a b => b * b / a)); auto.
    + intros a b c d Ha Hb. rewrite Ha, Hb. reflexivity.
    + intros i Hi. apply HD; [apply Gp; lia|now apply G].
    + intros i Hi. apply HD; [apply Gp'; lia|now apply G'].
Qed.
(* grids that differ only in the middle share a hash, for every hash function ... *)
Theorem C81_middle_refuted : forall hashf, exists w w' h, wavehash hashf w None None = Ok h /\ wavehash hashf w' None None = Ok h /\ length w = length w' /\ ~ px w 2 == px w' 2.
Proof. intros. exists [1;2;3;5;6], [1;2;4;5;6]. eexists. split; [reflexivity|]. split; [reflexivity|]. split; [reflexivity|]. vm_compute. discriminate. Qed.
(* ... and with a band any two grids do; only one of them is kept in wavegrids *)
Theorem C81_band_refuted : forall hashf w w' R R' b s s' iv iv' x x', w <> w' ->
  spectrum_init hashf w iv iv R None (Some b) = Ok (s, x) -> spectrum_init hashf w' iv' iv' R' None (Some b) = Ok (s', x') ->
  sp_hash s = sp_hash s' /\ kget (wavegrids false [[[s; s']]] 0) (sp_hash s') = Some w.
Proof.
  intros hashf w w' R R' b s s' iv iv' x x' Hne H H'. unfold spectrum_init in *.
  destruct (mask_lowres R iv) as [m|]; [|discriminate]. destruct (mask_lowres R' iv') as [m'|]; [|discriminate]. cbn [rbind wavehash] in *.
  injection H as H _. injection H' as H' _. rewrite <- H, <- H'. cbn [sp_hash]. split; [reflexivity|].
  unfold wavegrids, my_dwave. cbn. unfold add_new. cbn [fst kget key_eqb]. rewrite String.eqb_refl. cbn [kget key_eqb]. now rewrite String.eqb_refl.
Qed.

(* ================= C80 ================= *)
Definition ngpu (maxgpu size : nat) : nat := Nat.min maxgpu size.
Lemma flags_nth maxgpu size r : (r < size)%nat -> nth_error (map (fun r => (r <? maxgpu)%nat) (seq 0 size)) r = Some (r <? maxgpu)%nat.
Proof. intros H. rewrite nth_error_map. rewrite (nth_error_nth' _ 0%nat) by (now rewrite seq_length). rewrite seq_nth by exact H. reflexivity. Qed.
Lemma flags_count maxgpu size : length (filter (fun b => b) (map (fun r => (r <? maxgpu)%nat) (seq 0 size))) = ngpu maxgpu size.
Proof.
  unfold ngpu. assert (G : forall n s, length (filter (fun b => b) (map (fun r => (r <? maxgpu)%nat) (seq s n))) = Nat.min (maxgpu - s) n).
  { induction n as [|n IH]; intros s; [cbn; lia|]. cbn [seq map filter]. destruct (Nat.ltb_spec s maxgpu); cbn [length]; rewrite IH; lia. }
  rewrite G. lia.
Qed.
Lemma gpu_run_spec {A} (zs : list A) ids w maxgpu size d : distribute_work size ids w (gpu_capacities (map (fun r => (r <? maxgpu)%nat) (seq 0 size))) = Ok d ->
  length d = size -> exists runs, gpu_run zs ids w maxgpu size = Ok runs /\ length runs = size /\
    forall r, (r < size)%nat -> nth_error runs r = Some (nth r d [], if (r <? maxgpu)%nat then zs else []).
Proof.
  intros H Hl. unfold gpu_run. rewrite H. cbn [rbind]. clear H.
  assert (G : forall d s, mapM (fun p : list Z * nat => do z <- local_redshifts zs true (snd p <? maxgpu)%nat size (snd p); Ok (fst p, z)) (combine d (seq s (length d)))
     = Ok (map (fun p : list Z * nat => (fst p, if (snd p <? maxgpu)%nat then zs else [])) (combine d (seq s (length d))))).
  { induction d0 as [|x d0 IH]; intros s; [reflexivity|]. cbn [length seq combine mapM map fst snd]. unfold local_redshifts at 1. cbn [rbind]. rewrite IH. reflexivity. }
  rewrite <- Hl. rewrite G. eexists. split; [reflexivity|]. split; [rewrite map_length, combine_length, seq_length; lia|].
  intros r Hr. rewrite nth_error_map. destruct (nth_error_lt_ex d r Hr) as (x & Ex).
  assert (Ec : nth_error (combine d (seq 0 (length d))) r = Some (x, r)).
  { rewrite (nth_error_nth' _ (x, 0%nat)) by (rewrite combine_length, seq_length; lia). rewrite combine_nth by (now rewrite seq_length).
    rewrite seq_nth by exact Hr. now rewrite (nth_error_nth _ _ _ Ex). }
  rewrite Ec. cbn [option_map fst snd]. now rewrite (nth_error_nth _ _ _ Ex).
Qed.
(* few enough targets: every target is scanned over the whole redshift grid *)
Theorem C80_few_targets_partial : forall {A} (zs : list A) ids maxgpu size, (0 < size)%nat -> (0 < maxgpu)%nat ->
  (Z.of_nat (length ids) <= 10000 * Z.of_nat (ngpu maxgpu size))%Z ->
  exists runs, gpu_run zs ids None maxgpu size = Ok runs /\ length runs = size /\
    Permutation (concat (map fst runs)) ids /\
    forall id mine z, In (mine, z) runs -> In id mine -> z = zs.
Proof.
  intros A zs ids maxgpu size Hs Hg Hle. set (flags := map (fun r => (r <? maxgpu)%nat) (seq 0 size)).
  assert (Hfl : length flags = size) by (unfold flags; now rewrite map_length, seq_length).
  assert (HD : exists d, distribute_work size ids None (gpu_capacities flags) = Ok d /\ length d = size /\ Permutation (concat d) ids /\
     forall c, (c < size)%nat -> (c <? maxgpu)%nat = false -> nth c d [] = []).
  { destruct (gpu_capacities flags) as [caps|] eqn:Ec.
    - destruct (C18_cpu_ranks_idle flags caps ids Ec) as (d & E & Hidle); [unfold flags; now rewrite flags_count|].
      rewrite Hfl in E. exists d. split; [exact E|].
      destruct (C16_distribute_work_partition size ids None (Some caps)) as (d2 & E2 & Hl & Hp); auto.
      + discriminate.
      + destruct (gpu_caps_nth flags caps 0 Ec) as [? _]. cbn [caps_of]. congruence.
      + cbn [caps_of]. unfold gpu_capacities in Ec. destruct (_ && _); [|discriminate]. injection Ec as <-. apply Forall_forall. intros q Hq. apply in_map_iff in Hq as (b & <- & _). destruct b; reflexivity.
      + rewrite E in E2. assert (d2 = d) by congruence. subst d2. split; [exact Hl|]. split; [exact Hp|]. intros c Hc Hcf. apply Hidle. unfold flags. rewrite flags_nth by exact Hc. now rewrite Hcf.
    - destruct (C16_distribute_work_partition size ids None None) as (d & E & Hl & Hp); auto.
      + discriminate.
      + cbn [caps_of]. apply repeat_length.
      + cbn [caps_of]. apply Forall_forall. intros q Hq. apply repeat_spec in Hq. subst q. reflexivity.
      + exists d. split; [exact E|]. split; [exact Hl|]. split; [exact Hp|]. intros c Hc Hcf. exfalso. apply Nat.ltb_ge in Hcf.
        unfold gpu_capacities in Ec. rewrite Hfl in Ec. unfold flags in Ec. rewrite flags_count in Ec. unfold ngpu in Ec.
        destruct (0 <? Nat.min maxgpu size)%nat eqn:E1; [|apply Nat.ltb_ge in E1; lia]. destruct (0 <? size - Nat.min maxgpu size)%nat eqn:E2; [|apply Nat.ltb_ge in E2; lia]. discriminate Ec. }
  destruct HD as (d & E & Hl & Hp & Hidle). destruct (gpu_run_spec zs ids None maxgpu size d E Hl) as (runs & Er & Hlr & Hn).
  exists runs. split; [exact Er|]. split; [exact Hlr|]. split.
  - replace (map fst runs) with d; [exact Hp|]. apply nth_error_ext. intros i. rewrite nth_error_map.
    destruct (Nat.lt_ge_cases i size) as [Hi|Hi].
    + rewrite (Hn i Hi). cbn. apply nth_error_nth'. lia.
    + rewrite (proj2 (nth_error_None d i)) by lia. rewrite (proj2 (nth_error_None runs i)) by lia. reflexivity.
  - intros id mine z Hin Hid. apply In_nth_error in Hin as (r & Er'). assert (Hr : (r < size)%nat) by (rewrite <- Hlr; eapply nth_error_Some_lt; exact Er').
    rewrite (Hn r Hr) in Er'. injection Er' as E1 E2. destruct (r <? maxgpu)%nat eqn:Eb; [congruence|]. rewrite (Hidle r Hr Eb) in E1. subst mine. destruct Hid.
Qed.
(* no GPU (--max-gpuprocs 0): no rank has any redshift *)
Theorem C80_no_gpu_refuted : forall {A} (zs : list A) ids size, (0 < size)%nat ->
  exists runs, gpu_run zs ids None 0 size = Ok runs /\ Permutation (concat (map fst runs)) ids /\ forall p, In p runs -> snd p = [].
Proof.
  intros A zs ids size Hs.
  assert (Ec : gpu_capacities (map (fun r => (r <? 0)%nat) (seq 0 size)) = None).
  { unfold gpu_capacities. rewrite flags_count. reflexivity. }
  destruct (C16_distribute_work_partition size ids None None) as (d & E & Hl & Hp); auto.
  { discriminate. } { cbn [caps_of]. apply repeat_length. }
  { cbn [caps_of]. apply Forall_forall. intros q Hq. apply repeat_spec in Hq. subst q. reflexivity. }
  rewrite <- Ec in E. destruct (gpu_run_spec zs ids None 0 size d E Hl) as (runs & Er & Hlr & Hn). exists runs. split; [exact Er|]. split.
  - replace (map fst runs) with d; [exact Hp|]. apply nth_error_ext. intros i. rewrite nth_error_map.
    destruct (Nat.lt_ge_cases i size) as [Hi|Hi].
    + rewrite (Hn i Hi). cbn. apply nth_error_nth'. lia.
    + rewrite (proj2 (nth_error_None d i)) by lia. rewrite (proj2 (nth_error_None runs i)) by lia. reflexivity.
  - intros p Hin. apply In_nth_error in Hin as (r & Er'). assert (Hr : (r < size)%nat) by (rewrite <- Hlr; eapply nth_error_Some_lt; exact Er').
    rewrite (Hn r Hr) in Er'. injection Er' as <-. reflexivity.
Qed.
(* with more targets per GPU, or with weights, a rank without GPU gets targets but no redshifts *)
Theorem C80_weights_refuted : forall {A} (zs : list A), gpu_run zs [1;2]%Z (Some (fun i => Some (if (i =? 1)%Z then 20000 else 1))) 1 2 = Ok [([1]%Z, zs); ([2]%Z, [])].
Proof. intros. vm_compute. reflexivity. Qed.
Lemma total_le (b : Z) : (0 <= b)%Z -> forall (d : list (list Z)) g, (g <= length d)%nat ->
  (forall r, (r < g)%nat -> (Z.of_nat (length (nth r d [])) <= b)%Z) -> (forall r, (g <= r < length d)%nat -> nth r d [] = []) ->
  (Z.of_nat (length (concat d)) <= b * Z.of_nat g)%Z.
Proof.
  intros Hb. induction d as [|x d IH]; intros g Hg H1 H2; [cbn; cbn in Hg; lia|]. cbn [concat]. rewrite app_length.
  destruct g as [|g].
  - assert (Hx : x = []) by (apply (H2 0%nat); cbn; lia). rewrite Hx. cbn [length]. specialize (IH 0%nat). rewrite Nat.add_0_l. etransitivity; [apply IH|lia].
    + lia. + intros r Hr. lia. + intros r Hr. apply (H2 (S r)). cbn [length]. lia.
  - specialize (H1 0%nat ltac:(lia)) as H0. cbn [nth] in H0. specialize (IH g ltac:(cbn in Hg; lia) (fun r Hr => H1 (S r) ltac:(lia)) (fun r Hr => H2 (S r) ltac:(cbn [length]; lia))). lia.
Qed.
Lemma load_unit (l : list Z) : load (fun _ => 1) l == inject_Z (Z.of_nat (length l)).
Proof.
  induction l as [|x l IH]; [reflexivity|]. unfold load in *. cbn [map]. rewrite sumQ_cons, IH. cbn [length]. rewrite Nat2Z.inj_succ, <- Z.add_1_l, inject_Z_plus. reflexivity.
Qed.
(* more than 10000 targets per GPU: some rank without GPU has targets but no redshifts *)
Theorem C80_many_targets_refuted : forall {A} (zs : list A) ids maxgpu size, (0 < maxgpu)%nat -> (maxgpu < size)%nat ->
  (10000 * Z.of_nat maxgpu < Z.of_nat (length ids))%Z ->
  exists runs r mine, gpu_run zs ids None maxgpu size = Ok runs /\ nth_error runs r = Some (mine, []) /\ mine <> [].
Proof.
  intros A zs ids maxgpu size Hg Hs Hn. set (flags := map (fun r => (r <? maxgpu)%nat) (seq 0 size)).
  assert (Hfl : length flags = size) by (unfold flags; now rewrite map_length, seq_length).
  assert (Hng : ngpu maxgpu size = maxgpu) by (unfold ngpu; lia).
  destruct (gpu_capacities flags) as [caps|] eqn:Ec.
  2:{ exfalso. unfold gpu_capacities in Ec. rewrite Hfl in Ec. unfold flags in Ec. rewrite flags_count, Hng in Ec.
      destruct (0 <? maxgpu)%nat eqn:E1; [|apply Nat.ltb_ge in E1; lia]. destruct (0 <? size - maxgpu)%nat eqn:E2; [|apply Nat.ltb_ge in E2; lia]. discriminate Ec. }
  assert (Hlen : length caps = size) by (destruct (gpu_caps_nth flags caps 0 Ec); congruence).
  assert (Hpos : Forall (fun c => 0 < c)%Q caps).
  { unfold gpu_capacities in Ec. destruct (_ && _); [|discriminate]. injection Ec as <-.
    apply Forall_forall. intros c Hc. apply in_map_iff in Hc as (b & <- & _). destruct b; reflexivity. }
  assert (Hcap : forall r, (r < size)%nat -> nth r caps 0 = if (r <? maxgpu)%nat then 1 else 1 / 10000).
  { intros r Hr. unfold gpu_capacities in Ec. destruct (_ && _); [|discriminate]. injection Ec as <-.
    apply nth_error_nth. rewrite nth_error_map. unfold flags. rewrite flags_nth by exact Hr. reflexivity. }
  destruct (C17_heaviest_first_greedy size ids None (Some caps) (fun _ => 1)) as (d & items & E & Hp & _ & _ & Hgr); auto; [lia|]. cbn [caps_of] in Hgr.
  destruct (C16_distribute_work_partition size ids None (Some caps)) as (d2 & E2 & Hl & Hpd); auto; [lia|discriminate|].
  rewrite E in E2. assert (d2 = d) by congruence. subst d2.
  rewrite <- Ec in E. destruct (gpu_run_spec zs ids None maxgpu size d E Hl) as (runs & Er & _ & Hruns).
  assert (HX : exists r, (maxgpu <= r < size)%nat /\ nth r d [] <> []).
  { destruct (existsb (fun r => negb (match nth r d [] with [] => true | _ => false end)) (seq maxgpu (size - maxgpu))) eqn:Ex.
    - apply existsb_exists in Ex as (r & Hr & Hx). apply in_seq in Hr. exists r. split; [lia|]. intros H0. rewrite H0 in Hx. discriminate.
    - exfalso. assert (Hidle : forall r, (maxgpu <= r < length d)%nat -> nth r d [] = []).
      { intros r Hr. destruct (nth r d []) eqn:En; [reflexivity|]. assert (Ht : existsb (fun r => negb (match nth r d [] with [] => true | _ => false end)) (seq maxgpu (size - maxgpu)) = true).
        { apply existsb_exists. exists r. split; [apply in_seq; lia|]. now rewrite En. } congruence. }
      assert (Hle : (Z.of_nat (length (concat d)) <= 10000 * Z.of_nat maxgpu)%Z).
      { apply total_le; [lia|lia| |exact Hidle]. intros r Hr. destruct (nth r d []) as [|x0 l0] eqn:En; [cbn; lia|].
        destruct (exists_last (l := x0 :: l0)) as (l & x & El); [discriminate|]. rewrite El in En.
        assert (H01 : forall x : Z, In x items -> 0 <= 1) by (intros; lra).
        destruct (greedy_last (fun _ => 1) caps items d Hgr Hpos H01 r l x ltac:(lia) En maxgpu ltac:(lia) ltac:(lia)) as [Hni _].
        rewrite (Hcap r), (Hcap maxgpu) in Hni by lia. rewrite (Hidle maxgpu) in Hni by lia.
        rewrite (proj2 (Nat.ltb_lt r maxgpu)) in Hni by lia. rewrite Nat.ltb_irrefl in Hni.
        rewrite El, <- En. rewrite load_unit in Hni. change (load (fun _ => 1) []) with 0 in Hni.
        assert (Hq : inject_Z (Z.of_nat (length (nth r d []))) <= inject_Z 10000).
        { assert (E1 : inject_Z (Z.of_nat (length (nth r d []))) / 1 == inject_Z (Z.of_nat (length (nth r d [])))) by field. rewrite E1 in Hni.
          eapply Qle_trans; [exact Hni|]. vm_compute. discriminate. }
        rewrite <- Zle_Qle in Hq. exact Hq. }
      rewrite (Permutation_length Hpd) in Hle. lia. }
  destruct HX as (r & Hr & Hne). exists runs, r, (nth r d []). split; [exact Er|]. split; [|exact Hne].
  rewrite (Hruns r ltac:(lia)). rewrite (proj2 (Nat.ltb_ge r maxgpu)) by lia. reflexivity.
Qed.
Print Assumptions C54_history_partial.
Print Assumptions C54_R_while_packed_refuted.
Print Assumptions C54_rectangular_refuted.
Print Assumptions C54_no_resolution_refuted.
Print Assumptions C77_range.
Print Assumptions C77_defined.
Print Assumptions C77_constant_refuted.
Print Assumptions C56_cpu_fresh.
Print Assumptions C56_gpu_only_partial.
Print Assumptions C56_one_degree_partial.
Print Assumptions C56_mixed_refuted.
Print Assumptions C56_defined.
Print Assumptions C87_no_coadd_partial.
Print Assumptions C87_after_coadd_refuted.
Print Assumptions C57_wavegrids_mpi.
Print Assumptions C57_wavegrids_serial.
Print Assumptions C81_outer_points_partial.
Print Assumptions C81_regular_grids_partial.
Print Assumptions C81_middle_refuted.
Print Assumptions C81_band_refuted.
Print Assumptions C80_few_targets_partial.
Print Assumptions C80_no_gpu_refuted.
Print Assumptions C80_weights_refuted.
Print Assumptions C80_many_targets_refuted.
