(* C132-C137: the viewer rrplot. *)
From Verif Require Import Prelude PreludeFacts Facts2 NumX Model_Dist Proof_Dist3 Model_Fitz Model_Zscan Proof_Zscan3 Proof_Zscan4 Model_IO Spec_IO Props_IO Model_Rebin Spec_Rebin Model_Targets2 Proof_Eval Props_Eval Model_Arch Model_Plot Spec_Plot Proof_Plot Proof_Plot2.
Open Scope nat_scope.

(* ---------- C132 ---------- *)
(* the reply to a key at a place of the list of fits *)
Definition reply_ok (E : penv) (p : place) (key : string) (x : reply) : Prop :=
  let n := length (v_targets E) in
  if redraws n p key then exists pic, x = Drew pic /\ shows E (move n (nfit E) p key) pic
  else if String.eqb key "down" then x = AtLast
  else if String.eqb key "up" then x = AtFirst
  else if String.eqb key "d" then exists t, nth_error (v_targets E) (fst p) = Some t /\ x = Details (q_id t) (filter (fun r => (r_tid r =? q_id t)%Z) (v_zfit E))
  else x = Nothing.
Definition has_rows (E : penv) : Prop := forall t, In t (v_targets E) -> exists r, In r (v_zfit E) /\ r_tid r = q_id t.
Lemma has_rows_of E : has_rows E -> forall t, In t (v_targets E) -> rows_of (v_zfit E) (q_id t) <> [].
Proof. intros H t It. destruct (H t It) as (r & Ir & Er). assert (In r (rows_of (v_zfit E) (q_id t))) as I by (apply filter_In; split; [exact Ir|now apply Z.eqb_eq]). intro F. rewrite F in I. destruct I. Qed.

Lemma press_step E st p key : viewable E -> has_rows E -> at_place E st p -> fst p < length (v_targets E) ->
  let '(st1, x) := press E st key in at_place E st1 (move (length (v_targets E)) (nfit E) p key) /\ reply_ok E p key x /\ fst (move (length (v_targets E)) (nfit E) p key) < length (v_targets E).
Proof.
  intros V HR. destruct p as [i k]. unfold at_place. cbn [fst snd]. intros (A1 & A2 & A3 & A4) Hi. unfold press, reply_ok, redraws, move. cbn [fst snd].
  destruct (String.eqb_spec key "right") as [->|_]; [|destruct (String.eqb_spec key "left") as [->|_]; [|destruct (String.eqb_spec key "down") as [->|_]; [|destruct (String.eqb_spec key "up") as [->|_]]]].
  - unfold turn. rewrite A1, A2, A3. destruct (Nat.eqb_spec (nfit E i) 0); [lia|]. rewrite turn_nat by (try lia; auto). change (1 =? 1)%Z with true. cbv iota. cbn [orb].
    set (k' := if S k =? nfit E i then 0 else S k). assert (Hk' : k' < nfit E i) by (subst k'; destruct (Nat.eqb_spec (S k) (nfit E i)); lia).
    destruct (plot_at E i k' (nfit E i) (p_ylim st) true V Hk') as (st1 & pic & -> & B & C). split; [exact B|]. split; [|exact Hi]. exists pic. split; [reflexivity|exact C].
  - unfold turn. rewrite A1, A2, A3. destruct (Nat.eqb_spec (nfit E i) 0); [lia|]. rewrite turn_nat by (try lia; auto). change (-1 =? 1)%Z with false. cbv iota. cbn [orb].
    set (k' := if k =? 0 then nfit E i - 1 else k - 1). assert (Hk' : k' < nfit E i) by (subst k'; destruct (Nat.eqb_spec k 0); lia).
    destruct (plot_at E i k' (nfit E i) (p_ylim st) true V Hk') as (st1 & pic & -> & B & C). split; [exact B|]. split; [|exact Hi]. exists pic. split; [reflexivity|exact C].
  - pose proof (keys_len E V) as L. rewrite Z.min_l by lia. rewrite A1. cbn [orb andb]. change (String.eqb "down" "down") with true. change (String.eqb "down" "up") with false. cbn [orb andb].
    destruct (Nat.eqb_spec (S i) (length (v_targets E))) as [e|e].
    + destruct (Z.eqb_spec (Z.of_nat i) (Z.of_nat (length (v_targets E)) - 1)); [|lia]. cbn [negb orb]. split; [now cbn|]. split; [reflexivity|exact Hi].
    + destruct (Z.eqb_spec (Z.of_nat i) (Z.of_nat (length (v_targets E)) - 1)); [lia|]. cbn [negb orb]. assert (Hi' : S i < length (v_targets E)) by lia.
      unfold go. change 0%Z with (Z.of_nat 0). destruct (plot_at E (S i) 0 (p_nznum st) (p_ylim st) false V (nfit_pos E (S i) V (has_rows_of E HR) Hi')) as (st1 & pic & -> & B & C).
      split; [exact B|]. split; [|exact Hi']. exists pic. split; [reflexivity|exact C].
  - rewrite A1. change (String.eqb "up" "down") with false. change (String.eqb "up" "up") with true. cbn [orb andb]. destruct (Nat.eqb_spec i 0) as [e|e].
    + cbn [negb]. split; [now cbn|]. split; [reflexivity|exact Hi].
    + cbn [negb]. assert (Hi' : i - 1 < length (v_targets E)) by lia. unfold go. change 0%Z with (Z.of_nat 0).
      destruct (plot_at E (i - 1) 0 (p_nznum st) (p_ylim st) false V (nfit_pos E (i - 1) V (has_rows_of E HR) Hi')) as (st1 & pic & -> & B & C).
      split; [exact B|]. split; [|exact Hi']. exists pic. split; [reflexivity|exact C].
  - cbn [orb andb]. destruct (String.eqb_spec key "d") as [->|_].
    + rewrite A1. destruct (nth_error_lt_ex (v_targets E) i Hi) as (t & Et). rewrite Et. split; [now cbn|]. split; [|exact Hi]. exists t. split; [reflexivity|reflexivity].
    + split; [now cbn|]. split; [reflexivity|exact Hi].
Qed.

Lemma session_ok E : viewable E -> has_rows E -> forall keys st p, at_place E st p -> fst p < length (v_targets E) ->
  at_place E (fst (session E st keys)) (moves (length (v_targets E)) (nfit E) p keys) /\ length (snd (session E st keys)) = length keys /\
  forall j key x, nth_error keys j = Some key -> nth_error (snd (session E st keys)) j = Some x -> reply_ok E (moves (length (v_targets E)) (nfit E) p (firstn j keys)) key x.
Proof.
  intros V HR. induction keys as [|k keys IH]; intros st p A Hi; [split; [exact A|]; split; [reflexivity|]; intros [|j] key x H; discriminate H|].
  cbn [session]. pose proof (press_step E st p k V HR A Hi) as P. destruct (press E st k) as [st1 x0]. destruct P as (P1 & P2 & P3).
  specialize (IH st1 _ P1 P3). destruct (session E st1 keys) as [st2 xs]. cbn [fst snd] in *. destruct IH as (I1 & I2 & I3). split; [exact I1|]. split; [cbn; lia|].
  intros [|j] key x H1 H2; cbn in H1, H2.
  - injection H1 as <-. injection H2 as <-. exact P2.
  - cbn [firstn]. exact (I3 j key x H1 H2).
Qed.

(* every history of keys: the window shows the first fit of the first target at the start, then always the fit where the keys lead; nothing is raised *)
Theorem C132_history_partial : forall targets templates arch zscan zfit truth keys,
  let '(E, (st, r)) := open_plot targets templates arch zscan zfit truth in
  viewable E -> v_targets E <> [] ->
  (exists pic, r = Ok pic /\ shows E (0, 0) pic) /\ length (snd (session E st keys)) = length keys /\
  forall j key x, nth_error keys j = Some key -> nth_error (snd (session E st keys)) j = Some x ->
    reply_ok E (moves (length (v_targets E)) (nfit E) (0, 0) (firstn j keys)) key x.
Proof.
  intros targets templates arch zscan zfit truth keys. unfold open_plot. set (E := {| v_targets := _; v_templates := _; v_archetypes := _; v_zscan := _; v_zfit := _; v_truth := _ |}).
  destruct (plot E start false) as [st r] eqn:Ep. intros V Hne.
  assert (HR : has_rows E). { intros t It. apply filter_In in It as [_ Hex]. apply existsb_exists in Hex as (row & I & Er). exists row. split; [exact I|now apply Z.eqb_eq]. }
  assert (Hi : 0 < length (v_targets E)) by (destruct (v_targets E); [congruence|cbn; lia]).
  destruct (plot_at E 0 0 0 (0%Q, 1%Q) false V (nfit_pos E 0 V (has_rows_of E HR) Hi)) as (st1 & pic & E1 & A & B). unfold start in Ep. change (Z.of_nat 0) with 0%Z in E1. rewrite E1 in Ep. injection Ep as <- <-.
  split; [exists pic; auto|]. exact (proj2 (session_ok E V HR keys st1 (0, 0) A Hi)).
Qed.
(* exactly the targets that have a fit, in the order of the file *)
Theorem C132_kept : forall targets zfit, exists keep, keep_targets targets zfit = filter keep targets /\ forall t, keep t = true <-> exists r, In r zfit /\ r_tid r = q_id t.
Proof.
  intros targets zfit. eexists. split; [reflexivity|]. intro t. cbv beta. rewrite existsb_exists. split; intros (r & I & Er); exists r; (split; [exact I|]); now apply Z.eqb_eq.
Qed.
(* every fit of every target can be reached *)
Lemma moves_app n f p a b : moves n f p (a ++ b) = moves n f (moves n f p a) b.
Proof. apply fold_left_app. Qed.
Theorem C132_all_reachable : forall n (f : nat -> nat) i k, i < n -> (forall j, j < n -> 0 < f j) -> k < f i -> exists keys, moves n f (0, 0) keys = (i, k).
Proof.
  intros n f i k Hi Hf Hk. exists (repeat "down"%string i ++ repeat "right"%string k). rewrite moves_app.
  assert (D : forall a, a <= i -> moves n f (0, 0) (repeat "down"%string a) = (a, 0)).
  { induction a as [|a IH]; intro Ha; [reflexivity|]. replace (repeat "down"%string (S a)) with (repeat "down"%string a ++ ["down"%string]) by (symmetry; apply repeat_cons). rewrite moves_app, IH by lia. cbn. destruct n as [|n']; [lia|]. destruct (Nat.eqb_spec a n'); [lia|reflexivity]. }
  rewrite D by lia. assert (R : forall b, b <= k -> moves n f (i, 0) (repeat "right"%string b) = (i, b)).
  { induction b as [|b IH]; intro Hb; [reflexivity|]. replace (repeat "right"%string (S b)) with (repeat "right"%string b ++ ["right"%string]) by (symmetry; apply repeat_cons). rewrite moves_app, IH by lia. cbn. destruct (f i) as [|m] eqn:Ef; [lia|]. destruct (Nat.eqb_spec b m); [lia|reflexivity]. }
  apply R. lia.
Qed.
(* left undoes right, right undoes left *)
Theorem C132_inverse : forall n f i k, k < f i -> moves n f (i, k) ["right"; "left"]%string = (i, k) /\ moves n f (i, k) ["left"; "right"]%string = (i, k).
Proof.
  intros n f i k Hk. unfold moves. cbn [fold_left]. assert (R : forall k, move n f (i, k) "right" = (i, if S k =? f i then 0 else S k)) by reflexivity.
  assert (F : forall k, move n f (i, k) "left" = (i, if k =? 0 then f i - 1 else k - 1)) by reflexivity. split.
  - rewrite R, F. f_equal. destruct (Nat.eqb_spec (S k) (f i)) as [e|e]; cbv iota; [destruct (Nat.eqb_spec 0 0); lia|destruct (Nat.eqb_spec (S k) 0); lia].
  - rewrite F, R. f_equal. destruct (Nat.eqb_spec k 0) as [e|e]; cbv iota; [destruct (Nat.eqb_spec (S (f i - 1)) (f i)); lia|destruct (Nat.eqb_spec (S (k - 1)) (f i)); lia].
Qed.
(* no target of the spectra file has a fit: the program stops with an IndexError *)
Theorem C132_none_kept_refuted : forall targets templates arch zscan zfit truth, (forall t r, In t targets -> In r zfit -> r_tid r <> q_id t) ->
  snd (snd (open_plot targets templates arch zscan zfit truth)) = Err IndexError.
Proof.
  intros targets templates arch zscan zfit truth H. unfold open_plot. cbn [snd]. replace (keep_targets targets zfit) with (@nil ptarget); [reflexivity|]. symmetry. unfold keep_targets.
  induction targets as [|t l IH]; [reflexivity|]. cbn. destruct (existsb (fun r => (r_tid r =? q_id t)%Z) zfit) eqn:Ex.
  - exfalso. apply existsb_exists in Ex as (r & I & Er). apply Z.eqb_eq in Er. exact (H t r (or_introl eq_refl) I Er).
  - apply IH. intros t' r It Ir. apply H; [now right|exact Ir].
Qed.

(* ---------- C133 ---------- *)
(* the drawn model is (1+z) times the fitted one *)
Theorem C133_scaled : forall E st kz st1 pic t j s R tm m, plot E st kz = (st1, Ok pic) -> v_archetypes E = None ->
  nth_error (v_targets E) (p_itarget st) = Some t -> nth_error (q_spectra t) j = Some s -> s_R s = Some R -> sget (v_templates E) (k_fulltype pic) = Some tm ->
  let zz := k_row pic in
  strictly_increasing (t_wave tm) -> strictly_increasing (s_wave s) -> (0 < 1 + r_z zz)%Q -> (forall row, In row (t_flux tm) -> length row = length (t_wave tm)) -> t_nbasis tm <= length (r_coeff zz) ->
  fitted_model (t_wave tm) (t_flux tm) (firstn (t_nbasis tm) (r_coeff zz)) (s_wave s) (r_z zz) None R = Ok m -> length (s_ivar s) = length m ->
  exists d, nth_error (k_spectra pic) j = Some d /\ length (g_model d) = length m /\
    forall i, i < length m -> if Qeq_bool (nth i (s_ivar s) 0%Q) 0 then nth i (g_model d) None = None else exists v, nth i (g_model d) None = Some v /\ (v == (1 + r_z zz) * nth i m 0)%Q.
Proof.
  intros E st kz st1 pic t j s R tm m Hp Ha Et Ej ER Etm zz Ht Hw Hz Hf Hc Hm Hl.
  apply plot_inv in Hp as (t' & zz' & rest & md & sc & lim & A1 & A2 & A3 & A4 & A5 & _ & _ & _ & _ & A6 & A7 & _). rewrite Et in A1. injection A1 as <-. subst zz. rewrite A6 in *. rewrite A7 in Etm.
  unfold find_model in A3. rewrite Ha, Etm in A3. destruct (String.eqb (t_type tm) (r_spectype zz')); [|discriminate]. injection A3 as <-.
  assert (Lj : j < length (k_spectra pic)) by (rewrite <- (Forall2_len _ _ _ A5); now apply nth_error_Some_lt in Ej). destruct (nth_error_lt_ex _ _ Lj) as (d & Ed). exists d. split; [exact Ed|].
  pose proof (Forall2_nth2 _ _ _ _ _ _ A5 Ej Ed) as (R' & mx & model & B1 & B2 & B3 & B4). rewrite ER in B2. injection B2 as <-.
  cbn [eval_row] in B1. unfold t_nbasis in *. destruct (template_eval (t_wave tm) (t_flux tm) (firstn (length (t_flux tm)) (r_coeff zz')) (s_wave s) (r_z zz') None) as [v|] eqn:Ev; [|discriminate]. cbn [rbind] in B1.
  assert (mx = map (fun x => x * (1 + r_z zz'))%Q v) as -> by congruence.
  destruct (C58_eval_is_fitted_partial _ _ _ _ _ _ _ Ht Hw Hz Hf Hc Hm) as (m' & Em' & HQ). rewrite (eval_split _ _ _ _ _ R _ Ev) in Em'.
  apply csr_vec_scale in B3 as (o' & Eo & HS). assert (o' = m') by congruence. subst o'.
  pose proof (Forall2_len _ _ _ HQ) as L1. pose proof (Forall2_len _ _ _ HS) as L2. subst d. cbn [g_model]. set (bad := map (fun x => Qeq_bool x 0) (s_ivar s)).
  assert (Lb : length bad = length model) by (unfold bad; rewrite map_length; lia). split; [rewrite blank_length by exact Lb; lia|]. intros i Hi.
  rewrite blank_nth by (try exact Lb; lia). assert (Nb : nth i bad false = Qeq_bool (nth i (s_ivar s) 0%Q) 0). { unfold bad. rewrite (nth_indep _ false (Qeq_bool 0 0)) by (rewrite map_length; lia). apply (map_nth (fun x => Qeq_bool x 0)). }
  rewrite Nb. destruct (Qeq_bool (nth i (s_ivar s) 0%Q) 0); [reflexivity|]. eexists. split; [reflexivity|].
  assert (X1 : (nth i model 0 == (1 + r_z zz') * nth i m' 0)%Q). { refine (Forall2_nth2 _ _ _ i _ _ HS _ _); apply nth_error_nth'; lia. }
  assert (X2 : (nth i m' 0 == nth i m 0)%Q). { refine (Forall2_nth2 _ _ _ i _ _ HQ _ _); apply nth_error_nth'; lia. }
  rewrite X1, X2. reflexivity.
Qed.
(* hence the fitted model only for z = 0 *)
Theorem C133_zero_partial : forall E st kz st1 pic t j s R tm m, plot E st kz = (st1, Ok pic) -> v_archetypes E = None ->
  nth_error (v_targets E) (p_itarget st) = Some t -> nth_error (q_spectra t) j = Some s -> s_R s = Some R -> sget (v_templates E) (k_fulltype pic) = Some tm ->
  strictly_increasing (t_wave tm) -> strictly_increasing (s_wave s) -> (r_z (k_row pic) == 0)%Q -> (forall row, In row (t_flux tm) -> length row = length (t_wave tm)) -> t_nbasis tm <= length (r_coeff (k_row pic)) ->
  fitted_model (t_wave tm) (t_flux tm) (firstn (t_nbasis tm) (r_coeff (k_row pic))) (s_wave s) (r_z (k_row pic)) None R = Ok m -> length (s_ivar s) = length m ->
  exists d, nth_error (k_spectra pic) j = Some d /\ forall i v, nth i (g_model d) None = Some v -> (v == nth i m 0)%Q.
Proof.
  intros E st kz st1 pic t j s R tm m Hp Ha Et Ej ER Etm Ht Hw Hz Hf Hc Hm Hl. destruct (C133_scaled E st kz st1 pic t j s R tm m Hp Ha Et Ej ER Etm Ht Hw ltac:(lra) Hf Hc Hm Hl) as (d & Ed & Ld & H).
  exists d. split; [exact Ed|]. intros i v Hv. destruct (Nat.lt_ge_cases i (length m)) as [Hi|Hi]; [|rewrite nth_overflow in Hv by lia; discriminate]. specialize (H i Hi).
  destruct (Qeq_bool (nth i (s_ivar s) 0%Q) 0); [congruence|]. destruct H as (w & Hw' & Ew). assert (w = v) by congruence. subst w. rewrite Ew, Hz. ring.
Qed.
(* the measured flux is drawn as it is, without the pixels of zero weight *)
Theorem C133_flux : forall E st kz st1 pic t j s, plot E st kz = (st1, Ok pic) -> nth_error (v_targets E) (p_itarget st) = Some t -> nth_error (q_spectra t) j = Some s -> length (s_ivar s) = length (s_flux s) ->
  exists d, nth_error (k_spectra pic) j = Some d /\ g_wave d = s_wave s /\ forall i, i < length (s_flux s) -> nth i (g_flux d) None = if Qeq_bool (nth i (s_ivar s) 0%Q) 0 then None else Some (nth i (s_flux s) 0%Q).
Proof.
  intros E st kz st1 pic t j s Hp Et Ej Hl. apply plot_inv in Hp as (t' & zz' & rest & md & sc & lim & A1 & A2 & A3 & A4 & A5 & _). rewrite Et in A1. injection A1 as <-.
  assert (Lj : j < length (k_spectra pic)) by (rewrite <- (Forall2_len _ _ _ A5); now apply nth_error_Some_lt in Ej). destruct (nth_error_lt_ex _ _ Lj) as (d & Ed). exists d. split; [exact Ed|].
  pose proof (Forall2_nth2 _ _ _ _ _ _ A5 Ej Ed) as (R' & mx & model & _ & _ & _ & ->). split; [reflexivity|]. intros i Hi. cbn [g_flux]. rewrite blank_nth by (rewrite ?map_length; auto).
  rewrite (nth_indep _ false (Qeq_bool 0 0)) by (rewrite map_length; lia). now rewrite (map_nth (fun x => Qeq_bool x 0)).
Qed.
(* a concrete picture: z = 1, a flat template fitted with coefficient 3 is drawn at 6 *)
Definition eye2 : csr := {| r_nrow := 2; r_ncol := 2; r_val := [1;1]%Q; r_ind := [0;1]; r_ptr := [0;1;2] |}.
Definition flat_t : ptmpl := {| t_type := "GALAXY"; t_sub := ""; t_wave := [1;2;3;4;5;6]%Q; t_flux := [[1;1;1;1;1;1]]%Q |}.
Definition ex_row (tid : Z) (znum : Z) (z : Q) : prow :=
  {| r_tid := tid; r_znum := znum; r_spectype := "GALAXY"; r_subtype := ""; r_z := z; r_chi2 := 10; r_zwarn := 36; r_coeff := [3;0]%Q; r_ncoeff := 1; r_legcoeff := None |}.
Definition ex_spec (flux ivar : list Q) : pspec := {| s_wave := [6;7]%Q; s_flux := flux; s_ivar := ivar; s_R := Some eye2 |}.
Definition ex_curve : pcurve := {| c_redshifts := [0;1]%Q; c_zchi2 := [12;10]%Q; c_penalty := [0;1]%Q |}.
Definition ex_view := open_plot [{| q_id := 7; q_spectra := [ex_spec [3;3]%Q [1;1]%Q] |}; {| q_id := 9; q_spectra := [ex_spec [3;3]%Q [1;0]%Q] |}; {| q_id := 8; q_spectra := [] |}]
   (rrplot_templates [flat_t]) None [(7%Z, [("GALAXY"%string, ex_curve); ("STAR:::A"%string, ex_curve)]); (9%Z, [("GALAXY"%string, ex_curve)])]
   [ex_row 9 0 1; ex_row 7 1 (1#2); ex_row 7 0 1] None.
Theorem C133_refuted : match ex_view with (E, (st, Ok pic)) =>
    fitted_model (t_wave flat_t) (t_flux flat_t) [3]%Q [6;7]%Q (r_z (k_row pic)) None eye2 = Ok [3;3]%Q /\ map g_model (k_spectra pic) = [[Some 6; Some 6]]%Q
  | _ => False end.
Proof. vm_compute. split; reflexivity. Qed.
Lemma ex_viewable : viewable (fst ex_view).
Proof.
  constructor.
  - vm_compute. repeat constructor; cbn; intuition discriminate.
  - intros t Ht. vm_compute in Ht. destruct Ht as [<-|[<-|[]]]; discriminate.
  - intros t Ht. vm_compute in Ht. destruct Ht as [<-|[<-|[]]]; vm_compute; [apply perm_swap|reflexivity].
  - intros t r Ht Hr. vm_compute in Ht. destruct Ht as [<-|[<-|[]]]; vm_compute in Hr.
    + destruct Hr as [<-|[<-|[]]]; (eexists; split; [vm_compute; reflexivity|]; intros s Hs; cbn in Hs; destruct Hs as [<-|[]]; eexists _, _; split; [vm_compute; reflexivity|]; split; reflexivity).
    + destruct Hr as [<-|[]]; (eexists; split; [vm_compute; reflexivity|]; intros s Hs; cbn in Hs; destruct Hs as [<-|[]]; eexists _, _; split; [vm_compute; reflexivity|]; split; reflexivity).
Qed.
Example C132_ex : let E := fst ex_view in map q_id (v_targets E) = [7; 9]%Z /\ nfit E 0 = 2 /\
  moves 2 (nfit E) (0, 0) ["right"; "left"; "left"; "down"; "down"; "right"; "up"; "x"; "d"]%string = (0, 0) /\
  map (fun x => match x with Drew p => (k_target p, k_znum p) | AtLast => (-1, 0)%Z | AtFirst => (-2, 0)%Z | Details t _ => (t, -3)%Z | Nothing => (-4, 0)%Z | Raised _ => (-5, 0)%Z end)
    (snd (session E (fst (snd ex_view)) ["right"; "left"; "left"; "down"; "down"; "right"; "up"; "x"; "d"]%string))
  = [(7, 1); (7, 0); (7, 1); (9, 0); (-1, 0); (9, 0); (7, 0); (-4, 0); (7, -3)]%Z.
Proof. vm_compute. auto 6. Qed.

(* the label beside the spectrum is that of the fit shown: the row of the target on display whose znum is the one selected *)
Theorem C134_shown : forall E st kz st1 pic, plot E st kz = (st1, Ok pic) ->
  k_zwarn pic = zwarn_label (r_zwarn (k_row pic)) /\ In (k_row pic) (v_zfit E) /\ r_tid (k_row pic) = k_target pic /\ r_znum (k_row pic) = k_znum pic.
Proof.
  intros E st kz st1 pic H. destruct (plot_inv _ _ _ _ _ H) as (t & zz & rest & m & sc & lim & _ & Hf & _ & _ & _ & _ & Ht & _ & Hz & Hr & _ & _ & _ & _ & _ & Hk & _).
  rewrite Hr, Hk. split; [reflexivity|]. assert (I : In zz (filter (fun r => (r_znum r =? p_znum st)%Z) (rows_of (v_zfit E) (q_id t)))) by (rewrite Hf; now left).
  apply filter_In in I as [I1 I2]. apply Z.eqb_eq in I2. unfold rows_of in I1. apply filter_In in I1 as [I0 I3]. apply Z.eqb_eq in I3. rewrite Ht, Hz. auto.
Qed.
Print Assumptions C134_shown.

(* ---------- C134 ---------- *)
(* the lines of the label: the documented names of the set bits, by increasing bit *)
Theorem C134_labels : forall zwarn, zwarn_label zwarn =
  if (zwarn =? 0)%Z then None
  else Some (flat_map (fun b => match documented b with Some n => if Z.testbit zwarn (Z.of_nat b) then [n] else [] | None => [] end) (seq 0 24)).
Proof.
  intro z. unfold zwarn_label. destruct (z =? 0)%Z; [reflexivity|]. f_equal.
  assert (F : flags = flat_map (fun b => match documented b with Some n => [(n, 2 ^ Z.of_nat b)%Z] | None => [] end) (seq 0 24)) by (rewrite flags_val; vm_compute; reflexivity).
  rewrite F. generalize (seq 0 24) as l. induction l as [|b l IH]; [reflexivity|]. cbn [flat_map]. rewrite filter_app, map_app, IH. f_equal.
  destruct (documented b); [|reflexivity]. cbn [filter snd]. rewrite land_bit by lia. destruct (Z.testbit z (Z.of_nat b)); reflexivity.
Qed.
(* a name is on the label exactly when its bit is set *)
Theorem C134_each : forall zwarn names n, zwarn_label zwarn = Some names -> (In n names <-> exists b, documented b = Some n /\ Z.testbit zwarn (Z.of_nat b) = true).
Proof.
  intros z names n H. rewrite C134_labels in H. destruct (z =? 0)%Z; [discriminate|]. match type of H with Some ?l = _ => assert (names = l) as -> by congruence end. clear H. rewrite in_flat_map. split.
  - intros (b & _ & Hb). exists b. destruct (documented b) as [s|]; [|destruct Hb]. destruct (Z.testbit z (Z.of_nat b)); [|destruct Hb]. destruct Hb as [->|[]]. auto.
  - intros (b & Hd & Ht). exists b. rewrite Hd, Ht. split; [|now left]. apply in_seq. destruct (Nat.lt_ge_cases b 24); [lia|]. exfalso. clear -Hd H. revert Hd H. do 24 (destruct b as [|b]; [intros; lia|]). discriminate.
Qed.
Theorem C134_green : forall zwarn, zwarn_label zwarn = None <-> zwarn = 0%Z.
Proof. intro z. unfold zwarn_label. destruct (Z.eqb_spec z 0); split; congruence. Qed.
(* two masks of documented bits with the same label are the same mask *)
Theorem C134_faithful : forall z z', (0 <= z)%Z -> (0 <= z')%Z -> (forall b, Z.testbit z (Z.of_nat b) = true -> documented b <> None) -> (forall b, Z.testbit z' (Z.of_nat b) = true -> documented b <> None) ->
  zwarn_label z = zwarn_label z' -> z = z'.
Proof.
  assert (INJ : forall b b' n, documented b = Some n -> documented b' = Some n -> b = b').
  { intros b b' n H H'. assert (B : forall b n, documented b = Some n -> b < 24) by (clear; intros b n H; destruct (Nat.lt_ge_cases b 24); [assumption|]; exfalso; do 24 (destruct b as [|b]; [lia|]); discriminate).
    assert (Hb := B _ _ H). assert (Hb' := B _ _ H'). clear B.
    assert (T : forallb (fun b => forallb (fun b' => match documented b, documented b' with Some x, Some y => negb (String.eqb x y) || (b =? b') | _, _ => true end) (seq 0 24)) (seq 0 24) = true) by (vm_compute; reflexivity).
    rewrite forallb_forall in T. specialize (T b ltac:(apply in_seq; lia)). rewrite forallb_forall in T. specialize (T b' ltac:(apply in_seq; lia)). rewrite H, H', String.eqb_refl in T. now apply Nat.eqb_eq in T. }
  assert (HALF : forall z z', (forall b, Z.testbit z (Z.of_nat b) = true -> documented b <> None) -> zwarn_label z = zwarn_label z' -> forall b, Z.testbit z (Z.of_nat b) = true -> Z.testbit z' (Z.of_nat b) = true).
  { intros z z' D E b Hb. destruct (documented b) as [n|] eqn:Ed; [|exfalso; exact (D b Hb Ed)]. destruct (zwarn_label z) as [l|] eqn:El; [|apply C134_green in El; subst z; rewrite Z.bits_0 in Hb; discriminate].
    symmetry in E. destruct (proj1 (C134_each z' l n E)) as (b' & Hd' & Ht'); [apply (C134_each z l n El); eauto|]. now rewrite (INJ b b' n Ed Hd'). }
  intros z z' Hz Hz' D D' E. apply Z.bits_inj'. intros n Hn. rewrite <- (Z2Nat.id n) by exact Hn. destruct (Z.testbit z (Z.of_nat (Z.to_nat n))) eqn:T1.
  - symmetry. exact (HALF z z' D E _ T1).
  - destruct (Z.testbit z' (Z.of_nat (Z.to_nat n))) eqn:T2; [|reflexivity]. rewrite (HALF z' z D' (eq_sym E) _ T2) in T1. discriminate.
Qed.
(* bits without a name leave no trace: a warning with an empty label *)
Theorem C134_unnamed_refuted : zwarn_label (2 ^ 12) = Some [] /\ zwarn_label (2 ^ 12 + 2) = zwarn_label 2.
Proof. split; vm_compute; reflexivity. Qed.
Theorem C134_badfit : forall b, Z.testbit plot_badfit_mask (Z.of_nat b) = true <-> In b [3; 4; 5; 6; 10].
Proof.
  intro b. change plot_badfit_mask with 1144%Z. destruct (Nat.lt_ge_cases b 11) as [H|H].
  - do 11 (destruct b as [|b]; [vm_compute; intuition (try discriminate; try lia)|]). lia.
  - split; [|cbn; intuition lia]. intro T. rewrite Z.bits_above_log2 in T; [discriminate|lia|]. change (Z.log2 1144) with 10%Z. lia.
Qed.
Example C134_ex : zwarn_label 36 = Some ["SMALL_DELTA_CHI2"; "Z_FITLIMIT"]%string.
Proof. vm_compute. reflexivity. Qed.

(* ---------- C135 ---------- *)
Lemma pymin_le a b : (pymin a b <= a)%Q.
Proof. unfold pymin. destruct (qlt b a) eqn:E; [apply qlt_iff in E; lra|lra]. Qed.
Lemma pymax_ge a b x : (a <= pymax a b x)%Q /\ (b <= pymax a b x)%Q /\ forall y, x = Some y -> (y <= pymax a b x)%Q.
Proof.
  unfold pymax. assert (H : (a <= if qlt a b then b else a)%Q /\ (b <= if qlt a b then b else a)%Q) by (destruct (qlt a b) eqn:E; [apply qlt_iff in E|apply qlt_false in E]; split; lra).
  destruct x as [y|]; [|split; [tauto|split; [tauto|discriminate]]]. destruct (qlt (if qlt a b then b else a) y) eqn:E; [apply qlt_iff in E|apply qlt_false in E]; (split; [lra|split; [lra|]]); intros y' Hy; injection Hy as <-; lra.
Qed.
Lemma lim_grow l : forall lim, (fst (fold_left lim_step l lim) <= fst lim)%Q /\ (snd lim <= snd (fold_left lim_step l lim))%Q.
Proof.
  induction l as [|sd l IH]; intro lim; [cbn; split; lra|]. cbn [fold_left]. destruct (IH (lim_step lim sd)) as [A B].
  assert (S1 : (fst (lim_step lim sd) <= fst lim)%Q /\ (snd lim <= snd (lim_step lim sd))%Q).
  { unfold lim_step. destruct (good_values _ _); [split; lra|]. cbn [fst snd]. split; [apply pymin_le|exact (proj1 (pymax_ge _ _ _))]. }
  split; lra.
Qed.
Lemma fix_ok l : (fst l <= 0)%Q -> (0 <= snd l)%Q -> (fst (fix_limits l) <= 0)%Q /\ (0 <= snd (fix_limits l))%Q /\ (fst (fix_limits l) < snd (fix_limits l))%Q /\ (fst (fix_limits l) <= fst l)%Q /\ (snd l <= snd (fix_limits l))%Q.
Proof.
  intros A B. unfold fix_limits. destruct (Qeq_bool (fst l) 0) eqn:E1; [apply Qeq_bool_eq in E1; destruct (Qeq_bool (snd l) 0) eqn:E2; cbn [andb fst snd]; [apply Qeq_bool_eq in E2|apply Qeq_bool_neq in E2]|apply Qeq_bool_neq in E1; cbn [andb]]; intuition lra.
Qed.
(* a new target: the limits are a proper interval around 0, and the labels are inside it *)
Theorem C135_limits : forall E st st1 pic, plot E st false = (st1, Ok pic) -> (fst (k_ylim pic) <= 0 <= snd (k_ylim pic))%Q /\ (fst (k_ylim pic) < k_ytext pic < snd (k_ylim pic))%Q.
Proof.
  intros E st st1 pic H. apply plot_inv in H as (t & zz & rest & m & sc & lim & _ & _ & _ & _ & _ & Hl & _ & _ & _ & _ & _ & _ & _ & _ & Hy & _ & Hk & _). rewrite Hk, Hy.
  destruct (lim_grow (combine (q_spectra t) (k_spectra pic)) (0%Q, 0%Q)) as [A B]. cbn [fst snd] in A, B. destruct (fix_ok _ A B) as (C1 & C2 & C3 & _). rewrite <- Hl in *. split; [lra|]. split; lra.
Qed.
Lemma fold_max_ge l : forall a, (a <= fold_left Qmax l a)%Q /\ forall x, In x l -> (x <= fold_left Qmax l a)%Q.
Proof.
  induction l as [|y l IH]; intro a; [cbn; split; [lra|intros x []]|]. cbn [fold_left]. destruct (IH (Qmax a y)) as [A B]. pose proof (Q.le_max_l a y). pose proof (Q.le_max_r a y).
  split; [lra|]. intros x [<-|Hx]; [lra|now apply B].
Qed.
Lemma qmaxl_ge l x : In x l -> (x <= qmaxl l)%Q.
Proof. destruct l as [|a l]; [intros []|]. cbn [qmaxl]. destruct (fold_max_ge l a) as [A B]. intros [<-|H]; [exact A|now apply B]. Qed.
Lemma fold_reach l sd : In sd l -> forall lim, exists lim1, (snd (lim_step lim1 sd) <= snd (fold_left lim_step l lim))%Q /\ (snd lim <= snd lim1)%Q.
Proof.
  induction l as [|x l IH]; [intros []|]. intros [->|H] lim; cbn [fold_left].
  - exists lim. split; [apply lim_grow|lra].
  - destruct (IH H (lim_step lim x)) as (lim1 & A & B). exists lim1. split; [exact A|]. destruct (lim_grow [x] lim) as [_ C]. cbn [fold_left] in C. lra.
Qed.
(* when no pixel of a spectrum is masked, the whole model is below the upper limit *)
Theorem C135_model_inside_partial : forall E st st1 pic t j s d v, plot E st false = (st1, Ok pic) -> nth_error (v_targets E) (p_itarget st) = Some t -> nth_error (q_spectra t) j = Some s ->
  length (s_ivar s) = length (s_flux s) -> s_flux s <> [] -> (forall x, In x (s_ivar s) -> ~ (x == 0)%Q) -> nth_error (k_spectra pic) j = Some d -> In (Some v) (g_model d) -> (v <= snd (k_ylim pic))%Q.
Proof.
  intros E st st1 pic t j s d v H Et Ej Hl Hne Hg Ed Hv. apply plot_inv in H as (t' & zz & rest & m & sc & lim & E1 & _ & _ & _ & F & Hlim & _ & _ & _ & _ & _ & _ & _ & _ & _ & _ & Hk & _). rewrite Et in E1. injection E1 as <-.
  rewrite Hk, Hlim. destruct (lim_grow (combine (q_spectra t) (k_spectra pic)) (0%Q, 0%Q)) as [A B]. cbn [fst snd] in A, B. destruct (fix_ok _ A B) as (_ & C2 & _ & _ & C5).
  assert (I : In (s, d) (combine (q_spectra t) (k_spectra pic))). { clear -Ej Ed. revert j Ej Ed. generalize (q_spectra t) (k_spectra pic). induction l as [|a l IH]; intros [|b l'] [|j] H1 H2; cbn in *; try discriminate; [left; congruence|right; eauto]. }
  destruct (fold_reach _ _ I (0%Q, 0%Q)) as (lim1 & D1 & D2). eapply Qle_trans; [|exact C5]. eapply Qle_trans; [|exact D1]. unfold lim_step. cbn [fst snd] in *.
  assert (G : good_values (map (fun x => Qeq_bool x 0) (s_ivar s)) (s_flux s) <> []).
  { destruct (s_flux s) as [|f fl]; [congruence|]. destruct (s_ivar s) as [|w wl]; [discriminate|]. unfold good_values. cbn. destruct (Qeq_bool w 0) eqn:Ew; [|discriminate]. exfalso. apply (Hg w); [now left|]. now apply Qeq_bool_eq. }
  destruct (good_values _ _) as [|g gl]; [congruence|]. cbn [snd]. pose proof (Forall2_nth2 _ _ _ _ _ _ F Ej Ed) as (R & mx & model & _ & _ & _ & ->). cbn [g_model] in *.
  assert (N : forall w (l : list Q), (forall x, In x w -> ~ (x == 0)%Q) -> forall o, In o (blank (map (fun x => Qeq_bool x 0) w) l) -> exists x, o = Some x).
  { clear. induction w as [|a w IH]; intros [|x l] Hw o Ho; cbn in Ho; try contradiction. destruct Ho as [<-|Ho].
    - destruct (Qeq_bool a 0) eqn:Ea; [exfalso; apply (Hw a); [now left|now apply Qeq_bool_eq]|eauto].
    - apply (IH l); [|exact Ho]. intros y Hy. apply Hw. now right. }
  specialize (N (s_ivar s) model Hg). set (bl := blank (map (fun x => Qeq_bool x 0) (s_ivar s)) model) in *.
  destruct (pymax_ge (snd lim1) (percentile (g :: gl) (99 # 1)) (max_model bl)) as (P1 & _ & P2).
  destruct (Qlt_le_dec 0 v) as [Hp|Hn]; [|lra]. unfold max_model in *. replace (forallb _ bl) with true in *.
  - specialize (P2 _ eq_refl). assert (M : (v <= qmaxl (flat_map (fun o => match o with Some x => [x] | None => [] end) bl))%Q) by (apply qmaxl_ge; apply in_flat_map; exists (Some v); split; [exact Hv|now left]). lra.
  - symmetry. apply forallb_forall. intros o Ho. destruct (N o Ho) as (x & ->). reflexivity.
Qed.
(* one masked pixel, and the model is no longer taken into account: it is drawn above the upper limit *)
Theorem C135_masked_refuted : match press (fst ex_view) (fst (snd ex_view)) "down" with (_, Drew pic) =>
   k_target pic = 9%Z /\ map g_model (k_spectra pic) = [[Some 6; None]]%Q /\ (snd (k_ylim pic) == 3)%Q | _ => False end.
Proof. vm_compute. auto. Qed.
(* the right and left keys keep the limits: the label of the next fit can be outside *)
Theorem C135_keep : forall E st st1 pic, plot E st true = (st1, Ok pic) -> k_ylim pic = p_ylim st.
Proof. intros E st st1 pic H. apply plot_inv in H as (t & zz & rest & m & sc & lim & H). tauto. Qed.
Definition ex_jump := open_plot [{| q_id := 7; q_spectra := [ex_spec [1;1]%Q [1;1]%Q] |}] (rrplot_templates [flat_t]) None [(7%Z, [])] [ex_row 7 0 0; ex_row 7 1 1] None.
Definition ex_jump2 := match ex_jump with (E, (st, _)) => press E st "right" end.
Theorem C135_label_refuted : match ex_jump2 with (_, Drew pic) => (snd (k_ylim pic) < k_ytext pic)%Q | _ => False end.
Proof. vm_compute. reflexivity. Qed.

(* ---------- C136 ---------- *)
Lemma curves_in sc ty c : In (ty, c) (curves sc) <-> In ty drawn_types /\ exists z, sget sc ty = Some z /\ c = (c_redshifts z, c_zchi2 z, map2 Qplus (c_zchi2 z) (c_penalty z)).
Proof.
  unfold curves. rewrite in_flat_map. split.
  - intros (x & Hx & H). destruct (sget sc x) as [z|] eqn:Es; [|destruct H]. destruct H as [H|[]]. injection H as <- <-. split; [exact Hx|]. eauto.
  - intros (Hx & z & Es & ->). exists ty. split; [exact Hx|]. rewrite Es. now left.
Qed.
(* the curves of the three plain types, with and without the penalty; every fit of the target is marked *)
Theorem C136_curves_partial : forall E st kz st1 pic, plot E st kz = (st1, Ok pic) -> exists sc, dget (v_zscan E) (k_target pic) = Some sc /\
  (forall ty c, In ty ["STAR"; "GALAXY"; "QSO"]%string -> sget sc ty = Some c -> length (c_penalty c) = length (c_zchi2 c) ->
     exists tot, In (ty, (c_redshifts c, c_zchi2 c, tot)) (k_curves pic) /\ length tot = length (c_zchi2 c) /\ forall i, i < length tot -> nth i tot 0%Q = (nth i (c_zchi2 c) 0 + nth i (c_penalty c) 0)%Q) /\
  (forall r, In r (v_zfit E) -> r_tid r = k_target pic -> In (r_z r, r_chi2 r, r_znum r) (k_points pic)) /\
  (forall p, In p (k_points pic) -> exists r, In r (v_zfit E) /\ r_tid r = k_target pic /\ p = (r_z r, r_chi2 r, r_znum r)).
Proof.
  intros E st kz st1 pic H. apply plot_inv in H as (t & zz & rest & m & sc & lim & _ & _ & _ & Hs & _ & _ & Ht & _ & _ & _ & _ & Hc & Hp & _). rewrite Ht, Hc, Hp. exists sc. split; [exact Hs|]. split; [|split].
  - intros ty c Hty Es Hl. exists (map2 Qplus (c_zchi2 c) (c_penalty c)). split; [apply curves_in; split; [exact Hty|eauto]|]. split; [rewrite Proof_Fitz.map2_length; lia|].
    intros i Hi. rewrite Proof_Fitz.map2_length in Hi. rewrite (Proof_Fitz.map2_nth Qplus 0%Q 0%Q 0%Q) by lia. reflexivity.
  - intros r Hr Er. apply (in_map (fun r => (r_z r, r_chi2 r, r_znum r))). apply filter_In. split; [exact Hr|now apply Z.eqb_eq].
  - intros p Hp'. apply in_map_iff in Hp' as (r & <- & Hr). apply filter_In in Hr as [A B]. exists r. split; [exact A|]. split; [now apply Z.eqb_eq|reflexivity].
Qed.
(* a scan of a type with a subtype (STAR:::A, QSO:::HIZ) is never drawn *)
Theorem C136_subtype_refuted : forall E st kz st1 pic, plot E st kz = (st1, Ok pic) -> forall s t c, t <> EmptyString -> strip t = t -> ~ In (make_fulltype s (Some t), c) (k_curves pic).
Proof.
  intros E st kz st1 pic H s t c Ht Es Hi. apply plot_inv in H as (t' & zz & rest & m & sc & lim & _ & _ & _ & _ & _ & _ & _ & _ & _ & _ & _ & Hc & _). rewrite Hc in Hi. apply curves_in in Hi as [Hi _].
  assert (X : contains ":::" (make_fulltype s (Some t)) = true).
  { unfold make_fulltype. cbn [option_map]. rewrite Es. destruct t as [|a t]; [congruence|]. apply Proof_IO.contains_occurs. exists (strip s), (String a t). reflexivity. }
  destruct Hi as [Hi|[Hi|[Hi|[]]]]; rewrite <- Hi in X; vm_compute in X; discriminate.
Qed.
Example C136_ex : match ex_view with (_, (_, Ok pic)) => map fst (k_curves pic) = ["GALAXY"]%string | _ => False end.
Proof. vm_compute. reflexivity. Qed.
(* the line of the true redshift, when a table of true redshifts is given *)
Theorem C136_truth : forall E st kz st1 pic truth, plot E st kz = (st1, Ok pic) -> v_truth E = Some truth ->
  (forall z, k_truth pic = Some (Some z) -> In (k_target pic, z) truth) /\ (k_truth pic = Some None <-> forall z, ~ In (k_target pic, z) truth) /\ k_truth pic <> None.
Proof.
  intros E st kz st1 pic truth H Et. apply plot_inv in H as (t & zz & rest & m & sc & lim & _ & _ & _ & _ & _ & _ & Ht & _ & _ & _ & _ & _ & _ & Hk & _). rewrite Ht, Hk, Et. cbn [truth_line].
  assert (F : forall p, In p (filter (fun p => (fst p =? q_id t)%Z) truth) <-> In p truth /\ fst p = q_id t) by (intro p; rewrite filter_In; split; intros [A B]; (split; [exact A|]); now apply Z.eqb_eq).
  destruct (filter _ truth) as [|[a b] l] eqn:Ef.
  - split; [discriminate|]. split; [|discriminate]. split; [|reflexivity]. intros _ z Hz. apply (F (q_id t, z)). split; [exact Hz|reflexivity].
  - destruct (proj1 (F (a, b)) (or_introl eq_refl)) as [A B]. cbn in B. subst a. split; [|split; [|discriminate]].
    + intros z Hz. cbn in Hz. injection Hz as <-. exact A.
    + split; [discriminate|]. intro Hz. exfalso. exact (Hz b A).
Qed.

(* ---------- C137 ---------- *)
(* the template of a fit is found among the templates read, when no two of them have the same names *)
Lemma load_last ts : forall d k, sget (fold_left (fun d t => sset d (t_full t) t) ts d) k = match find (fun t => String.eqb (t_full t) k) (rev ts) with Some t => Some t | None => sget d k end.
Proof.
  induction ts as [|t ts IH] using rev_ind; intros d k; [reflexivity|]. rewrite fold_left_app, rev_app_distr. cbn [fold_left rev app find]. rewrite sget_sset, IH.
  destruct (String.eqb (t_full t) k); reflexivity.
Qed.
Theorem C137_template_found : forall ts t zz E, In t ts -> NoDup (map (fun t => (t_type t, t_sub t)) ts) ->
  (forall t, In t ts -> name_ok (t_type t) /\ name_ok (t_sub t) /\ ~ ends_colon (t_type t)) -> r_spectype zz = t_type t -> r_subtype zz = t_sub t ->
  v_archetypes E = None -> v_templates E = rrplot_templates ts -> find_model E zz = Ok (ByTemplate t).
Proof.
  intros ts t zz E Ht N Hok E1 E2 Ea Et. unfold find_model. rewrite Ea, Et, E1, E2. unfold rrplot_templates. rewrite load_last.
  assert (U : forall u, In u ts -> String.eqb (t_full u) (make_fulltype (t_type t) (Some (t_sub t))) = true -> u = t).
  { intros u Hu E0. apply String.eqb_eq in E0. destruct (Hok u Hu) as (a & b & c). destruct (Hok t Ht) as (a' & b' & c'). destruct (C59_fulltype_injective _ _ _ _ a b a' b' c c' E0) as [X Y].
    clear -N Hu Ht X Y. induction ts as [|w l IH]; [destruct Hu|]. cbn in N. inversion_clear N as [|? ? N1 N2]. destruct Hu as [->|Hu], Ht as [->|Ht]; try reflexivity; try (now apply IH).
    - exfalso. apply N1. apply in_map_iff. exists t. split; [congruence|exact Ht].
    - exfalso. apply N1. apply in_map_iff. exists u. split; [congruence|exact Hu]. }
  destruct (find _ (rev ts)) as [u|] eqn:Ef.
  - apply find_some in Ef as [Hu Eu]. rewrite <- in_rev in Hu. rewrite (U u Hu Eu). now rewrite String.eqb_refl.
  - exfalso. assert (F : (t_full t =? make_fulltype (t_type t) (Some (t_sub t)))%string = false) by (apply (find_none _ _ Ef); now rewrite <- in_rev). unfold t_full in F. rewrite String.eqb_refl in F. discriminate.
Qed.
(* a DESI session reads the first file only; a data type other than desi and boss is a NameError *)
Theorem C137_files_refuted : forall f rest, rrplot_files "desi" (f :: rest) = Ok [f] /\ rrplot_files "boss" (f :: rest) = Ok (f :: rest).
Proof. intros. split; reflexivity. Qed.
Theorem C137_datatype : forall d files, d <> "desi"%string -> d <> "boss"%string -> rrplot_files d files = Err NameError.
Proof. intros d files H1 H2. unfold rrplot_files. destruct (String.eqb_spec d "desi"); [congruence|]. destruct (String.eqb_spec d "boss"); [congruence|reflexivity]. Qed.
(* with archetypes: one polynomial for all cameras is drawn as the fit says ... *)
Theorem C137_archetype_partial : forall E st kz st1 pic t j s ae ar A lc, plot E st kz = (st1, Ok pic) -> v_archetypes E = Some (ae, ar) -> sget ar (r_spectype (k_row pic)) = Some A -> r_legcoeff (k_row pic) = Some (L1 lc) ->
  nth_error (v_targets E) (p_itarget st) = Some t -> nth_error (q_spectra t) j = Some s ->
  exists R model, s_R s = Some R /\ arch_eval ae A (r_subtype (k_row pic)) (firstn (r_ncoeff (k_row pic)) (r_coeff (k_row pic))) (s_wave s) (r_z (k_row pic)) (Some R) (Some lc) = Ok model /\
    exists d, nth_error (k_spectra pic) j = Some d /\ forall i v, nth i (g_model d) None = Some v -> v = nth i model 0%Q.
Proof.
  intros E st kz st1 pic t j s ae ar A lc Hp Ha EA El Et Ej. apply plot_inv in Hp as (t' & zz' & rest & md & sc & lim & A1 & A2 & A3 & A4 & A5 & _ & _ & _ & _ & A6 & _). rewrite Et in A1. injection A1 as <-. rewrite A6 in *.
  unfold find_model in A3. rewrite Ha, EA in A3. injection A3 as <-.
  assert (Lj : j < length (k_spectra pic)) by (rewrite <- (Forall2_len _ _ _ A5); now apply nth_error_Some_lt in Ej). destruct (nth_error_lt_ex _ _ Lj) as (d & Ed).
  pose proof (Forall2_nth2 _ _ _ _ _ _ A5 Ej Ed) as (R & mx & model & B1 & B2 & B3 & B4). cbn [eval_row] in B1. rewrite El in B1. exists R, model. split; [exact B2|]. split.
  - unfold arch_eval in *. destruct (fold_left _ _ _) as [m1|]; [|discriminate]. cbn [rbind] in *. destruct (leg_term (s_wave s) lc) as [m2|]; [|discriminate]. cbn [rbind] in *. injection B1 as <-. exact B3.
  - exists d. split; [exact Ed|]. subst d. cbn [g_model]. clear. generalize (map (fun x => Qeq_bool x 0) (s_ivar s)) as bad. revert model. induction model as [|x model IH]; intros [|b bad] [|i] v H; cbn in *; try discriminate; [destruct b; congruence|].
    exact (IH _ _ _ H).
Qed.
(* ... a fit with a polynomial per camera is never drawn: the program raises *)
Theorem C137_archetype_refuted : forall E st kz st1 pic t, plot E st kz = (st1, Ok pic) -> v_archetypes E <> None -> nth_error (v_targets E) (p_itarget st) = Some t -> q_spectra t <> [] ->
  forall rows, r_legcoeff (k_row pic) <> Some (L2 rows).
Proof.
  intros E st kz st1 pic t Hp Ha Et Hne rows Hl. apply plot_inv in Hp as (t' & zz' & rest & md & sc & lim & A1 & A2 & A3 & A4 & A5 & _ & _ & _ & _ & A6 & _). rewrite Et in A1. injection A1 as <-. rewrite A6 in *.
  unfold find_model in A3. destruct (v_archetypes E) as [[ae ar]|]; [|congruence]. destruct (sget ar (r_spectype zz')) as [A|]; [|discriminate]. injection A3 as <-.
  destruct (q_spectra t) as [|s l]; [congruence|]. inversion A5 as [|? ? ? ? B _]; subst. destruct B as (R & mx & model & B1 & _). cbn [eval_row] in B1. rewrite Hl in B1.
  destruct (arch_eval _ _ _ _ _ _ _ _); discriminate.
Qed.
(* both cases: a type 'GALAXY' with one archetype; the polynomial of degree 0 *)
Definition ex_arch : archetype := {| a_type := "GALAXY"; a_raw := ["A"]%string; a_wave := [1;2;3;4;5;6]%Q; a_flux := [[1;1;1;1;1;1]]%Q |}.
Definition ex_env : arch_env := {| e_solv := {| linsolve := fun _ _ => Err LinAlgError; nnls := fun _ _ => Err LinAlgError; bvls := fun _ _ _ => Err LinAlgError; cusolve := fun _ _ => [] |}; e_argsort := fun v => seq 0 (length v); e_lyman := fun _ w => map (fun _ => 1%Q) w |}.
Definition ex_arow (l : legc) : prow := {| r_tid := 7; r_znum := 0; r_spectype := "GALAXY"; r_subtype := "A_0"; r_z := 1; r_chi2 := 10; r_zwarn := 0; r_coeff := [3]%Q; r_ncoeff := 1; r_legcoeff := Some l |}.
Definition ex_aview (l : legc) := open_plot [{| q_id := 7; q_spectra := [ex_spec [3;3]%Q [1;1]%Q] |}] [] (Some (ex_env, all_archetypes [ex_arch])) [(7%Z, [])] [ex_arow l] None.
Example C137_ex : match ex_aview (L1 [(1#2)%Q]) with (_, (_, Ok pic)) => exists a b, map g_model (k_spectra pic) = [[Some a; Some b]] /\ (a == 7#2)%Q /\ (b == 7#2)%Q | _ => False end
  /\ snd (snd (ex_aview (L2 [[(1#2)%Q]]))) = Err ValueError.
Proof. split; [|vm_compute; reflexivity]. vm_compute. eexists _, _. split; [reflexivity|]. split; reflexivity. Qed.
Print Assumptions C132_history_partial.
Print Assumptions C133_scaled.
Print Assumptions C134_faithful.
Print Assumptions C135_model_inside_partial.
Print Assumptions C136_subtype_refuted.
Print Assumptions C137_template_found.
