(* Warning bits, model rows, process count, archetype coefficients: C71, C72, C76, C78, C91, C92. *)
From Verif Require Import Prelude PreludeFacts NumX Model_Dist Model_Zscan Model_IO Spec_IO Model_Desi Spec_Desi Proof_Desi Proof_Desi2 Proof_Desi4 Proof_Gather.

(* ---------------- C71 ---------------- *)
(* vocabulary: some fibermap row of this target has the property *)
Definition some_row (fm : list fmrow) (t : Z) (P : fmrow -> Prop) : Prop := exists x, In x fm /\ fm_id x = t /\ P x.
Definition has (x : fmrow) (bit : Z) : Prop := Z.land (fm_status x) bit <> 0%Z.
Definition other_type (x : fmrow) : Prop := fm_objtype x <> "TGT"%string /\ fm_objtype x <> "SKY"%string.
Definition no_data (fb : fbits) (x : fmrow) : Prop := has x (b_badpos fb) \/ has x (b_broken fb) \/ has x (b_unassigned fb) \/ other_type x.
(* the numbers of the bits in ZWARN *)
Definition bit_SKY := 0%Z. Definition bit_LITTLE_COVERAGE := 1%Z. Definition bit_UNPLUGGED := 7%Z. Definition bit_BAD_TARGET := 8%Z. Definition bit_NODATA := 9%Z. Definition bit_POORDATA := 11%Z.

Lemma among_iff fm c (P : fmrow -> Prop) t : (forall x, c x = true <-> P x) -> among fm c t = true <-> some_row fm t P.
Proof.
  intros H. unfold among. rewrite zmem_iff, in_map_iff. unfold some_row. split.
  - intros (x & E & Hin). apply filter_In in Hin as [Hin Hc]. exists x. split; [exact Hin|]. split; [exact E|]. now apply H.
  - intros (x & Hin & E & Hp). exists x. split; [exact E|]. apply filter_In. split; [exact Hin|]. now apply H.
Qed.
Lemma hit_iff x bit : hit (fm_status x) bit = true <-> has x bit.
Proof. unfold hit, has. destruct (Z.eqb_spec (Z.land (fm_status x) bit) 0); cbn; split; try congruence; auto. Qed.
Lemma is_bad_iff x : is_bad x = true <-> other_type x.
Proof. unfold is_bad, is_sky, other_type. destruct (String.eqb_spec (fm_objtype x) "TGT"), (String.eqb_spec (fm_objtype x) "SKY"); cbn; split; try discriminate; try tauto. Qed.
Lemma orw_zwarn b m r : w_zwarn (orw b m r) = if b then Z.lor (w_zwarn r) m else w_zwarn r.
Proof. destruct b; reflexivity. Qed.
Lemma reset_zwarn b r : w_zwarn (reset b r) = w_zwarn r. Proof. destruct b; reflexivity. Qed.
Lemma lor_bit (b : bool) z n k : (0 <= n)%Z -> Z.testbit (if b then Z.lor z (2 ^ n) else z) k = true <-> Z.testbit z k = true \/ (k = n /\ b = true).
Proof.
  intros Hn. destruct b; [|split; [now left|intros [H|[_ H]]; [exact H|discriminate]]]. rewrite Z.lor_spec, orb_true_iff.
  destruct (Z.eq_dec k n) as [->|Hne]; [rewrite Z.pow2_bits_true by exact Hn; tauto|].
  rewrite Z.pow2_bits_false by auto. split; [intros [H|H]; [now left|discriminate]|intros [H|[H _]]; [now left|contradiction]].
Qed.
(* Full statement: a warning bit is set exactly when all relevant fibers have the COADD_FIBERSTATUS bit.
   Proved: exactly when SOME fibermap row of the target has it, for every fibermap; missing: targets
   with several fibermap rows (refuted below); for one row per target the two agree. *)
Theorem C71_bits_partial : forall fb fm r k,
  Z.testbit (w_zwarn (flag_row fb fm r)) k = true <->
    Z.testbit (w_zwarn r) k = true \/
    (k = bit_POORDATA /\ some_row fm (w_id r) (fun x => has x (b_poorpos fb))) \/
    (k = bit_NODATA /\ some_row fm (w_id r) (no_data fb)) \/
    (k = bit_UNPLUGGED /\ some_row fm (w_id r) (fun x => has x (b_broken fb))) \/
    (k = bit_SKY /\ some_row fm (w_id r) (fun x => fm_objtype x = "SKY"%string)) \/
    (k = bit_LITTLE_COVERAGE /\ some_row fm (w_id r) (fun x => exists b, In b (b_cover fb) /\ has x b)) \/
    (k = bit_BAD_TARGET /\ some_row fm (w_id r) other_type).
Proof.
  intros fb fm r k. unfold flag_row. rewrite orw_zwarn. change ZW_BAD_TARGET with (2 ^ 8)%Z. rewrite lor_bit by lia.
  rewrite orw_zwarn. change ZW_LITTLE_COVERAGE with (2 ^ 1)%Z. rewrite lor_bit by lia.
  rewrite orw_zwarn. change ZW_SKY with (2 ^ 0)%Z. rewrite lor_bit by lia.
  rewrite orw_zwarn. change ZW_UNPLUGGED with (2 ^ 7)%Z. rewrite lor_bit by lia.
  rewrite reset_zwarn, orw_zwarn. change ZW_NODATA with (2 ^ 9)%Z. rewrite lor_bit by lia.
  rewrite orw_zwarn. change ZW_POORDATA with (2 ^ 11)%Z. rewrite lor_bit by lia.
  rewrite (among_iff fm is_bad other_type) by apply is_bad_iff.
  rewrite (among_iff fm (badcoverage fb) (fun x => exists b, In b (b_cover fb) /\ has x b)).
  2: { intros x. unfold badcoverage. rewrite existsb_exists. split; intros (b & H1 & H2); exists b; (split; [exact H1|]); now apply hit_iff. }
  rewrite (among_iff fm is_sky (fun x => fm_objtype x = "SKY"%string)) by (intros x; unfold is_sky; apply String.eqb_eq).
  rewrite (among_iff fm (broken fb) (fun x => has x (b_broken fb))) by (intros x; apply hit_iff).
  rewrite (among_iff fm (fun x => badpos fb x || broken fb x || unassigned fb x || is_bad x) (no_data fb)).
  2: { intros x. cbv beta. unfold no_data, badpos, broken, unassigned. rewrite !orb_true_iff, !hit_iff, is_bad_iff. tauto. }
  rewrite (among_iff fm (poorpos fb) (fun x => has x (b_poorpos fb))) by (intros x; apply hit_iff).
  unfold bit_SKY, bit_LITTLE_COVERAGE, bit_UNPLUGGED, bit_BAD_TARGET, bit_NODATA, bit_POORDATA. tauto.
Qed.
Lemma o_id b m r : w_id (orw b m r) = w_id r. Proof. destruct b; reflexivity. Qed.
Lemma o_rest b m r : w_rest (orw b m r) = w_rest r. Proof. destruct b; reflexivity. Qed.
Lemma o_z b m r : w_z (orw b m r) = w_z r. Proof. destruct b; reflexivity. Qed.
Lemma o_ty b m r : w_spectype (orw b m r) = w_spectype r. Proof. destruct b; reflexivity. Qed.
Lemma o_sub b m r : w_subtype (orw b m r) = w_subtype r. Proof. destruct b; reflexivity. Qed.
Lemma o_me b m r : w_method (orw b m r) = w_method r. Proof. destruct b; reflexivity. Qed.
Lemma o_co b m r : w_coeff (orw b m r) = w_coeff r. Proof. destruct b; reflexivity. Qed.
(* the fit is withdrawn exactly for targets without data, and nothing else changes *)
Theorem C71_reset : forall fb fm r,
  w_id (flag_row fb fm r) = w_id r /\ w_rest (flag_row fb fm r) = w_rest r /\
  (some_row fm (w_id r) (no_data fb) ->
     w_z (flag_row fb fm r) = 0%Q /\ w_spectype (flag_row fb fm r) = "GALAXY"%string /\ w_subtype (flag_row fb fm r) = ""%string /\ w_method (flag_row fb fm r) = "NONE"%string /\
     length (w_coeff (flag_row fb fm r)) = length (w_coeff r) /\ Forall (fun c => c = 0%Q) (w_coeff (flag_row fb fm r))) /\
  (~ some_row fm (w_id r) (no_data fb) ->
     w_z (flag_row fb fm r) = w_z r /\ w_spectype (flag_row fb fm r) = w_spectype r /\ w_subtype (flag_row fb fm r) = w_subtype r /\ w_method (flag_row fb fm r) = w_method r /\ w_coeff (flag_row fb fm r) = w_coeff r).
Proof.
  intros fb fm r. assert (Hn : among fm (fun x => badpos fb x || broken fb x || unassigned fb x || is_bad x) (w_id r) = true <-> some_row fm (w_id r) (no_data fb)).
  { apply among_iff. intros x. cbv beta. unfold no_data, badpos, broken, unassigned. rewrite !orb_true_iff, !hit_iff, is_bad_iff. tauto. }
  unfold flag_row. set (nd := among fm _ (w_id r)) in *. cbv zeta. rewrite !o_id, !o_rest, !o_z, !o_ty, !o_sub, !o_me, !o_co.
  destruct nd; cbn [reset w_id w_rest w_z w_spectype w_subtype w_method w_coeff]; rewrite ?o_id, ?o_rest, ?o_z, ?o_ty, ?o_sub, ?o_me, ?o_co.
  - split; [reflexivity|]. split; [reflexivity|]. split.
    + intros _. split; [reflexivity|]. split; [reflexivity|]. split; [reflexivity|]. split; [reflexivity|].
      split; [apply map_length|]. apply Forall_forall. intros c Hc. apply in_map_iff in Hc as (? & <- & _). reflexivity.
    + intros Hno. exfalso. apply Hno, Hn. reflexivity.
  - split; [reflexivity|]. split; [reflexivity|]. split; [intros Hy; apply Hn in Hy; discriminate|]. intros _. repeat (split; [reflexivity|]). reflexivity.
Qed.
Theorem C71_one_row : forall fb fm r x k, (forall y, In y fm -> fm_id y = w_id r -> y = x) -> In x fm -> fm_id x = w_id r ->
  (k = bit_POORDATA -> Z.testbit (w_zwarn r) k = false -> (Z.testbit (w_zwarn (flag_row fb fm r)) k = true <-> forall y, In y fm -> fm_id y = w_id r -> has y (b_poorpos fb))) /\
  (k = bit_NODATA -> Z.testbit (w_zwarn r) k = false -> (Z.testbit (w_zwarn (flag_row fb fm r)) k = true <-> forall y, In y fm -> fm_id y = w_id r -> no_data fb y)).
Proof.
  intros fb fm r x k Hu Hin Hid. rewrite !C71_bits_partial. unfold bit_SKY, bit_LITTLE_COVERAGE, bit_UNPLUGGED, bit_BAD_TARGET, bit_NODATA, bit_POORDATA. split; intros -> H0.
  - split; [|intros H; right; left; split; [reflexivity|]; exists x; auto].
    intros [H|[[_ H]|[[H _]|[[H _]|[[H _]|[[H _]|[H _]]]]]]]; try discriminate; [congruence|]. destruct H as (y & Hy & Ey & Hp). intros u Hu1 Hu2. rewrite (Hu u Hu1 Hu2), <- (Hu y Hy Ey). exact Hp.
  - split; [|intros H; right; right; left; split; [reflexivity|]; exists x; auto].
    intros [H|[[H _]|[[_ H]|[[H _]|[[H _]|[[H _]|[H _]]]]]]]; try discriminate; [congruence|]. destruct H as (y & Hy & Ey & Hp). intros u Hu1 Hu2. rewrite (Hu u Hu1 Hu2), <- (Hu y Hy Ey). exact Hp.
Qed.
(* a target observed by a good fiber and a broken one: flagged NODATA and its redshift erased *)
Definition demo_bits : fbits := {| b_poorpos := 64; b_badpos := 4; b_broken := 8; b_unassigned := 1; b_cover := [1024; 4096]%Z |}.
Definition demo_fm : list fmrow := [{| fm_id := 5; fm_status := 0; fm_objtype := "TGT" |}; {| fm_id := 5; fm_status := 8; fm_objtype := "TGT" |}; {| fm_id := 6; fm_status := 64; fm_objtype := "SKY" |}].
Definition demo_row (t : Z) : wrow := {| w_id := t; w_zwarn := 4; w_spectype := "QSO"; w_subtype := "LOZ"; w_coeff := [1; 2]%Q; w_z := 3#2; w_method := "PCA"; w_rest := 0 |}.
Theorem C71_all_fibers_refuted : exists x, In x demo_fm /\ fm_id x = 5%Z /\ ~ no_data demo_bits x /\
  Z.testbit (w_zwarn (flag_row demo_bits demo_fm (demo_row 5))) bit_NODATA = true /\ w_z (flag_row demo_bits demo_fm (demo_row 5)) = 0%Q.
Proof.
  exists {| fm_id := 5; fm_status := 0; fm_objtype := "TGT" |}. split; [now left|]. split; [reflexivity|]. split; [|split; reflexivity].
  intros [H|[H|[H|[H _]]]]; apply H; reflexivity.
Qed.
Example C71_nonvacuous : some_row demo_fm 6 (fun x => has x (b_poorpos demo_bits)) /\ ~ some_row demo_fm 6 (no_data demo_bits) /\ w_zwarn (flag_row demo_bits demo_fm (demo_row 6)) = (4 + 2048 + 1)%Z.
Proof.
  split; [exists {| fm_id := 6; fm_status := 64; fm_objtype := "SKY" |}; split; [right; right; now left|split; [reflexivity|discriminate]]|]. split; [|reflexivity].
  intros (x & Hin & E & H). destruct Hin as [<-|[<-|[<-|[]]]]; try discriminate. destruct H as [H|[H|[H|[_ H]]]]; apply H; reflexivity.
Qed.

(* ---------------- C72 ---------------- *)
Lemma F2_length {A B} (P : A -> B -> Prop) l l2 : Forall2 P l l2 -> length l = length l2. Proof. induction 1; cbn; congruence. Qed.
(* [locals]: per process, its target ids and the models (band -> spectrum) of these targets, in the same order *)
Definition aligned {V} (locals : list (list Z * list V)) : Prop := forall l, In l locals -> length (fst l) = length (snd l).
Theorem C72_model_rows_partial {V} : forall (locals : list (list Z * list (list (string * V)))) zids bands out,
  aligned locals -> model_rows locals zids bands = Ok out ->
  map fst out = bands /\
  forall b rows, In (b, rows) out -> length rows = length zids /\
    forall i t, nth_error zids i = Some t -> exists l k m v, In l locals /\ nth_error (fst l) k = Some t /\ nth_error (snd l) k = Some m /\ sget m b = Some v /\ nth_error rows i = Some v.
Proof.
  intros locals zids bands out Ha H. unfold model_rows in H. destruct (sort_indices _ zids) as [idx|] eqn:Ei; [|discriminate]. cbn [rbind] in H. apply sort_indices_sound in Ei.
  assert (Hall : forall b rows, band_rows (concat (map snd locals)) idx b = Ok rows -> length rows = length zids /\
    forall i t, nth_error zids i = Some t -> exists l k m v, In l locals /\ nth_error (fst l) k = Some t /\ nth_error (snd l) k = Some m /\ sget m b = Some v /\ nth_error rows i = Some v).
  { intros b rows Hb. unfold band_rows in Hb. destruct (mapM _ (concat (map snd locals))) as [vs|] eqn:Ev; [|discriminate]. cbn [rbind] in Hb.
    apply mapM_nth in Ev as [Lv Nv]. apply mapM_nth in Hb as [Lb Nb]. split; [rewrite Lb; symmetry; exact (F2_length _ _ _ Ei)|].
    intros i t Ht. destruct (nth_error idx i) as [p|] eqn:Ep; [|apply nth_error_None in Ep; apply nth_error_Some_lt in Ht; rewrite (F2_length _ _ _ Ei) in Ht; lia].
    assert (Hp : nth_error (concat (map fst locals)) p = Some t).
    { clear -Ei Ht Ep. revert i Ht Ep. induction Ei as [|a q la lq Hq _ IH]; intros [|i] Ht Ep; try discriminate; cbn in *; [congruence|now apply (IH i)]. }
    destruct (Nb i p Ep) as (v & Ev & Er). destruct (nth_error vs p) as [v'|] eqn:Evp; [|discriminate]. injection Ev as ->.
    assert (Hm : exists m, nth_error (concat (map snd locals)) p = Some m).
    { apply nth_error_lt_ex. apply nth_error_Some_lt in Evp. lia. }
    destruct Hm as (m & Hm). destruct (Nv p m Hm) as (w & Ew & En). destruct (sget m b) as [w'|] eqn:Es; [|discriminate]. injection Ew as ->. rewrite Evp in En. injection En as ->.
    destruct (concat_align locals Ha p t m Hp Hm) as (l & k & Hl & K1 & K2). exists l, k, m, w. auto. }
  revert out H. induction bands as [|b bs IH]; intros out H; cbn [mapM] in H; [injection H as <-; split; [reflexivity|intros ? ? []]|].
  destruct (band_rows _ idx b) as [rows|] eqn:Eb; [|discriminate]. cbn [rbind] in H. destruct (mapM _ bs) as [r|] eqn:Er; [|discriminate]. cbn [rbind] in H. injection H as <-.
  destruct (IH r eq_refl) as [I1 I2]. split; [cbn; now rewrite I1|]. intros b' rows' [E|Hin]; [injection E as <- <-; now apply Hall|now apply I2].
Qed.
Theorem C72_model_complete {V} : forall (locals : list (list Z * list (list (string * V)))) zids bands,
  aligned locals -> incl zids (concat (map fst locals)) -> (forall l m b, In l locals -> In m (snd l) -> In b bands -> sget m b <> None) ->
  exists out, model_rows locals zids bands = Ok out.
Proof.
  intros locals zids bands Ha Hi Hb. unfold model_rows. destruct (sort_indices_ok _ zids Hi) as (idx & -> & F). cbn [rbind].
  assert (G : forall b, In b bands -> exists rows, band_rows (concat (map snd locals)) idx b = Ok rows).
  { intros b Hin. unfold band_rows.
    assert (exists vs, mapM (fun m : list (string * V) => match sget m b with Some v => Ok v | None => Err KeyError end) (concat (map snd locals)) = Ok vs) as (vs & Ev).
    { assert (Hm : forall m, In m (concat (map snd locals)) -> sget m b <> None).
      { intros m Hm. apply in_concat in Hm as (x & Hx & Hm). apply in_map_iff in Hx as (l & <- & Hl). eapply Hb; eassumption. }
      induction (concat (map snd locals)) as [|m ms IH]; [now exists []|]. cbn [mapM]. destruct (sget m b) eqn:E; [|exfalso; apply (Hm m (or_introl eq_refl)); exact E]. cbn [rbind].
      destruct IH as (vs & ->); [intros; apply Hm; now right|]. cbn [rbind]. eauto. }
    rewrite Ev. cbn [rbind]. apply mapM_nth in Ev as [Lv _].
    assert (Ls : length (concat (map fst locals)) = length (concat (map snd locals))).
    { clear -Ha. induction locals as [|l ls IH]; [reflexivity|]. cbn [map concat]. rewrite !app_length, IH by (intros x Hx; apply Ha; now right). f_equal. apply Ha. now left. }
    assert (Hx : forall p, In p idx -> p < length vs).
    { intros p Hp. rewrite Lv, <- Ls. clear -F Hp. induction F as [|t q ts qs Hq _ IH]; [destruct Hp|]. destruct Hp as [<-|Hp]; [now apply nth_error_Some_lt in Hq|now apply IH]. }
    clear -Hx. induction idx as [|p ps IH]; [now exists []|]. cbn [mapM]. destruct (nth_error_lt_ex vs p (Hx p (or_introl eq_refl))) as (v & ->). cbn [rbind]. destruct IH as (r & ->); [intros; apply Hx; now right|]. cbn [rbind]. eauto. }
  clear -G. induction bands as [|b bs IH]; [now exists []|]. cbn [mapM]. destruct (G b (or_introl eq_refl)) as (rows & ->). cbn [rbind]. destruct IH as (r & ->); [intros; apply G; now right|]. cbn [rbind]. eauto.
Qed.
(* --model needs the table of --outfile: with only --details the step fails, whatever the targets *)
Theorem C72_needs_outfile_refuted {V} : forall zids (run : list Z -> res V), model_step false true zids run = Err TypeError.
Proof. reflexivity. Qed.
Example C72_nonvacuous : let locals := [([7; 3]%Z, [[("b", 70); ("r", 71)]; [("b", 30); ("r", 31)]]%string); ([5]%Z, [[("b", 50); ("r", 51)]]%string)] in
  aligned locals /\ model_rows locals [3; 5; 7]%Z ["b"; "r"]%string = Ok [("b", [30; 50; 70]); ("r", [31; 51; 71])]%string.
Proof. cbv zeta. split; [|reflexivity]. intros l [<-|[<-|[]]]; reflexivity. Qed.

(* ---------------- C76 ---------------- *)
(* Full statement: at least 1, never more than available, honouring explicit requests.  Missing:
   negative requests, which are returned unchanged (refuted below). *)
Theorem C76_bounds_partial : forall ncpu login requested, (1 <= ncpu)%Z -> (0 <= requested)%Z ->
  (1 <= get_mp ncpu login requested <= ncpu)%Z /\
  (login = true -> (get_mp ncpu login requested <= 4)%Z) /\
  ((1 <= requested <= ncpu)%Z -> (login = false \/ (requested <= 4)%Z) -> get_mp ncpu login requested = requested) /\
  (requested = 0%Z -> login = false -> get_mp ncpu login requested = Z.max 1 (ncpu / 2)).
Proof.
  intros ncpu login rq H1 H2. unfold get_mp.
  assert (Hd : (0 <= ncpu / 2)%Z) by (apply Z.div_pos; lia). assert (Hd2 : (ncpu / 2 <= ncpu)%Z) by (apply Z.div_le_upper_bound; lia).
  destruct (Z.eqb_spec (ncpu / 2) 0), (Z.eqb_spec rq 0), (Z.ltb_spec ncpu rq), login; cbn [andb];
    repeat match goal with |- context [(4 <? ?x)%Z] => destruct (Z.ltb_spec 4 x) end; repeat split; try lia; try discriminate; try (intros; lia); try (intros ? [?|?]; try discriminate; lia).
Qed.
Theorem C76_negative_refuted : forall ncpu login m, (1 <= ncpu)%Z -> (m < 0)%Z -> get_mp ncpu login m = m.
Proof. intros ncpu login m H1 H2. unfold get_mp. destruct (Z.eqb_spec m 0); [lia|]. destruct (Z.ltb_spec ncpu m); [lia|]. destruct login; cbn [andb]; [|reflexivity]. destruct (Z.ltb_spec 4 m); [lia|reflexivity]. Qed.
Example C76_nonvacuous : get_mp 64 false 0 = 32%Z /\ get_mp 64 true 0 = 4%Z /\ get_mp 1 false 0 = 1%Z /\ get_mp 8 false 100 = 8%Z.
Proof. repeat split. Qed.

(* ---------------- C78 ---------------- *)
Theorem C78_split_roundtrip {A} : forall (names : list string) (arch pad : list A) (legs : list (list A)) nleg,
  names <> [] -> (forall n, In n names -> ~ occurs ";" n) -> length arch = length names -> (forall l, In l legs -> length l = nleg) ->
  split_archetype_coeff (join ";" names) (arch ++ concat legs ++ pad) (length legs) nleg = (arch, legs).
Proof.
  intros names arch pad legs nleg H1 H2 H3 H4. unfold split_archetype_coeff. rewrite split_join by assumption. rewrite <- H3. unfold split_coeff.
  rewrite firstn_app, Nat.sub_diag, firstn_all, firstn_O, app_nil_r. f_equal. rewrite skipn_app, skipn_all, Nat.sub_diag. cbn [app]. change (skipn 0 ?x) with x.
  revert H4. clear. intros H4.
  enough (G : forall k pre, length pre = k * nleg -> map (fun i => firstn ((i + 1) * nleg - i * nleg) (skipn (i * nleg) (pre ++ concat legs ++ pad))) (seq k (length legs)) = legs) by exact (G 0 [] eq_refl).
  induction legs as [|l ls IH]; intros k pre Hp; [reflexivity|]. cbn [length seq map concat]. f_equal.
  - rewrite skipn_app, <- Hp, skipn_all, Nat.sub_diag. cbn [app]. change (skipn 0 ?x) with x. replace ((k + 1) * nleg - length pre) with (length l) by (rewrite (H4 l (or_introl eq_refl)); nia).
    rewrite <- app_assoc, firstn_app, Nat.sub_diag, firstn_all, firstn_O. apply app_nil_r.
  - replace (pre ++ (l ++ concat ls) ++ pad) with ((pre ++ l) ++ concat ls ++ pad) by (rewrite <- !app_assoc; reflexivity). apply IH; [intros; apply H4; now right|].
    rewrite app_length, Hp, (H4 l (or_introl eq_refl)). lia.
Qed.
Example C78_nonvacuous : split_archetype_coeff "ELG_1;ELG_7" [1; 2; 10; 11; 20; 21; 30; 31; 0; 0] 3 2 = ([1; 2], [[10; 11]; [20; 21]; [30; 31]]).
Proof. reflexivity. Qed.

(* ---------------- C91 ---------------- *)
Definition in_sky_window (w : Q) : Prop := (5572 <= w <= 5582)%Q \/ (9792 <= w <= 9795)%Q.
Theorem C91_skymask : forall wave ivar, length wave = length ivar ->
  length (skymask wave ivar) = length ivar /\
  forall i w v, nth_error wave i = Some w -> nth_error ivar i = Some v ->
    (in_sky_window w -> nth_error (skymask wave ivar) i = Some (Fin 0)) /\ (~ in_sky_window w -> nth_error (skymask wave ivar) i = Some v).
Proof.
  intros wave ivar H. unfold skymask. split; [rewrite map_length, combine_length; lia|].
  intros i w v Ew Ev. assert (E : nth_error (combine wave ivar) i = Some (w, v)).
  { clear H. revert wave ivar Ew Ev. induction i as [|i IH]; intros [|a wave] [|b ivar] Ew Ev; try discriminate; cbn in *; [congruence|now apply IH]. }
  rewrite nth_error_map, E. cbn [option_map fst snd].
  destruct ((Qle_bool 5572 w && Qle_bool w 5582) || (Qle_bool 9792 w && Qle_bool w 9795)) eqn:B.
  - assert (in_sky_window w) by (apply orb_true_iff in B as [B|B]; apply andb_true_iff in B as [B1 B2]; apply Qle_bool_iff in B1; apply Qle_bool_iff in B2; [left|right]; split; assumption). split; [reflexivity|contradiction].
  - split; [|reflexivity]. intros [[B1 B2]|[B1 B2]]; apply Qle_bool_iff in B1; apply Qle_bool_iff in B2; rewrite B1, B2 in B; cbn in B; try rewrite orb_true_r in B; discriminate.
Qed.
Example C91_nonvacuous : skymask [5571; 5572; 5577; 5582; 5583; 9793]%Q [Fin 1; Fin 2; Fin 3; Fin 4; Fin 5; Fin 6] = [Fin 1; Fin 0; Fin 0; Fin 0; Fin 5; Fin 0].
Proof. reflexivity. Qed.

(* ---------------- C92 ---------------- *)
Theorem C92_batches {X} : forall m (hdata : list X), 0 < m -> bcast_batches m hdata = hdata.
Proof.
  intros m l Hm. unfold bcast_batches. destruct (Nat.leb_spec (length l) m); [reflexivity|].
  rewrite chunks_concat. apply firstn_all2.
  pose proof (Nat.div_mod_eq (length l + m - 1) m) as E. pose proof (Nat.mod_upper_bound (length l + m - 1) m ltac:(lia)) as B.
  set (q := (length l + m - 1) / m) in *. set (r := (length l + m - 1) mod m) in *. nia.
Qed.
Example C92_nonvacuous : bcast_batches 2 [1; 2; 3; 4; 5] = [1; 2; 3; 4; 5] /\ (5 + 2 - 1) / 2 = 3.
Proof. split; reflexivity. Qed.
Print Assumptions C71_bits_partial. Print Assumptions C71_reset. Print Assumptions C72_model_rows_partial. Print Assumptions C72_model_complete. Print Assumptions C76_bounds_partial. Print Assumptions C78_split_roundtrip. Print Assumptions C91_skymask. Print Assumptions C92_batches.
