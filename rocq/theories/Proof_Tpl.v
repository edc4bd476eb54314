(* Proofs about templates.py. *)
From Verif Require Import Prelude PreludeFacts Facts2 Model_Zscan Model_IO Model_Tpl Spec_Tpl Proof_IO.
Require Import Reals Lra Psatz.
Local Open Scope R_scope.

Lemma ceil_spec x i : (i < Z.to_nat (ceil x))%nat <-> INR i < x.
Proof.
  unfold ceil. destruct (base_Int_part (- x)) as [H1 H2]. set (n := Int_part (- x)) in *.
  rewrite INR_IZR_INZ. split; intro H.
  - assert (Hz : (Z.of_nat i <= - n - 1)%Z) by lia. apply IZR_le in Hz. rewrite minus_IZR, opp_IZR in Hz. lra.
  - assert (Hz : (Z.of_nat i < - n)%Z) by (apply lt_IZR; rewrite opp_IZR; lra). lia.
Qed.
Lemma grid_len (f : nat -> R) n : length (map f (seq 0 n)) = n. Proof. now rewrite map_length, seq_length. Qed.
Lemma grid_nth (f : nat -> R) n i : (i < n)%nat -> nth i (map f (seq 0 n)) 0 = f i.
Proof. intro H. rewrite nth_indep with (d' := f 0%nat) by (rewrite grid_len; lia). rewrite map_nth, seq_nth by lia. reflexivity. Qed.
Lemma div_before start stop step x : step <> 0 -> (x < (stop - start) / step <-> before step (start + x * step) stop).
Proof.
  intro H. unfold before. set (q := (stop - start) / step). assert (E : q * step = stop - start) by (unfold q; field; exact H).
  destruct (Rtotal_order step 0) as [L|[E0|G]]; [|contradiction|]; split.
  - intro Hx. right. split; [exact L|]. nra.
  - intros [[? ?]|[_ Hx]]; [lra|]. nra.
  - intro Hx. left. split; [exact G|]. nra.
  - intros [[_ Hx]|[? ?]]; [|lra]. nra.
Qed.
Lemma arange_ok e start stop step l : arange e start stop step = Ok l <-> step <> 0 /\ lin_grid start stop step l.
Proof.
  unfold arange. destruct (Req_EM_T step 0) as [E|E].
  - split; [discriminate|]. intros [H _]. contradiction.
  - set (n := Z.to_nat (ceil ((stop - start) / step))).
    assert (Hn : forall i, (i < n)%nat <-> before step (start + INR i * step) stop).
    { intro i. unfold n. rewrite ceil_spec. now apply div_before. }
    split.
    + intro H. injection H as <-. split; [exact E|]. split; rewrite grid_len; [exact Hn|].
      intros i Hi. now apply (grid_nth (fun i => start + INR i * step)).
    + intros [_ [H1 H2]]. f_equal. assert (El : length l = n).
      { destruct (Nat.lt_trichotomy (length l) n) as [L|[L|L]]; [|exact L|].
        - apply Hn in L. apply H1 in L. lia.
        - apply H1 in L. apply Hn in L. lia. }
      apply nth_ext with (d := 0) (d' := 0); rewrite grid_len; [now symmetry|].
      intros i Hi. rewrite (grid_nth (fun i => start + INR i * step)) by exact Hi. rewrite H2 by lia. reflexivity.
Qed.
Lemma ln10 : 0 < ln 10. Proof. rewrite <- ln_1. apply ln_increasing; lra. Qed.
Lemma pow_log10 x : 0 < x -> Rpower 10 (log10 x) = x.
Proof.
  intro H. unfold Rpower, log10. replace (ln x / ln 10 * ln 10) with (ln x) by (field; generalize ln10; lra). now apply exp_ln.
Qed.
Lemma pow10_pos x : 0 < Rpower 10 x. Proof. apply exp_pos. Qed.
Lemma pow10_lt x y : Rpower 10 x < Rpower 10 y <-> x < y.
Proof.
  split; intro H.
  - destruct (Rlt_le_dec x y) as [L|L]; [exact L|]. exfalso. apply (Rle_Rpower 10) in L; lra.
  - apply Rpower_lt; lra.
Qed.
Lemma log_before x z dz i : 0 < x -> 0 < z -> (before dz (log10 x + i * dz) (log10 z) <-> before dz (x * Rpower 10 (i * dz)) z).
Proof.
  intros Hx Hz. unfold before.
  assert (E1 : x * Rpower 10 (i * dz) = Rpower 10 (log10 x + i * dz)) by (now rewrite Rpower_plus, pow_log10).
  assert (E2 : z = Rpower 10 (log10 z)) by (now rewrite pow_log10).
  assert (H1 : log10 x + i * dz < log10 z <-> x * Rpower 10 (i * dz) < z) by (rewrite E1; rewrite E2 at 2; now rewrite pow10_lt).
  assert (H2 : log10 z < log10 x + i * dz <-> z < x * Rpower 10 (i * dz)) by (rewrite E1; rewrite E2 at 2; now rewrite pow10_lt).
  tauto.
Qed.
Lemma log_range_ok zmin zmax dz l : log_range zmin zmax dz = Ok l <-> dz <> 0 /\ -1 < zmin /\ -1 < zmax /\ log_grid zmin zmax dz l.
Proof.
  unfold log_range. destruct (Rlt_dec 0 (1 + zmin)) as [P|P]; [|split; [discriminate|intros (_ & H & _); lra]].
  destruct (Rlt_dec 0 (1 + zmax)) as [Q|Q]; [|split; [discriminate|intros (_ & _ & H & _); lra]].
  assert (V : forall i, Rpower 10 (log10 (1 + zmin) + INR i * dz) = (1 + zmin) * Rpower 10 (INR i * dz)).
  { intro i. now rewrite Rpower_plus, pow_log10. }
  split.
  - destruct (arange _ _ _ _) as [g|] eqn:E; cbn [rbind]; [|discriminate]. intro H. injection H as <-.
    apply arange_ok in E. destruct E as [N [E1 E2]]. split; [exact N|]. split; [lra|]. split; [lra|].
    split; rewrite map_length.
    + intro i. rewrite E1. now apply log_before.
    + intros i Hi. rewrite nth_indep with (d' := Rpower 10 0 - 1) by (rewrite map_length; exact Hi).
      rewrite (map_nth (fun x => Rpower 10 x - 1)). rewrite E2 by exact Hi. rewrite V. ring.
  - intros (N & _ & _ & L1 & L2).
    assert (E : arange ValueError (log10 (1 + zmin)) (log10 (1 + zmax)) dz = Ok (map (fun z => log10 (1 + z)) l)).
    { apply arange_ok. split; [exact N|]. assert (E2 : forall i, (i < length l)%nat -> log10 (1 + nth i l 0) = log10 (1 + zmin) + INR i * dz).
      { intros i Hi. rewrite (L2 i Hi), <- V. unfold Rpower, log10. rewrite ln_exp. field. generalize ln10; lra. }
      split; rewrite map_length.
      - intro i. rewrite L1. symmetry. now apply log_before.
      - intros i Hi. rewrite nth_indep with (d' := log10 (1 + 0)) by (rewrite map_length; exact Hi).
        rewrite (map_nth (fun z => log10 (1 + z))). now apply E2. }
    rewrite E. cbn [rbind]. f_equal. rewrite map_map. rewrite <- (map_id l) at 2. apply map_ext_in. intros z Hz.
    apply In_nth with (d := 0) in Hz. destruct Hz as (i & Hi & <-). rewrite pow_log10; [ring|].
    rewrite (L2 i Hi). apply Rmult_lt_0_compat; [exact P|apply pow10_pos].
Qed.

(* ---------- "zmin,zmax,dz" ---------- *)
Local Open Scope string_scope.
Lemma no_comma_cons c s : no_comma (String c s) -> c <> ","%char /\ no_comma s.
Proof.
  intro H. split.
  - intros ->. apply (H "" s). reflexivity.
  - intros u v E. apply (H (String c u) v). rewrite E. reflexivity.
Qed.
Lemma split_comma_none s : forall cur, no_comma s -> split_go "," s 0 cur = [cur ++ s].
Proof.
  induction s as [|c s IH]; intros cur H; cbn [split_go]; [now rewrite app_nil_r_s|].
  apply no_comma_cons in H. destruct H as [Hc Hs].
  cbn [String.prefix]. destruct (ascii_dec "," c) as [<-|n]; [now destruct Hc|]. rewrite IH by exact Hs. now rewrite <- app_assoc_s.
Qed.
Lemma split_comma_app a b : forall cur, no_comma a -> split_go "," (a ++ "," ++ b) 0 cur = (cur ++ a) :: split_go "," b 0 "".
Proof.
  induction a as [|c a IH]; intros cur H.
  - cbn [append split_go]. cbn [String.prefix]. destruct (ascii_dec "," ",") as [_|n]; [|now destruct n].
    assert (Hp : String.prefix "" b = true) by (destruct b; reflexivity). rewrite Hp. cbn [String.length Nat.sub]. now rewrite app_nil_r_s.
  - apply no_comma_cons in H. destruct H as [Hc Hs]. change (String c a ++ "," ++ b) with (String c (a ++ "," ++ b)). cbn [split_go String.prefix].
    destruct (ascii_dec "," c) as [<-|n]; [now destruct Hc|]. rewrite IH by exact Hs. now rewrite <- app_assoc_s.
Qed.
Lemma comma_dec s : no_comma s \/ exists a b, s = a ++ "," ++ b /\ no_comma a.
Proof.
  induction s as [|c s IH].
  - left. intros [|x u] v; discriminate.
  - destruct (ascii_dec c ",") as [->|Hc].
    + right. exists "", s. split; [reflexivity|]. intros [|x u] v; discriminate.
    + destruct IH as [H|(a & b & -> & Ha)].
      * left. intros [|x u] v E; injection E as E1 E2; [now apply Hc|]. now apply (H u v).
      * right. exists (String c a), b. split; [reflexivity|].
        intros [|x u] v E; injection E as E1 E2; [now apply Hc|]. now apply (Ha u v).
Qed.
Lemma parse_range_ok tofloat s x y d : parse_range tofloat s = Ok (x, y, d) <-> range_text tofloat s x y d.
Proof.
  unfold parse_range, range_text, Model_IO.split. split.
  - destruct (comma_dec s) as [H|(a & r & -> & Ha)]; [rewrite split_comma_none by exact H; discriminate|].
    rewrite split_comma_app by exact Ha. destruct (comma_dec r) as [H|(b & q & -> & Hb)]; [rewrite split_comma_none by exact H; discriminate|].
    rewrite split_comma_app by exact Hb. destruct (comma_dec q) as [H|(c & p & -> & Hc)].
    + rewrite split_comma_none by exact H. cbn [append]. destruct (tofloat a) eqn:Ea, (tofloat b) eqn:Eb, (tofloat q) eqn:Eq; try discriminate.
      intro E. injection E as <- <- <-. exists a, b, q. repeat (split; [assumption || reflexivity|]). assumption.
    + rewrite split_comma_app by exact Hc. destruct (split_go "," p 0 "") eqn:Ep; [|discriminate].
      destruct (comma_dec p) as [H|(p1 & p2 & -> & H)]; [rewrite split_comma_none in Ep by exact H|rewrite split_comma_app in Ep by exact H]; discriminate.
  - intros (a & b & c & -> & Ha & Hb & Hc & Ea & Eb & Ec).
    rewrite split_comma_app, split_comma_app, split_comma_none by assumption. cbn [append]. now rewrite Ea, Eb, Ec.
Qed.
Lemma parse_range_val tofloat s : (exists x y d, parse_range tofloat s = Ok (x, y, d)) \/ (exists e, parse_range tofloat s = Err e).
Proof. destruct (parse_range tofloat s) as [[[x y] d]|e]; [left|right]; eauto. Qed.

Lemma eqb_cases s t : (s = t /\ String.eqb s t = true) \/ (s <> t /\ String.eqb s t = false).
Proof. destruct (String.eqb_spec s t); [left|right]; now split. Qed.

Lemma redshifts_ok tofloat a ty l :
  old_style_redshifts tofloat a ty = Ok l <-> exists zmin zmax dz, asked_range tofloat a ty zmin zmax dz /\ grid_of_type ty zmin zmax dz l.
Proof.
  unfold old_style_redshifts, asked_range, option_for, grid_of_type, default_range.
  assert (RG : forall s, (exists x y d, parse_range tofloat s = Ok (x, y, d)) \/ (exists e, parse_range tofloat s = Err e)) by (intro; apply parse_range_val).
  destruct (eqb_cases ty "GALAXY") as [[-> ->]|[N1 ->]]; [|destruct (eqb_cases ty "STAR") as [[-> ->]|[N2 ->]]; [|destruct (eqb_cases ty "QSO") as [[-> ->]|[N3 ->]]]].
  - destruct (zs_galaxy a) as [s|].
    + split.
      * destruct (RG s) as [(x & y & d & E)|[e E]]; rewrite E; cbn [rbind]; [|discriminate]. apply parse_range_ok in E.
        intro H. apply log_range_ok in H. exists x, y, d. split; [exact E|]. split; [apply H|]. right. split; [now left|apply H].
      * intros (x & y & d & E & N & [[K1 _]|[_ H]]); [discriminate|]. apply parse_range_ok in E. rewrite E. cbn [rbind]. apply log_range_ok. tauto.
    + split.
      * intro H. apply log_range_ok in H. do 3 eexists. split; [left; split; [reflexivity|]; split; [reflexivity|]; split; reflexivity|].
        split; [apply H|]. right. split; [now left|apply H].
      * intros (x & y & d & [(_ & -> & -> & ->)|[(K1 & _)|(K2 & _)]] & N & [[K3 _]|[_ H]]); try discriminate. apply log_range_ok. tauto.
  - change ("STAR" =? "QSO") with false. cbv iota. destruct (zs_star a) as [s|].
    + split.
      * destruct (RG s) as [(x & y & d & E)|[e E]]; rewrite E; cbn [rbind]; [|discriminate]. apply parse_range_ok in E.
        intro H. apply arange_ok in H. exists x, y, d. split; [exact E|]. split; [apply H|]. left. split; [reflexivity|apply H].
      * intros (x & y & d & E & N & [[_ H]|[[K1|K2] _]]); try discriminate. apply parse_range_ok in E. rewrite E. cbn [rbind]. apply arange_ok. tauto.
    + split.
      * intro H. apply arange_ok in H. do 3 eexists. split; [right; right; split; [reflexivity|]; split; [reflexivity|]; split; reflexivity|].
        split; [apply H|]. left. split; [reflexivity|apply H].
      * intros (x & y & d & [(K1 & _)|[(K2 & _)|(_ & -> & -> & ->)]] & N & [[_ H]|[[K3|K4] _]]); try discriminate. apply arange_ok. tauto.
  - destruct (zs_qso a) as [s|].
    + split.
      * destruct (RG s) as [(x & y & d & E)|[e E]]; rewrite E; cbn [rbind]; [|discriminate]. apply parse_range_ok in E.
        intro H. apply log_range_ok in H. exists x, y, d. split; [exact E|]. split; [apply H|]. right. split; [now right|apply H].
      * intros (x & y & d & E & N & [[K1 _]|[_ H]]); [discriminate|]. apply parse_range_ok in E. rewrite E. cbn [rbind]. apply log_range_ok. tauto.
    + split.
      * intro H. apply log_range_ok in H. do 3 eexists. split; [right; left; split; [reflexivity|]; split; [reflexivity|]; split; reflexivity|].
        split; [apply H|]. right. split; [now right|apply H].
      * intros (x & y & d & [(K1 & _)|[(_ & -> & -> & ->)|(K2 & _)]] & N & [[K3 _]|[_ H]]); try discriminate. apply log_range_ok. tauto.
  - split; [discriminate|]. intros (x & y & d & _ & _ & [[? _]|[[?|?] _]]); contradiction.
Qed.
Lemma igm_ok f ty v m : igm_of f ty v = Ok m <-> h_igm f = Some m \/ (h_igm f = None /\ old_igm ty v m).
Proof.
  unfold igm_of. destruct (h_igm f) as [m'|].
  - split; [intro E; injection E as ->; now left|]. intros [E|[? _]]; [now injection E as ->|discriminate].
  - split.
    + intro H. right. split; [reflexivity|].
      destruct (eqb_cases ty "STAR") as [[-> E]|[N1 E]]; rewrite E in H; [injection H as <-; constructor|].
      destruct (eqb_cases ty "GALAXY") as [[-> E2]|[N2 E2]]; rewrite E2 in H; cbn [andb] in H.
      * destruct (eqb_cases v "2.6") as [[-> E3]|[N3 E3]]; rewrite E3 in H; [injection H as <-; constructor|]. discriminate H.
      * destruct (eqb_cases ty "QSO") as [[-> E4]|[N4 E4]]; rewrite E4 in H; cbn [andb] in H; [|discriminate].
        destruct (eqb_cases v "0.1") as [[-> E5]|[N5 E5]]; rewrite E5 in H; cbn [orb] in H; [injection H as <-; constructor|].
        destruct (eqb_cases v "1.0") as [[-> E6]|[N6 E6]]; rewrite E6 in H; [injection H as <-; constructor|].
        destruct (eqb_cases v "1.1") as [[-> E7]|[N7 E7]]; rewrite E7 in H; [injection H as <-; constructor|]. discriminate.
    + intros [?|[_ H]]; [discriminate|]. destruct H; reflexivity.
Qed.
Lemma wave_ok f w : w = tpl_wave f <-> file_wave f w.
Proof.
  unfold file_wave, tpl_wave. cbv zeta. set (n := h_naxis f).
  set (g := fun i : nat => (h_crval f + h_cdelt f * INR i)%R).
  assert (E : (if h_loglam f then map (Rpower 10) (map g (seq 0 n)) else map g (seq 0 n)) = map (fun i => if h_loglam f then Rpower 10 (g i) else g i) (seq 0 n)).
  { destruct (h_loglam f); [now rewrite map_map|reflexivity]. }
  rewrite E. split.
  - intros ->. split; [apply grid_len|]. intros i Hi. exact (grid_nth (fun i => if h_loglam f then Rpower 10 (g i) else g i) n i Hi).
  - intros [L H]. apply nth_ext with (d := 0%R) (d' := 0%R); [rewrite grid_len; exact L|].
    intros i Hi. rewrite (grid_nth (fun i => if h_loglam f then Rpower 10 (g i) else g i)) by (rewrite <- L; exact Hi). apply H. rewrite <- L. exact Hi.
Qed.
Lemma load_ok tofloat a f t : load_file tofloat a f = Ok t <-> template_of tofloat a f t.
Proof.
  unfold load_file. split.
  - destruct (h_rrtype f) as [raw|] eqn:Er; [|discriminate]. cbv zeta.
    set (ty := upper (strip raw)). set (v := opt (h_version f) "unknown").
    destruct (match h_redshifts f with Some zs => Ok zs | None => old_style_redshifts tofloat a ty end) as [zs|] eqn:Ez; cbn [rbind]; [|discriminate].
    assert (Hz : h_redshifts f = Some zs \/ (h_redshifts f = None /\ exists zmin zmax dz, asked_range tofloat a ty zmin zmax dz /\ grid_of_type ty zmin zmax dz zs)).
    { destruct (h_redshifts f); [left; congruence|right]. split; [reflexivity|]. now apply redshifts_ok. }
    destruct zs as [|z0 zs]; [discriminate|].
    destruct (igm_of f ty v) as [m|] eqn:Em; cbn [rbind]; [|discriminate]. apply igm_ok in Em.
    unfold finish_init. cbn [tp_wave tp_method tp_z].
    destruct (tpl_wave f) as [|w0 w] eqn:Ew; [discriminate|].
    destruct (_ || _) eqn:Eme; [|discriminate]. intro H. injection H as <-.
    assert (Hw : file_wave f (w0 :: w)) by (apply wave_ok; now symmetry).
    constructor; cbn.
    + exists raw. now split.
    + destruct (h_subtype f) as [s|]; [right; exists s; now split|left; now split].
    + destruct (h_method f) as [s|]; [right; exists s; now split|left; now split].
    + apply orb_true_iff in Eme. destruct Eme as [E|E]; apply String.eqb_eq in E; [now left|now right].
    + unfold v. destruct (h_version f) as [s|]; [now right|left; now split].
    + exact Em.
    + split; [exact Hw|]. destruct Hw as [L _]. cbn in L. lia.
    + reflexivity.
    + split; [discriminate|exact Hz].
  - intros [ (raw & Er & Ety) Hsub Hme Hmok Hv Higm [Hw Hn] Hfl [Hz0 Hz]]. rewrite Er. cbv zeta.
    rewrite <- Ety. assert (Ev : opt (h_version f) "unknown" = tp_version t) by (destruct Hv as [[-> ->]| ->]; reflexivity). rewrite Ev.
    assert (Ez : match h_redshifts f with Some zs => Ok zs | None => old_style_redshifts tofloat a (tp_type t) end = Ok (tp_z t)).
    { destruct Hz as [-> |[-> H]]; [reflexivity|]. now apply redshifts_ok. }
    rewrite Ez. cbn [rbind]. destruct (tp_z t) as [|z0 zs] eqn:E0; [now destruct Hz0|].
    apply igm_ok in Higm. rewrite Higm. cbn [rbind]. unfold finish_init. cbn [tp_wave tp_method tp_z].
    apply wave_ok in Hw. rewrite <- Hw. assert (Hne : tp_wave t <> []).
    { intro E. rewrite E in Hw. assert (L : length (tpl_wave f) = h_naxis f) by (apply (wave_ok f (tpl_wave f)); reflexivity). rewrite <- Hw in L. cbn in L. lia. }
    destruct (tp_wave t) as [|w0 w] eqn:Ew; [now destruct Hne|].
    assert (Em : match h_method f with Some m => upper m | None => "PCA" end = tp_method t) by (destruct Hme as [[-> ->]|(m & -> & ->)]; reflexivity).
    assert (Es : match h_subtype f with Some s => upper (strip s) | None => "" end = tp_sub t) by (destruct Hsub as [[-> ->]|(m & -> & ->)]; reflexivity).
    rewrite Em, Es. assert (Eq : ((tp_method t =? "PCA") || (tp_method t =? "NMF")) = true) by (destruct Hmok as [-> | ->]; reflexivity).
    rewrite Eq. rewrite <- Hfl, <- Ew, <- E0. destruct t; reflexivity.
Qed.
