From Verif Require Import Prelude PreludeFacts Facts2 NumX Model_Dist Proof_Table Model_Fitz Model_Zscan Spec_Zscan Proof_Zscan Proof_Zscan2 Proof_Zscan3 Proof_Zscan4 Model_IO Spec_IO Proof_IO Model_Rebin Model_Targets2 Model_Arch Spec_Arch Proof_Arch.

(* ---------- lengths ---------- *)
Lemma midpoints_length c : length (midpoints c) = length c - 1.
Proof. induction c as [|a c IH]; [reflexivity|]. destruct c as [|b c]; [reflexivity|]. cbn [midpoints length] in *. rewrite IH. lia. Qed.
Lemma c2e_length c e : centers2edges c = Ok e -> length e = length c + 1.
Proof.
  destruct c as [|a [|b c]]; try discriminate. unfold centers2edges. pose proof (midpoints_length (a :: b :: c)) as M. set (mid := midpoints (a :: b :: c)) in *. clearbody mid.
  intros H. injection H as <-. cbn [length] in *. rewrite app_length. cbn [length]. lia.
Qed.
Lemma bins_length x y : forall edges results j out, bins x y edges results j = Ok out -> length out = length results.
Proof.
  induction edges as [|lo edges IH]; intros results j out H; [injection H as <-; reflexivity|].
  destruct edges as [|hi edges]; [injection H as <-; reflexivity|].
  destruct results as [|r0 rs]; [discriminate H|].
  change (bins x y (lo :: hi :: edges) (r0 :: rs) j) with (do p <- bin x y lo hi j r0; do more <- bins x y (hi :: edges) rs (fst p); Ok (snd p :: more)) in H. destruct (bin x y lo hi j r0) as [p|]; [|discriminate]. cbn [rbind] in H.
  destruct (bins x y (hi :: edges) rs (fst p)) as [m|] eqn:E; [|discriminate]. cbn [rbind] in H. injection H as <-. cbn [length]. f_equal. now apply IH in E.
Qed.
Lemma normalise_length : forall edges results out, normalise edges results = Ok out -> length out = length results.
Proof.
  induction edges as [|lo edges IH]; intros results out H; [injection H as <-; reflexivity|].
  destruct edges as [|hi edges]; [injection H as <-; reflexivity|].
  destruct results as [|r0 rs]; [discriminate H|].
  change (normalise (lo :: hi :: edges) (r0 :: rs)) with (do v <- qdiv r0 (hi - lo); do more <- normalise (hi :: edges) rs; Ok (v :: more)) in H. destruct (qdiv r0 (hi - lo)) as [p|]; [|discriminate]. cbn [rbind] in H.
  destruct (normalise (hi :: edges) rs) as [m|] eqn:E; [|discriminate]. cbn [rbind] in H. injection H as <-. cbn [length]. f_equal. now apply IH in E.
Qed.
Lemma rebin_1d_length x y e n out : rebin_1d x y e (zeros n) = Ok out -> length out = n.
Proof.
  unfold rebin_1d. destruct (bins x y e (zeros n) 0) as [r|] eqn:E; [|discriminate]. cbn [rbind]. intros H. apply normalise_length in H. apply bins_length in E.
  rewrite H, E. apply repeat_length.
Qed.

(* ---------- one archetype rebinned to one grid ---------- *)
Definition rb1 (wave : vec) (z : Q) (centers y : vec) : res vec :=
  match trapz_rebin_xnew (redshifted wave z) (Y1 y) centers ZNone false with
  | Ok (V1 b) => Ok b | Ok _ => Err ValueError | Err e => Err e end.
(* the checks that do not depend on the flux *)
Definition rb_pre (x e : vec) : res unit :=
  do emin <- odef None (get e 0); do emax <- odef None (getm1 e 0);
  do x0 <- odef None (do v <- get x 0; Ok (v * (1 + amax [0%Q]))%Q);
  do x1 <- odef None (do v <- getm1 x 0; Ok (v * (1 + amin [0%Q]))%Q);
  if qlt emin x0 || qlt x1 emax then Err ValueError else Ok tt.
Lemma rb1_eq wave z c y : rb1 wave z c y =
  do e <- centers2edges c; do _ <- rb_pre (redshifted wave z) e;
  rebin_1d (redshifted (redshifted wave z) 0) y e (zeros (length e - 1)).
Proof.
  unfold rb1, trapz_rebin_xnew. destruct (centers2edges c) as [e|]; [|reflexivity]. cbn [rbind]. unfold trapz_rebin, rb_pre, odef.
  destruct (get e 0) as [e0|]; [|reflexivity]. cbn [rbind]. destruct (getm1 e 0) as [e1|]; [|reflexivity]. cbn [rbind].
  destruct (get (redshifted wave z) 0) as [x0|]; [|reflexivity]. cbn [rbind]. destruct (getm1 (redshifted wave z) 0) as [x1|]; [|reflexivity]. cbn [rbind].
  destruct (qlt _ _ || qlt _ _); [reflexivity|]. cbn [rbind negb andb hd]. destruct (rebin_1d _ _ _ _); reflexivity.
Qed.
Lemma arch_rebin_eq wave flux c z : arch_rebin_cpu wave flux c z =
  do e <- centers2edges c; do _ <- rb_pre (redshifted wave z) e;
  do cols <- mapM (fun y => rebin_1d (redshifted (redshifted wave z) 0) y e (zeros (length e - 1))) flux;
  Ok (V2 (transpose_cols (length e - 1) cols)).
Proof.
  unfold arch_rebin_cpu, trapz_rebin_xnew. destruct (centers2edges c) as [e|]; [|reflexivity]. cbn [rbind]. unfold trapz_rebin, rb_pre, odef.
  destruct (get e 0) as [e0|]; [|reflexivity]. cbn [rbind]. destruct (getm1 e 0) as [e1|]; [|reflexivity]. cbn [rbind].
  destruct (get (redshifted wave z) 0) as [x0|]; [|reflexivity]. cbn [rbind]. destruct (getm1 (redshifted wave z) 0) as [x1|]; [|reflexivity]. cbn [rbind].
  destruct (qlt _ _ || qlt _ _); [reflexivity|]. cbn [rbind]. unfold rebin_batch. cbn [mapM].
  destruct (mapM (fun y => rebin_1d _ y e _) flux) as [cols|]; reflexivity.
Qed.
Lemma rb1_length wave z c y out : rb1 wave z c y = Ok out -> length out = length c.
Proof.
  rewrite rb1_eq. destruct (centers2edges c) as [e|] eqn:E; [|discriminate]. cbn [rbind]. destruct (rb_pre _ e) as [u|]; [|discriminate]. cbn [rbind]. intros H.
  apply rebin_1d_length in H. apply c2e_length in E. lia.
Qed.
Lemma rebin_cols wave flux c z r : arch_rebin_cpu wave flux c z = Ok r ->
  exists cols, mapM (rb1 wave z c) flux = Ok cols /\ r = V2 (transpose_cols (length c) cols).
Proof.
  rewrite arch_rebin_eq. destruct (centers2edges c) as [e|] eqn:E; [|discriminate]. cbn [rbind]. destruct (rb_pre _ e) as [u|] eqn:Eu; [|discriminate]. cbn [rbind].
  destruct (mapM _ flux) as [cols|] eqn:Em; [|discriminate]. cbn [rbind]. intros H. exists cols. split.
  - refine (eq_trans _ Em). apply mapM_ext. intros y _. rewrite rb1_eq, E. cbn [rbind]. rewrite Eu. reflexivity.
  - apply c2e_length in E. replace (length c) with (length e - 1) by lia. congruence.
Qed.
Lemma rebin_cols_conv wave flux c z cols : flux <> [] -> mapM (rb1 wave z c) flux = Ok cols ->
  arch_rebin_cpu wave flux c z = Ok (V2 (transpose_cols (length c) cols)).
Proof.
  intros Hne H. rewrite arch_rebin_eq. destruct (centers2edges c) as [e|] eqn:E.
  2:{ exfalso. destruct flux as [|y fl]; [congruence|]. cbn [mapM] in H. rewrite rb1_eq, E in H. discriminate. }
  cbn [rbind]. destruct (rb_pre _ e) as [u|] eqn:Eu.
  2:{ exfalso. destruct flux as [|y fl]; [congruence|]. cbn [mapM] in H. rewrite rb1_eq, E in H. cbn [rbind] in H. rewrite Eu in H. discriminate. }
  cbn [rbind]. rewrite (mapM_ext _ (rb1 wave z c)), H.
  - cbn [rbind]. apply c2e_length in E. replace (length c) with (length e - 1) by lia. reflexivity.
  - intros y _. rewrite rb1_eq, E. cbn [rbind]. rewrite Eu. reflexivity.
Qed.

(* ---------- transmission ---------- *)
Definition t_ok (nw : nat) (t : option arr) : bool :=
  match t with None => true | Some (A1 x) => (length x =? nw) || (length x =? 1) | Some (A2 _) => false end.
Definition tval (nw : nat) (t : option arr) (l : nat) (v : Q) : Q :=
  match t with Some (A1 x) => if length x =? nw then (v * nth l x 0)%Q else (v * nth 0 x 0)%Q | _ => v end.
Definition tcol (nw : nat) (t : option arr) (col : vec) : vec := map (fun l => tval nw t l (nth l col 0%Q)) (seq 0 nw).
Lemma tcols_eq nw cols t : transpose_cols nw (map (tcol nw t) cols) =
  map (fun l => map (fun col => tval nw t l (nth l col 0%Q)) cols) (seq 0 nw).
Proof.
  unfold transpose_cols. apply map_ext_in. intros l Hl. apply in_seq in Hl. rewrite map_map. apply map_ext. intros col. unfold tcol. rewrite nth_tab by lia. reflexivity.
Qed.
Lemma map2_seq {B C} (g : nat -> B) (h : B -> Q -> C) : forall (l : vec) a, map2 h (map g (seq a (length l))) l = map (fun i => h (g i) (nth (i - a) l 0%Q)) (seq a (length l)).
Proof.
  induction l as [|x l IH]; intros a; [reflexivity|]. cbn [length seq map map2]. rewrite Nat.sub_diag. cbn [nth]. f_equal. rewrite IH.
  apply map_ext_in. intros i Hi. apply in_seq in Hi. replace (i - a) with (S (i - S a)) by lia. reflexivity.
Qed.
Lemma times_trans_cols nw cols t : times_trans (transpose_cols nw cols) t =
  if t_ok nw t then Ok (transpose_cols nw (map (tcol nw t) cols)) else Err ValueError.
Proof.
  rewrite tcols_eq. unfold times_trans, t_ok, tval. destruct t as [[x|rows]|]; [|reflexivity|reflexivity].
  unfold transpose_cols. rewrite map_length, seq_length. destruct (Nat.eqb_spec (length x) nw) as [<-|Hn]; cbn [orb].
  - apply f_equal. refine (eq_trans (map2_seq (fun i => map (fun c : vec => nth i c 0%Q) cols) (fun row x0 => map (fun v => (v * x0)%Q) row) x 0) _). apply map_ext. intros l.
    rewrite Nat.sub_0_r, map_map. reflexivity.
  - destruct (length x =? 1); [|reflexivity]. rewrite map_map. f_equal. apply map_ext. intros l. rewrite map_map. reflexivity.
Qed.

(* ---------- design matrices ---------- *)
Lemma enum_seq_map {A B} (g : nat -> A) (h : nat * A -> B) n : map h (enum (map g (seq 0 n))) = map (fun l => h (l, g l)) (seq 0 n).
Proof.
  unfold enum. assert (G : forall n a, map h (enum_from a (map g (seq a n))) = map (fun l => h (l, g l)) (seq a n)).
  { induction n0 as [|m IH]; intros b; [reflexivity|]. cbn [seq map enum_from]. now rewrite IH. }
  apply G.
Qed.
(* rows of the design of a list of (rebinned, absorbed) archetypes *)
Definition rows_of (nw : nat) (L : mat) (heads : list vec) : mat :=
  map (fun l => basis_row (map (fun col => nth l col 0%Q) heads) L l) (seq 0 nw).
(* what is fitted on one wavelength grid, for one file *)
Definition fit_key (A : archetype) (z : Q) (trans : tdic) (nleg : nat) (leg : dict mat) (kw : Z * vec) : res (list vec * mat) :=
  do cols <- mapM (rb1 (a_wave A) z (snd kw)) (a_flux A);
  match dget trans (fst kw) with
  | None => Err KeyError
  | Some t => if t_ok (length (snd kw)) t then
                do L <- leg_of nleg leg (fst kw) (length (snd kw)); Ok (map (tcol (length (snd kw)) t) cols, L)
              else Err ValueError
  end.
Definition bins_of (kw : Z * vec) (p : list vec * mat) : Z * mat := (fst kw, transpose_cols (length (snd kw)) (fst p)).
Definition td_of (nar : nat) (kw : Z * vec) (p : list vec * mat) : Z * list mat :=
  (fst kw, map (fun j => rows_of (length (snd kw)) (snd p) [nth j (fst p) []]) (seq 0 nar)).
Definition near_of (best : list nat) (kw : Z * vec) (p : list vec * mat) : Z * list mat :=
  (fst kw, [rows_of (length (snd kw)) (snd p) (map (fun j => nth j (fst p) []) best)]).

Lemma nth_map_nil (cols : list vec) l j : nth j (map (fun c : vec => nth l c 0%Q) cols) 0%Q = nth l (nth j cols []) 0%Q.
Proof.
  destruct (Nat.lt_ge_cases j (length cols)) as [H|H].
  - rewrite (nth_indep _ 0%Q (nth l [] 0%Q)) by now rewrite map_length. now rewrite (map_nth (fun c : vec => nth l c 0%Q)).
  - rewrite nth_overflow by now rewrite map_length. rewrite (nth_overflow cols) by exact H. destruct l; reflexivity.
Qed.
Lemma td_rows nw L cols nar : map (fun j => map (fun lr => basis_row [nth j (snd lr) 0%Q] L (fst lr)) (enum (transpose_cols nw cols))) (seq 0 nar) =
  map (fun j => rows_of nw L [nth j cols []]) (seq 0 nar).
Proof.
  apply map_ext. intros j. unfold transpose_cols, rows_of. rewrite (enum_seq_map (fun i => map (fun c : vec => nth i c 0%Q) cols) (fun lr => basis_row [nth j (snd lr) 0%Q] L (fst lr))).
  apply map_ext. intros l. cbn [fst snd map]. now rewrite nth_map_nil.
Qed.
Lemma near_rows nw L cols best : map (fun lr => basis_row (map (fun j => nth j (snd lr) 0%Q) best) L (fst lr)) (enum (transpose_cols nw cols)) =
  rows_of nw L (map (fun j => nth j cols []) best).
Proof.
  unfold transpose_cols, rows_of. rewrite (enum_seq_map (fun i => map (fun c : vec => nth i c 0%Q) cols) (fun lr => basis_row (map (fun j => nth j (snd lr) 0%Q) best) L (fst lr))).
  apply map_ext. intros l. cbn [fst snd]. f_equal. rewrite map_map. apply map_ext. intros j. apply nth_map_nil.
Qed.
Lemma tcols_length nw cols : length (transpose_cols nw cols) = nw.
Proof. unfold transpose_cols. now rewrite map_length, seq_length. Qed.

Lemma fit_key_inv A z trans nleg leg hs w p : fit_key A z trans nleg leg (hs, w) = Ok p ->
  exists cols t L, mapM (rb1 (a_wave A) z w) (a_flux A) = Ok cols /\ dget trans hs = Some t /\ t_ok (length w) t = true /\
    leg_of nleg leg hs (length w) = Ok L /\ p = (map (tcol (length w) t) cols, L).
Proof.
  unfold fit_key. cbn [fst snd]. intros H. unfold mat, vec in *. destruct (mapM _ (a_flux A)) as [cols|] eqn:Ec; [|discriminate]. cbn [rbind] in *.
  destruct (dget trans hs) as [t|]; [|discriminate]. destruct (t_ok (length w) t) eqn:Eok; [|discriminate]. destruct (leg_of nleg leg hs (length w)) as [L|]; [|discriminate].
  cbn [rbind] in *. injection H as <-. exists cols, t, L. repeat (split; [first [reflexivity|assumption]|]). reflexivity.
Qed.
Section Td.
  Variables (A : archetype) (z : Q) (trans : tdic) (nleg : nat) (leg : dict mat).
  Definition fit_td (nar : nat) (dwave : dict vec) : res (dict mat * tdict) :=
    do raw <- rebin_all A z dwave; do b <- absorbed trans raw; do td <- arch_tdata nar nleg leg b; Ok (b, td).
  Lemma fit_td_inv nar dwave b td : fit_td nar dwave = Ok (b, td) ->
    exists ps, mapM (fit_key A z trans nleg leg) dwave = Ok ps /\ b = map2 bins_of dwave ps /\ td = map2 (td_of nar) dwave ps.
  Proof.
    unfold fit_td. destruct (rebin_all A z dwave) as [raw|] eqn:E1; [|discriminate]. cbn [rbind].
    destruct (absorbed trans raw) as [b0|] eqn:E2; [|discriminate]. cbn [rbind]. destruct (arch_tdata nar nleg leg b0) as [td0|] eqn:E3; [|discriminate]. cbn [rbind].
    intros H. assert (b0 = b) by congruence. assert (td0 = td) by congruence. subst b0 td0. clear H.
    unfold rebin_all, absorbed, arch_tdata in *. revert raw b td E1 E2 E3. induction dwave as [|[hs w] dw IH]; intros raw b td E1 E2 E3.
    - injection E1 as <-. injection E2 as <-. injection E3 as <-. exists []. repeat split.
    - cbn [mapM fst snd] in E1. destruct (arch_rebin_cpu (a_wave A) (a_flux A) w z) as [r|] eqn:Er; [|discriminate]. cbn [rbind] in E1.
      destruct (rebin_cols _ _ _ _ _ Er) as (cols & Hc & ->). cbn [rbind] in E1. match type of E1 with context [mapM ?f dw] => destruct (mapM f dw) as [raw'|] eqn:E1' end; [|discriminate E1]. cbn [rbind] in E1. injection E1 as <-.
      cbn [mapM fst snd] in E2. destruct (dget trans hs) as [t|] eqn:Et; [|discriminate]. rewrite times_trans_cols in E2.
      destruct (t_ok (length w) t) eqn:Eok; [|discriminate]. cbn [rbind] in E2. match type of E2 with context [mapM ?f raw'] => destruct (mapM f raw') as [b'|] eqn:E2' end; [|discriminate E2]. cbn [rbind] in E2. injection E2 as <-.
      cbn [mapM fst snd] in E3. rewrite tcols_length in E3. destruct (leg_of nleg leg hs (length w)) as [L|] eqn:EL; [|discriminate]. cbn [rbind] in E3.
      rewrite td_rows in E3. match type of E3 with context [mapM ?f b'] => destruct (mapM f b') as [td'|] eqn:E3' end; [|discriminate E3]. cbn [rbind] in E3.
      destruct (IH _ _ _ eq_refl E2' E3') as (ps & P1 & P2 & P3).
      exists ((map (tcol (length w) t) cols, L) :: ps). 
      assert (K : fit_key A z trans nleg leg (hs, w) = Ok (map (tcol (length w) t) cols, L)).
      { unfold fit_key. cbn [fst snd]. unfold mat, vec in *. rewrite Hc. cbn [rbind]. rewrite Et, Eok, EL. reflexivity. }
      cbn [mapM]. rewrite K. cbn [rbind]. rewrite P1. cbn [rbind].
      split; [reflexivity|]. cbn [map2 bins_of td_of fst snd]. rewrite P2, P3 in *. split; [reflexivity|]. injection E3 as <-. reflexivity.
  Qed.
  Lemma fit_td_conv nar dwave ps : a_flux A <> [] -> mapM (fit_key A z trans nleg leg) dwave = Ok ps ->
    fit_td nar dwave = Ok (map2 bins_of dwave ps, map2 (td_of nar) dwave ps).
  Proof.
    intros Hne H. unfold fit_td.
    assert (G : exists raw, rebin_all A z dwave = Ok raw /\ absorbed trans raw = Ok (map2 bins_of dwave ps)).
    { unfold rebin_all, absorbed. revert ps H. induction dwave as [|[hs w] dw IH]; intros ps H.
      - injection H as <-. exists []. split; reflexivity.
      - cbn [mapM] in H. destruct (fit_key A z trans nleg leg (hs, w)) as [q|] eqn:Ek; [|discriminate H]. cbn [rbind] in H.
      destruct (fit_key_inv _ _ _ _ _ _ _ _ Ek) as (cols & t & L & Ec & Et & Eok & EL & ->).
      destruct (mapM (fit_key A z trans nleg leg) dw) as [ps'|] eqn:Ep; [|discriminate H]. cbn [rbind] in H. injection H as <-.
        destruct (IH ps' eq_refl) as (raw & R1 & R2). exists ((hs, transpose_cols (length w) cols) :: raw). cbn [mapM fst snd].
        rewrite (rebin_cols_conv _ _ _ _ cols Hne Ec). cbn [rbind]. rewrite R1. cbn [rbind]. split; [reflexivity|]. cbn [mapM fst snd]. rewrite Et, times_trans_cols, Eok. cbn [rbind].
        rewrite R2. reflexivity. }
    destruct G as (raw & -> & G). cbn [rbind]. rewrite G. cbn [rbind].
    assert (G2 : arch_tdata nar nleg leg (map2 bins_of dwave ps) = Ok (map2 (td_of nar) dwave ps)).
    { clear G raw. unfold arch_tdata. revert ps H. induction dwave as [|[hs w] dw IH]; intros ps H.
      - injection H as <-. reflexivity.
      - cbn [mapM] in H. destruct (fit_key A z trans nleg leg (hs, w)) as [q|] eqn:Ek; [|discriminate H]. cbn [rbind] in H.
      destruct (fit_key_inv _ _ _ _ _ _ _ _ Ek) as (cols & t & L & Ec & Et & Eok & EL & ->).
      destruct (mapM (fit_key A z trans nleg leg) dw) as [ps'|] eqn:Ep; [|discriminate H]. cbn [rbind] in H. injection H as <-.
        cbn [map2 mapM bins_of fst snd]. rewrite tcols_length, EL. cbn [rbind]. rewrite (IH ps' eq_refl). cbn [rbind td_of fst snd]. now rewrite td_rows. }
    rewrite G2. reflexivity.
  Qed.
  Lemma near_of_eq best dwave ps : mapM (fit_key A z trans nleg leg) dwave = Ok ps ->
    near_tdata best nleg leg (map2 bins_of dwave ps) = Ok (map2 (near_of best) dwave ps).
  Proof.
    unfold near_tdata. revert ps. induction dwave as [|[hs w] dw IH]; intros ps H.
    - injection H as <-. reflexivity.
    - cbn [mapM] in H. destruct (fit_key A z trans nleg leg (hs, w)) as [q|] eqn:Ek; [|discriminate H]. cbn [rbind] in H.
      destruct (fit_key_inv _ _ _ _ _ _ _ _ Ek) as (cols & t & L & Ec & Et & Eok & EL & ->).
      destruct (mapM (fit_key A z trans nleg leg) dw) as [ps'|] eqn:Ep; [|discriminate H]. cbn [rbind] in H. injection H as <-.
      cbn [map2 mapM bins_of fst snd]. rewrite tcols_length, EL. cbn [rbind]. rewrite (IH ps' eq_refl). cbn [rbind near_of fst snd]. now rewrite near_rows.
  Qed.
End Td.
