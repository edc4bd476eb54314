From Coq Require Import Reals Qreals Lra Psatz.
From Coquelicot Require Import Coquelicot.
From Verif Require Import Prelude PreludeFacts Model_Fitz Model_Rebin Spec_Rebin Facts2 Proof_Rebin Proof_Rebin2 Proof_RebinGPU Proof_Table.
Open Scope nat_scope.

Lemma last_nth (l : list Q) d : nth (length l - 1) l d = last l d.
Proof.
  induction l as [|a l IH]; [reflexivity|]. destruct l as [|b l]; [reflexivity|].
  cbn [length] in *. replace (S (S (length l)) - 1) with (S (S (length l) - 1)) by lia. exact IH.
Qed.
Lemma amax_spec l : l <> [] -> In (amax l) l /\ forall v, In v l -> (v <= amax l)%Q.
Proof.
  destruct l as [|a l]; [congruence|]. intros _. unfold amax. revert a.
  induction l as [|b l IH]; intros a; cbn [fold_left].
  - split; [left; reflexivity|]. intros v [<-|[]]. apply Qle_refl.
  - specialize (IH (if Qle_bool a b then b else a)). destruct IH as [I1 I2]. split.
    + cbn in I1. destruct I1 as [I1|I1]; [|right; right; exact I1]. rewrite <- I1. destruct (Qle_bool a b); [right; left|left]; reflexivity.
    + assert (Hc : (a <= (if Qle_bool a b then b else a) /\ b <= (if Qle_bool a b then b else a))%Q).
      { destruct (Qle_bool a b) eqn:E; [apply Qle_bool_iff in E; split; [exact E|apply Qle_refl]|apply Qle_bool_false in E; split; lra]. }
      specialize (I2 _ (or_introl eq_refl)) as I0. destruct Hc.
      intros v [<-|[<-|Hv]]; [lra|lra|]. apply I2. right; exact Hv.
Qed.
Lemma amin_spec l : l <> [] -> In (amin l) l /\ forall v, In v l -> (amin l <= v)%Q.
Proof.
  destruct l as [|a l]; [congruence|]. intros _. unfold amin. revert a.
  induction l as [|b l IH]; intros a; cbn [fold_left].
  - split; [left; reflexivity|]. intros v [<-|[]]. apply Qle_refl.
  - specialize (IH (if Qle_bool b a then b else a)). destruct IH as [I1 I2]. split.
    + cbn in I1. destruct I1 as [I1|I1]; [|right; right; exact I1]. rewrite <- I1. destruct (Qle_bool b a); [right; left|left]; reflexivity.
    + assert (Hc : ((if Qle_bool b a then b else a) <= a /\ (if Qle_bool b a then b else a) <= b)%Q).
      { destruct (Qle_bool b a) eqn:E; [apply Qle_bool_iff in E; split; [exact E|apply Qle_refl]|apply Qle_bool_false in E; split; lra]. }
      specialize (I2 _ (or_introl eq_refl)) as I0. destruct Hc.
      intros v [<-|[<-|Hv]]; [lra|lra|]. apply I2. right; exact Hv.
Qed.
Lemma getm1_0 l : l <> [] -> getm1 l 0 = Ok (nth (length l - 1) l 0%Q).
Proof. intros H. cbn [getm1]. apply get_nth. destruct l; [congruence|cbn; lia]. Qed.

(* the guard, for every shape *)
Definition core (x : list Q) (y : ydata) (edges : list Q) (myz : zdata) (gpu : bool) : res rebinned :=
  let zs := zs_of myz in
  let scalar_z := match myz with ZArray _ => false | _ => true end in
  match y with
  | Y1 l =>
      if negb gpu && scalar_z then
        do r <- rebin_1d (redshifted x (hd 0%Q zs)) l edges (zeros (length edges - 1)); Ok (V1 r)
      else
        do r <- (if gpu then rebin_batch_gpu x [l] edges zs else rebin_batch x [l] edges zs);
        Ok (reshape scalar_z true r)
  | Y2 ls =>
      do r <- (if gpu then rebin_batch_gpu x ls edges zs else rebin_batch x ls edges zs);
      Ok (reshape scalar_z false r)
  end.
Lemma trapz_unfold x y edges myz gpu : x <> [] -> edges <> [] -> zs_of myz <> [] ->
  trapz_rebin x y edges myz gpu None None None None =
    if qlt (nth 0 edges 0%Q) (nth 0 x 0 * (1 + amax (zs_of myz)))%Q ||
       qlt (nth (length x - 1) x 0 * (1 + amin (zs_of myz)))%Q (nth (length edges - 1) edges 0%Q)
    then Err ValueError else core x y edges myz gpu.
Proof.
  intros Hx He Hz. unfold trapz_rebin, odef.
  rewrite (get_nth edges 0) by (destruct edges; [congruence|cbn; lia]). cbn [rbind]. rewrite (getm1_0 edges He). cbn [rbind].
  change (match myz with ZNone => [0%Q] | ZScalar z => [z] | ZArray zs => zs end) with (zs_of myz).
  unfold core. destruct (zs_of myz) as [|z0 zr] eqn:Ez; [congruence|]. rewrite <- Ez.
  rewrite (get_nth x 0) by (destruct x; [congruence|cbn; lia]). cbn [rbind]. rewrite (getm1_0 x Hx). cbn [rbind].
  reflexivity.
Qed.

(* ---------- batch ---------- *)
Definition valid (x edges : list Q) (z : Q) : Prop :=
  strictly_increasing x /\ strictly_increasing edges /\ 2 <= length edges /\ (0 < 1 + z)%Q /\
  (nth 0 x 0 * (1 + z) <= nth 0 edges 0)%Q /\ (nth (length edges - 1) edges 0 <= nth (length x - 1) x 0 * (1 + z))%Q.
Lemma valid_len x edges z : valid x edges z -> 2 <= length x.
Proof.
  intros (Hx & He & H2 & Hz & H0 & H1).
  assert (Hlt : (nth 0 edges 0 < nth (length edges - 1) edges 0)%Q) by (apply He; lia).
  set (n := nth (length edges - 1) edges 0%Q) in *. set (m := nth 0 edges 0%Q) in *. clearbody n m.
  destruct x as [|a [|b x]]; cbn [length nth Nat.sub] in *; [lra|lra|lia].
Qed.
Lemma valid_covers x edges z : valid x edges z -> covers (redshifted x z) edges.
Proof.
  intros V. pose proof (valid_len _ _ _ V) as Hl. destruct V as (Hx & He & H2 & Hz & H0 & H1).
  unfold covers. rewrite redshifted_length, !redshifted_nth by lia. split; assumption.
Qed.
Lemma rebin_1d_valid f x y edges z : valid x edges z -> length y = length x -> interpolates f (redshifted x z) y ->
  exists out, rebin_1d (redshifted x z) y edges (zeros (length edges - 1)) = Ok out /\ length out = length edges - 1 /\
    forall i, i < length edges - 1 ->
      is_RInt f (Q2R (nth i edges 0%Q)) (Q2R (nth (S i) edges 0%Q)) (Q2R (nth i out 0 * (nth (S i) edges 0 - nth i edges 0))%Q).
Proof.
  intros V Hy Hf. pose proof (valid_covers _ _ _ V) as Hc. destruct V as (Hx & He & H2 & Hz & H0 & H1).
  apply rebin_1d_spec; auto; [apply redshifted_incr; assumption|rewrite redshifted_length; exact Hy].
Qed.

Lemma mapM_all_ok {A B} (g : A -> res B) (d : A) l : (forall a, In a l -> exists b, g a = Ok b) ->
  exists out, mapM g l = Ok out /\ Forall2 (fun a b => g a = Ok b) l out.
Proof.
  induction l as [|a l IH]; intros H; [exists []; split; [reflexivity|constructor]|].
  destruct (H a (or_introl eq_refl)) as [b Eb]. destruct IH as (out & Eo & Ho); [intros; apply H; right; assumption|].
  exists (b :: out). cbn [mapM]. rewrite Eb. cbn [rbind]. rewrite Eo. split; [reflexivity|constructor; assumption].
Qed.

(* the columns of the batch are the single-template results *)
Lemma rebin_batch_spec x ys edges zs : (forall z, In z zs -> valid x edges z) -> (forall y, In y ys -> length y = length x) ->
  exists r, rebin_batch x ys edges zs = Ok r /\ length r = length zs /\
    (forall iz, iz < length zs -> length (nth iz r []) = length edges - 1 /\
       (forall row, In row (nth iz r []) -> length row = length ys) /\
       forall ib, ib < length ys ->
         exists col, rebin_1d (redshifted x (nth iz zs 0%Q)) (nth ib ys []) edges (zeros (length edges - 1)) = Ok col /\
           length col = length edges - 1 /\
           forall i, i < length edges - 1 -> nth ib (nth i (nth iz r []) []) 0%Q = nth i col 0%Q).
Proof.
  intros Hz Hy. unfold rebin_batch.
  assert (H1 : forall z, In z zs -> exists cols, mapM (fun yb => rebin_1d (redshifted x z) yb edges (zeros (length edges - 1))) ys = Ok cols /\
     Forall2 (fun yb col => rebin_1d (redshifted x z) yb edges (zeros (length edges - 1)) = Ok col) ys cols).
  { intros z Hzin. apply (mapM_all_ok _ []). intros y Hyin.
    destruct (rebin_1d_valid (itp (redshifted x z) y) x y edges z (Hz z Hzin) (Hy y Hyin)) as (out & Eo & _); [|eauto].
    destruct (Hz z Hzin) as (Hx & _ & _ & Hz0 & _). apply interp_exists; [apply redshifted_incr; assumption|rewrite redshifted_length; auto]. }
  destruct (mapM_all_ok (fun z => do cols <- mapM (fun yb => rebin_1d (redshifted x z) yb edges (zeros (length edges - 1))) ys;
                 Ok (transpose_cols (length edges - 1) cols)) 0%Q zs) as (r & Er & Hr).
  { intros z Hzin. destruct (H1 z Hzin) as (cols & -> & _). cbn [rbind]. eauto. }
  exists r. split; [exact Er|]. pose proof (Forall2_len _ _ _ Hr) as Hl. split; [auto|].
  intros iz Hiz.
  assert (Hn : exists z m, nth_error zs iz = Some z /\ nth_error r iz = Some m).
  { destruct (nth_error zs iz) eqn:E1; [|apply nth_error_None in E1; lia]. destruct (nth_error r iz) eqn:E2; [eauto|apply nth_error_None in E2; lia]. }
  destruct Hn as (z & m & E1 & E2).
  pose proof (Forall2_nth2 _ _ _ iz z m Hr E1 E2) as Hm. cbn in Hm.
  rewrite (nth_error_nth _ _ 0%Q E1), (nth_error_nth _ _ [] E2).
  destruct (H1 z (nth_error_In _ _ E1)) as (cols & Ec & Hcols). rewrite Ec in Hm. cbn [rbind] in Hm. injection Hm as <-.
  pose proof (Forall2_len _ _ _ Hcols) as Hcl.
  split; [unfold transpose_cols; rewrite tab_length; reflexivity|]. split.
  { intros row Hrow. unfold transpose_cols in Hrow. apply in_map_iff in Hrow as (i & <- & _). rewrite map_length. auto. }
  intros ib Hib. destruct (nth_error_lt_ex cols ib ltac:(lia)) as [col Ecol].
  destruct (nth_error_lt_ex ys ib Hib) as [yb Eyb].
  pose proof (Forall2_nth2 _ _ _ ib yb col Hcols Eyb Ecol) as Hcol. cbn in Hcol.
  exists col. rewrite (nth_error_nth _ _ [] Eyb). split; [exact Hcol|].
  assert (Hlc : length col = length edges - 1).
  { assert (Vz := Hz z (nth_error_In _ _ E1)).
    destruct (rebin_1d_valid (itp (redshifted x z) yb) x yb edges z Vz (Hy yb (nth_error_In _ _ Eyb))) as (out & Eo & Hlo & _).
    - destruct Vz as (Hx & _ & _ & Hz0 & _). apply interp_exists; [apply redshifted_incr; assumption|rewrite redshifted_length; apply Hy, (nth_error_In _ _ Eyb)].
    - rewrite Hcol in Eo. injection Eo as <-. exact Hlo. }
  split; [exact Hlc|]. intros i Hi. unfold transpose_cols. rewrite nth_tab by exact Hi.
  apply nth_error_nth. rewrite nth_error_map, Ecol. reflexivity.
Qed.

(* ---------- GPU batch ---------- *)
Definition valid_strict (x edges : list Q) (z : Q) : Prop :=
  valid x edges z /\ (nth (length edges - 1) edges 0 < nth (length x - 1) x 0 * (1 + z))%Q.
Lemma gpu_batch_spec x ys edges zs : (forall z, In z zs -> valid_strict x edges z) -> (forall y, In y ys -> length y = length x) ->
  exists g, rebin_batch_gpu x ys edges zs = Ok g /\ length g = length zs /\
    (forall iz, iz < length zs -> length (nth iz g []) = length edges - 1 /\
       (forall row, In row (nth iz g []) -> length row = length ys) /\
       forall i ib f, i < length edges - 1 -> ib < length ys ->
         interpolates f (redshifted x (nth iz zs 0%Q)) (nth ib ys []) ->
         is_RInt f (Q2R (nth i edges 0%Q)) (Q2R (nth (S i) edges 0%Q))
           (Q2R (nth ib (nth i (nth iz g []) []) 0 * (nth (S i) edges 0 - nth i edges 0))%Q)).
Proof.
  intros Hz Hy. unfold rebin_batch_gpu, gpu_flat. cbv zeta.
  set (nbin := length edges - 1). set (nbasis := length ys).
  set (idx := concat (map (fun z => map (fun e => searchsorted_right x (e / (1 + z))%Q) edges) zs)).
  set (yflat := concat ys).
  assert (Hyflat : forall b, b < nbasis -> forall j, j < length (nth b ys []) -> nth_error yflat (j + b * length x) = Some (nth j (nth b ys []) 0%Q)).
  { intros b Hb j Hj. unfold yflat. rewrite (Hy (nth b ys [])) in Hj by (apply nth_In; exact Hb). apply concat_uniform; assumption. }
  assert (Hidx : forall iz, iz < length zs -> forall k, k <= nbin -> 2 <= length edges ->
     nth_error idx (iz * (nbin + 1) + k) = Some (searchsorted_right x (nth k edges 0 / (1 + nth iz zs 0))%Q)).
  { intros iz Hiz k Hk H2. unfold idx. replace (iz * (nbin + 1) + k) with (k + iz * (nbin + 1)) by lia.
    rewrite (concat_uniform _ (nbin + 1) 0).
    - f_equal. rewrite (nth_indep _ [] (map (fun e => searchsorted_right x (e / (1 + 0))%Q) edges)) by (rewrite map_length; exact Hiz).
      rewrite (map_nth (fun z => map (fun e => searchsorted_right x (e / (1 + z))%Q) edges) zs 0%Q).
      apply nth_error_nth. rewrite nth_error_map, (nth_error_nth' edges 0%Q) by lia. reflexivity.
    - intros r Hr. apply in_map_iff in Hr as (z & <- & _). rewrite map_length. lia.
    - rewrite map_length. exact Hiz.
    - lia. }
  (* every thread succeeds *)
  assert (Hthread : forall iz i b, iz < length zs -> i < nbin -> b < nbasis ->
     exists v, kernel x yflat edges zs idx nbin nbasis (length x) ((iz * nbin + i) * nbasis + b) = Ok v /\
       forall f, interpolates f (redshifted x (nth iz zs 0%Q)) (nth b ys []) ->
       is_RInt f (Q2R (nth i edges 0%Q)) (Q2R (nth (S i) edges 0%Q)) (Q2R (v * (nth (S i) edges 0 - nth i edges 0))%Q)).
  { intros iz i b Hiz Hi Hb. set (z := nth iz zs 0%Q).
    assert (Hzin : In z zs) by (apply nth_In; exact Hiz). destruct (Hz z Hzin) as [V Hs].
    pose proof (valid_len _ _ _ V) as Hlx. destruct V as (Hx & He & H2 & Hz0 & Hlo & Hhi).
    assert (Hyb : length (nth b ys []) = length x) by (apply Hy, nth_In; exact Hb).
    assert (Hk : forall f, interpolates f (redshifted x z) (nth b ys []) ->
      exists v, kernel x yflat edges zs idx nbin nbasis (length x) ((iz * nbin + i) * nbasis + b) = Ok v /\
       is_RInt f (Q2R (nth i edges 0%Q)) (Q2R (nth (S i) edges 0%Q)) (Q2R (v * (nth (S i) edges 0 - nth i edges 0))%Q)).
    { intros f Hf. apply (kernel_spec f x (nth b ys []) yflat edges zs idx nbin nbasis _ iz i b); auto.
      - rewrite redshifted_nth by lia. eapply Qle_trans; [exact Hlo|]. apply incr_le; [exact He|lia|lia].
      - rewrite redshifted_nth by lia. eapply Qle_lt_trans; [|exact Hs]. apply incr_le; [exact He|lia|lia]. }
    destruct (Hk _ (interp_exists (redshifted x z) (nth b ys []) (redshifted_incr _ _ Hz0 Hx) ltac:(rewrite redshifted_length; exact Hyb))) as (v & Ev & _).
    exists v. split; [exact Ev|]. intros f Hf. destruct (Hk f Hf) as (v' & Ev' & Hint). rewrite Ev in Ev'. injection Ev' as <-. exact Hint. }
  destruct (mapM_all_ok (kernel x yflat edges zs idx nbin nbasis (length x)) 0 (seq 0 (nbin * nbasis * length zs))) as (flat & Ef & Hflat).
  { intros t Ht. apply in_seq in Ht. assert (Hpos : nbin <> 0 /\ nbasis <> 0) by nia. destruct Hpos as [P1 P2].
    pose proof (Nat.div_mod t nbasis P2) as E1. pose proof (Nat.mod_upper_bound t nbasis P2) as M1.
    pose proof (Nat.div_mod (t / nbasis) nbin P1) as E2. pose proof (Nat.mod_upper_bound (t / nbasis) nbin P1) as M2.
    assert (Hiz : t / nbasis / nbin < length zs).
    { apply Nat.div_lt_upper_bound; [exact P1|]. apply Nat.div_lt_upper_bound; [exact P2|]. nia. }
    destruct (Hthread (t / nbasis / nbin) ((t / nbasis) mod nbin) (t mod nbasis) Hiz M2 M1) as (v & Ev & _).
    exists v. rewrite <- Ev. f_equal. rewrite E1 at 1. nia. }
  rewrite Ef. cbn [rbind]. eexists. split; [reflexivity|].
  assert (Hlf : length flat = length zs * (nbin * nbasis)) by (rewrite <- (Forall2_len _ _ _ Hflat), seq_length; nia).
  split; [rewrite map_length, chunk_length; reflexivity|].
  intros iz Hiz.
  assert (Em : nth iz (map (chunk nbin nbasis) (chunk (length zs) (nbin * nbasis) flat)) [] = chunk nbin nbasis (nth iz (chunk (length zs) (nbin * nbasis) flat) [])).
  { apply nth_error_nth. rewrite nth_error_map. rewrite (nth_error_nth' _ []) by (rewrite chunk_length; exact Hiz). reflexivity. }
  rewrite Em.
  assert (Hrl : length (nth iz (chunk (length zs) (nbin * nbasis) flat) []) = nbin * nbasis).
  { eapply chunk_row_length; [exact Hlf|]. apply nth_In. rewrite chunk_length. exact Hiz. }
  split; [apply chunk_length|]. split.
  { intros row Hrow. eapply chunk_row_length; [exact Hrl|exact Hrow]. }
  intros i b f Hi Hb Hf.
  rewrite (chunk_nth _ 0%Q) by assumption.
  rewrite (chunk_nth _ 0%Q _ (length zs)) by (auto; nia).
  destruct (Hthread iz i b Hiz Hi Hb) as (v & Ev & Hv).
  assert (Hlt : b + i * nbasis + iz * (nbin * nbasis) < length flat) by nia.
  assert (Hfv : nth (b + i * nbasis + iz * (nbin * nbasis)) flat 0%Q = v).
  { destruct (nth_error_lt_ex flat _ Hlt) as [w Ew].
    pose proof (Forall2_nth2 _ _ _ (b + i * nbasis + iz * (nbin * nbasis)) (b + i * nbasis + iz * (nbin * nbasis)) w Hflat) as HH.
    rewrite (nth_error_nth _ _ 0%Q Ew). cbn in HH.
    assert (Hs : nth_error (seq 0 (nbin * nbasis * length zs)) (b + i * nbasis + iz * (nbin * nbasis)) = Some (b + i * nbasis + iz * (nbin * nbasis))).
    { rewrite (nth_error_nth' _ 0) by (rewrite seq_length; nia). rewrite seq_nth by nia. reflexivity. }
    specialize (HH Hs Ew). replace (b + i * nbasis + iz * (nbin * nbasis)) with ((iz * nbin + i) * nbasis + b) in HH by nia.
    rewrite Ev in HH. injection HH as ->. reflexivity. }
  rewrite Hfv. apply Hv. exact Hf.
Qed.
