From Verif Require Import Prelude PreludeFacts NumX Model_Fitz Spec_Fitz Proof_Zfind Proof_Fitz.

(* ---------- small facts ---------- *)
Lemma linspace_length lo hi n : length (linspace lo hi n) = n.
Proof. unfold linspace. rewrite map_length, seq_length. reflexivity. Qed.
Lemma inj_pos n : 0 < n -> (0 < inject_Z (Z.of_nat n))%Q.
Proof. intros H. change 0%Q with (inject_Z 0). rewrite <- Zlt_Qlt. lia. Qed.
Lemma linspace_in lo hi n z : (lo <= hi)%Q -> In z (linspace lo hi n) -> (lo <= z /\ z <= hi)%Q.
Proof.
  intros Hle H. unfold linspace in H. apply in_map_iff in H as (i & <- & Hi). apply in_seq in Hi.
  destruct (Nat.eqb_spec n 1); [lra|].
  assert (Hn : (0 < inject_Z (Z.of_nat (n - 1)))%Q) by (apply inj_pos; lia).
  assert (Hi0 : (0 <= inject_Z (Z.of_nat i))%Q) by (change 0%Q with (inject_Z 0); rewrite <- Zle_Qle; lia).
  assert (Hi1 : (inject_Z (Z.of_nat i) <= inject_Z (Z.of_nat (n - 1)))%Q) by (rewrite <- Zle_Qle; lia).
  set (k := inject_Z (Z.of_nat i)) in *. set (m := inject_Z (Z.of_nat (n - 1))) in *.
  assert (H1 : (0 <= k * (hi - lo) / m)%Q) by (apply Qle_shift_div_l; [exact Hn|nra]).
  assert (H2 : (k * (hi - lo) / m <= hi - lo)%Q) by (apply Qle_shift_div_r; [exact Hn|nra]).
  lra.
Qed.
Lemma linspace_hd lo hi n z r : linspace lo hi n = z :: r -> (z == lo)%Q.
Proof.
  unfold linspace. destruct n as [|n]; cbn [seq map]; [discriminate|]. intros H. injection H as <- _.
  destruct n; cbn [Nat.eqb]; [reflexivity|]. change (inject_Z 0) with 0%Q. unfold Qdiv. ring.
Qed.
Lemma last_map_seq {A} (g : nat -> A) n d : last (map g (seq 0 (S n))) d = g n.
Proof. rewrite seq_S, map_app. apply last_last. Qed.
Lemma linspace_last lo hi n : 2 <= n -> (last (linspace lo hi n) 0 == hi)%Q.
Proof.
  intros Hn. destruct n as [|n]; [lia|]. unfold linspace. rewrite last_map_seq.
  destruct (Nat.eqb_spec (S n) 1); [lia|]. replace (S n - 1) with n by lia. field.
  intros H. pose proof (inj_pos n ltac:(lia)). lra.
Qed.
Lemma last_in {A} (l : list A) d : l <> [] -> In (last l d) l.
Proof. intros H. destruct (exists_last H) as (l' & a & ->). rewrite last_last. apply in_or_app; right; left; reflexivity. Qed.

Lemma argmin_from_spec l : forall k best v,
  let m := argmin_from k best v l in
  (m = best /\ forall x, In x l -> (v <= x)%Q) \/
  (k <= m /\ m < k + length l /\ (nth (m - k) l 0 < v)%Q /\
   (forall j, j < length l -> (nth (m - k) l 0 <= nth j l 0)%Q) /\
   (forall j, j < m - k -> (nth (m - k) l 0 < nth j l 0)%Q)).
Proof.
  induction l as [|x l IH]; intros k best v; cbn [argmin_from length]; [left; split; [reflexivity|intros ? []]|].
  destruct (qlt x v) eqn:E.
  - apply qlt_iff in E. right. specialize (IH (S k) k x). cbv zeta in *.
    set (m := argmin_from (S k) k x l) in *. destruct IH as [[-> H]|(H1 & H2 & H3 & H4 & H5)].
    + rewrite Nat.sub_diag. cbn [nth]. repeat split; try lia; try assumption.
      intros [|j] Hj; [lra|]. apply H, nth_In. lia.
    + replace (m - k) with (S (m - S k)) by lia. cbn [nth]. split; [lia|]. split; [lia|]. split; [lra|]. split.
      * intros [|j] Hj; [lra|]. apply H4. lia.
      * intros [|j] Hj; [lra|]. apply H5. lia.
  - apply qlt_false in E. specialize (IH (S k) best v). cbv zeta in *.
    set (m := argmin_from (S k) best v l) in *. destruct IH as [[-> H]|(H1 & H2 & H3 & H4 & H5)].
    + left. split; [reflexivity|]. intros y [<-|Hy]; [exact E|auto].
    + right. replace (m - k) with (S (m - S k)) by lia. cbn [nth]. split; [lia|]. split; [lia|]. split; [lra|]. split.
      * intros [|j] Hj; [lra|]. apply H4. lia.
      * intros [|j] Hj; [lra|]. apply H5. lia.
Qed.
(* numpy.argmin: the first index of the smallest value *)
Lemma argmin_spec l : l <> [] -> argmin l < length l /\
  (forall j, j < length l -> (nth (argmin l) l 0 <= nth j l 0)%Q) /\
  (forall j, j < argmin l -> (nth (argmin l) l 0 < nth j l 0)%Q).
Proof.
  destruct l as [|x l]; [congruence|]. intros _. cbn [argmin length].
  pose proof (argmin_from_spec l 1 0 x) as H. cbv zeta in H. set (m := argmin_from 1 0 x l) in *.
  destruct H as [[-> H]|(H1 & H2 & H3 & H4 & H5)].
  - split; [lia|]. split; [|intros; lia]. intros [|j] Hj; cbn [nth]; [lra|]. apply H, nth_In. lia.
  - replace m with (S (m - 1)) in * by lia. cbn [nth]. replace (S (m - 1) - 1) with (m - 1) in * by lia.
    split; [lia|]. split.
    + intros [|j] Hj; [lra|apply H4; lia].
    + intros [|j] Hj; [lra|apply H5; lia].
Qed.

Lemma mapM_length {A B} (f : A -> res B) : forall l m, mapM f l = Ok m -> length m = length l.
Proof.
  induction l as [|a l IH]; cbn [mapM]; intros m H; [injection H as <-; reflexivity|].
  destruct (f a); [|discriminate]. cbn [rbind] in H. destruct (mapM f l); [|discriminate]. cbn [rbind] in H.
  injection H as <-. cbn [length]. f_equal. apply IH; reflexivity.
Qed.

(* ---------- one refined minimum ---------- *)
Section R.
Context {E C : Type}.
Variables (polyfit : list Q -> list Q -> option (Q * Q * Q)) (isqrt : Q -> E) (neg1 : E)
  (scan : Q -> res Q) (refit : Q -> res C) (zc : C) (nz : nat) (redshifts : list Q).
Notation refine := (refine polyfit isqrt neg1 scan refit zc nz redshifts).

(* the points handed to minfit: three around the smallest of the refined scan *)
Definition window (l : list Q) (k : nat) : list Q :=
  firstn 3 (skipn (Nat.min (Nat.max k 1) (length l - 2) - 1) l).

Record refined (imin : nat) (r : fit E C) (zlo zhi zmin : Q) (sigma : E) (ymin : Q) (w0 : Z) : Prop := {
  rf_lo : nth_error redshifts (imin - 1) = Some zlo;
  rf_hi : nth_error redshifts (Nat.min (imin + 1) (length redshifts - 1)) = Some zhi;
  rf_nz : 0 < nz;
  rf_zz : f_zz r = linspace zlo zhi nz;
  rf_scan : mapM scan (f_zz r) = Ok (f_zzchi2 r);
  rf_min3 : 3 <= nz -> minfit polyfit isqrt neg1 (firstn 3 (skipn (Nat.min (Nat.max (argmin (f_zzchi2 r)) 1) (nz - 2) - 1) (f_zz r)))
       (firstn 3 (skipn (Nat.min (Nat.max (argmin (f_zzchi2 r)) 1) (nz - 2) - 1) (f_zzchi2 r))) = (zmin, sigma, ymin, w0);
  rf_few : nz < 3 -> (zmin, sigma, ymin, w0) = ((-1)%Q, neg1, (-1)%Q, BAD_MINFIT);
  rf_err : f_zerr r = sigma;
  rf_in : (hd 0 (f_zz r) <= zmin)%Q -> (zmin <= last (f_zz r) 0)%Q -> f_z r = zmin /\ f_chi2 r = ymin;
  rf_out : (zmin < hd 0 (f_zz r))%Q \/ (last (f_zz r) 0 < zmin)%Q ->
      f_z r = nth (argmin (f_zzchi2 r)) (f_zz r) 0%Q /\ f_chi2 r = nth (argmin (f_zzchi2 r)) (f_zzchi2 r) 0%Q;
  rf_coeff : refit zmin = Ok (f_coeff r) \/
      (refit zmin = Err ValueError /\ f_coeff r = zc /\ ((zmin < hd 0 redshifts)%Q \/ (last redshifts 0 < zmin)%Q));
  rf_flags : exists zsec zpen, 2 <= length redshifts /\ nth_error redshifts 1 = Some zsec /\
      nth_error redshifts (length redshifts - 2) = Some zpen /\
      f_zwarn r =
        let wa := if (match refit zmin with Ok _ => false | Err _ => true end)
                  then Z.lor (Z.lor w0 Z_FITLIMIT) BAD_MINFIT else w0 in
        let wb := if (qlt zmin (hd 0%Q (f_zz r)) || qlt (last (f_zz r) 0%Q) zmin) then Z.lor wa BAD_MINFIT else wa in
        let wc := if (qlt (f_z r) zsec || qlt zpen (f_z r)) then Z.lor wb Z_FITLIMIT else wb in
        if (qlt zmin zsec || qlt zpen zmin) then Z.lor wc Z_FITLIMIT else wc }.

Lemma refine_refined imin r : refine imin = Ok r ->
  exists zlo zhi zmin sigma ymin w0, refined imin r zlo zhi zmin sigma ymin w0 /\ f_fulltype r = None.
Proof.
  unfold Model_Fitz.refine, rs.
  destruct (nth_error redshifts (imin - 1)) as [zlo|] eqn:Elo; [|discriminate].
  destruct (nth_error redshifts (Nat.min (imin + 1) (length redshifts - 1))) as [zhi|] eqn:Ehi; [|discriminate].
  cbn [rbind]. destruct (linspace zlo zhi nz) as [|z0 zr] eqn:Ezz; [discriminate|].
  rewrite <- Ezz. destruct (mapM scan (linspace zlo zhi nz)) as [zzchi2|] eqn:Esc; [|discriminate]. cbn [rbind].
  set (zz := linspace zlo zhi nz) in *.
  assert (Hlen : length zz = nz) by (unfold zz; apply linspace_length).
  assert (Hz0 : z0 = hd 0%Q zz) by (rewrite Ezz; reflexivity).
  rewrite Hlen.
  match goal with |- context [minfit polyfit isqrt neg1 ?a ?b] => destruct (minfit polyfit isqrt neg1 a b) as [[[zmin sigma] ymin] w0] eqn:Em end.
  destruct (refit zmin) as [co|e] eqn:Erf.
  - cbn [rbind].
    destruct (nth_error redshifts 1) as [zsec|] eqn:Es; [|discriminate]. cbn [rbind].
    destruct (length redshifts <? 2) eqn:E2; [discriminate|].
    destruct (nth_error redshifts (length redshifts - 2)) as [zpen|] eqn:Ep; [|discriminate]. cbn [rbind].
    intros H; injection H as <-. exists zlo, zhi, zmin, sigma, ymin, w0. split; [|reflexivity].
    apply Nat.ltb_ge in E2.
    constructor; cbn [f_z f_zerr f_zwarn f_chi2 f_zz f_zzchi2 f_coeff]; auto.
    + rewrite <- Hlen, Ezz. cbn. lia.
    + intros H3. destruct (Nat.ltb_spec nz 3); [lia|]. exact Em.
    + intros H3. destruct (Nat.ltb_spec nz 3); [|lia]. rewrite <- Em. unfold minfit.
      assert (Hl1 : length (firstn 1 zz) <? 3 = true) by (rewrite Ezz; reflexivity). rewrite Hl1. reflexivity.
    + rewrite <- Hz0. intros H1 H2. apply qlt_false in H1, H2. rewrite H1, H2. auto.
    + rewrite <- Hz0. intros [H1|H1]; apply qlt_iff in H1; rewrite H1; rewrite ?orb_true_r; auto.
    + exists zsec, zpen. rewrite <- Hz0, Erf. auto.
  - destruct e; try discriminate.
    destruct (qlt zmin (hd 0%Q redshifts) || qlt (last redshifts 0%Q) zmin) eqn:Eout; [|discriminate]. cbn [rbind].
    destruct (nth_error redshifts 1) as [zsec|] eqn:Es; [|discriminate]. cbn [rbind].
    destruct (length redshifts <? 2) eqn:E2; [discriminate|].
    destruct (nth_error redshifts (length redshifts - 2)) as [zpen|] eqn:Ep; [|discriminate]. cbn [rbind].
    intros H; injection H as <-. exists zlo, zhi, zmin, sigma, ymin, w0. split; [|reflexivity].
    apply Nat.ltb_ge in E2.
    constructor; cbn [f_z f_zerr f_zwarn f_chi2 f_zz f_zzchi2 f_coeff]; auto.
    + rewrite <- Hlen, Ezz. cbn. lia.
    + intros H3. destruct (Nat.ltb_spec nz 3); [lia|]. exact Em.
    + intros H3. destruct (Nat.ltb_spec nz 3); [|lia]. rewrite <- Em. unfold minfit.
      assert (Hl1 : length (firstn 1 zz) <? 3 = true) by (rewrite Ezz; reflexivity). rewrite Hl1. reflexivity.
    + rewrite <- Hz0. intros H1 H2. apply qlt_false in H1, H2. rewrite H1, H2. auto.
    + rewrite <- Hz0. intros [H1|H1]; apply qlt_iff in H1; rewrite H1; rewrite ?orb_true_r; auto.
    + right. split; [exact Erf|]. split; [reflexivity|]. apply orb_true_iff in Eout as [H|H]; apply qlt_iff in H; auto.
    + exists zsec, zpen. rewrite <- Hz0, Erf. auto.
Qed.

Lemma refined_range imin r zlo zhi zmin sigma ymin w0 :
  refined imin r zlo zhi zmin sigma ymin w0 -> (zlo <= zhi)%Q -> (zlo <= f_z r /\ f_z r <= zhi)%Q.
Proof.
  intros H Hle. destruct H.
  assert (Hne : f_zz r <> []).
  { rewrite rf_zz0. intros Hc. apply (f_equal (@List.length Q)) in Hc. rewrite linspace_length in Hc. cbn in Hc. lia. }
  assert (Hin : forall z, In z (f_zz r) -> (zlo <= z /\ z <= zhi)%Q) by (intros z Hz; rewrite rf_zz0 in Hz; eapply linspace_in; eassumption).
  assert (Hhd : In (hd 0%Q (f_zz r)) (f_zz r)) by (destruct (f_zz r); [congruence|left; reflexivity]).
  pose proof (Hin _ Hhd) as [A1 A2]. pose proof (Hin _ (last_in (f_zz r) 0%Q Hne)) as [B1 B2].
  destruct (Qlt_le_dec zmin (hd 0%Q (f_zz r))) as [Hl|Hl].
  - destruct (rf_out0 (or_introl Hl)) as [-> _]. apply Hin, nth_In. pose proof (mapM_length _ _ _ rf_scan0) as HL.
    rewrite <- HL. apply argmin_spec. intros Hc. rewrite Hc in HL. destruct (f_zz r); [congruence|discriminate].
  - destruct (Qlt_le_dec (last (f_zz r) 0%Q) zmin) as [Hr|Hr].
    + destruct (rf_out0 (or_intror Hr)) as [-> _]. apply Hin, nth_In. pose proof (mapM_length _ _ _ rf_scan0) as HL.
      rewrite <- HL. apply argmin_spec. intros Hc. rewrite Hc in HL. destruct (f_zz r); [congruence|discriminate].
    + destruct (rf_in0 Hl Hr) as [-> _]. lra.
Qed.
End R.

(* ---------- symmetric pairwise relations ---------- *)
Inductive pairwise {A} (R : A -> A -> Prop) : list A -> Prop :=
| pw_nil : pairwise R []
| pw_snoc l x : pairwise R l -> Forall (fun y => R x y) l -> pairwise R (l ++ [x]).
Lemma pairwise_nth {A} (R : A -> A -> Prop) l : pairwise R l -> forall i j a b, i < j ->
  nth_error l i = Some a -> nth_error l j = Some b -> R b a.
Proof.
  induction 1 as [|l x Hl IH Hx]; intros i j a b Hij Ha Hb; [destruct i; discriminate|].
  assert (Hj : j < length (l ++ [x])) by (apply nth_error_Some_lt in Hb; exact Hb). rewrite app_length in Hj. cbn [length] in Hj.
  destruct (Nat.eq_dec j (length l)) as [->|Hne].
  - rewrite nth_error_app2, Nat.sub_diag in Hb by lia. injection Hb as <-.
    rewrite nth_error_app1 in Ha by lia. rewrite Forall_forall in Hx. apply Hx. eapply nth_error_In; exact Ha.
  - rewrite nth_error_app1 in Ha, Hb by lia. exact (IH i j a b Hij Ha Hb).
Qed.

Section L.
Context {E C : Type}.
Variables (argsort : list xq -> list nat) (polyfit : list Q -> list Q -> option (Q * Q * Q)) (isqrt : Q -> E) (neg1 : E)
  (scan : Q -> res Q) (refit : Q -> res C) (zc : C) (mvd : Q) (nminima nz : nat) (redshifts : list Q)
  (arch : option (bool * (Q -> res (Q * C * string)))).
Notation refine := (refine polyfit isqrt neg1 scan refit zc nz redshifts).
Notation finish := (finish (E:=E) arch).
Notation fit_loop := (fit_loop polyfit isqrt neg1 scan refit zc mvd nminima nz redshifts arch).
Notation fitz := (fitz argsort polyfit isqrt neg1 scan refit zc mvd nminima nz redshifts arch).

Lemma finish_same r r' : finish r = Ok r' ->
  f_z r' = f_z r /\ f_zerr r' = f_zerr r /\ f_zwarn r' = f_zwarn r /\ f_zz r' = f_zz r /\ f_zzchi2 r' = f_zzchi2 r /\
  match arch with
  | None => r' = r
  | Some (p, best) => p = true /\ exists ft, best (f_z r) = Ok (f_chi2 r', f_coeff r', ft) /\ f_fulltype r' = Some ft
  end.
Proof.
  unfold Model_Fitz.finish. destruct arch as [[p best]|].
  - destruct (best (f_z r)) as [[[ch co] ft]|] eqn:Eb; [|discriminate]. cbn [rbind].
    destruct p; [|discriminate]. intros H; injection H as <-. cbn. do 5 (split; [reflexivity|]). split; [reflexivity|]. exists ft; auto.
  - intros H; injection H as <-. do 5 (split; [reflexivity|]). reflexivity.
Qed.

(* what is known of every accepted fit *)
Definition good (minima : list nat) (r' : fit E C) : Prop :=
  exists imin r, In imin minima /\ refine imin = Ok r /\ finish r = Ok r'.
Definition far (a b : fit E C) : Prop := (mvd <= Qabs (get_dv (f_z a) (f_z b)))%Q.

Lemma too_close_false z zs : too_close mvd z zs = false -> forall zp, In zp zs -> (mvd <= Qabs (get_dv z zp))%Q.
Proof.
  intros H zp Hin. unfold too_close in H. apply qlt_false. destruct (qlt _ _) eqn:Eq; [|reflexivity].
  assert (existsb (fun zp => qlt (Qabs (get_dv z zp)) mvd) zs = true) by (apply existsb_exists; eauto). congruence.
Qed.

Lemma fit_loop_inv minima : forall results out, fit_loop minima results = Ok out ->
  length results <= nminima -> pairwise far results ->
  length out <= nminima /\ pairwise far out /\
  (forall r, In r out -> In r results \/ good minima r) /\
  (exists more, out = results ++ more).
Proof.
  induction minima as [|imin rest IH]; intros results out; cbn [Model_Fitz.fit_loop].
  - intros H; injection H as <-. intros; repeat (split; [auto|]). exists []. rewrite app_nil_r; reflexivity.
  - destruct (Nat.eqb_spec (length results) nminima) as [Heq|Hne].
    + intros H; injection H as <-. intros; repeat (split; [auto|]). exists []. rewrite app_nil_r; reflexivity.
    + destruct (rs redshifts imin) as [z|] eqn:Ez; [|discriminate]. cbn [rbind].
      assert (Hsk : forall o, fit_loop rest results = Ok o -> length results <= nminima -> pairwise far results ->
        length o <= nminima /\ pairwise far o /\ (forall r, In r o -> In r results \/ good (imin :: rest) r) /\ (exists more, o = results ++ more)).
      { intros o Ho Hl Hp. destruct (IH _ _ Ho Hl Hp) as (I1 & I2 & I3 & I4). repeat (split; [assumption|]). split; [|exact I4].
        intros r Hr. destruct (I3 r Hr) as [H|(i & r0 & H1 & H2)]; [auto|right; exists i, r0; split; [right; exact H1|exact H2]]. }
      destruct (too_close mvd z (map f_z results)); [apply Hsk|].
      destruct (refine imin) as [r|] eqn:Er; [|discriminate]. cbn [rbind].
      destruct (too_close mvd (f_z r) (map f_z results)) eqn:Et; [apply Hsk|].
      destruct (finish r) as [r'|] eqn:Ef; [|discriminate]. cbn [rbind].
      intros H Hl Hp. destruct (IH _ _ H) as (I1 & I2 & I3 & (more & I4)).
      * rewrite app_length. cbn [length]. lia.
      * constructor; [exact Hp|]. apply Forall_forall. intros y Hy. unfold far.
        rewrite (proj1 (finish_same _ _ Ef)). eapply too_close_false; [exact Et|]. apply in_map, Hy.
      * repeat (split; [assumption|]). split.
        -- intros q Hq. destruct (I3 q Hq) as [Hq'|(i & r0 & H1 & H2)].
           ++ apply in_app_or in Hq' as [Hq'|[<-|[]]]; [auto|]. right. exists imin, r. split; [left; reflexivity|auto].
           ++ right; exists i, r0; split; [right; exact H1|exact H2].
        -- exists (r' :: more). rewrite I4, <- app_assoc. reflexivity.
Qed.

(* the first minimum is always fitted *)
Lemma fit_loop_first imin rest out : 0 < nminima -> fit_loop (imin :: rest) [] = Ok out ->
  exists r r' more, refine imin = Ok r /\ finish r = Ok r' /\ out = r' :: more.
Proof.
  intros Hn. cbn [Model_Fitz.fit_loop length map]. destruct (Nat.eqb_spec 0 nminima); [lia|].
  destruct (rs redshifts imin) as [z|]; [|discriminate]. cbn [rbind too_close existsb].
  destruct (refine imin) as [r|] eqn:Er; [|discriminate]. cbn [rbind].
  destruct (finish r) as [r'|] eqn:Ef; [|discriminate]. cbn [rbind app].
  intros H. destruct (fit_loop_inv rest [r'] out H) as (_ & _ & _ & (more & ->)).
  - cbn; lia.
  - apply (pw_snoc far []); constructor.
  - exists r, r', more. auto.
Qed.

Lemma fitz_parts zchi2 out : argsort_ok argsort -> fitz zchi2 = Ok out ->
  exists minima results, length zchi2 = length redshifts /\ zchi2 <> [] /\ find_minima argsort zchi2 = Ok minima /\
    fit_loop minima [] = Ok results /\ Permutation out results /\
    StronglySorted (fun a b => (f_chi2 a <= f_chi2 b)%Q) out.
Proof.
  intros Ha. unfold Model_Fitz.fitz. destruct (Nat.eqb_spec (length zchi2) (length redshifts)) as [Hl|]; [|discriminate]. cbn [negb].
  destruct (find_minima argsort zchi2) as [minima|] eqn:Em; [|discriminate]. cbn [rbind].
  destruct (fit_loop minima []) as [results|] eqn:Er; [|discriminate]. cbn [rbind].
  destruct (Ha (map (fun r => Fin (f_chi2 r)) results)) as [Hp Hs]. rewrite map_length in Hp.
  set (ii := argsort _) in *.
  assert (Hii : forall i, In i ii -> i < length results) by (intros i Hi; eapply Permutation_in in Hi; [|exact Hp]; apply in_seq in Hi; lia).
  destruct results as [|d rest] eqn:Ers.
  - cbn in Hp. apply Permutation_sym, Permutation_nil in Hp. rewrite Hp. cbn [mapM]. intros H; injection H as <-.
    exists minima, []. split; [exact Hl|]. split; [intros ->; rewrite find_minima_empty in Em; discriminate|].
    split; [reflexivity|]. split; [exact Er|]. split; constructor.
  - rewrite <- Ers in *. rewrite (mapM_get results d) by exact Hii. intros H; injection H as <-.
    exists minima, results. split; [exact Hl|]. split; [intros ->; rewrite find_minima_empty in Em; discriminate|].
    split; [reflexivity|]. split; [exact Er|]. split; [apply permute_spec; exact Hp|].
    apply StronglySorted_map_inv. eapply StronglySorted_in_impl; [|exact Hs]. cbn. intros a b Hia Hib.
    assert (Hn : forall q, q < length results -> nth q (map (fun r => Fin (f_chi2 r)) results) NaN = Fin (f_chi2 (nth q results d))).
    { intros q Hq. rewrite (nth_indep _ NaN (Fin (f_chi2 d))) by (rewrite map_length; exact Hq).
      apply (map_nth (fun r => Fin (f_chi2 r))). }
    rewrite !Hn by auto. cbn. apply Qle_bool_iff.
Qed.
End L.

Lemma far_separated mvd a b : (0 <= mvd)%Q -> (-1 < b)%Q -> (mvd <= Qabs (get_dv a b))%Q -> separated c_km mvd a b.
Proof.
  intros Hm Hb H. unfold separated, get_dv in *.
  assert (Hc : (0 < c_km)%Q) by reflexivity.
  assert (H1 : (Qabs (c_km * (a - b) / (1 + b)) == c_km * Qabs (a - b) / (1 + b))%Q).
  { unfold Qdiv. rewrite !Qabs_Qmult. rewrite (Qabs_pos c_km) by lra. rewrite (Qabs_pos (/ (1 + b))); [reflexivity|].
    apply Qinv_le_0_compat. lra. }
  rewrite H1 in H. assert (Hp : (0 < 1 + b)%Q) by lra.
  assert (H2 : (mvd * (1 + b) <= c_km * Qabs (a - b))%Q).
  { apply (Qmult_le_compat_r _ _ (1 + b)) in H; [|lra].
    setoid_replace (c_km * Qabs (a - b) / (1 + b) * (1 + b))%Q with (c_km * Qabs (a - b))%Q in H by (field; lra). exact H. }
  assert (H3 : (Qmin a b <= b)%Q) by apply Q.le_min_r. nra.
Qed.
Lemma separated_sym c mvd a b : separated c mvd a b -> separated c mvd b a.
Proof. unfold separated. rewrite Q.min_comm, Qabs_Qminus. auto. Qed.
