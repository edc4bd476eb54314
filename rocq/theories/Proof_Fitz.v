From Verif Require Import Prelude PreludeFacts NumX Model_Fitz Spec_Fitz Proof_Zfind.

(* ---------- find_minima ---------- *)
Lemma map2_length {A B C} (f : A -> B -> C) : forall l m, length (map2 f l m) = Nat.min (length l) (length m).
Proof. induction l as [|a l IH]; intros [|b m]; cbn; auto. Qed.
Lemma map2_nth {A B C} (f : A -> B -> C) d da db : forall l m i, i < length l -> i < length m ->
  nth i (map2 f l m) d = f (nth i l da) (nth i m db).
Proof. induction l as [|a l IH]; intros [|b m] [|i] H1 H2; cbn in *; try lia; auto. apply IH; lia. Qed.
Lemma where_from_in l : forall k i, In i (where_from k l) <-> k <= i /\ nth (i - k) l false = true.
Proof.
  induction l as [|b l IH]; intros k i; cbn [where_from].
  - cbn. destruct (i - k); intuition discriminate.
  - destruct b; cbn [In]; rewrite IH; destruct (Nat.eq_dec i k) as [->|Hne].
    + rewrite Nat.sub_diag. cbn. intuition lia.
    + destruct (le_lt_dec k i).
      * replace (i - k) with (S (i - S k)) by lia. cbn. intuition lia.
      * intuition lia.
    + rewrite Nat.sub_diag. cbn. intuition (try lia; discriminate).
    + destruct (le_lt_dec k i).
      * replace (i - k) with (S (i - S k)) by lia. cbn. intuition lia.
      * intuition lia.
Qed.
Lemma where_from_nodup l : forall k, NoDup (where_from k l).
Proof.
  induction l as [|b l IH]; intros k; cbn; [constructor|]. destruct b; [|apply IH].
  constructor; [|apply IH]. rewrite where_from_in. lia.
Qed.

Lemma tl_nth {A} (l : list A) i d : nth i (tl l) d = nth (S i) l d.
Proof. destruct l; [destruct i; reflexivity|reflexivity]. Qed.
Lemma tl_length {A} (l : list A) : length (tl l) = length l - 1.
Proof. destruct l; cbn; lia. Qed.

Lemma le_prev_nth x i : x <> [] -> i < length x ->
  nth i (le_prev x) false = true <-> (0 < i -> xle (nth i x NaN) (nth (i - 1) x NaN) = true).
Proof.
  intros Hx Hi. unfold le_prev. destruct i as [|i]; cbn [nth]; [split; [intros _ H; lia|reflexivity]|].
  rewrite (map2_nth _ _ NaN NaN) by (rewrite ?tl_length; lia). rewrite tl_nth.
  replace (S i - 1) with i by lia. split; [auto|intros H; apply H; lia].
Qed.
Lemma le_next_nth x i : x <> [] -> i < length x ->
  nth i (le_next x) false = true <-> (i + 1 < length x -> xle (nth i x NaN) (nth (i + 1) x NaN) = true).
Proof.
  intros Hx Hi. unfold le_next.
  assert (Hl : length (map2 (fun a b => xle a b) x (tl x)) = length x - 1) by (rewrite map2_length, tl_length; lia).
  destruct (le_lt_dec (length x) (i + 1)).
  - rewrite app_nth2 by lia. rewrite Hl. replace (i - (length x - 1)) with 0 by lia. split; [intros _ H; lia|reflexivity].
  - rewrite app_nth1 by lia. rewrite (map2_nth _ _ NaN NaN) by (rewrite ?tl_length; lia). rewrite tl_nth.
    replace (i + 1) with (S i) by lia. split; [auto|intros H; apply H; lia].
Qed.

Lemma mask_in x i : x <> [] ->
  In i (where_from 0 (map2 andb (le_prev x) (le_next x))) <-> local_min x i.
Proof.
  intros Hx. rewrite where_from_in, Nat.sub_0_r.
  assert (Hl : length (map2 andb (le_prev x) (le_next x)) = length x).
  { rewrite map2_length. unfold le_prev, le_next. rewrite app_length. cbn [length]. rewrite !map2_length, tl_length.
    destruct x; [congruence|cbn [length]; lia]. }
  destruct (Nat.lt_ge_cases i (length x)) as [Hi|Hi].
  - assert (Hlp : length (le_prev x) = length x).
    { unfold le_prev; cbn [length]; rewrite map2_length, tl_length. destruct x; [congruence|cbn [length]; lia]. }
    assert (Hln : length (le_next x) = length x).
    { unfold le_next; rewrite app_length; cbn [length]; rewrite map2_length, tl_length. destruct x; [congruence|cbn [length]; lia]. }
    rewrite (map2_nth _ _ false false) by lia. rewrite andb_true_iff, le_prev_nth, le_next_nth by assumption.
    unfold local_min. intuition lia.
  - rewrite nth_overflow by lia. unfold local_min. intuition (try lia; discriminate).
Qed.

Lemma mapM_get {A} (x : list A) d ii : (forall i, In i ii -> i < length x) ->
  mapM (fun i => match nth_error x i with Some v => Ok v | None => Err IndexError end) ii = Ok (map (fun i => nth i x d) ii).
Proof.
  induction ii as [|i ii IH]; intros H; [reflexivity|]. cbn [mapM map].
  rewrite (nth_error_nth' x d) by (apply H; left; reflexivity). cbn [rbind].
  rewrite IH by (intros; apply H; right; assumption). reflexivity.
Qed.

Lemma StronglySorted_map_inv {A B} (g : A -> B) (R : B -> B -> Prop) l :
  StronglySorted R (map g l) <-> StronglySorted (fun a b => R (g a) (g b)) l.
Proof.
  induction l as [|a l IH]; cbn; [split; constructor|]. split; intros H; inversion H as [|? ? H1 H2]; subst; constructor; try (apply IH; assumption).
  - rewrite Forall_map in H2. exact H2.
  - rewrite Forall_map. exact H2.
Qed.
Lemma StronglySorted_in_impl {A} (R R' : A -> A -> Prop) l :
  (forall a b, In a l -> In b l -> R a b -> R' a b) -> StronglySorted R l -> StronglySorted R' l.
Proof. intros H Hs. eapply StronglySorted_impl; [|exact Hs]. cbn. auto. Qed.

Lemma permute_spec {A} (ii : list A) d jj : Permutation jj (seq 0 (length ii)) -> Permutation (map (fun j => nth j ii d) jj) ii.
Proof.
  intros H. eapply Permutation_trans; [apply Permutation_map, H|]. rewrite map_nth_seq. reflexivity.
Qed.

Lemma find_minima_ok argsort x : argsort_ok argsort -> x <> [] ->
  exists out, find_minima argsort x = Ok out /\ NoDup out /\ (forall i, In i out <-> local_min x i) /\
    StronglySorted (fun i j => nple (nth i x NaN) (nth j x NaN) = true) out.
Proof.
  intros Ha Hx. unfold find_minima. set (ii := where_from 0 _).
  assert (Hin : forall i, In i ii <-> local_min x i) by (intros; apply mask_in, Hx).
  rewrite (mapM_get x NaN) by (intros i Hi; apply Hin in Hi; apply Hi). cbn [rbind].
  destruct (Ha (map (fun i => nth i x NaN) ii)) as [Hp Hs]. rewrite map_length in Hp.
  eexists. split; [reflexivity|].
  assert (Hpm := permute_spec ii 0 _ Hp). split; [|split].
  - eapply Permutation_NoDup; [symmetry; exact Hpm|apply where_from_nodup].
  - intros i. rewrite <- Hin. split; apply Permutation_in; [exact Hpm|symmetry; exact Hpm].
  - apply StronglySorted_map_inv. eapply StronglySorted_in_impl; [|exact Hs]. cbn. intros a b Hia Hib.
    assert (Hlt : forall a, In a (argsort (map (fun i => nth i x NaN) ii)) -> a < length ii).
    { intros q Hq. eapply Permutation_in in Hq; [|exact Hp]. apply in_seq in Hq. lia. }
    assert (Hn : forall q, q < length ii -> nth q (map (fun i => nth i x NaN) ii) NaN = nth (nth q ii 0) x NaN).
    { intros q Hq. rewrite (nth_indep _ NaN (nth 0 x NaN)) by (rewrite map_length; exact Hq). apply (map_nth (fun i => nth i x NaN)). }
    rewrite !Hn by auto. exact (fun H => H).
Qed.

Lemma find_minima_empty argsort : find_minima argsort [] = Err IndexError.
Proof. reflexivity. Qed.

(* a smallest element exists among non-NaN values *)
Definition nonan (x : list xq) := forall i, i < length x -> isnan (nth i x NaN) = false.
Lemma global_min_exists : forall x, x <> [] -> nonan x ->
  exists i, i < length x /\ forall j, j < length x -> xle (nth i x NaN) (nth j x NaN) = true.
Proof.
  assert (Hrefl : forall a, isnan a = false -> xle a a = true).
  { intros [q| | |]; cbn; auto; try discriminate. intros _. apply Qle_bool_iff, Qle_refl. }
  assert (Htot : forall a b, isnan a = false -> isnan b = false -> xle a b = true \/ xle b a = true).
  { intros a b Ha Hb. destruct (nple_total a b) as [H|H]; destruct a, b; cbn in *; auto; discriminate. }
  assert (Htr : forall a b c, xle a b = true -> xle b c = true -> xle a c = true).
  { intros [a| | |] [b| | |] [c| | |]; cbn; auto; try discriminate. rewrite !Qle_bool_iff. intros; eapply Qle_trans; eassumption. }
  induction x as [|a x IH]; intros Hx Hn; [congruence|].
  destruct x as [|b x].
  - exists 0. split; [cbn; lia|]. intros [|j] Hj; [|cbn in Hj; lia]. cbn. apply Hrefl, (Hn 0). cbn; lia.
  - destruct IH as (i & Hi & Hmin); [discriminate| |].
    + intros i Hi. apply (Hn (S i)). cbn in *; lia.
    + destruct (Htot a (nth i (b :: x) NaN)) as [H|H]; [apply (Hn 0); cbn; lia|apply (Hn (S i)); cbn in *; lia| |].
      * exists 0. split; [cbn; lia|]. intros [|j] Hj; [cbn; apply Hrefl, (Hn 0); cbn; lia|].
        change (xle a (nth j (b :: x) NaN) = true). eapply Htr; [exact H|]. apply Hmin. cbn in *; lia.
      * exists (S i). split; [cbn in *; lia|]. intros [|j] Hj; [exact H|]. apply (Hmin j). cbn in *; lia.
Qed.

Lemma nple_xle a b : isnan a = false -> isnan b = false -> nple a b = xle a b.
Proof. destruct a, b; cbn; auto; discriminate. Qed.

(* ---------- minfit ---------- *)
Lemma Qsq_nonneg (r : Q) : (0 <= r * r)%Q.
Proof. nra. Qed.
Lemma sumsq_nonneg {A} (g : A -> Q) l : (0 <= sumQ (map (fun p => let r := g p in r * r) l))%Q.
Proof.
  induction l as [|p l IH]; cbn [map sumQ fold_right]; [lra|]. unfold sumQ in IH. cbv zeta in *.
  pose proof (Qsq_nonneg (g p)). lra.
Qed.
Lemma ssr_nonneg a b c x y : (0 <= ssr a b c x y)%Q.
Proof.
  unfold ssr. apply (sumsq_nonneg (fun p : Q * Q => a * (fst p * fst p) + b * fst p + c - snd p)%Q).
Qed.
Lemma ssr_zero_all a b c : forall x y, (ssr a b c x y == 0)%Q ->
  forall u v, In (u, v) (combine x y) -> (a * (u * u) + b * u + c == v)%Q.
Proof.
  intros x y. unfold ssr. induction (combine x y) as [|[p q] l IH]; cbn [map sumQ fold_right fst snd]; intros H u v Hin; [destruct Hin|].
  fold (sumQ (map (fun p => let r := (a * (fst p * fst p) + b * fst p + c - snd p)%Q in (r * r)%Q) l)) in H.
  assert (Hs : (0 <= sumQ (map (fun p => let r := (a * (fst p * fst p) + b * fst p + c - snd p)%Q in (r * r)%Q) l))%Q).
  { apply (sumsq_nonneg (fun p : Q * Q => a * (fst p * fst p) + b * fst p + c - snd p)%Q). }
  set (S' := sumQ _) in *. set (r := (a * (p * p) + b * p + c - q)%Q) in *. cbv zeta in H.
  assert (Hr : (0 <= r * r)%Q) by apply Qsq_nonneg.
  destruct Hin as [E|Hin].
  - injection E as -> ->. assert (Hr0 : (r * r == 0)%Q) by lra. apply Qmult_integral in Hr0. assert (Hr1 : (r == 0)%Q) by tauto. unfold r in Hr1. lra.
  - apply IH; [|exact Hin]. lra.
Qed.
Lemma quad_zero a b c u v w : ~ (u == v)%Q -> ~ (u == w)%Q -> ~ (v == w)%Q ->
  (a * (u * u) + b * u + c == 0)%Q -> (a * (v * v) + b * v + c == 0)%Q -> (a * (w * w) + b * w + c == 0)%Q ->
  (a == 0 /\ b == 0 /\ c == 0)%Q.
Proof.
  intros H1 H2 H3 E1 E2 E3.
  assert (F1 : (a * (u + v) + b == 0)%Q).
  { assert (Hm : ((u - v) * (a * (u + v) + b) == 0)%Q).
    { setoid_replace ((u - v) * (a * (u + v) + b))%Q with ((a * (u * u) + b * u + c) - (a * (v * v) + b * v + c))%Q by ring. rewrite E1, E2. lra. }
    apply Qmult_integral in Hm as [Hm|Hm]; [exfalso; apply H1; lra|exact Hm]. }
  assert (F2 : (a * (u + w) + b == 0)%Q).
  { assert (Hm : ((u - w) * (a * (u + w) + b) == 0)%Q).
    { setoid_replace ((u - w) * (a * (u + w) + b))%Q with ((a * (u * u) + b * u + c) - (a * (w * w) + b * w + c))%Q by ring. rewrite E1, E3. lra. }
    apply Qmult_integral in Hm as [Hm|Hm]; [exfalso; apply H2; lra|exact Hm]. }
  assert (Ha : (a == 0)%Q).
  { assert (Hm : ((v - w) * a == 0)%Q).
    { setoid_replace ((v - w) * a)%Q with ((a * (u + v) + b) - (a * (u + w) + b))%Q by ring. rewrite F1, F2. lra. }
    apply Qmult_integral in Hm as [Hm|Hm]; [exfalso; apply H3; lra|exact Hm]. }
  split; [exact Ha|]. rewrite Ha in F1, E1.
  assert (Hb : (b == 0)%Q) by (rewrite <- F1; ring).
  split; [exact Hb|]. rewrite Hb in E1. rewrite <- E1. ring.
Qed.

Lemma combine_in_l {A B} : forall (x : list A) (y : list B) u, length x = length y -> In u x -> exists v, In (u, v) (combine x y).
Proof.
  induction x as [|a x IH]; intros [|b y] u H Hu; cbn in *; try lia; try tauto.
  destruct Hu as [->|Hu]; [exists b; auto|]. destruct (IH y u ltac:(lia) Hu) as [v Hv]. exists v; auto.
Qed.
Lemma Forall2_combine_in {A B} (R : A -> B -> Prop) x y u v : Forall2 R x y -> In (u, v) (combine x y) -> R u v.
Proof. induction 1; cbn; [tauto|]. intros [E|Hin]; [injection E as -> ->; assumption|auto]. Qed.

(* the least-squares fit of exact parabola data is that parabola *)
Lemma lsq_exact x0 e y0 x y a b c : ~ (e == 0)%Q -> on_parabola x0 e y0 x y -> three_distinct x ->
  least_squares a b c x y ->
  (a == 1 / (e * e) /\ b == - (2 * x0) / (e * e) /\ c == y0 + x0 * x0 / (e * e))%Q.
Proof.
  intros He Hp (u & v & w & Hu & Hv & Hw & D1 & D2 & D3) Hl.
  set (A := (1 / (e * e))%Q). set (B := (- (2 * x0) / (e * e))%Q). set (Cc := (y0 + x0 * x0 / (e * e))%Q).
  assert (Hee : ~ (e * e == 0)%Q) by (intros H; apply Qmult_integral in H; tauto).
  assert (Hval : forall t s, In (t, s) (combine x y) -> (A * (t * t) + B * t + Cc == s)%Q).
  { intros t s Hin. pose proof (Forall2_combine_in _ _ _ _ _ Hp Hin) as H. cbn in H. rewrite H. unfold A, B, Cc. field. exact He. }
  assert (Z0 : (ssr A B Cc x y == 0)%Q).
  { unfold ssr. revert Hval. generalize (combine x y) as l. induction l as [|[p q] l IH]; intros Hval; cbn [map sumQ fold_right]; [lra|].
    unfold sumQ in IH. rewrite IH by (intros; apply Hval; right; assumption). cbn [fst snd].
    rewrite (Hval p q (or_introl eq_refl)). ring. }
  assert (Z1 : (ssr a b c x y == 0)%Q).
  { specialize (Hl A B Cc). pose proof (ssr_nonneg a b c x y). lra. }
  assert (Hlen : length x = length y) by (eapply Forall2_len; exact Hp).
  assert (Hz : forall t, In t x -> ((a - A) * (t * t) + (b - B) * t + (c - Cc) == 0)%Q).
  { intros t Ht. destruct (combine_in_l x y t Hlen Ht) as [s Hs].
    pose proof (ssr_zero_all _ _ _ _ _ Z1 _ _ Hs). pose proof (Hval _ _ Hs). lra. }
  destruct (quad_zero (a - A) (b - B) (c - Cc) u v w D1 D2 D3 (Hz u Hu) (Hz v Hv) (Hz w Hw)) as (Q1 & Q2 & Q3).
  split; [lra|split; lra].
Qed.

Lemma lmin_spec l : forall d, (lmin d l <= d)%Q /\ (forall t, In t l -> lmin d l <= t)%Q.
Proof.
  induction l as [|a l IH]; intros d; cbn [lmin]; [split; [lra|intros t []]|].
  destruct (Qle_bool d a) eqn:E.
  - apply Qle_bool_iff in E. destruct (IH d) as [I1 I2]. split; [exact I1|]. intros t [<-|Ht]; [lra|auto].
  - apply Qle_bool_false in E. destruct (IH a) as [I1 I2]. split; [lra|]. intros t [<-|Ht]; [lra|auto].
Qed.
Lemma lmax_spec l : forall d, (d <= lmax d l)%Q /\ (forall t, In t l -> t <= lmax d l)%Q.
Proof.
  induction l as [|a l IH]; intros d; cbn [lmax]; [split; [lra|intros t []]|].
  destruct (Qle_bool a d) eqn:E.
  - apply Qle_bool_iff in E. destruct (IH d) as [I1 I2]. split; [exact I1|]. intros t [<-|Ht]; [lra|auto].
  - apply Qle_bool_false in E. destruct (IH a) as [I1 I2]. split; [lra|]. intros t [<-|Ht]; [lra|auto].
Qed.
Lemma lmin_in l : forall d, lmin d l = d \/ In (lmin d l) l.
Proof. induction l as [|a l IH]; intros d; cbn [lmin]; [auto|]. destruct (Qle_bool d a); [destruct (IH d); cbn; auto|destruct (IH a) as [-> |]; cbn; auto]. Qed.
Lemma lmax_in l : forall d, lmax d l = d \/ In (lmax d l) l.
Proof. induction l as [|a l IH]; intros d; cbn [lmax]; [auto|]. destruct (Qle_bool a d); [destruct (IH d); cbn; auto|destruct (IH a) as [-> |]; cbn; auto]. Qed.
