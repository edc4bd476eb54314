From Verif Require Import Prelude PreludeFacts NumX Model_Dist Proof_Dist3 Model_Fitz Spec_Fitz Proof_Fitz Model_Priors Spec_Priors Facts2.

Lemma set_nth_length {A} i (v : A) l : length (set_nth i v l) = length l.
Proof. unfold set_nth, enum. rewrite map_length. rewrite <- (map_length snd). rewrite enum_from_snd. reflexivity. Qed.
Lemma nth_set_nth {A} i (v d : A) l j : j < length l ->
  nth j (set_nth i v l) d = if j =? i then v else nth j l d.
Proof.
  intros H. unfold set_nth.
  assert (He : forall k, nth_error (enum_from k l) j = Some (k + j, nth j l d)).
  { intros k. rewrite enum_from_nth. rewrite (nth_error_nth' l d H). reflexivity. }
  apply nth_error_nth. rewrite nth_error_map. unfold enum. rewrite He. cbn [option_map fst snd plus]. reflexivity.
Qed.

Lemma window_iff z0 s0 z : qlt (Qabs (z - z0)) (s0 / 2) = true <-> in_window z0 s0 z.
Proof. rewrite qlt_iff, Qabs_Qlt_condition. unfold in_window. split; intros []; split; lra. Qed.

Lemma last_in_list {A} (w : list A) d : w <> [] -> In (last w d) w.
Proof. intros Hw. rewrite (app_removelast_last d Hw) at 2. apply in_or_app. right. left. reflexivity. Qed.
Lemma hd_where l k d : In k (where_from 0 l) -> In (hd d (where_from 0 l)) (where_from 0 l) /\ hd d (where_from 0 l) <= k.
Proof.
  intros H. destruct (where_from 0 l) as [|a w] eqn:E; [destruct H|]. cbn [hd]. split; [left; reflexivity|].
  assert (S : forall m n, StronglySorted lt (where_from n m)).
  { induction m as [|b m IH]; intros n; cbn [where_from]; [constructor|]. destruct b; [|apply IH].
    constructor; [apply IH|]. apply Forall_forall. intros x Hx. apply where_from_in in Hx. lia. }
  specialize (S l 0). rewrite E in S. apply StronglySorted_inv in S as [_ S].
  destruct H as [->|H]; [lia|]. rewrite Forall_forall in S. specialize (S k H). lia.
Qed.
Lemma last_where l k d : In k (where_from 0 l) -> In (last (where_from 0 l) d) (where_from 0 l) /\ k <= last (where_from 0 l) d.
Proof.
  intros H.
  assert (S : forall m n, StronglySorted lt (where_from n m)).
  { induction m as [|b m IH]; intros n; cbn [where_from]; [constructor|]. destruct b; [|apply IH].
    constructor; [apply IH|]. apply Forall_forall. intros x Hx. apply where_from_in in Hx. lia. }
  specialize (S l 0). revert H S. generalize (where_from 0 l) as w. intros w H S.
  assert (Hw : w <> []) by (intros ->; destruct H).
  pose proof (app_removelast_last d Hw) as Ew. rewrite Ew in H, S.
  split; [apply last_in_list; exact Hw|].
  revert H S. generalize (removelast w) (last w d). intros u x H S.
  apply in_app_or in H as [H|[->|[]]]; [|lia].
  induction u as [|a u IH]; [destruct H|]. cbn [app] in S. apply StronglySorted_inv in S as [S F].
  destruct H as [->|H]; [|auto]. rewrite Forall_forall in F. specialize (F x). rewrite in_app_iff in F.
  cbn in F. specialize (F (or_intror (or_introl eq_refl))). lia.
Qed.

(* the shape of the tophat array on an increasing grid *)
Lemma tophat_length z z0 s0 : length (tophat z z0 s0) = length z.
Proof.
  unfold tophat. destruct (forallb _ _); [apply map_length|]. cbv zeta.
  repeat match goal with |- context [if ?b then _ else _] => destruct b end; rewrite !set_nth_length; apply map_length.
Qed.

Lemma tophat_shape z z0 s0 : increasing z ->
  (forall i, i < length z -> ~ in_window z0 s0 (nth i z 0%Q)) /\ (forall i, i < length z -> nth i (tophat z z0 s0) NaN = NaN) \/
  exists l r, l <= r < length z /\
    (forall i, i < length z -> in_window z0 s0 (nth i z 0%Q) <-> l <= i <= r) /\
    (forall i, i < length z -> nth i (tophat z z0 s0) NaN =
       if (i =? (if r =? length z - 1 then r else r + 1)) || (i =? (if l =? 0 then l else l - 1)) then PInf
       else if (l <=? i) && (i <=? r) then Fin 0 else NaN).
Proof.
  intros Hz. set (base := map (fun x => if qlt (Qabs (x - z0)) (s0 / 2) then Fin 0 else NaN) z).
  assert (Hb : forall i, i < length z -> nth i base NaN = if qlt (Qabs (nth i z 0%Q - z0)) (s0 / 2) then Fin 0 else NaN).
  { intros i Hi. unfold base. erewrite nth_error_nth; [reflexivity|]. rewrite nth_error_map, (nth_error_nth' z 0%Q Hi). reflexivity. }
  destruct (forallb isnan base) eqn:Ea.
  - left. unfold tophat. fold base. rewrite Ea. rewrite forallb_forall in Ea.
    assert (Hn : forall i, i < length z -> nth i base NaN = NaN).
    { intros i Hi. assert (Hin : In (nth i base NaN) base) by (apply nth_In; unfold base; rewrite map_length; exact Hi).
      specialize (Ea _ Hin). destruct (nth i base NaN); try discriminate. reflexivity. }
    split; [|exact Hn]. intros i Hi Hw. apply window_iff in Hw. specialize (Hn i Hi). rewrite Hb, Hw in Hn by exact Hi. discriminate.
  - right. set (w := where_from 0 (map (fun p => xle (Fin 0) p) base)).
    assert (Hw : forall i, In i w <-> i < length z /\ in_window z0 s0 (nth i z 0%Q)).
    { intros i. unfold w. rewrite where_from_in, Nat.sub_0_r. destruct (Nat.lt_ge_cases i (length z)) as [Hi|Hi].
      - erewrite nth_error_nth.
        2:{ rewrite nth_error_map, (nth_error_nth' base NaN) by (unfold base; rewrite map_length; exact Hi). reflexivity. }
        rewrite Hb by exact Hi. rewrite <- window_iff. destruct (qlt _ _); cbn.
        + split; [intros _; split; [exact Hi|reflexivity]|intros _; split; [lia|reflexivity]].
        + split; intros [_ H]; discriminate.
      - rewrite nth_overflow by (unfold base; rewrite !map_length; exact Hi). split; [intros [_ H]; discriminate|lia]. }
    assert (Hex : exists k, In k w).
    { assert (He : existsb (fun x => negb (isnan x)) base = true).
      { clear -Ea. induction base as [|a b IH]; [discriminate|]. cbn in *. destruct (isnan a); cbn in *; auto. }
      apply existsb_exists in He as (x & Hx & Hn). destruct (In_nth _ _ NaN Hx) as (k & Hk & <-).
      unfold base in Hk; rewrite map_length in Hk. exists k. apply Hw. split; [exact Hk|]. apply window_iff.
      rewrite Hb in Hn by exact Hk. destruct (qlt _ _); [reflexivity|discriminate]. }
    destruct Hex as [k Hk].
    destruct (hd_where (map (fun p => xle (Fin 0) p) base) k 0 Hk) as [Hl1 Hl2].
    destruct (last_where (map (fun p => xle (Fin 0) p) base) k 0 Hk) as [Hr1 Hr2].
    fold w in Hl1, Hl2, Hr1, Hr2. set (l := hd 0 w) in *. set (r := last w 0) in *.
    exists l, r. assert (Hr : r < length z) by (apply Hw; exact Hr1). split; [lia|].
    assert (Hc : forall i, i < length z -> in_window z0 s0 (nth i z 0%Q) <-> l <= i <= r).
    { intros i Hi. split.
      - intros H. assert (Hin : In i w) by (apply Hw; auto). split.
        + apply (hd_where _ _ 0 Hin).
        + apply (last_where _ _ 0 Hin).
      - intros [H1 H2]. apply Hw in Hl1 as [Hl1 [La Lb]]. apply Hw in Hr1 as [_ [Ra Rb]].
        assert (Hmono : forall a b, a <= b -> b < length z -> (nth a z 0 <= nth b z 0)%Q).
        { intros a b Hab Hbz. destruct (Nat.eq_dec a b) as [->|]; [apply Qle_refl|].
          apply Qlt_le_weak. eapply (proj1 (StronglySorted_nth Qlt z) Hz a b); [lia|apply nth_error_nth'; lia..]. }
        pose proof (Hmono l i H1 Hi). pose proof (Hmono i r H2 Hr). split; lra. }
    split; [exact Hc|].
    intros i Hi. unfold tophat. fold base. rewrite Ea. fold w l r. cbv zeta.
    assert (Hlb : length base = length z) by apply map_length.
    assert (Hbase : nth i base NaN = if (l <=? i) && (i <=? r) then Fin 0 else NaN).
    { rewrite Hb by exact Hi. destruct (qlt _ _) eqn:Eq.
      - apply window_iff in Eq. apply Hc in Eq; [|exact Hi]. destruct (Nat.leb_spec l i); [|lia]. destruct (Nat.leb_spec i r); [reflexivity|lia].
      - destruct (Nat.leb_spec l i); [|reflexivity]. destruct (Nat.leb_spec i r); [|reflexivity].
        assert (Hx : in_window z0 s0 (nth i z 0%Q)) by (apply Hc; [exact Hi|lia]). apply window_iff in Hx. congruence. }
    destruct (l =? 0); rewrite set_nth_length, Hlb; destruct (r =? length z - 1);
      rewrite !nth_set_nth by (rewrite ?set_nth_length, Hlb; exact Hi); rewrite Hbase;
      repeat match goal with |- context [i =? ?b] => destruct (i =? b) end; reflexivity.
Qed.

Lemma priors_init_get (rows : list (Z * (Q * Q))) : forall (d : param) tid, dget (fold_left (fun acc kv => dset acc (fst kv) (snd kv)) rows d) tid =
  match find (fun kv => Z.eqb (fst kv) tid) (rev rows) with Some kv => Some (snd kv) | None => dget d tid end.
Proof.
  induction rows as [|[k v] rows IH]; intros d tid; [reflexivity|].
  cbn [fold_left fst snd]. rewrite IH. cbn [rev].
  assert (Hf : forall (f : Z * (Q * Q) -> bool) a b, find f (a ++ b) = match find f a with Some x => Some x | None => find f b end).
  { intros f a b. induction a as [|x a IHa]; [reflexivity|]. cbn. destruct (f x); auto. }
  rewrite Hf. destruct (find _ (rev rows)); [reflexivity|]. cbn [find fst]. rewrite dget_dset.
  cbn. destruct (Z.eqb k tid); reflexivity.
Qed.
