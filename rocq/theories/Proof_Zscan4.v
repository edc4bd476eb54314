(* Per-camera archetype fits: columns and coefficient layout. *)
From Verif Require Import Prelude PreludeFacts Facts2 Model_Fitz Proof_Fitz Proof_Table Model_Dist Proof_Dist3 Proof_Gather Model_Zscan Spec_Zscan Proof_Zscan Proof_Zscan2 Proof_Zscan3.

(* ---- string-keyed ordered dicts ---- *)
Definition keys {V} (d : list (string * V)) := map fst d.
Lemma sget_sset {V} (d : list (string * V)) k v k' : sget (sset d k v) k' = if String.eqb k k' then Some v else sget d k'.
Proof.
  induction d as [|[a x] d IH]; cbn [sset sget]; [reflexivity|].
  destruct (String.eqb_spec a k).
  - subst a. cbn [sget]. destruct (String.eqb k k'); reflexivity.
  - cbn [sget]. rewrite IH. destruct (String.eqb_spec a k'), (String.eqb_spec k k'); try reflexivity. congruence.
Qed.
Lemma keys_sset_in {V} (d : list (string * V)) k v : In k (keys d) -> keys (sset d k v) = keys d.
Proof.
  induction d as [|[a x] d IH]; cbn; [contradiction|]. intros H. destruct (String.eqb_spec a k).
  - subst. reflexivity.
  - cbn. f_equal. apply IH. destruct H; [congruence|assumption].
Qed.
Lemma sset_fresh {V} (d : list (string * V)) k v : ~ In k (keys d) -> sset d k v = d ++ [(k, v)].
Proof.
  induction d as [|[a x] d IH]; cbn; [reflexivity|]. intros H. destruct (String.eqb_spec a k).
  - subst. exfalso. apply H. now left.
  - f_equal. apply IH. intros Hn. apply H. now right.
Qed.
Lemma sget_none {V} (d : list (string * V)) k : ~ In k (keys d) -> sget d k = None.
Proof.
  induction d as [|[a x] d IH]; cbn; [reflexivity|]. intros H. destruct (String.eqb_spec a k).
  - subst. exfalso. apply H. now left.
  - apply IH. intros Hn. apply H. now right.
Qed.
Lemma sdict_ext {V} (d : list (string * V)) (g : string -> V) : NoDup (keys d) ->
  (forall k, In k (keys d) -> sget d k = Some (g k)) -> d = map (fun k => (k, g k)) (keys d).
Proof.
  induction d as [|[a x] d IH]; [reflexivity|]. cbn [keys map fst]. intros Hn Hg. inversion Hn as [|? ? Hna Hnd]; subst.
  f_equal.
  - assert (E := Hg a (or_introl eq_refl)). cbn [sget] in E. rewrite String.eqb_refl in E. injection E as ->. reflexivity.
  - apply IH; [exact Hnd|]. intros k Hk. rewrite <- Hg by now right. cbn [sget].
    destruct (String.eqb_spec a k); [subst; contradiction|reflexivity].
Qed.
Lemma fold_fresh {V A} (key : A -> string) (val : A -> V) : forall l d,
  NoDup (keys d ++ map key l) ->
  fold_left (fun d a => sset d (key a) (val a)) l d = d ++ map (fun a => (key a, val a)) l.
Proof.
  induction l as [|a l IH]; intros d H; cbn [fold_left map]; [now rewrite app_nil_r|].
  assert (Hf : ~ In (key a) (keys d)).
  { cbn [map] in H. apply NoDup_remove_2 in H. intros Hi. apply H. apply in_or_app. now left. }
  rewrite sset_fresh by exact Hf. rewrite IH.
  - now rewrite <- app_assoc.
  - unfold keys. rewrite map_app. cbn [map fst]. rewrite <- app_assoc. exact H.
Qed.
Lemma fold_set_all {V} (old : list (string * V)) (g : string -> V) : forall l d,
  (forall b, In b l -> sget old b = Some (g b)) -> (forall b, In b l -> In b (keys d)) ->
  exists d', fold_left (fun acc b => do d <- acc; match sget old b with Some v => Ok (sset d b v) | None => Err KeyError end) l (Ok d) = Ok d'
    /\ keys d' = keys d /\ (forall k, In k l -> sget d' k = Some (g k)) /\ (forall k, ~ In k l -> sget d' k = sget d k).
Proof.
  induction l as [|b l IH]; intros d Hg Hk.
  - exists d. split; [reflexivity|]. split; [reflexivity|]. split; [contradiction|reflexivity].
  - cbn [fold_left rbind]. rewrite (Hg b) by now left.
    destruct (IH (sset d b (g b))) as (d' & H1 & H2 & H3 & H4).
    + intros; apply Hg; now right.
    + intros b' Hb'. rewrite keys_sset_in by (apply Hk; now left). apply Hk. now right.
    + exists d'. split; [exact H1|]. split; [rewrite H2; apply keys_sset_in; apply Hk; now left|]. split.
      * intros k [->|Hin]; [|now apply H3]. destruct (in_dec string_dec k l); [now apply H3|].
        rewrite H4 by assumption. rewrite sget_sset, String.eqb_refl. reflexivity.
      * intros k Hn. rewrite H4 by (intros Hi; apply Hn; now right). rewrite sget_sset.
        destruct (String.eqb_spec b k); [exfalso; apply Hn; now left|reflexivity].
Qed.

Lemma concat_pieces (nleg : nat) : forall n a (c : vec), length c = a + nleg * n ->
  firstn a c ++ concat (map (fun i => firstn nleg (skipn (a + i * nleg) c)) (seq 0 n)) = c.
Proof.
  induction n; intros a c H.
  - cbn [seq map concat]. rewrite app_nil_r. apply firstn_all2. lia.
  - cbn [seq map concat]. rewrite <- seq_shift, map_map.
    etransitivity; [|apply (firstn_skipn a c)]. f_equal. replace (a + 0 * nleg) with a by lia.
    etransitivity; [|apply (IHn nleg (skipn a c)); rewrite skipn_length; lia]. f_equal. f_equal. apply map_ext. intros i. f_equal.
    rewrite <- skipn_add. f_equal.
Qed.

Definition bval (n_nbh nleg : nat) (bands : list string) (zz : list vec) (b : string) : list vec :=
  match find (fun ib => String.eqb (snd ib) b) (enum bands) with
  | Some (i, _) => map (fun c => firstn nleg (skipn (n_nbh + i * nleg) c)) zz
  | None => [] end.
Lemma sget_map_enum {V} (g : nat -> V) : forall bands n b,
  sget (map (fun ib => (snd ib, g (fst ib))) (enum_from n bands)) b =
  match find (fun ib : nat * string => String.eqb (snd ib) b) (enum_from n bands) with Some (i, _) => Some (g i) | None => None end.
Proof.
  induction bands as [|a l IH]; intros n b; [reflexivity|]. cbn [enum_from map sget find snd fst].
  destruct (String.eqb a b); [reflexivity|apply IH].
Qed.
Lemma find_enum_NoDup : forall (bands : list string) n, NoDup bands ->
  map (fun b => match find (fun ib : nat * string => String.eqb (snd ib) b) (enum_from n bands) with Some (i, _) => i | None => 0 end) bands = seq n (length bands).
Proof.
  induction bands as [|a l IH]; intros n H; [reflexivity|]. inversion H as [|? ? Hna Hnd]; subst.
  cbn [map length seq]. f_equal.
  - cbn [enum_from find snd]. rewrite String.eqb_refl. reflexivity.
  - rewrite <- (IH (S n) Hnd). apply map_ext_in. intros b Hb. cbn [enum_from find snd].
    destruct (String.eqb_spec a b); [subst; contradiction|reflexivity].
Qed.
Lemma find_enum_some : forall (bands : list string) n b, In b bands ->
  exists i, find (fun ib : nat * string => String.eqb (snd ib) b) (enum_from n bands) = Some (i, b).
Proof.
  induction bands as [|a l IH]; intros n b H; [contradiction|]. cbn [enum_from find snd].
  destruct (String.eqb_spec a b); [subst; eauto|]. apply IH. destruct H; [contradiction|assumption].
Qed.

Lemma assemble_alpha n_nbh (zz : list vec) : 1 <= n_nbh -> (n_nbh = 1 \/ length zz = 1) -> Forall (fun c => n_nbh <= length c) zz ->
  (if 1 <? n_nbh then [map (fun k => nth k (hd [] zz) 0%Q) (seq 0 n_nbh)] else map (fun c => [nth 0 c 0%Q]) zz)
  = map (firstn n_nbh) zz.
Proof.
  intros H1 H2 Hf. destruct (Nat.ltb_spec 1 n_nbh).
  - destruct zz as [|c [|c' zz]]; cbn [length] in H2; try lia. cbn [hd map]. f_equal.
    inversion Hf as [|? ? Hc ?]; subst. assert (L : n_nbh = length (firstn n_nbh c)) by (rewrite firstn_length; lia).
    rewrite L at 1. rewrite (list_as_tab (firstn n_nbh c) 0%Q) at 2. apply map_ext_in. intros k Hk. apply in_seq in Hk. 
    rewrite firstn_length in Hk.
    rewrite <- (firstn_skipn n_nbh c) at 1. rewrite app_nth1; [reflexivity|]. rewrite firstn_length. lia.
  - assert (n_nbh = 1) by lia. subst. apply map_ext_in. intros c Hc. apply (proj1 (Forall_forall _ _) Hf) in Hc.
    destruct c as [|q c]; [cbn in Hc; lia|]. reflexivity.
Qed.

Lemma assemble_identity n_nbh nleg bands zz : 1 <= n_nbh -> (n_nbh = 1 \/ length zz = 1) ->
  NoDup bands -> ~ In "alpha"%string bands ->
  Forall (fun c => length c = n_nbh + nleg * length bands) zz -> cam_assemble n_nbh nleg bands zz = Ok zz.
Proof.
  intros H1 H2 Hnd Ha Hlen. unfold cam_assemble. destruct n_nbh as [|m] eqn:Em; [lia|]. rewrite <- Em in *. clear m Em.
  assert (Hlen' : Forall (fun c => n_nbh <= length c) zz) .
  { eapply Forall_impl; [|exact Hlen]. cbn beta. intros c E. rewrite E. lia. }
  rewrite (assemble_alpha n_nbh zz H1 H2 Hlen').
  assert (Fin1 : forall parts, Forall (fun p => length p = length zz) parts ->
    forallb (fun p => length p =? length (map (firstn n_nbh) zz)) (map (firstn n_nbh) zz :: parts) = true).
  { intros parts Hp. apply forallb_forall. intros p [<-|Hin]; apply Nat.eqb_eq; [reflexivity|]. rewrite map_length.
    apply (proj1 (Forall_forall _ _) Hp). exact Hin. }
  destruct (Nat.ltb_spec 0 nleg) as [Hl|Hl].
  - (* nleg > 0 *)
    rewrite (fold_fresh (fun b : string => b) (fun _ => [])).
    2:{ cbn [keys map fst app]. rewrite map_id. constructor; assumption. }
    cbn [app]. change (sset (("alpha"%string, []) :: ?r) "alpha"%string ?a) with (("alpha"%string, a) :: r).
    set (split := fun i => map (fun c => firstn nleg (skipn (n_nbh + i * nleg) c)) zz).
    set (d0 := (("alpha"%string, map (firstn n_nbh) zz) :: map (fun a : string => (a, [])) bands)).
    rewrite (fold_fresh (fun ib : nat * string => snd ib) (fun ib => split (fst ib))).
    2:{ cbn [keys map app]. unfold enum. rewrite enum_from_snd. exact Hnd. }
    cbn [app].
    set (old := map (fun ib : nat * string => (snd ib, split (fst ib))) (enum bands)).
    assert (Kd0 : keys d0 = "alpha"%string :: bands).
    { unfold d0, keys. cbn [map fst]. rewrite map_map. f_equal. apply map_id. }
    assert (Hold : forall b, In b bands -> sget old b = Some (bval n_nbh nleg bands zz b)).
    { intros b Hb. unfold old, bval, enum. rewrite sget_map_enum. destruct (find_enum_some bands 0 b Hb) as (i & ->). reflexivity. }
    destruct (fold_set_all old (bval n_nbh nleg bands zz) (isort str_leb bands) d0) as (d1 & E & K & G1 & G2).
    { intros b Hb. apply Hold. eapply Permutation_in; [symmetry; apply isort_perm|exact Hb]. }
    { intros b Hb. rewrite Kd0. right. eapply Permutation_in; [symmetry; apply isort_perm|exact Hb]. }
    rewrite E. cbn [rbind].
    assert (Ed1 : d1 = ("alpha"%string, map (firstn n_nbh) zz) :: map (fun b => (b, bval n_nbh nleg bands zz b)) bands).
    { rewrite (sdict_ext d1 (fun k => if String.eqb "alpha" k then map (firstn n_nbh) zz else bval n_nbh nleg bands zz k)).
      - rewrite K, Kd0. cbn [map]. rewrite String.eqb_refl. f_equal. apply map_ext_in. intros b Hb.
        destruct (String.eqb_spec "alpha" b); [subst; contradiction|reflexivity].
      - rewrite K, Kd0. constructor; assumption.
      - intros k Hk. rewrite K, Kd0 in Hk. destruct Hk as [<-|Hk].
        + rewrite G2. * rewrite String.eqb_refl. reflexivity.
          * intros Hi. apply Ha. eapply Permutation_in; [symmetry; apply isort_perm|exact Hi].
        + destruct (String.eqb_spec "alpha" k); [subst; contradiction|]. apply G1.
          eapply Permutation_in; [apply isort_perm|exact Hk]. }
    subst d1. cbn [map snd].
    assert (Eparts : map snd (map (fun b => (b, bval n_nbh nleg bands zz b)) bands) = map split (seq 0 (length bands))).
    { rewrite map_map. cbn [snd]. rewrite <- (find_enum_NoDup bands 0 Hnd), map_map. apply map_ext_in. intros b Hb.
      unfold bval, enum. destruct (find_enum_some bands 0 b Hb) as (i & ->). reflexivity. }
    unfold vec in *. rewrite Eparts. rewrite Fin1. 2:{ apply Forall_forall. intros p Hp. apply in_map_iff in Hp as (i & <- & _). unfold split. apply map_length. }
    f_equal. rewrite map_length. etransitivity; [|symmetry; apply (list_as_tab zz [])]. apply map_ext_in. intros j Hj. apply in_seq in Hj.
    set (c := nth j zz []). assert (Hc : length c = n_nbh + nleg * length bands) by (apply (proj1 (Forall_forall _ _) Hlen); apply nth_In; lia).
    cbn [map concat]. rewrite <- (concat_pieces nleg (length bands) n_nbh c Hc) at 1. f_equal.
    + rewrite (nth_indep _ [] (firstn n_nbh [])) by (rewrite map_length; lia). rewrite map_nth. reflexivity.
    + rewrite map_map. f_equal. apply map_ext. intros i. unfold split.
      rewrite (nth_indep _ [] ((fun c => firstn nleg (skipn (n_nbh + i * nleg) c)) [])) by (rewrite map_length; lia).
      rewrite (map_nth (fun c => firstn nleg (skipn (n_nbh + i * nleg) c))). reflexivity.
  - (* nleg = 0 *)
    assert (nleg = 0) by lia. subst nleg. cbn [sset]. rewrite String.eqb_refl. cbn [rbind map snd].
    rewrite Fin1 by constructor. f_equal. rewrite map_length. etransitivity; [|symmetry; apply (list_as_tab zz [])]. apply map_ext_in. intros j Hj. apply in_seq in Hj.
    cbn [map concat]. rewrite app_nil_r. rewrite (nth_indep _ [] (firstn n_nbh [])) by (rewrite map_length; lia). rewrite map_nth.
    apply firstn_all2. assert (Hc : length (nth j zz []) = n_nbh + 0 * length bands) by (apply (proj1 (Forall_forall _ _) Hlen); apply nth_In; lia). lia.
Qed.

(* ---- columns ---- *)
Lemma cam_row_at n_nbh nleg nbasis i p k : k < nbasis -> at1 (cam_row n_nbh nleg nbasis i p) k =
  (if k <? n_nbh then nth k p 0%Q else if (n_nbh + nleg * i <=? k) && (k <? n_nbh + nleg * i + nleg) then nth (k - nleg * i) p 0%Q else 0%Q).
Proof. intros H. unfold at1, cam_row. now rewrite nth_tab. Qed.

Lemma cam_tdata_spec n_nbh nleg nbasis j tdata td : cam_tdata n_nbh nleg nbasis j tdata = Ok td ->
  length td = length tdata /\
  forall i hs T, nth_error tdata i = Some (hs, T) ->
    exists A, nth_error T j = Some A /\ n_nbh + nleg * (i + 1) <= nbasis /\
      nth_error td i = Some (hs, [map (cam_row n_nbh nleg nbasis i) A]).
Proof.
  unfold cam_tdata. intros H. apply mapM_Forall2 in H. split.
  - apply Forall2_len in H. unfold enum in H. rewrite <- H. rewrite <- (map_length snd), enum_from_snd. reflexivity.
  - intros i hs T Hi. destruct (Forall2_nth _ _ _ i (i, (hs, T)) H) as (y & Hy & E).
    { unfold enum. rewrite enum_from_nth, Hi. reflexivity. }
    cbn beta iota in E. destruct (nth_error T j) as [A|] eqn:EA; [|discriminate]. exists A. split; [reflexivity|].
    destruct (Nat.ltb_spec nbasis (n_nbh + nleg * (i + 1))); [discriminate|]. split; [assumption|]. rewrite Hy. now injection E as <-.
Qed.
Lemma dget_pos {V} : forall (d : dict V) k v, dget d k = Some v -> exists i, nth_error d i = Some (k, v).
Proof. intros d k v H. apply dget_In in H. apply In_nth_error in H. exact H. Qed.
Lemma cam_keys n_nbh nleg nbasis j tdata td : cam_tdata n_nbh nleg nbasis j tdata = Ok td -> map fst td = map fst tdata.
Proof.
  intros H. destruct (cam_tdata_spec _ _ _ _ _ _ H) as [Hl Hs]. apply nth_error_ext. intros i. rewrite !nth_error_map.
  destruct (nth_error tdata i) as [[hs T]|] eqn:E.
  - destruct (Hs i hs T E) as (A & _ & _ & ->). reflexivity.
  - apply nth_error_None in E. rewrite (proj2 (nth_error_None td i)) by lia. reflexivity.
Qed.
