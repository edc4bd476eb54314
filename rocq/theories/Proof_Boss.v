(* Proofs on the reading of BOSS files. *)
From Verif Require Import Prelude PreludeFacts Facts2 Model_Dist Proof_Dist2 Proof_Dist3 Model_Fitz Proof_Fitz2 Model_Zscan Model_IO Proof_Table Model_Arch Model_Boss Spec_Boss.
Open Scope nat_scope.

Notation dic := (dict (list (nat * nat))).
Definition getl (d : dic) (t : Z) : list (nat * nat) := match dget d t with Some l => l | None => [] end.
Lemma dget_dset_b {V} (d : dict V) k v k' : dget (dset d k v) k' = if Z.eqb k k' then Some v else dget d k'.
Proof.
  induction d as [|[a b] r IH]; cbn; [destruct (Z.eqb k k'); reflexivity|]. destruct (Z.eqb_spec a k) as [->|N]; cbn.
  - destruct (Z.eqb_spec k k'); reflexivity.
  - rewrite IH. destruct (Z.eqb_spec a k') as [->|]; [|reflexivity]. destruct (Z.eqb_spec k k'); [congruence|reflexivity].
Qed.
Lemma dset_keys_b {V} (d : dict V) k v x : In x (map fst (dset d k v)) <-> x = k \/ In x (map fst d).
Proof.
  induction d as [|[a b] r IH]; cbn; [intuition|]. destruct (Z.eqb_spec a k) as [->|N]; cbn; [intuition|]. rewrite IH. intuition.
Qed.
Lemma dset_nodup_b {V} (d : dict V) k v : NoDup (map fst d) -> NoDup (map fst (dset d k v)).
Proof.
  induction d as [|[a b] r IH]; cbn; intro H; [constructor; [intros []|constructor]|]. inversion H as [|? ? H1 H2]; subst.
  destruct (Z.eqb_spec a k) as [->|N]; cbn; constructor; auto. rewrite dset_keys_b. intros [->|Hi]; [congruence|contradiction].
Qed.
(* what the dictionary holds *)
Record holds (obs : list (Z * (nat * nat))) (d : dic) : Prop := {
  h_nodup : NoDup (map fst d);
  h_get : forall t, getl d t = spectra_of t obs;
  h_key : forall t, In t (map fst d) <-> In t (map fst obs) }.
Lemma holds_nil : holds [] [].
Proof. constructor; [constructor|reflexivity|tauto]. Qed.
Lemma spectra_of_app t a b : spectra_of t (a ++ b) = spectra_of t a ++ spectra_of t b.
Proof. unfold spectra_of. now rewrite filter_app, map_app. Qed.
Lemma holds_add obs d t s : holds obs d -> holds (obs ++ [(t, s)]) (add_spectrum d t s).
Proof.
  intros [H1 H2 H3]. constructor.
  - now apply dset_nodup_b.
  - intro x. unfold getl, add_spectrum. rewrite dget_dset_b, spectra_of_app. specialize (H2 x) as Hx. unfold getl in Hx. unfold spectra_of at 2. cbn [filter fst]. destruct (Z.eqb_spec t x) as [->|N]; cbn [map snd].
    + now rewrite Hx.
    + now rewrite Hx, app_nil_r.
  - intro x. unfold add_spectrum. rewrite dset_keys_b, H3, map_app, in_app_iff. cbn. intuition.
Qed.
Section Read.
Variables (frames : bool) (sps : list spplate) (wanted : option (list Z)) (fiberid : option (list nat)).
Notation plate := (all_or_zero (map sp_plate sps)).
Notation mjd := (all_or_zero (map sp_mjd sps)).
Notation thing := (use_thingid sps).
Definition wantb (t : Z) : bool := match wanted with None => true | Some l => existsb (Z.eqb t) l end.
Definition pick (obs : list (Z * (nat * nat))) := filter (fun o => wantb (fst o)) obs.
Lemma target_of_id inf f t : 0 < length sps -> target_of thing plate mjd inf f = Ok t -> t = object_id sps inf f.
Proof.
  intros Hl. unfold target_of, use_thingid, object_id. destruct (1 <? length sps) eqn:E.
  - destruct (nth_error (in_things inf) (f - 1)) eqn:En; [|discriminate]. intro H. injection H as <-. symmetry. now apply nth_error_nth.
  - apply Nat.ltb_ge in E. destruct sps as [|s [|s2 r]]; cbn in *; try lia. intro H. injection H as <-. reflexivity.
Qed.
Lemma read_fibers_inv k inf fs : 0 < length sps -> forall obs d d', holds obs d -> read_fibers frames thing plate mjd wanted k inf fs d = Ok d' ->
  holds (obs ++ pick (map (fun f => (object_id sps inf f, (k, row frames f))) fs)) d'.
Proof.
  intro Hl. induction fs as [|f r IH]; intros obs d d' H; cbn [read_fibers map]; [intro E; injection E as <-; now rewrite app_nil_r|].
  destruct (target_of thing plate mjd inf f) as [t|] eqn:Et; [|discriminate]. cbn [rbind]. apply target_of_id in Et; [|exact Hl]. subst t.
  unfold pick. cbn [filter fst]. change (wants wanted (object_id sps inf f)) with (wantb (object_id sps inf f)). destruct (wantb (object_id sps inf f)); cbn [negb].
  - destruct (row_of frames f <? in_rows inf); [|discriminate]. intro E. apply (IH (obs ++ [(object_id sps inf f, (k, row frames f))])) in E; [|now apply holds_add].
    rewrite <- app_assoc in E. exact E.
  - intro E. now apply (IH obs) in E.
Qed.
Lemma pick_app a b : pick (a ++ b) = pick a ++ pick b.
Proof. apply filter_app. Qed.
Lemma read_files_inv l : 0 < length sps -> forall k obs d d', holds obs d -> read_files frames thing plate mjd wanted fiberid k l d = Ok d' ->
  holds (obs ++ pick (concat (map (fun ki => map (fun f => (object_id sps (snd ki) f, (fst ki, row frames f))) (selected fiberid (snd ki))) (enum_from k l)))) d'.
Proof.
  intro Hl. induction l as [|inf r IH]; intros k obs d d' H; cbn [read_files enum_from map concat]; [intro E; injection E as <-; cbn; now rewrite app_nil_r|].
  destruct (negb thing && negb (plate =? in_plate inf)%Z); [discriminate|]. fold (selected fiberid inf). destruct (read_fibers _ _ _ _ _ _ _ _ _) as [d1|] eqn:E1; [|discriminate]. cbn [rbind].
  apply (read_fibers_inv k inf _ Hl obs) in E1; [|exact H]. intro E. apply (IH (S k) _ _ _ E1) in E. rewrite <- app_assoc, <- pick_app in E. exact E.
Qed.
(* success *)
Lemma target_of_ok inf f : 0 < length sps -> (1 < length sps -> f - 1 < length (in_things inf)) -> target_of thing plate mjd inf f = Ok (object_id sps inf f).
Proof.
  intros Hl H. assert (E : exists t, target_of thing plate mjd inf f = Ok t).
  { unfold target_of, use_thingid. destruct (1 <? length sps) eqn:E; [|eauto]. apply Nat.ltb_lt in E. destruct (nth_error (in_things inf) (f - 1)) eqn:En; [eauto|]. apply nth_error_None in En. specialize (H E). lia. }
  destruct E as (t & E). rewrite E. f_equal. now apply target_of_id.
Qed.
Lemma read_fibers_ok k inf fs : 0 < length sps -> (forall f, In f fs -> row frames f < in_rows inf /\ (1 < length sps -> f - 1 < length (in_things inf))) ->
  forall d, exists d', read_fibers frames thing plate mjd wanted k inf fs d = Ok d'.
Proof.
  intros Hl. induction fs as [|f r IH]; intros H d; cbn [read_fibers]; [eauto|]. destruct (H f (or_introl eq_refl)) as [Hr Ht]. rewrite target_of_ok by assumption. cbn [rbind].
  assert (IH' := IH (fun x Hx => H x (or_intror Hx))). destruct (negb _); [apply IH'|]. change (row_of frames f) with (row frames f). destruct (Nat.ltb_spec (row frames f) (in_rows inf)); [apply IH'|lia].
Qed.
Lemma read_files_ok l : 0 < length sps -> (forall inf, In inf l -> (1 < length sps \/ in_plate inf = plate) /\ forall f, In f (selected fiberid inf) -> row frames f < in_rows inf /\ (1 < length sps -> f - 1 < length (in_things inf))) ->
  forall k d, exists d', read_files frames thing plate mjd wanted fiberid k l d = Ok d'.
Proof.
  intros Hl. induction l as [|inf r IH]; intros H k d; cbn [read_files]; [eauto|]. destruct (H inf (or_introl eq_refl)) as [Hp Hf].
  assert (E : negb thing && negb (plate =? in_plate inf)%Z = false).
  { unfold use_thingid. destruct Hp as [Hp|Hp]; [apply Nat.ltb_lt in Hp; now rewrite Hp|]. rewrite Hp, Z.eqb_refl. apply andb_false_r. }
  rewrite E. fold (selected fiberid inf). destruct (read_fibers_ok k inf (selected fiberid inf) Hl Hf d) as (d1 & ->). cbn [rbind]. apply IH. intros x Hx. apply H. now right.
Qed.
End Read.
Lemma readable_files frames sps fiberid inf : 0 < length sps -> readable frames sps fiberid -> In inf (concat (map sp_infiles sps)) ->
  (1 < length sps \/ in_plate inf = all_or_zero (map sp_plate sps)) /\ forall f, In f (selected fiberid inf) -> row frames f < in_rows inf /\ (1 < length sps -> f - 1 < length (in_things inf)).
Proof.
  intros Hl H Hi. apply in_concat in Hi as (l & Hl2 & Hi). apply in_map_iff in Hl2 as (s & <- & Hs). split.
  - destruct (H s inf 0 Hs Hi) as [[?|E] _]; [now left|]. destruct sps as [|s0 [|s1 r]]; cbn in *; try lia. right. destruct Hs as [->|[]]. exact E.
  - intros f Hf. now apply (H s inf f Hs Hi).
Qed.
Lemma zleb_total : total_b Z.leb.
Proof. intros a b. rewrite !Z.leb_le. lia. Qed.
Lemma zleb_trans : trans_b Z.leb.
Proof. intros a b c. rewrite !Z.leb_le. lia. Qed.
Lemma spectra_nil t obs : spectra_of t obs = [] <-> ~ In t (map fst obs).
Proof.
  unfold spectra_of. induction obs as [|[a s] r IH]; cbn [filter map fst]; [split; [intros _ []|reflexivity]|]. destruct (Z.eqb_spec a t) as [->|N]; cbn [map In].
  - split; [discriminate|]. intro H. exfalso. apply H. now left.
  - rewrite IH. intuition.
Qed.
Lemma spectra_pick wanted t obs : wantb wanted t = true -> spectra_of t (pick wanted obs) = spectra_of t obs.
Proof.
  intro H. unfold spectra_of, pick. induction obs as [|[a s] r IH]; cbn [filter fst]; [reflexivity|]. destruct (Z.eqb_spec a t) as [->|N].
  - rewrite H. cbn [filter fst map snd]. rewrite Z.eqb_refl. cbn [map snd]. now rewrite IH.
  - destruct (wantb wanted a); cbn [filter fst]; [|exact IH]. destruct (Z.eqb_spec a t); [congruence|exact IH].
Qed.
(* contents of the targets built from the dictionary *)
Lemma build_targets (d : dic) ids ts : mapM (fun t => match dget d t with Some s => Ok (t, s) | None => Err KeyError end) ids = Ok ts ->
  map fst ts = ids /\ forall t s, In (t, s) ts -> dget d t = Some s.
Proof.
  revert ts. induction ids as [|i r IH]; intros ts; cbn [mapM]; [intro E; injection E as <-; split; [reflexivity|intros t s []]|].
  destruct (dget d i) as [s|] eqn:Ed; [|discriminate]. cbn [rbind]. destruct (mapM _ r) as [ts'|] eqn:Er; [|discriminate]. cbn [rbind]. intro E. injection E as <-.
  destruct (IH ts' eq_refl) as [E1 E2]. split; [cbn; now rewrite E1|]. intros t x [H|H]; [congruence|now apply E2].
Qed.
Lemma dget_keys {V} (d : dict V) t : dget d t <> None <-> In t (map fst d).
Proof. induction d as [|[a b] r IH]; cbn; [tauto|]. destruct (Z.eqb_spec a t) as [->|N]; [split; [now left|discriminate]|]. rewrite IH. intuition. Qed.
Lemma perm_group (obs : list (Z * (nat * nat))) : forall ids, NoDup ids -> (forall t, In t (map fst obs) -> In t ids) -> Permutation (concat (map (fun t => spectra_of t obs) ids)) (map snd obs).
Proof.
  induction obs as [|[a s] r IH]; intros ids N H.
  - clear. induction ids as [|i ids IHi]; [constructor|exact IHi].
  - assert (Ha : In a ids) by (apply H; now left). apply in_split in Ha as (l1 & l2 & ->).
    assert (E : forall l, ~ In a l -> map (fun t => spectra_of t ((a, s) :: r)) l = map (fun t => spectra_of t r) l).
    { intros l Hl. apply map_ext_in. intros t Ht. unfold spectra_of. cbn [filter fst]. destruct (Z.eqb_spec a t) as [->|]; [contradiction|reflexivity]. }
    assert (N1 : ~ In a l1 /\ ~ In a l2). { apply NoDup_remove_2 in N. rewrite in_app_iff in N. tauto. } destruct N1 as [N1 N2].
    rewrite map_app, concat_app. cbn [map concat]. rewrite (E l1 N1), (E l2 N2). unfold spectra_of at 2. cbn [filter fst]. rewrite Z.eqb_refl. cbn [map snd]. fold (spectra_of a r).
    rewrite <- app_comm_cons. rewrite <- Permutation_middle. constructor. rewrite <- (IH (l1 ++ a :: l2) N).
    + rewrite map_app, concat_app. cbn [map concat]. reflexivity.
    + intros t Ht. apply H. now right.
Qed.
