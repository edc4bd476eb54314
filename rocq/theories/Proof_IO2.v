(* Lemmas on the details file. *)
From Verif Require Import Prelude PreludeFacts Facts2 Model_Dist Proof_Dist3 Model_Zscan Model_IO Spec_IO Proof_IO.

Lemma mapM_map_ok {A B} (f : A -> res B) (g : A -> B) l : (forall x, In x l -> f x = Ok (g x)) -> mapM f l = Ok (map g l).
Proof. induction l as [|a l IH]; intros H; [reflexivity|]. cbn [mapM map]. rewrite (H a (or_introl eq_refl)). cbn [rbind]. rewrite IH by (intros; apply H; now right). reflexivity. Qed.
Lemma sget_in {V} (d : list (string * V)) k v : NoDup (map fst d) -> (sget d k = Some v <-> In (k, v) d).
Proof.
  induction d as [|[a x] d IH]; cbn [sget map fst]; intros Hn; [split; [discriminate|intros []]|].
  inversion Hn as [|? ? Ha Hd]; subst. destruct (String.eqb_spec a k) as [->|Hak].
  - split; [intros E; injection E as ->; now left|]. intros [E|E]; [now injection E as ->|]. exfalso. apply Ha. apply in_map_iff. exists (k, v). auto.
  - rewrite (IH Hd). split; [now right|]. intros [E|E]; [injection E as -> _; congruence|exact E].
Qed.
Lemma sget_none {V} (d : list (string * V)) k : sget d k = None <-> ~ In k (map fst d).
Proof.
  induction d as [|[a x] d IH]; cbn [sget map fst]; [tauto|]. destruct (String.eqb_spec a k) as [->|Hak].
  - split; [discriminate|]. intros H. exfalso. apply H. now left.
  - rewrite IH. split; [intros H [E|E]; [congruence|contradiction]|]. intros H E. apply H. now right.
Qed.
Lemma sget_some_in {V} (d : list (string * V)) k v : sget d k = Some v -> In (k, v) d.
Proof. induction d as [|[a x] d IH]; cbn [sget]; [discriminate|]. destruct (String.eqb_spec a k) as [->|]; [intros E; injection E as ->; now left|intros E; right; auto]. Qed.
Lemma sget_sset {V} (d : list (string * V)) k v k' : sget (sset d k v) k' = if String.eqb k k' then Some v else sget d k'.
Proof.
  induction d as [|[a x] d IH]; cbn [sset sget]; [reflexivity|]. destruct (String.eqb_spec a k) as [->|Hak]; cbn [sget].
  - destruct (String.eqb_spec k k'); reflexivity.
  - rewrite IH. destruct (String.eqb_spec a k') as [->|]; [|reflexivity]. destruct (String.eqb_spec k k'); [congruence|reflexivity].
Qed.
Lemma sget_map {V W} (g : V -> W) (d : list (string * V)) k : sget (map (fun kv => (fst kv, g (snd kv))) d) k = option_map g (sget d k).
Proof. induction d as [|[a x] d IH]; cbn [map sget fst snd]; [reflexivity|]. destruct (String.eqb a k); [reflexivity|exact IH]. Qed.
Lemma sget_perm {V} (d e : list (string * V)) k : NoDup (map fst d) -> Permutation d e -> sget d k = sget e k.
Proof.
  intros Hn Hp. assert (Hn' : NoDup (map fst e)) by (eapply Permutation_NoDup; [apply Permutation_map; exact Hp|exact Hn]).
  destruct (sget e k) as [v|] eqn:E.
  - apply sget_in; [exact Hn|]. apply (sget_in e) in E; [|exact Hn']. eapply Permutation_in; [symmetry; exact Hp|exact E].
  - apply sget_none. apply sget_none in E. intros H. apply E. eapply Permutation_in; [apply Permutation_map; exact Hp|exact H].
Qed.
Lemma by_name_perm {V} (l : list (string * V)) : Permutation (by_name l) l.
Proof. unfold by_name. symmetry. apply isort_perm. Qed.
Lemma sget_by_name {V} (l : list (string * V)) k : NoDup (map fst l) -> sget (by_name l) k = sget l k.
Proof. intros H. symmetry. apply sget_perm; [exact H|]. symmetry. apply by_name_perm. Qed.

Section Read.
  Context {P : Type}.
  Implicit Type h : h5 P.
  Definition scan_at (g : h5grp) (i : nat) : scan :=
    {| sc_z := g_z g; sc_chi2 := nth i (g_chi2 g) []; sc_pen := nth i (g_pen g) []; sc_coeff := nth i (g_coeff g) [] |}.
  Definition scans_ok h : Prop :=
    NoDup (h_ids h) /\ NoDup (map fst (h_scan h)) /\
    forall ft g, In (ft, g) (h_scan h) -> (exists st, parse_fulltype ft = Ok st) /\
      length (g_chi2 g) = length (h_ids h) /\ length (g_pen g) = length (h_ids h) /\ length (g_coeff g) = length (h_ids h).
  Definition row_of h (i : nat) : list (string * scan) := map (fun g => (fst g, scan_at (snd g) i)) (by_name (h_scan h)).
  Lemma get_scan_at g i n : length (g_chi2 g) = n -> length (g_pen g) = n -> length (g_coeff g) = n -> i < n -> get_scan g i = Ok (scan_at g i).
  Proof.
    intros A B C Hi. unfold get_scan, scan_at.
    rewrite (nth_error_nth' (g_chi2 g) []), (nth_error_nth' (g_pen g) []), (nth_error_nth' (g_coeff g) []) by lia. reflexivity.
  Qed.
  Lemma enum_lt (l : list Z) p : In p (enum l) -> fst p < length l /\ nth_error l (fst p) = Some (snd p).
  Proof.
    intros H. destruct p as [i x]. unfold enum in H. apply enum_from_in in H as (k & Ek & H). cbn in Ek. subst k. cbn [fst snd]. split; [eapply nth_error_Some_lt; exact H|exact H].
  Qed.
  Lemma selected_enum ids sel p : In p (selected ids sel) -> In p (enum ids).
  Proof. destruct sel; cbn [selected]; [apply filter_In|auto]. Qed.
  Lemma selected_snd ids sel : map snd (selected ids sel) = match sel with None => ids | Some l => filter (fun t => existsb (Z.eqb t) l) ids end.
  Proof.
    destruct sel as [l|]; cbn [selected]; [|apply enum_from_snd].
    unfold enum. generalize 0. induction ids as [|t ids IH]; intros n; [reflexivity|]. cbn [enum_from filter snd]. destruct (existsb (Z.eqb t) l); cbn [map snd]; now rewrite IH.
  Qed.
  Lemma in_selected ids sel i t : nth_error ids i = Some t -> (match sel with None => True | Some l => In t l end) -> In (i, t) (selected ids sel).
  Proof.
    intros H Hs. assert (He : In (i, t) (enum ids)).
    { unfold enum. apply enum_from_in. exists i. auto. }
    destruct sel as [l|]; cbn [selected]; [|exact He]. apply filter_In. split; [exact He|]. cbn [snd]. apply existsb_exists. exists t. split; [exact Hs|apply Z.eqb_refl].
  Qed.
  Lemma scans_common h (sel : option (list Z)) : scans_ok h ->
    (do es <- mapM (fun p => do d <- mapM (fun g => do s <- get_scan (snd g) (fst p); Ok (fst g, s)) (by_name (h_scan h)); Ok (snd p, d)) (selected (h_ids h) sel);
     Ok (fold_left (fun d e => dset d (fst e) (snd e)) es []))
    = Ok (map (fun p => (snd p, row_of h (fst p))) (selected (h_ids h) sel)).
  Proof.
    intros (Hid & Hn & Hg).
    rewrite (mapM_map_ok _ (fun p => (snd p, row_of h (fst p)))).
    - cbn [rbind]. f_equal. change (fold_left (fun d e => dset d (fst e) (snd e))) with (fold_left (fun (d : dict (list (string * scan))) (e : Z * list (string * scan)) => dset d (fst e) (snd e))).
      fold (dupdate ([] : dict (list (string * scan))) (map (fun p : nat * Z => (snd p, row_of h (fst p))) (selected (h_ids h) sel))). rewrite dupdate_fresh; [reflexivity|]. cbn [app].
      rewrite map_map. cbn [fst]. rewrite selected_snd. destruct sel; [now apply NoDup_filter|exact Hid].
    - intros p Hp. apply selected_enum, enum_lt in Hp as [Hlt _].
      rewrite (mapM_map_ok _ (fun g => (fst g, scan_at (snd g) (fst p)))); [reflexivity|].
      intros [ft g] Hin. eapply Permutation_in in Hin; [|apply by_name_perm]. destruct (Hg ft g Hin) as (_ & A & B & C). cbn [fst snd].
      rewrite (get_scan_at g (fst p) _ A B C Hlt). reflexivity.
  Qed.
  Lemma read_scans_ok h sel : scans_ok h -> read_scans h sel = Ok (map (fun p => (snd p, row_of h (fst p))) (selected (h_ids h) sel)).
  Proof.
    intros H. unfold read_scans. destruct (mapM_ok (fun g : string * h5grp => parse_fulltype (fst g)) (fun _ _ => True) (by_name (h_scan h))) as (m & E & _).
    - intros [ft g] Hin. eapply Permutation_in in Hin; [|apply by_name_perm]. destruct H as (_ & _ & Hg). destruct (Hg ft g Hin) as ((st & E) & _). exists st. auto.
    - rewrite E. cbn [rbind]. now apply scans_common.
  Qed.
  Lemma read_redrock_ok h : scans_ok h -> read_zscan_redrock h = Ok (map (fun p => (snd p, row_of h (fst p))) (enum (h_ids h))).
  Proof. intros H. exact (scans_common h None H). Qed.
  Lemma entry_read h sel t ft : scans_ok h ->
    entry (map (fun p => (snd p, row_of h (fst p))) (selected (h_ids h) sel)) t ft =
      match find (fun p => (snd p =? t)%Z) (selected (h_ids h) sel) with
      | None => Err KeyError
      | Some p => match sget (h_scan h) ft with None => Err KeyError | Some g => Ok (scan_at g (fst p)) end
      end.
  Proof.
    intros (_ & Hn & _). unfold entry. generalize (selected (h_ids h) sel). induction l as [|[i x] l IH]; [reflexivity|]. cbn [map dget find fst snd].
    destruct (Z.eqb x t); [|exact IH]. unfold row_of. rewrite (sget_map (fun g => scan_at g i)). rewrite sget_by_name by exact Hn. destruct (sget (h_scan h) ft); reflexivity.
  Qed.
  Lemma find_selected h sel i t : NoDup (h_ids h) -> nth_error (h_ids h) i = Some t -> (match sel with None => True | Some l => In t l end) ->
    find (fun p => (snd p =? t)%Z) (selected (h_ids h) sel) = Some (i, t).
  Proof.
    intros Hnd Hi Hs. pose proof (in_selected _ sel i t Hi Hs) as Hin.
    destruct (find (fun p => (snd p =? t)%Z) (selected (h_ids h) sel)) as [[j x]|] eqn:E.
    - apply find_some in E as [E1 E2]. cbn [snd] in E2. apply Z.eqb_eq in E2. subst x. apply selected_enum, enum_lt in E1 as [_ E1]. cbn [fst snd] in E1.
      f_equal. f_equal. apply (proj1 (NoDup_nth_error (h_ids h)) Hnd j i); [eapply nth_error_Some_lt; exact E1|congruence].
    - exfalso. eapply find_none in E; [|exact Hin]. cbn [snd] in E. rewrite Z.eqb_refl in E. discriminate.
  Qed.
  Lemma find_unselected h sel t : ~ In t (h_ids h) \/ (match sel with None => False | Some l => ~ In t l end) ->
    find (fun p => (snd p =? t)%Z) (selected (h_ids h) sel) = None.
  Proof.
    intros H. destruct (find (fun p => (snd p =? t)%Z) (selected (h_ids h) sel)) as [[j x]|] eqn:E; [|reflexivity]. exfalso.
    apply find_some in E as [E1 E2]. cbn [snd] in E2. apply Z.eqb_eq in E2. subst x. destruct H as [H|H].
    - apply selected_enum, enum_lt in E1 as [_ E1]. apply H. eapply nth_error_In. exact E1.
    - destruct sel as [l|]; [|contradiction]. cbn [selected] in E1. apply filter_In in E1 as [_ E1]. cbn [snd] in E1. apply existsb_exists in E1 as (y & Hy & Ey).
      apply Z.eqb_eq in Ey. subst y. contradiction.
  Qed.
  (* fits *)
  Definition look (d : zfit_t (P := P)) (t : Z) (ft : string) : option (list (frow P)) := match dget d t with Some x => sget x ft | None => None end.
  Definition mk (k : Z * string * string) : string := let '(_, s, u) := k in make_fulltype s (Some u).
  Definition kt (k : Z * string * string) : Z := fst (fst k).
  Lemma fkey_eqb_spec a b : reflect (a = b) (fkey_eqb a b).
  Proof.
    destruct a as [[t s] u], b as [[t' s'] u']. cbn [fkey_eqb].
    destruct (Z.eqb_spec t t') as [->|]; cbn [andb]; [|constructor; congruence].
    destruct (String.eqb_spec s s') as [->|]; cbn [andb]; [|constructor; congruence].
    destruct (String.eqb_spec u u') as [->|]; constructor; congruence.
  Qed.
  Lemma dedup_spec l : NoDup (dedup_keys l) /\ forall k, In k (dedup_keys l) <-> In k l.
  Proof.
    induction l as [|k l [IH1 IH2]]; cbn [dedup_keys]; [split; [constructor|tauto]|].
    destruct (existsb (fkey_eqb k) l) eqn:E.
    - split; [exact IH1|]. intros k'. rewrite IH2. split; [now right|]. intros [<-|H]; [|exact H]. apply existsb_exists in E as (x & Hx & Ex). destruct (fkey_eqb_spec k x); [now subst|discriminate].
    - split.
      + constructor; [|exact IH1]. rewrite IH2. intros H. assert (existsb (fkey_eqb k) l = true) by (apply existsb_exists; exists k; split; [exact H|now destruct (fkey_eqb_spec k k)]). congruence.
      + intros k'. cbn [In]. now rewrite IH2.
  Qed.
  Lemma groups_spec (zf : list (frow P)) : NoDup (groups zf) /\ forall k, In k (groups zf) <-> exists r, In r zf /\ fkey r = k.
  Proof.
    unfold groups. destruct (dedup_spec (map fkey zf)) as [A B]. assert (Hp : Permutation (isort fkey_leb (dedup_keys (map fkey zf))) (dedup_keys (map fkey zf))) by (symmetry; apply isort_perm). split.
    - eapply Permutation_NoDup; [symmetry; exact Hp|exact A].
    - intros k. split; intros H.
      + eapply Permutation_in in H; [|exact Hp]. apply B in H. apply in_map_iff in H as (r & <- & Hr). eauto.
      + eapply Permutation_in; [symmetry; exact Hp|]. apply B. apply in_map_iff. destruct H as (r & Hr & <-). eauto.
  Qed.
  Lemma add_groups (zs : zscan_t) (zf : list (frow P)) : forall ks d, (forall k, In k ks -> exists s, entry zs (kt k) (mk k) = Ok s) ->
    exists d', fold_left (add_group zs zf) ks (Ok d) = Ok d' /\
      forall t ft, (forall k, In k ks -> kt k = t -> mk k = ft -> exists k', In k' ks /\ kt k' = t /\ mk k' = ft /\ look d' t ft = Some (filter (fun r => fkey_eqb (fkey r) k') zf)) /\
                   ((forall k, In k ks -> ~ (kt k = t /\ mk k = ft)) -> look d' t ft = look d t ft).
  Proof.
    induction ks as [|k ks IH]; intros d H.
    - exists d. split; [reflexivity|]. intros t ft. split; [intros k []|reflexivity].
    - cbn [fold_left]. destruct k as [[t0 s0] u0]. unfold add_group at 2. cbn [rbind].
      destruct (H (t0, s0, u0) (or_introl eq_refl)) as (s & Es). cbn [kt mk fst] in Es. rewrite Es. cbn [rbind].
      set (rows := filter (fun r => fkey_eqb (fkey r) (t0, s0, u0)) zf). set (ft0 := make_fulltype s0 (Some u0)) in *.
      set (d1 := dset d t0 (sset (match dget d t0 with Some x => x | None => [] end) ft0 rows)).
      assert (L1 : forall t ft, look d1 t ft = if (t0 =? t)%Z && String.eqb ft0 ft then Some rows else look d t ft).
      { intros t ft. unfold look, d1. rewrite dget_dset. destruct (Z.eqb_spec t0 t) as [->|]; cbn [andb]; [|reflexivity].
        rewrite sget_sset. destruct (String.eqb ft0 ft); [reflexivity|]. destruct (dget d t); reflexivity. }
      destruct (IH d1) as (d' & E & HL); [intros k Hk; apply H; now right|]. exists d'. split; [exact E|]. intros t ft. destruct (HL t ft) as [HA HB]. split.
      + intros k Hk Hkt Hmk.
        assert (Hdec : (exists k2, In k2 ks /\ kt k2 = t /\ mk k2 = ft) \/ forall k2, In k2 ks -> ~ (kt k2 = t /\ mk k2 = ft)).
        { clear. induction ks as [|a ks IH]; [right; intros k []|]. destruct IH as [(k2 & A & B)|IH]; [left; exists k2; split; [now right|exact B]|].
          destruct (Z.eq_dec (kt a) t) as [E1|E1]; [destruct (string_dec (mk a) ft) as [E2|E2]|]; [left; exists a; split; [now left|auto]|right..];
            intros k2 [<-|Hk]; auto; intros [? ?]; contradiction. }
        destruct Hdec as [(k2 & A & B & C)|Hno].
        * destruct (HA k2 A B C) as (k' & D & F). exists k'. split; [now right|exact F].
        * rewrite (HB Hno). destruct Hk as [<-|Hk]; [|exfalso; apply (Hno k Hk); auto]. exists (t0, s0, u0). split; [now left|]. split; [exact Hkt|]. split; [exact Hmk|].
          rewrite L1. unfold kt, mk in Hkt, Hmk. cbn [fst] in Hkt. fold ft0 in Hmk. rewrite <- Hkt, <- Hmk, Z.eqb_refl, String.eqb_refl. reflexivity.
      + intros Hno. rewrite HB by (intros k Hk; apply Hno; now right). rewrite L1. specialize (Hno (t0, s0, u0) (or_introl eq_refl)). cbn [kt mk fst] in Hno. fold ft0 in Hno.
        destruct (Z.eqb_spec t0 t); cbn [andb]; [|reflexivity]. destruct (String.eqb_spec ft0 ft); [exfalso; apply Hno; auto|reflexivity].
  Qed.
End Read.

Section Write.
  Context {P : Type} (f32 : Q -> Q) (cast : P -> P).
  Definition ent (zs : zscan_t) (t : Z) (ft : string) : scan :=
    match entry zs t ft with Ok s => s | Err _ => {| sc_z := []; sc_chi2 := []; sc_pen := []; sc_coeff := [] |} end.
  Definition grp (zs : zscan_t) (t0 : Z) (ids : list Z) (ft : string) : h5grp :=
    {| g_z := sc_z (ent zs t0 ft); g_chi2 := map (fun t => map f32 (sc_chi2 (ent zs t ft))) ids;
       g_pen := map (fun t => map f32 (sc_pen (ent zs t ft))) ids; g_coeff := map (fun t => map (map f32) (sc_coeff (ent zs t ft))) ids |}.
  Lemma int8_id z : (0 <= z < 128)%Z -> int8 z = z.
  Proof. intros H. unfold int8. rewrite Z.mod_small by lia. lia. Qed.
  Lemma same_shape_iff : forall a b, map (@length Q) a = map (@length Q) b -> same_shape a b = true.
  Proof.
    intros a b H. unfold same_shape. assert (Hl : length a = length b) by (apply (f_equal (@length nat)) in H; now rewrite !map_length in H).
    rewrite Hl, Nat.eqb_refl. cbn [andb]. clear Hl. revert b H. induction a as [|x a IH]; intros [|y b] H; try reflexivity; try discriminate H. injection H as H1 H2. cbn [combine forallb fst snd]. rewrite H1, Nat.eqb_refl. now apply IH.
  Qed.
  Lemma write_group_ok zs t0 ids ft : ids <> [] -> In t0 ids -> (forall t, In t ids -> exists s, entry zs t ft = Ok s) ->
    (forall t t' s s', In t ids -> In t' ids -> entry zs t ft = Ok s -> entry zs t' ft = Ok s' ->
      sc_z s = sc_z s' /\ length (sc_chi2 s) = length (sc_chi2 s') /\ length (sc_pen s) = length (sc_pen s') /\ map (@length Q) (sc_coeff s) = map (@length Q) (sc_coeff s')) ->
    write_group f32 zs t0 ids ft = Ok (ft, grp zs t0 ids ft).
  Proof.
    intros Hne Ht0 He Hs. unfold write_group.
    assert (Hent : forall t, In t ids -> entry zs t ft = Ok (ent zs t ft)) by (intros t Ht; destruct (He t Ht) as (s & E); unfold ent; now rewrite E).
    rewrite (mapM_map_ok _ (fun t => ent zs t ft)) by (intros; now apply Hent). cbn [rbind]. rewrite !map_map.
    assert (V1 : forall pr : scan -> list Q, (forall t t', In t ids -> In t' ids -> length (pr (ent zs t ft)) = length (pr (ent zs t' ft))) ->
       vstack1 (map (fun t => map f32 (pr (ent zs t ft))) ids) = Ok (map (fun t => map f32 (pr (ent zs t ft))) ids)).
    { intros pr Hpr. destruct ids as [|a ids']; [congruence|]. cbn [map vstack1].
      replace (forallb _ _) with true; [reflexivity|]. symmetry. apply forallb_forall. intros x Hx. apply in_map_iff in Hx as (t & <- & Ht). rewrite !map_length. apply Nat.eqb_eq. apply Hpr; [now right|now left]. }
    rewrite (V1 sc_chi2) by (intros t t' Ht Ht'; eapply Hs; [exact Ht|exact Ht'|now apply Hent|now apply Hent]). cbn [rbind].
    rewrite (V1 sc_pen) by (intros t t' Ht Ht'; eapply Hs; [exact Ht|exact Ht'|now apply Hent|now apply Hent]). cbn [rbind].
    assert (V2 : vstack2 (map (fun t => map (map f32) (sc_coeff (ent zs t ft))) ids) = Ok (map (fun t => map (map f32) (sc_coeff (ent zs t ft))) ids)).
    { destruct ids as [|a ids']; [congruence|]. cbn [map vstack2]. replace (forallb _ _) with true; [reflexivity|]. symmetry. apply forallb_forall. intros x Hx. apply in_map_iff in Hx as (t & <- & Ht).
      apply same_shape_iff. rewrite !map_map. erewrite map_ext; [|intros; apply map_length]. symmetry. erewrite map_ext; [|intros; apply map_length]. symmetry.
      eapply Hs; [now left|right; exact Ht|apply Hent; now left|apply Hent; now right]. }
    rewrite V2. cbn [rbind]. rewrite (Hent t0 Ht0). reflexivity.
  Qed.
  Lemma write_fits_ok (zf : list (frow P)) : forall ids acc, NoDup (map fst acc ++ ids) ->
    write_fits zf ids acc = Ok (acc ++ map (fun t => (t, filter (fun x => f_tid x =? t)%Z zf)) ids).
  Proof.
    induction ids as [|t ids IH]; intros acc H; cbn [write_fits map]; [now rewrite app_nil_r|].
    destruct (dget acc t) as [v|] eqn:E.
    - exfalso. assert (Hin : In t (map fst acc)) by (destruct (in_dec Z.eq_dec t (map fst acc)) as [i|i]; [exact i|apply dget_none in i; congruence]).
      eapply NoDup_remove_2; [exact H|]. apply in_or_app. now left.
    - rewrite IH; [now rewrite <- app_assoc|]. rewrite map_app, <- app_assoc. exact H.
  Qed.
  Lemma filter_map_comm {A B} (f : B -> bool) (g : A -> B) l : filter f (map g l) = map g (filter (fun x => f (g x)) l).
  Proof. induction l as [|a l IH]; [reflexivity|]. cbn. destruct (f (g a)); cbn; now rewrite IH. Qed.
  Lemma cast_rows (zfit : list (frow P)) : (forall r, In r zfit -> (0 <= f_znum r < 128)%Z) -> map (cast_row cast) zfit = map (lower_row cast) zfit.
  Proof. intros H. apply map_ext_in. intros r Hr. unfold cast_row, lower_row. now rewrite (int8_id _ (H r Hr)). Qed.
  Lemma write_ok zs zfit ids types : details_ok zs zfit ids types ->
    exists t0 h d0, In t0 ids /\ dget zs t0 = Some d0 /\ write_zscan f32 cast zs zfit = Ok h /\ h_ids h = ids /\
      h_scan h = map (fun ft => (ft, grp zs t0 ids ft)) (map fst d0) /\
      h_fit h = map (fun t => (t, filter (fun x => f_tid x =? t)%Z (map (lower_row cast) zfit))) ids /\
      h_zbest h = map (lower_row cast) (filter (fun r => (f_znum r =? 0)%Z) zfit).
  Proof.
    intros D. unfold write_zscan.
    rewrite cast_rows by (intros r Hr; apply (do_rows _ _ _ _ D r Hr)).
    assert (Hb : filter (fun r : frow P => (f_znum r =? 0)%Z) (map (lower_row cast) zfit) = map (lower_row cast) (filter (fun r => (f_znum r =? 0)%Z) zfit))
      by exact (filter_map_comm _ _ zfit).
    assert (Hi : map f_tid (map (lower_row cast) (filter (fun r => (f_znum r =? 0)%Z) zfit)) = ids)
      by (rewrite map_map; exact (do_ids _ _ _ _ D)).
    cbv zeta. rewrite Hb, Hi. clear Hi.
    pose proof (do_some _ _ _ _ D) as Hne. pose proof (do_nodup _ _ _ _ D) as Hnd. destruct ids as [|t0 ids']; [congruence|].
    destruct (do_scans _ _ _ _ D t0 (or_introl eq_refl)) as (d0 & Ed & Hn0 & Hk0). rewrite Ed.
    assert (Hent : forall t ft, In t (t0 :: ids') -> In ft (map fst d0) -> exists s, entry zs t ft = Ok s).
    { intros t ft Ht Hft. apply Hk0 in Hft. destruct (do_scans _ _ _ _ D t Ht) as (d & Ed' & _ & Hk). apply Hk in Hft. unfold entry. rewrite Ed'.
      destruct (sget d ft) as [s|] eqn:Es; [eauto|]. apply sget_none in Es. contradiction. }
    rewrite (mapM_map_ok _ (fun ft => (ft, grp zs t0 (t0 :: ids') ft))).
    2:{ intros ft Hft. apply write_group_ok; [discriminate|now left|intros t Ht; now apply Hent|]. intros t t' s s' Ht Ht' E E'. exact (do_grid _ _ _ _ D t t' ft s s' Ht Ht' E E'). }
    cbn [rbind]. rewrite write_fits_ok by exact Hnd. cbn [rbind app].
    exists t0. eexists. exists d0. split; [now left|]. split; [exact Ed|]. split; [reflexivity|]. cbn [h_ids h_scan h_fit h_zbest]. auto.
  Qed.
  Lemma written_ok zs zfit ids types t0 (h : h5 P) d0 : details_ok (P := P) zs zfit ids types -> In t0 ids -> dget zs t0 = Some d0 -> h_ids h = ids ->
    h_scan h = map (fun ft => (ft, grp zs t0 ids ft)) (map fst d0) -> scans_ok h.
  Proof.
    intros D Ht0 Ed Hi Hs. destruct (do_scans _ _ _ _ D t0 Ht0) as (d & Ed' & Hn & Hk). rewrite Ed in Ed'. assert (d0 = d) by congruence. subst d.
    split; [rewrite Hi; exact (do_nodup _ _ _ _ D)|]. rewrite Hs. split; [rewrite map_map; cbn [fst]; now rewrite map_id|].
    intros ft g Hin. apply in_map_iff in Hin as (x & E & Hx). injection E as <- <-. split; [apply (do_types _ _ _ _ D); now apply Hk|].
    unfold grp. cbn [g_chi2 g_pen g_coeff]. rewrite !map_length, Hi. auto.
  Qed.
  Lemma scan_at_grp zs zfit ids types t0 ft i t s : details_ok (P := P) zs zfit ids types -> In t0 ids -> nth_error ids i = Some t -> entry zs t ft = Ok s ->
    scan_at (grp zs t0 ids ft) i = lower f32 s.
  Proof.
    intros D Ht0 Hi Es. pose proof (nth_error_In _ _ Hi) as Hin.
    assert (E0 : ent zs t ft = s) by (unfold ent; now rewrite Es).
    assert (Hz : sc_z (ent zs t0 ft) = sc_z s).
    { destruct (do_scans _ _ _ _ D t0 Ht0) as (d & Ed & _ & Hk). assert (Hft : In ft types).
      { destruct (do_scans _ _ _ _ D t Hin) as (d' & Ed' & _ & Hk'). apply Hk'. unfold entry in Es. rewrite Ed' in Es. destruct (sget d' ft) eqn:Eg; [|discriminate].
        apply sget_some_in in Eg. apply in_map_iff. eexists. split; [|exact Eg]. reflexivity. }
      apply Hk in Hft. destruct (entry zs t0 ft) as [s0|] eqn:E1.
      - unfold ent. rewrite E1. apply (do_grid _ _ _ _ D t0 t ft s0 s Ht0 Hin E1 Es).
      - exfalso. unfold entry in E1. rewrite Ed in E1. destruct (sget d ft) eqn:Eg; [discriminate|]. apply sget_none in Eg. contradiction. }
    unfold scan_at, grp, lower. cbn [g_z g_chi2 g_pen g_coeff]. rewrite Hz.
    assert (G : forall {A} (f : Z -> list A), nth i (map f ids) [] = f t) by (intros A f; apply nth_error_nth; rewrite nth_error_map, Hi; reflexivity).
    rewrite !G, E0. reflexivity.
  Qed.
  Lemma dget_h_fit (zf : list (frow P)) ids t : In t ids -> dget (map (fun t => (t, filter (fun x => f_tid x =? t)%Z zf)) ids) t = Some (filter (fun x => f_tid x =? t)%Z zf).
  Proof. induction ids as [|a ids IH]; intros H; [destruct H|]. cbn [map dget]. destruct (Z.eqb_spec a t) as [->|Hne]; [reflexivity|]. apply IH. destruct H; [congruence|assumption]. Qed.
  Lemma filter_concat_tid (zf : list (frow P)) t : forall l, NoDup l -> filter (fun x => f_tid x =? t)%Z (concat (map (fun u => filter (fun x => f_tid x =? u)%Z zf) l)) =
    if existsb (Z.eqb t) l then filter (fun x => f_tid x =? t)%Z zf else [].
  Proof.
    assert (G : forall u, filter (fun x => f_tid x =? t)%Z (filter (fun x => f_tid x =? u)%Z zf) = if (t =? u)%Z then filter (fun x => f_tid x =? t)%Z zf else []).
    { intros u. induction zf as [|r zf' IH]; [destruct (t =? u)%Z; reflexivity|]. cbn [filter]. destruct (Z.eqb_spec (f_tid r) u) as [E|E]; cbn [filter]; rewrite IH.
      - destruct (Z.eqb_spec (f_tid r) t), (Z.eqb_spec t u); try congruence; reflexivity.
      - destruct (Z.eqb_spec t u) as [->|]; [|reflexivity]. destruct (Z.eqb_spec (f_tid r) u); [congruence|reflexivity]. }
    induction l as [|u l IH]; intros Hn; [reflexivity|]. inversion Hn; subst. cbn [map concat existsb]. rewrite filter_app, IH, G by assumption.
    destruct (Z.eqb_spec t u) as [->|]; cbn [orb]; [|reflexivity]. destruct (existsb (Z.eqb u) l) eqn:E; [|now rewrite app_nil_r].
    exfalso. apply existsb_exists in E as (x & Hx & Ex). apply Z.eqb_eq in Ex. now subst x.
  Qed.
  Lemma concat_tid_perm (zf : list (frow P)) : forall l, NoDup l -> (forall r, In r zf -> In (f_tid r) l) ->
    Permutation (concat (map (fun u => filter (fun x => f_tid x =? u)%Z zf) l)) zf.
  Proof.
    intros l Hl H. revert zf H. induction l as [|u l IH]; intros zf H.
    - destruct zf as [|r zf]; [constructor|]. destruct (H r (or_introl eq_refl)).
    - inversion Hl; subst. cbn [map concat].
      assert (E : map (fun u0 => filter (fun x => f_tid x =? u0)%Z zf) l = map (fun u0 => filter (fun x => f_tid x =? u0)%Z (filter (fun x => negb (f_tid x =? u)%Z) zf)) l).
      { apply map_ext_in. intros v Hv. clear -Hv H2. induction zf as [|r zf IH]; [reflexivity|]. cbn [filter]. destruct (Z.eqb_spec (f_tid r) u) as [E|E]; cbn [negb filter].
        - destruct (Z.eqb_spec (f_tid r) v); [congruence|exact IH].
        - destruct (f_tid r =? v)%Z; [now rewrite IH|exact IH]. }
      rewrite E. rewrite (IH H3 (filter (fun x => negb (f_tid x =? u)%Z) zf)).
      + clear. induction zf as [|r zf IH]; [constructor|]. cbn [filter]. destruct (f_tid r =? u)%Z; cbn [negb app]; [now constructor|]. etransitivity; [symmetry; apply Permutation_middle|]. now constructor.
      + intros r Hr. apply filter_In in Hr as [Hr Hu]. destruct (H r Hr) as [E0|Hin]; [rewrite <- E0, Z.eqb_refl in Hu; discriminate|exact Hin].
  Qed.
End Write.
