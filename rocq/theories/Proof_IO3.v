(* Writing the details file and reading it back. *)
From Verif Require Import Prelude PreludeFacts Facts2 Model_Dist Proof_Dist3 Model_Zscan Model_IO Spec_IO Proof_IO Proof_IO2.

Lemma filter_filter {A} (f g : A -> bool) l : filter f (filter g l) = filter (fun x => g x && f x) l.
Proof. induction l as [|a l IH]; [reflexivity|]. cbn [filter]. destruct (g a); cbn [filter andb]; [destruct (f a); now rewrite IH|exact IH]. Qed.
Lemma dget_h_fit_none {P} (zf : list (frow P)) ids t : ~ In t ids -> dget (map (fun t => (t, filter (fun x => f_tid x =? t)%Z zf)) ids) t = None.
Proof. intros H. apply dget_none. rewrite map_map. cbn [fst]. now rewrite map_id. Qed.

Section Roundtrip.
  Context {P : Type} (f32 : Q -> Q) (cast : P -> P).
  Definition lower_res (r : res scan) : res scan := match r with Ok s => Ok (lower f32 s) | Err e => Err e end.
  Definition chosen (ids : list Z) (sel : option (list Z)) : list Z := match sel with None => ids | Some l => l end.
  Lemma entry_types zs (zfit : list (frow P)) ids types t ft : details_ok (P := P) zs zfit ids types -> In t ids -> (In ft types <-> exists s, entry zs t ft = Ok s) /\ (~ In ft types -> entry zs t ft = Err KeyError).
  Proof.
    intros D Ht. destruct (do_scans _ _ _ _ D t Ht) as (d & Ed & _ & Hk). unfold entry. rewrite Ed. split.
    - rewrite <- Hk. split.
      + intros H. destruct (sget d ft) eqn:E; [eauto|]. apply sget_none in E. contradiction.
      + intros (s & H). destruct (sget d ft) eqn:E; [|discriminate]. apply sget_some_in in E. apply in_map_iff. eexists. split; [|exact E]. reflexivity.
    - intros H. destruct (sget d ft) eqn:E; [|reflexivity]. exfalso. apply H, Hk. apply sget_some_in in E. apply in_map_iff. eexists. split; [|exact E]. reflexivity.
  Qed.
  Lemma sget_map_pair {V} (g : string -> V) l ft : sget (map (fun x => (x, g x)) l) ft = if existsb (String.eqb ft) l then Some (g ft) else None.
  Proof.
    induction l as [|a l IH]; [reflexivity|]. cbn [map sget existsb]. rewrite (String.eqb_sym ft a). destruct (String.eqb_spec a ft) as [->|]; [reflexivity|exact IH].
  Qed.
  Lemma entries_back zs zfit ids types t0 (h : h5 P) d0 sel t ft : details_ok (P := P) zs zfit ids types -> In t0 ids -> dget zs t0 = Some d0 -> h_ids h = ids ->
    h_scan h = map (fun ft => (ft, grp f32 zs t0 ids ft)) (map fst d0) -> incl (chosen ids sel) ids -> In t (chosen ids sel) ->
    entry (map (fun p => (snd p, row_of h (fst p))) (selected (h_ids h) sel)) t ft = lower_res (entry zs t ft).
  Proof.
    intros D Ht0 Ed Hi Hs Hincl Ht. pose proof (written_ok f32 zs zfit ids types t0 h d0 D Ht0 Ed Hi Hs) as Hok. rewrite (entry_read h sel t ft Hok).
    pose proof (Hincl t Ht) as Hti. destruct (In_nth_error _ _ Hti) as (i & Hnth).
    rewrite (find_selected h sel i t); [|rewrite Hi; exact (do_nodup _ _ _ _ D)|now rewrite Hi|destruct sel; [exact Ht|exact I]]. cbn [fst].
    destruct (do_scans _ _ _ _ D t0 Ht0) as (d & Ed' & Hn & Hk). rewrite Ed in Ed'. assert (d0 = d) by congruence. subst d.
    rewrite Hs, sget_map_pair. destruct (existsb (String.eqb ft) (map fst d0)) eqn:E.
    - apply existsb_exists in E as (x & Hx & Ex). apply String.eqb_eq in Ex. subst x. apply Hk in Hx. destruct (proj1 (proj1 (entry_types zs zfit ids types t ft D Hti)) Hx) as (s & Es).
      rewrite (scan_at_grp f32 zs zfit ids types t0 ft i t s D Ht0 Hnth Es), Es. reflexivity.
    - rewrite (proj2 (entry_types zs zfit ids types t ft D Hti)); [reflexivity|]. intros H. apply Hk in H.
      assert (existsb (String.eqb ft) (map fst d0) = true) by (apply existsb_exists; exists ft; split; [exact H|apply String.eqb_refl]). congruence.
  Qed.
  Theorem roundtrip zs zfit ids types sel : details_ok (P := P) zs zfit ids types ->
    NoDup (chosen ids sel) -> incl (chosen ids sel) ids -> chosen ids sel <> [] ->
    exists h zs' fits zf, write_zscan f32 cast zs zfit = Ok h /\ read_zscan h sel = Ok (zs', fits, zf) /\ read_scans h sel = Ok zs' /\
      map fst zs' = filter (fun t => existsb (Z.eqb t) (chosen ids sel)) ids /\
      (forall t ft, In t (chosen ids sel) -> entry zs' t ft = lower_res (entry zs t ft)) /\
      (forall t ft, ~ In t (chosen ids sel) -> entry zs' t ft = Err KeyError) /\
      Permutation zf (filter (fun r => existsb (Z.eqb (f_tid r)) (chosen ids sel)) (map (lower_row cast) zfit)) /\
      (forall t, In t (chosen ids sel) -> filter (fun r => (f_tid r =? t)%Z) zf = filter (fun r => (f_tid r =? t)%Z) (map (lower_row cast) zfit)) /\
      (forall t ft, In t (chosen ids sel) -> look fits t ft = some_rows (rows_for t ft (map (lower_row cast) zfit))) /\
      (forall t ft, ~ In t (chosen ids sel) -> look fits t ft = None).
  Proof.
    intros D Hnd Hincl Hne. destruct (write_ok f32 cast zs zfit ids types D) as (t0 & h & d0 & Ht0 & Ed & Ew & Hi & Hs & Hf & Hb).
    pose proof (written_ok f32 zs zfit ids types t0 h d0 D Ht0 Ed Hi Hs) as Hok.
    set (zl := map (lower_row cast) zfit) in *.
    set (ch := chosen ids sel) in *.
    set (zs' := map (fun p => (snd p, row_of h (fst p))) (selected (h_ids h) sel)).
    set (zf := concat (map (fun u => filter (fun x => f_tid x =? u)%Z zl) ch)).
    assert (Ez : read_zfit h sel = Ok zf).
    { unfold read_zfit. replace (match sel with None => h_ids h | Some l => l end) with ch by (unfold ch, chosen; destruct sel; [reflexivity|now rewrite Hi]).
      rewrite (mapM_map_ok _ (fun u => filter (fun x => f_tid x =? u)%Z zl)).
      - cbn [rbind]. unfold zf. destruct (map _ ch) eqn:E; [|reflexivity]. apply map_eq_nil in E. contradiction.
      - intros u Hu. rewrite Hf, dget_h_fit by (now apply Hincl). reflexivity. }
    assert (Hent : forall t ft, In t ch -> entry zs' t ft = lower_res (entry zs t ft)) by (intros t ft Ht; exact (entries_back zs zfit ids types t0 h d0 sel t ft D Ht0 Ed Hi Hs Hincl Ht)).
    assert (Hrow : forall r, In r zf -> exists r0, In r0 zfit /\ r = lower_row cast r0 /\ In (f_tid r0) ch).
    { intros r Hr. unfold zf in Hr. apply in_concat in Hr as (x & Hx & Hr). apply in_map_iff in Hx as (u & <- & Hu). apply filter_In in Hr as [Hr Eu]. apply Z.eqb_eq in Eu.
      unfold zl in Hr. apply in_map_iff in Hr as (r0 & <- & Hr0). exists r0. split; [exact Hr0|]. split; [reflexivity|]. cbn [lower_row f_tid] in Eu. now rewrite Eu. }
    assert (Hft : forall t, In t ch -> filter (fun r => (f_tid r =? t)%Z) zf = filter (fun r => (f_tid r =? t)%Z) zl).
    { intros t Ht. unfold zf. rewrite filter_concat_tid by exact Hnd. replace (existsb (Z.eqb t) ch) with true; [reflexivity|]. symmetry. apply existsb_exists. exists t. split; [exact Ht|apply Z.eqb_refl]. }
    assert (Hkey : forall k, In k (groups zf) -> exists s, entry zs' (kt k) (mk k) = Ok s).
    { intros k Hk. apply (proj2 (groups_spec zf)) in Hk as (r & Hr & <-). destruct (Hrow r Hr) as (r0 & Hr0 & -> & Hc). unfold fkey, kt, mk. cbn [lower_row f_tid f_type f_sub fst snd].
      rewrite Hent by exact Hc. destruct (do_rows _ _ _ _ D r0 Hr0) as (H1 & _ & H3). destruct (proj1 (proj1 (entry_types zs zfit ids types (f_tid r0) _ D H1)) H3) as (s & Es). rewrite Es. cbn [lower_res]. eauto. }
    destruct (add_groups zs' zf (groups zf) [] Hkey) as (fits & Efit & Hlook).
    exists h, zs', fits, zf. split; [exact Ew|]. split; [|split; [|split; [|split; [|split; [|split; [|split; [|split]]]]]]].
    - unfold read_zscan. rewrite (read_scans_ok h sel Hok). cbn [rbind]. rewrite Ez. change (rbind (fold_left (add_group zs' zf) (groups zf) (Ok [])) (fun fits => Ok (zs', fits, zf)) = Ok (zs', fits, zf)). exact (f_equal (fun r => rbind r (fun fits0 => Ok (zs', fits0, zf))) Efit).
    - exact (read_scans_ok h sel Hok).
    - unfold zs'. rewrite map_map. cbn [fst]. rewrite selected_snd, Hi. unfold ch, chosen. destruct sel as [l|]; [reflexivity|].
      symmetry. clear. assert (G : forall l : list Z, incl l ids -> filter (fun t => existsb (Z.eqb t) ids) l = l).
      { induction l as [|a l IH]; intros H; [reflexivity|]. cbn [filter]. replace (existsb (Z.eqb a) ids) with true.
        - rewrite IH; [reflexivity|]. intros x Hx. apply H. now right.
        - symmetry. apply existsb_exists. exists a. split; [apply H; now left|apply Z.eqb_refl]. }
      apply G, incl_refl.
    - exact Hent.
    - intros t ft Ht. unfold zs'. rewrite (entry_read h sel t ft Hok). rewrite find_unselected; [reflexivity|]. unfold ch, chosen in Ht. destruct sel as [l|]; [now right|left; now rewrite Hi].
    - unfold zf. rewrite <- (concat_tid_perm (filter (fun r => existsb (Z.eqb (f_tid r)) ch) zl) ch Hnd).
      + assert (E : map (fun u => filter (fun x => (f_tid x =? u)%Z) zl) ch = map (fun u => filter (fun x => (f_tid x =? u)%Z) (filter (fun r => existsb (Z.eqb (f_tid r)) ch) zl)) ch); [|rewrite E; reflexivity].
        apply map_ext_in. intros u Hu. rewrite filter_filter. apply filter_ext_in. intros r _. destruct (Z.eqb_spec (f_tid r) u) as [E|E]; [|now rewrite andb_false_r]. rewrite andb_true_r. symmetry. apply existsb_exists. exists u. split; [exact Hu|now apply Z.eqb_eq].
      + intros r Hr. apply filter_In in Hr as [_ Hr]. apply existsb_exists in Hr as (u & Hu & E). apply Z.eqb_eq in E. now rewrite E.
    - exact Hft.
    - intros t ft Ht. destruct (Hlook t ft) as [HA HB].
      assert (Er : rows_for t ft zl = rows_for t ft zf).
      { unfold rows_for. rewrite <- !(filter_filter (fun r => String.eqb (make_fulltype (f_type r) (Some (f_sub r))) ft) (fun r => (f_tid r =? t)%Z)). now rewrite Hft. }
      rewrite Er. destruct (rows_for t ft zf) as [|r rs] eqn:Erows.
      + cbn [some_rows]. rewrite HB; [reflexivity|]. intros k Hk [K1 K2]. apply (proj2 (groups_spec zf)) in Hk as (r & Hr & <-).
        assert (Hin : In r (rows_for t ft zf)); [|rewrite Erows in Hin; destruct Hin]. unfold rows_for. apply filter_In. split; [exact Hr|]. unfold kt, mk, fkey in K1, K2. cbn [fst] in K1. rewrite K1, K2, Z.eqb_refl, String.eqb_refl. reflexivity.
      + assert (Hin : In r (rows_for t ft zf)) by (rewrite Erows; now left). rewrite <- Erows. unfold rows_for in Hin. apply filter_In in Hin as [Hr Hcond]. apply andb_prop in Hcond as [C1 C2]. apply Z.eqb_eq in C1. apply String.eqb_eq in C2.
        destruct (HA (fkey r)) as (k' & Hk' & K1 & K2 & Hl); [apply groups_spec; eauto|exact C1|exact C2|].
        rewrite Hl. assert (Ef : filter (fun r => fkey_eqb (fkey r) k') zf = rows_for t ft zf).
        { unfold rows_for. apply filter_ext_in. intros r2 Hr2. apply (proj2 (groups_spec zf)) in Hk' as (r1 & Hr1 & <-). unfold kt, mk, fkey in K1, K2. cbn [fst] in K1.
          destruct (fkey_eqb_spec (fkey r2) (fkey r1)) as [E|E].
          - unfold fkey in E. injection E as E1 E2 E3. rewrite E1, E2, E3, K1, K2, Z.eqb_refl, String.eqb_refl. reflexivity.
          - destruct (Z.eqb_spec (f_tid r2) t) as [T|T]; [|reflexivity]. cbn [andb]. destruct (String.eqb_spec (make_fulltype (f_type r2) (Some (f_sub r2))) ft) as [F|F]; [|reflexivity].
            exfalso. apply E. destruct (Hrow r1 Hr1) as (a & Ha & -> & _). destruct (Hrow r2 Hr2) as (b & Hb2 & -> & _). cbn [lower_row f_tid f_type f_sub] in *.
            destruct (do_names _ _ _ _ D b a Hb2 Ha) as [N1 N2]; [congruence|]. unfold fkey. cbn [lower_row f_tid f_type f_sub]. congruence. }
        rewrite Ef, Erows. reflexivity.
    - intros t ft Ht. destruct (Hlook t ft) as [_ HB]. rewrite HB; [reflexivity|]. intros k Hk [K1 _]. apply (proj2 (groups_spec zf)) in Hk as (r & Hr & <-). destruct (Hrow r Hr) as (r0 & _ & -> & Hc).
      unfold kt, fkey in K1. cbn [fst lower_row f_tid] in K1. congruence.
  Qed.
  (* the scan part, without any condition on the requested ids *)
  Lemma roundtrip_scans zs zfit ids types sel : details_ok (P := P) zs zfit ids types ->
    exists h zs', write_zscan f32 cast zs zfit = Ok h /\ read_scans h (Some sel) = Ok zs' /\ map fst zs' = filter (fun t => existsb (Z.eqb t) sel) ids /\
      (forall t ft, In t ids -> In t sel -> entry zs' t ft = lower_res (entry zs t ft)) /\
      (forall t ft, ~ (In t ids /\ In t sel) -> entry zs' t ft = Err KeyError).
  Proof.
    intros D. destruct (write_ok f32 cast zs zfit ids types D) as (t0 & h & d0 & Ht0 & Ed & Ew & Hi & Hs & Hf & Hb).
    pose proof (written_ok f32 zs zfit ids types t0 h d0 D Ht0 Ed Hi Hs) as Hok.
    exists h. eexists. split; [exact Ew|]. split; [exact (read_scans_ok h (Some sel) Hok)|]. split; [|split].
    - rewrite map_map. cbn [fst]. now rewrite selected_snd, Hi.
    - intros t ft Ht Hsel. set (sel' := filter (fun t => existsb (Z.eqb t) sel) ids).
      assert (Es : selected (h_ids h) (Some sel) = selected (h_ids h) (Some sel')).
      { cbn [selected]. apply filter_ext_in. intros [i x] Hp. apply enum_lt in Hp as [_ Hp]. cbn [fst snd] in *. apply nth_error_In in Hp. rewrite Hi in Hp.
        apply Bool.eq_iff_eq_true. rewrite !existsb_exists. split; intros (y & Hy & E); apply Z.eqb_eq in E; subst y.
        - exists x. split; [|apply Z.eqb_refl]. apply filter_In. split; [exact Hp|]. apply existsb_exists. exists x. split; [exact Hy|apply Z.eqb_refl].
        - apply filter_In in Hy as [_ Hy]. apply existsb_exists in Hy. exact Hy. }
      rewrite Es. apply (entries_back zs zfit ids types t0 h d0 (Some sel') t ft D Ht0 Ed Hi Hs).
      + intros x Hx. apply filter_In in Hx. tauto.
      + cbn [chosen]. apply filter_In. split; [exact Ht|]. apply existsb_exists. exists t. split; [exact Hsel|apply Z.eqb_refl].
    - intros t ft Ht. rewrite (entry_read h (Some sel) t ft Hok). rewrite find_unselected; [reflexivity|]. rewrite Hi. destruct (in_dec Z.eq_dec t ids); [right; tauto|now left].
  Qed.
  Lemma roundtrip_redrock zs zfit ids types : details_ok (P := P) zs zfit ids types ->
    exists h zs', write_zscan f32 cast zs zfit = Ok h /\ read_zscan_redrock h = Ok zs' /\ map fst zs' = ids /\ (forall t ft, In t ids -> entry zs' t ft = lower_res (entry zs t ft)).
  Proof.
    intros D. destruct (roundtrip zs zfit ids types None D (do_nodup _ _ _ _ D) (incl_refl _) (do_some _ _ _ _ D)) as (h & zs' & fits & zf & Ew & _ & Er & Hm & He & _).
    destruct (write_ok f32 cast zs zfit ids types D) as (t0 & h1 & d0 & Ht0 & Ed & Ew1 & Hi & Hs & Hf & Hb). assert (h1 = h) by congruence. subst h1.
    pose proof (written_ok f32 zs zfit ids types t0 h d0 D Ht0 Ed Hi Hs) as Hok. exists h, zs'. split; [exact Ew|].
    rewrite (read_scans_ok h None Hok) in Er. rewrite (read_redrock_ok h Hok). cbn [selected] in Er. split; [exact Er|]. split; [|exact He].
    assert (zs' = map (fun p => (snd p, row_of h (fst p))) (enum (h_ids h))) as -> by congruence. rewrite map_map. cbn [fst]. rewrite Hi. apply enum_from_snd.
  Qed.
End Roundtrip.
