(* Proofs about the whole serial run: what one target gets depends on that target and the templates only. *)
From Verif Require Import Prelude PreludeFacts NumX Facts2 Model_Fitz Model_Rebin Model_Dist Proof_Dist3 Proof_Table Model_Zscan Proof_Zscan2 Proof_Zscan3 Proof_Zscan4
  Model_Piece Model_IO Model_Zfind Model_Run.
Open Scope nat_scope.

(* equal hash, equal wavelengths *)
Definition one_grid_per_hash (ss : list rspec) : Prop := forall s s', In s ss -> In s' ss -> q_hash s = q_hash s' -> q_wave s = q_wave s'.
Definition gstep (d : dict (list Q)) (s : rspec) : dict (list Q) := match dget d (q_hash s) with Some _ => d | None => dset d (q_hash s) (q_wave s) end.
Lemma NoDup_app_intro {A} (a b : list A) : NoDup a -> NoDup b -> (forall x, In x a -> In x b -> False) -> NoDup (a ++ b).
Proof.
  induction a as [|x a IH]; intros Na Nb D; [exact Nb|]. inversion Na; subst. cbn. constructor; [|apply IH; auto; intros y Hy; apply D; now right].
  rewrite in_app_iff. intros [I|I]; [contradiction|]. apply (D x); [now left|exact I].
Qed.
Lemma dset_fresh_keys {V} (d : dict V) k v : dget d k = None -> dset d k v = d ++ [(k, v)].
Proof. induction d as [|[a x] d IH]; [reflexivity|]. cbn. destruct (Z.eqb_spec a k); [discriminate|]. intro H. now rewrite IH. Qed.
Lemma grids_fold ss : forall d, NoDup (map fst d) ->
  NoDup (map fst (fold_left gstep ss d)) /\ forall h, match dget d h with Some w => dget (fold_left gstep ss d) h = Some w
     | None => match dget (fold_left gstep ss d) h with Some w => exists s, In s ss /\ q_hash s = h /\ q_wave s = w | None => forall s, In s ss -> q_hash s <> h end end.
Proof.
  induction ss as [|s ss IH]; intros d Nd; cbn [fold_left].
  - split; [exact Nd|]. intro h. destruct (dget d h); [reflexivity|]. now intros.
  - destruct (dget d (q_hash s)) as [w|] eqn:Ew.
    + assert (Eg : gstep d s = d) by (unfold gstep; now rewrite Ew). rewrite Eg. destruct (IH d Nd) as [N H]. split; [exact N|]. intro h. specialize (H h). destruct (dget d h) as [w'|] eqn:E'; [exact H|].
      destruct (dget (fold_left gstep ss d) h) as [w'|]; [destruct H as (s' & I & H); exists s'; split; [now right|exact H]|]. intros s' [<-|I]; [congruence|now apply H].
    + assert (Eg : gstep d s = dset d (q_hash s) (q_wave s)) by (unfold gstep; now rewrite Ew). rewrite Eg. assert (Nd' : NoDup (map fst (dset d (q_hash s) (q_wave s)))).
      { rewrite dset_fresh_keys, map_app by exact Ew. apply NoDup_app_intro; [exact Nd|constructor; [intros []|constructor]|]. intros x Hx [<-|[]]. apply dget_none in Ew. now apply Ew. }
      destruct (IH _ Nd') as [N H]. split; [exact N|]. intro h. specialize (H h). rewrite dget_dset in H.
      destruct (Z.eqb_spec (q_hash s) h) as [Eh|Nh].
      * rewrite <- Eh in *. rewrite Ew. rewrite H. exists s. split; [now left|now split].
      * destruct (dget d h) as [u|]; [exact H|]. destruct (dget (fold_left gstep ss (dset d (q_hash s) (q_wave s))) h); [destruct H as (s' & I & H); exists s'; split; [now right|exact H]|]. intros s' [<-|I]; [exact Nh|now apply H].
Qed.
Lemma grids_get tgs h w : one_grid_per_hash (flat_map g_spectra tgs) -> (dget (grids tgs) h = Some w <-> exists s, In s (flat_map g_spectra tgs) /\ q_hash s = h /\ q_wave s = w).
Proof.
  intro C. destruct (grids_fold (flat_map g_spectra tgs) [] (NoDup_nil _)) as [_ H]. specialize (H h). cbn [dget] in H. change (fold_left gstep (flat_map g_spectra tgs) []) with (grids tgs) in H.
  destruct (dget (grids tgs) h) as [w'|].
  - destruct H as (s & I & Hh & Hw). split.
    + intro E. injection E as <-. now exists s.
    + intros (s' & I' & Hh' & Hw'). f_equal. rewrite <- Hw, <- Hw'. apply C; auto. congruence.
  - split; [discriminate|]. intros (s & I & Hh & _). exfalso. now apply (H s).
Qed.
Lemma grids_nodup tgs : NoDup (map fst (grids tgs)).
Proof. exact (proj1 (grids_fold (flat_map g_spectra tgs) [] (NoDup_nil _))). Qed.

(* ---------- template data ---------- *)
Lemma mapM_then {A B C} (F : A -> res B) (G : A * B -> res C) l o : (do d <- mapM F l; mapM G (combine l d)) = Ok o <-> Forall2 (fun a c => exists b, F a = Ok b /\ G (a, b) = Ok c) l o.
Proof.
  revert o. induction l as [|a l IH]; intro o.
  - cbn. split; [intro H; assert (o = []) by congruence; subst; constructor|intro H; now inversion H].
  - cbn [mapM]. split.
    + destruct (F a) as [b|] eqn:Eb; cbn [rbind]; [|discriminate]. destruct (mapM F l) as [d|] eqn:Ed; cbn [rbind]; [|discriminate]. cbn [combine mapM].
      destruct (G (a, b)) as [c|] eqn:Ec; cbn [rbind]; [|discriminate]. destruct (mapM G (combine l d)) as [o'|] eqn:Eo; cbn [rbind]; [|discriminate]. intro H. assert (o = c :: o') by congruence. subst.
      constructor; [now exists b|]. apply IH. exact Eo.
    + intro H. inversion H as [|? c ? o' (b & Eb & Ec) Ho]; subst. rewrite Eb. cbn [rbind]. apply IH in Ho. destruct (mapM F l) as [d|]; cbn [rbind] in Ho |- *; [|discriminate]. cbn [combine mapM]. rewrite Ec. cbn [rbind]. now rewrite Ho.
Qed.

Section R.
Variables (slv : solvers) (argsort : list xq -> list nat) (polyfit : list Q -> list Q -> option (Q * Q * Q)) (isqrt : Q -> Q).
Variable trans : option string -> Q -> Q -> Q.
Variables (nminima nz : nat).
Notation tdata := (tdata trans). Notation attenuate := (attenuate trans).

Definition ends (p : tmpl) (zs : list Q) : res (Q * Q) :=
  do w0 <- get (t_wave (p_core p)) 0; do w1 <- getm1 (t_wave (p_core p)) 0;
  do x0 <- (match zs with [] => Err ValueError | _ => Ok (w0 * (1 + amax zs))%Q end);
  do x1 <- (match zs with [] => Err ValueError | _ => Ok (w1 * (1 + amin zs))%Q end); Ok (x0, x1).
Definition one_grid (p : tmpl) (zs : list Q) (x : Q * Q) (w : list Q) : res (list mat) :=
  do e <- centers2edges w; do b <- trapz_rebin (t_wave (p_core p)) (Y2 (t_flux (p_core p))) e (ZArray zs) false (Some (fst x)) (Some (snd x)) None None;
  match b with V3 m => Ok (attenuate (p_igm p) zs w m) | _ => Err ValueError end.
Lemma tdata_ok p dw zs td : tdata p dw zs = Ok td <-> exists x, ends p zs = Ok x /\ Forall2 (fun kw kd => fst kd = fst kw /\ one_grid p zs x (snd kw) = Ok (snd kd)) dw td.
Proof.
  unfold Model_Run.tdata, rebin_template, ends, odef. destruct (get (t_wave (p_core p)) 0) as [w0|]; cbn [rbind]; [|split; [discriminate|intros (x & H & _); discriminate]].
  destruct (getm1 (t_wave (p_core p)) 0) as [w1|]; cbn [rbind]; [|split; [discriminate|intros (x & H & _); discriminate]].
  destruct (match zs with [] => Err ValueError | _ => Ok (w0 * (1 + amax zs))%Q end) as [x0|]; cbn [rbind]; [|split; [discriminate|intros (x & H & _); discriminate]].
  destruct (match zs with [] => Err ValueError | _ => Ok (w1 * (1 + amin zs))%Q end) as [x1|]; cbn [rbind]; [|split; [discriminate|intros (x & H & _); discriminate]].
  split.
  - intro H. apply (proj1 (mapM_then _ _ _ _)) in H. exists (x0, x1). split; [reflexivity|]. eapply Forall2_impl; [|exact H]. intros [k w] [k' m] (b & Hb & Hm). cbn [fst snd] in *. unfold one_grid. cbn [fst snd].
    destruct (centers2edges w) as [e|]; cbn [rbind] in *; [|discriminate]. destruct (trapz_rebin _ _ _ _ _ _ _ _ _) as [b'|]; cbn [rbind] in *; [|discriminate].
    assert (b = (k, b')) by congruence. subst. cbn [snd] in Hm. destruct b'; try discriminate. split; [congruence|]. congruence.
  - intros (x & Hx & H). assert (x = (x0, x1)) by congruence. subst. apply (proj2 (mapM_then _ _ _ _)). eapply Forall2_impl; [|exact H]. intros [k w] [k' m] (Hk & Hm). cbn [fst snd] in *. unfold one_grid in Hm. cbn [fst snd] in Hm.
    destruct (centers2edges w) as [e|]; cbn [rbind] in *; [|discriminate]. destruct (trapz_rebin _ _ _ _ _ _ _ _ _) as [b'|]; cbn [rbind] in *; [|discriminate].
    exists (k, b'). split; [reflexivity|]. cbn [snd]. destruct b'; try discriminate. congruence.
Qed.
Lemma F2_dget {V W} (P : V -> W -> Prop) (d : dict V) (e : dict W) : Forall2 (fun kw kd => fst kd = fst kw /\ P (snd kw) (snd kd)) d e ->
  forall h, match dget d h with Some w => exists c, dget e h = Some c /\ P w c | None => dget e h = None end.
Proof.
  induction 1 as [|[k w] [k' c] d e [Hk Hp] _ IH]; intro h; [reflexivity|]. cbn [fst snd] in *. subst. cbn [dget]. destruct (Z.eqb k h); [now exists c|apply IH].
Qed.
(* the data of the grids a target uses are the data of the target alone *)
Lemma tdata_alone p tgs zs td g : one_grid_per_hash (flat_map g_spectra tgs) -> In g tgs -> tdata p (grids tgs) zs = Ok td ->
  exists td', tdata p (grids [g]) zs = Ok td' /\ forall s, In s (g_spectra g) -> dget td (q_hash s) = dget td' (q_hash s).
Proof.
  intros C I H. apply tdata_ok in H as (x & Hx & F). pose proof (F2_dget (fun w c => one_grid p zs x w = Ok c) _ _ F) as D.
  assert (C1 : one_grid_per_hash (flat_map g_spectra [g])). { cbn [flat_map]. rewrite app_nil_r. intros s s' Hs Hs'. apply C; apply in_flat_map; now exists g. }
  assert (E : forall kw, In kw (grids [g]) -> exists kd : Z * list mat, fst kd = fst kw /\ one_grid p zs x (snd kw) = Ok (snd kd)).
  { intros [k w] Hin. apply dget_in in Hin; [|apply grids_nodup]. apply grids_get in Hin; [|exact C1]. destruct Hin as (s & Hs & Hh & Hw). cbn [flat_map] in Hs. rewrite app_nil_r in Hs.
    assert (G : dget (grids tgs) k = Some w) by (apply grids_get; [exact C|]; exists s; split; [apply in_flat_map; now exists g|now split]).
    specialize (D k). rewrite G in D. destruct D as (c & _ & Hc). exists (k, c). now split. }
  assert (B : exists td', Forall2 (fun kw (kd : Z * list mat) => fst kd = fst kw /\ one_grid p zs x (snd kw) = Ok (snd kd)) (grids [g]) td').
  { revert E. generalize (grids [g]) as l. induction l as [|a l IH]; intro E; [exists []; constructor|]. destruct (E a (or_introl eq_refl)) as [b Hb]. destruct IH as [m Hm]; [intros; apply E; now right|]. exists (b :: m). now constructor. }
  destruct B as (td' & F'). exists td'. split; [apply tdata_ok; now exists x|]. intros s Hs. pose proof (F2_dget (fun w c => one_grid p zs x w = Ok c) _ _ F' (q_hash s)) as D'. specialize (D (q_hash s)).
  assert (G : dget (grids tgs) (q_hash s) = Some (q_wave s)) by (apply grids_get; [exact C|]; exists s; split; [apply in_flat_map; now exists g|now split]).
  assert (G' : dget (grids [g]) (q_hash s) = Some (q_wave s)) by (apply grids_get; [exact C1|]; exists s; split; [cbn [flat_map]; now rewrite app_nil_r|now split]).
  rewrite G in D. rewrite G' in D'. destruct D as (c & -> & Hc), D' as (c' & -> & Hc'). congruence.
Qed.
(* and the other way round *)
Lemma tdata_union p tgs zs : one_grid_per_hash (flat_map g_spectra tgs) -> tgs <> [] -> (forall g, In g tgs -> exists td, tdata p (grids [g]) zs = Ok td) ->
  exists td, tdata p (grids tgs) zs = Ok td.
Proof.
  intros C Hn H. assert (X : exists x, ends p zs = Ok x). { destruct tgs as [|g tgs]; [congruence|]. destruct (H g (or_introl eq_refl)) as [td Htd]. apply tdata_ok in Htd as (x & Hx & _). now exists x. }
  destruct X as [x Hx].
  assert (E : forall kw, In kw (grids tgs) -> exists kd : Z * list mat, fst kd = fst kw /\ one_grid p zs x (snd kw) = Ok (snd kd)).
  { intros [k w] Hin. apply dget_in in Hin; [|apply grids_nodup]. apply grids_get in Hin; [|exact C]. destruct Hin as (s & Hs & Hh & Hw). apply in_flat_map in Hs as (g & Hg & Hs).
    destruct (H g Hg) as [td Htd]. apply tdata_ok in Htd as (x' & Hx' & F). assert (x' = x) by congruence. subst x'. pose proof (F2_dget (fun w c => one_grid p zs x w = Ok c) _ _ F k) as D.
    assert (G' : dget (grids [g]) k = Some w). { apply grids_get; [|exists s; split; [cbn [flat_map]; now rewrite app_nil_r|now split]]. cbn [flat_map]. rewrite app_nil_r. intros a b Ha Hb. apply C; apply in_flat_map; now exists g. }
    rewrite G' in D. destruct D as (c & _ & Hc). exists (k, c). now split. }
  assert (B : exists td', Forall2 (fun kw (kd : Z * list mat) => fst kd = fst kw /\ one_grid p zs x (snd kw) = Ok (snd kd)) (grids tgs) td').
  { revert E. generalize (grids tgs) as l. induction l as [|a l IH]; intro E; [exists []; constructor|]. destruct (E a (or_introl eq_refl)) as [b Hb]. destruct IH as [m Hm]; [intros; apply E; now right|]. exists (b :: m). now constructor. }
  destruct B as [td F]. exists td. apply tdata_ok. now exists x.
Qed.
(* the scan of a target looks up the grids of its own spectra only *)
Lemma target_ext t td td' n ss : (forall s, In s ss -> dget td (s_hash s) = dget td' (s_hash s)) -> zchi2_target slv t td n ss = zchi2_target slv t td' n ss.
Proof.
  intro H. unfold zchi2_target. destruct (spectral_data ss) as [[[w f] wf]|]; cbn [rbind]; [|reflexivity]. destruct (Qeq_bool (sumQ w) 0); [reflexivity|].
  unfold calc_zchi2_batch. rewrite (mapM_ext _ (zchi2_at slv (t_method t) None None (length (t_flux t)) ss td' w f wf)); [reflexivity|].
  intros i _. unfold zchi2_at. rewrite !dpso_eq. rewrite (mapM_ext _ (Proof_Zscan2.block (length (t_flux t)) td' i)); [reflexivity|]. intros s Hs. unfold Proof_Zscan2.block. now rewrite H.
Qed.

(* ---------- one target at a time ---------- *)
Notation edict := (list (string * entry)).
Definition tscan (g : targ) (d : edict) (pt : tmpl * tdict) : res edict :=
  do row <- zchi2_target slv (p_core (fst pt)) (snd pt) (length (p_zs (fst pt))) (data_of g);
  Ok (sset d (full_type (fst pt)) {| e_zchi2 := fst (fst row); e_penalty := snd row; e_fits := None |}).
Notation fit_target := (fit_target slv argsort polyfit isqrt trans nminima nz).
Definition tfit (g : targ) (d : edict) (p : tmpl) : res edict :=
  match sget d (full_type p) with
  | None => Err KeyError
  | Some e => do fs <- fit_target p g (map2 Qplus (e_zchi2 e) (e_penalty e));
              Ok (sset d (full_type p) {| e_zchi2 := e_zchi2 e; e_penalty := e_penalty e; e_fits := Some (npixels g, fs) |})
  end.
Fixpoint foldM {A B} (f : A -> B -> res A) (a : A) (l : list B) : res A := match l with [] => Ok a | b :: r => do a' <- f a b; foldM f a' r end.
Definition enc (gds : list (targ * edict)) : scans := map (fun x => (g_id (fst x), snd x)) gds.
Lemma enc_get gds g d : NoDup (map (fun x => g_id (fst x)) gds) -> In (g, d) gds -> dget (enc gds) (g_id g) = Some d.
Proof.
  intros N I. apply dget_in; [|apply in_map_iff; now exists (g, d)]. unfold enc. rewrite map_map. exact N.
Qed.
Lemma enc_set l1 g d l2 d' : NoDup (map (fun x => g_id (fst x)) (l1 ++ (g, d) :: l2)) -> dset (enc (l1 ++ (g, d) :: l2)) (g_id g) d' = enc (l1 ++ (g, d') :: l2).
Proof.
  induction l1 as [|[g1 d1] l1 IH]; intro N; cbn; [now rewrite Z.eqb_refl|]. inversion N as [|? ? N1 N2]; subst. destruct (Z.eqb_spec (g_id g1) (g_id g)) as [E|_].
  - exfalso. apply N1. rewrite map_app, in_app_iff. right. left. now symmetry.
  - f_equal. now apply IH.
Qed.
(* replacing the dictionaries one after the other *)
Lemma step_all (F : targ -> edict -> res edict) (step : scans -> targ -> res scans) :
  (forall l1 g d l2, NoDup (map (fun x => g_id (fst x)) (l1 ++ (g, d) :: l2)) -> step (enc (l1 ++ (g, d) :: l2)) g = do d' <- F g d; Ok (enc (l1 ++ (g, d') :: l2))) ->
  forall todo dn, NoDup (map (fun x => g_id (fst x)) (dn ++ todo)) ->
  fold_left (fun acc g => do r <- acc; step r g) (map fst todo) (Ok (enc (dn ++ todo))) = do new <- mapM (fun x => do d <- F (fst x) (snd x); Ok (fst x, d)) todo; Ok (enc (dn ++ new)).
Proof.
  intro H. induction todo as [|[g d] todo IH]; intros dn N; [reflexivity|]. cbn [map fold_left fst snd mapM]. cbn [rbind]. rewrite H by exact N.
  destruct (F g d) as [d'|e]; cbn [rbind].
  - replace (dn ++ (g, d') :: todo) with ((dn ++ [(g, d')]) ++ todo) by (now rewrite <- app_assoc).
    rewrite IH by (rewrite <- app_assoc; rewrite map_app in *; exact N). destruct (mapM _ todo) as [new|]; cbn [rbind]; [|reflexivity]. now rewrite <- app_assoc.
  - clear. generalize (map fst todo) as l. induction l as [|a l IH]; [reflexivity|exact IH].
Qed.
Lemma fit_template_eq p gds : NoDup (map (fun x => g_id (fst x)) gds) ->
  fit_template slv argsort polyfit isqrt trans nminima nz (map fst gds) (enc gds) p = do new <- mapM (fun x => do d <- tfit (fst x) (snd x) p; Ok (fst x, d)) gds; Ok (enc new).
Proof.
  intro N. unfold fit_template. apply (step_all (fun g d => tfit g d p) (fit_one slv argsort polyfit isqrt trans nminima nz p)) with (dn := []); [|exact N].
  intros l1 g d l2 Nd. unfold fit_one, tfit. rewrite (enc_get _ g d) by (auto; apply in_elt). destruct (sget d (full_type p)) as [e|]; [|reflexivity].
  destruct (fit_target p g _) as [fs|]; cbn [rbind]; [|reflexivity]. unfold put. rewrite (enc_get _ g d) by (auto; apply in_elt). f_equal. now apply enc_set.
Qed.
Lemma put_all_eq p (gdrs : list (targ * edict * (vec * list vec * vec))) : NoDup (map (fun x => g_id (fst (fst x))) gdrs) ->
  put_all (enc (map fst gdrs)) (map (fun x : targ * (vec * list vec * vec) => let '(g, (zc, _, pen)) := x in (g_id g, (full_type p, {| e_zchi2 := zc; e_penalty := pen; e_fits := None |}))) (map (fun x => (fst (fst x), snd x)) gdrs))
  = Ok (enc (map (fun x => (fst (fst x), sset (snd (fst x)) (full_type p) {| e_zchi2 := fst (fst (snd x)); e_penalty := snd (snd x); e_fits := None |})) gdrs)).
Proof.
  unfold put_all.
  assert (G : forall todo dn, NoDup (map (fun x => g_id (fst x)) (dn ++ map fst todo)) ->
    fold_left (fun acc x => do r <- acc; put r (fst x) (fst (snd x)) (snd (snd x)))
      (map (fun x : targ * (vec * list vec * vec) => let '(g, (zc, _, pen)) := x in (g_id g, (full_type p, {| e_zchi2 := zc; e_penalty := pen; e_fits := None |}))) (map (fun x : targ * edict * (vec * list vec * vec) => (fst (fst x), snd x)) todo))
      (Ok (enc (dn ++ map fst todo))) = Ok (enc (dn ++ map (fun x : targ * edict * (vec * list vec * vec) => (fst (fst x), sset (snd (fst x)) (full_type p) {| e_zchi2 := fst (fst (snd x)); e_penalty := snd (snd x); e_fits := None |})) todo))).
  { induction todo as [|[[g d] [[zc co] pen]] todo IH]; intros dn N; [reflexivity|]. cbn [map fold_left fst snd rbind]. unfold put at 2. cbn [map fst snd] in N. rewrite (enc_get _ g d) by (auto; apply in_elt).
    rewrite enc_set by exact N. match goal with |- context [enc (dn ++ (g, ?y) :: map fst todo)] => replace (dn ++ (g, y) :: map fst todo) with ((dn ++ [(g, y)]) ++ map fst todo) by (now rewrite <- app_assoc) end.
    rewrite IH by (rewrite <- app_assoc; rewrite map_app in *; exact N). now rewrite <- app_assoc. }
  intro N. apply (G gdrs []). cbn [app]. rewrite map_map. exact N.
Qed.
Lemma mapM_map_in {A B C} (f : A -> B) (g : B -> res C) l : mapM g (map f l) = mapM (fun x => g (f x)) l.
Proof. induction l as [|a l IH]; [reflexivity|]. cbn [map mapM]. destruct (g (f a)); cbn [rbind]; [|reflexivity]. now rewrite IH. Qed.
Lemma scan_template_eq pt gds : NoDup (map (fun x => g_id (fst x)) gds) ->
  scan_template slv (map fst gds) (enc gds) (fst pt) (snd pt) = do new <- mapM (fun x => do d <- tscan (fst x) (snd x) pt; Ok (fst x, d)) gds; Ok (enc new).
Proof.
  intro N. unfold scan_template, calc_zchi2. rewrite !mapM_map_in.
  assert (E : forall l : list (targ * edict), mapM (fun x => do d <- tscan (fst x) (snd x) pt; Ok (fst x, d)) l =
    do rows <- mapM (fun x => zchi2_target slv (p_core (fst pt)) (snd pt) (length (p_zs (fst pt))) (data_of (fst x))) l;
    Ok (map (fun x : targ * edict * (vec * list vec * vec) => (fst (fst x), sset (snd (fst x)) (full_type (fst pt)) {| e_zchi2 := fst (fst (snd x)); e_penalty := snd (snd x); e_fits := None |})) (combine l rows))).
  { induction l as [|[g d] l IH]; [reflexivity|]. cbn [mapM fst snd]. unfold tscan at 1. cbn [fst snd]. destruct (zchi2_target _ _ _ _ (data_of g)) as [row|]; cbn [rbind]; [|reflexivity].
    rewrite IH. destruct (mapM (fun x : targ * edict => zchi2_target slv (p_core (fst pt)) (snd pt) (length (p_zs (fst pt))) (data_of (fst x))) l) as [rows|]; cbn [rbind]; reflexivity. }
  rewrite E. clear E. destruct (mapM _ gds) as [rows|] eqn:Er; cbn [rbind]; [|reflexivity].
  assert (L : length rows = length gds) by (apply mapM_Forall2 in Er; now apply Forall2_len in Er).
  rewrite <- put_all_eq.
  - f_equal; [f_equal|f_equal]; clear -L; revert rows L; induction gds as [|[g d] gds IH]; intros [|row rows] L; cbn in *; try reflexivity; try discriminate; f_equal; apply IH; lia.
  - replace (map (fun x : targ * edict * (vec * list vec * vec) => g_id (fst (fst x))) (combine gds rows)) with (map (fun x : targ * edict => g_id (fst x)) gds); [exact N|].
    clear -L. revert rows L. induction gds as [|[g d] gds IH]; intros [|row rows] L; cbn in *; try reflexivity; try discriminate. f_equal. apply IH. lia.
Qed.

Lemma fold_foldM {A B} (f : A -> B -> res A) l : forall a, fold_left (fun acc b => do r <- acc; f r b) l (Ok a) = foldM f a l.
Proof.
  induction l as [|b l IH]; intro a; [reflexivity|]. cbn [fold_left foldM rbind]. destruct (f a b) as [a'|e]; cbn [rbind]; [apply IH|].
  clear. induction l as [|c l IH]; [reflexivity|exact IH].
Qed.
Lemma enc_fold {B} (F : targ -> edict -> B -> res edict) (step : scans -> B -> res scans) (tgs : list targ) : NoDup (map g_id tgs) ->
  (forall b gds, map fst gds = tgs -> step (enc gds) b = do new <- mapM (fun x => do d <- F (fst x) (snd x) b; Ok (fst x, d)) gds; Ok (enc new)) ->
  forall l gds r', map fst gds = tgs -> (foldM step (enc gds) l = Ok r' <-> exists gds', r' = enc gds' /\ Forall2 (fun x x' => fst x' = fst x /\ foldM (F (fst x)) (snd x) l = Ok (snd x')) gds gds').
Proof.
  intros N Hs. induction l as [|b l IH]; intros gds r' Hg.
  - cbn [foldM]. split.
    + intro H. exists gds. split; [congruence|]. clear. induction gds as [|x gds IH]; constructor; auto.
    + intros (gds' & -> & F2). f_equal. f_equal. clear -F2. induction F2 as [|[g d] [g' d'] l l' [H1 H2] _ IH]; [reflexivity|]. cbn [fst snd] in *. f_equal; [congruence|exact IH].
  - cbn [foldM]. rewrite (Hs b gds Hg). destruct (mapM _ gds) as [new|e] eqn:Em; cbn [rbind].
    + apply mapM_Forall2 in Em. assert (Hn : map fst new = tgs). { rewrite <- Hg. clear -Em. induction Em as [|[g d] [g' d'] l l' H _ IH]; [reflexivity|]. cbn [map fst snd] in *. rewrite IH. destruct (F g d b); cbn [rbind] in H; [|discriminate]. assert (g' = g) by congruence. congruence. }
      rewrite (IH new r' Hn). split; intros (gds' & -> & F2); exists gds'; (split; [reflexivity|]).
      * clear -Em F2. revert gds' F2. induction Em as [|[g d] [g1 d1] l0 l1 H _ IHe]; intros gds' F2; inversion F2 as [|? [g2 d2] ? ? [H1 H2] H3]; subst; constructor; [|now apply IHe].
        cbn [fst snd] in *. destruct (F g d b) as [d3|]; cbn [rbind] in *; [|discriminate]. injection H as -> ->. now subst.
      * clear -Em F2. revert gds' F2. induction Em as [|[g d] [g1 d1] l0 l1 H _ IHe]; intros gds' F2; inversion F2 as [|? [g2 d2] ? ? [H1 H2] H3]; subst; constructor; [|now apply IHe].
        cbn [fst snd] in *. destruct (F g d b) as [d3|]; cbn [rbind] in *; [|discriminate]. injection H as -> ->. now subst.
    + split; [discriminate|]. intros (gds' & _ & F2). exfalso. clear -Em F2. revert Em. assert (X : exists new, mapM (fun x : targ * edict => do d <- F (fst x) (snd x) b; Ok (fst x, d)) gds = Ok new); [|destruct X as [new X]; rewrite X; discriminate].
      induction F2 as [|[g d] [g' d'] l0 l1 [H1 H2] _ IHe]; [now exists []|]. cbn [fst snd mapM] in *. destruct (F g d b); cbn [rbind] in *; [|discriminate]. destruct IHe as [new ->]. cbn [rbind]. now eexists.
Qed.
Notation run := (run slv argsort polyfit isqrt trans nminima nz).
Definition solo (ps : list tmpl) (l : list (tmpl * tdict)) (g : targ) : res (list Model_Zfind.block) :=
  do d <- foldM (tscan g) [] l; do d <- foldM (tfit g) d (by_type ps); blocks_of d.
Lemma scan_all_foldM tgs l : forall r, scan_all slv tgs r l = foldM (fun r pt => scan_template slv tgs r (fst pt) (snd pt)) r l.
Proof. induction l as [|[p td] l IH]; intro r; [reflexivity|]. cbn [scan_all foldM fst snd]. destruct (scan_template slv tgs r p td); cbn [rbind]; [apply IH|reflexivity]. Qed.
Lemma empty_enc tgs : NoDup (map g_id tgs) -> empty_scans tgs = enc (map (fun g => (g, [])) tgs).
Proof.
  unfold empty_scans. assert (G : forall todo dn, NoDup (map g_id (dn ++ todo)) -> fold_left (fun d g => dset d (g_id g) []) todo (enc (map (fun g => (g, [])) dn)) = enc (map (fun g => (g, [])) (dn ++ todo))).
  { induction todo as [|g todo IH]; intros dn N; cbn [fold_left]; [now rewrite app_nil_r|]. rewrite dset_fresh_keys.
    - replace (enc (map (fun g => (g, [])) dn) ++ [(g_id g, [])]) with (enc (map (fun g => (g, [])) (dn ++ [g]))) by (unfold enc; now rewrite !map_app).
      rewrite IH; rewrite <- app_assoc; [reflexivity|exact N].
    - apply dget_none. unfold enc. rewrite !map_map. cbn [fst]. intro I. rewrite map_app in N. cbn [map] in N. apply NoDup_remove_2 in N. apply N. apply in_app_iff. now left. }
  intro N. exact (G tgs [] N).
Qed.
Lemma F2_trans {A B C} (P : A -> B -> Prop) (R : B -> C -> Prop) (T : A -> C -> Prop) l m n : (forall a b c, P a b -> R b c -> T a c) -> Forall2 P l m -> Forall2 R m n -> Forall2 T l n.
Proof. intros H F. revert n. induction F; intros n G; inversion G; subst; constructor; eauto. Qed.
Lemma F2_map_r {A B C} (P : A -> C -> Prop) (f : B -> C) l m : Forall2 P l (map f m) <-> Forall2 (fun a b => P a (f b)) l m.
Proof. revert m. induction l as [|a l IH]; intros [|b m]; split; intro H; inversion H; subst; constructor; auto; now apply IH. Qed.
Lemma F2_map_l {A B C} (P : C -> B -> Prop) (f : A -> C) l m : Forall2 P (map f l) m <-> Forall2 (fun a b => P (f a) b) l m.
Proof. revert m. induction l as [|a l IH]; intros [|b m]; split; intro H; inversion H; subst; constructor; auto; now apply IH. Qed.
Lemma run_ok ps tgs tab : NoDup (map g_id tgs) -> (run ps tgs = Ok tab <-> exists tds bss, mapM (fun p => tdata p (grids tgs) (p_zs p)) ps = Ok tds /\
  Forall2 (fun g bs => solo ps (combine ps tds) g = Ok bs) tgs bss /\ zfind_table nminima None (list_max_nat (map nbasis ps)) (map g_id tgs) (combine (map g_id tgs) bss) = Ok tab).
Proof.
  intro N. unfold Model_Run.run. assert (Hd : distinct_ids (map g_id tgs) = true). { unfold distinct_ids. destruct (list_eq_dec Z.eq_dec (nodup Z.eq_dec (map g_id tgs)) (map g_id tgs)) as [|C]; [reflexivity|]. exfalso. apply C. now apply nodup_fixed_point. }
  rewrite Hd. destruct (mapM _ ps) as [tds|]; cbn [rbind]; [|split; [discriminate|intros (t & b & H & _); discriminate]].
  rewrite scan_all_foldM, (empty_enc tgs N).
  assert (Hm : map fst (map (fun g : targ => (g, @nil (string * entry))) tgs) = tgs) by (rewrite map_map; apply map_id).
  assert (Nf : forall gds : list (targ * edict), map fst gds = tgs -> NoDup (map (fun x => g_id (fst x)) gds)) by (intros gds Hg; rewrite <- (map_map fst g_id), Hg; exact N).
  pose proof (enc_fold tscan (fun r pt => scan_template slv tgs r (fst pt) (snd pt)) tgs N) as HS.
  pose proof (enc_fold tfit (fit_template slv argsort polyfit isqrt trans nminima nz tgs) tgs N) as HF.
  assert (S1 : forall (b : tmpl * tdict) gds, map fst gds = tgs -> scan_template slv tgs (enc gds) (fst b) (snd b) = do new <- mapM (fun x => do d <- tscan (fst x) (snd x) b; Ok (fst x, d)) gds; Ok (enc new)).
  { intros b gds Hg. rewrite <- Hg. apply scan_template_eq. now apply Nf. }
  assert (F1 : forall (b : tmpl) gds, map fst gds = tgs -> fit_template slv argsort polyfit isqrt trans nminima nz tgs (enc gds) b = do new <- mapM (fun x => do d <- tfit (fst x) (snd x) b; Ok (fst x, d)) gds; Ok (enc new)).
  { intros b gds Hg. rewrite <- Hg. apply fit_template_eq. now apply Nf. }
  specialize (HS S1). specialize (HF F1). clear S1 F1.
  assert (FM : forall gds gds' (P : targ * edict -> edict -> Prop), map fst gds = tgs -> Forall2 (fun x x' => fst x' = fst x /\ P x (snd x')) gds gds' -> map fst gds' = tgs).
  { intros gds gds' P <- F. clear -F. induction F as [|x x' l l' [H1 _] _ IH]; [reflexivity|]. cbn [map]. now rewrite IH, H1. }
  split.
  - destruct (foldM _ _ (combine ps tds)) as [r1|] eqn:E1; cbn [rbind]; [|discriminate]. apply HS in E1 as (g1 & -> & F1); [|exact Hm]. assert (M1 := FM _ _ (fun x d => foldM (tscan (fst x)) (snd x) (combine ps tds) = Ok d) Hm F1).
    unfold fit_all. rewrite (fold_foldM (fit_template slv argsort polyfit isqrt trans nminima nz tgs)). destruct (foldM _ _ (by_type ps)) as [r2|] eqn:E2; cbn [rbind]; [|discriminate]. apply HF in E2 as (g2 & -> & F2); [|exact M1]. assert (M2 := FM _ _ (fun x d => foldM (tfit (fst x)) (snd x) (by_type ps) = Ok d) M1 F2).
    destruct (results_of (enc g2)) as [rs|] eqn:E3; cbn [rbind]; [|discriminate]. intro HT. unfold results_of in E3. apply mapM_Forall2 in E3.
    exists tds, (map snd rs). split; [reflexivity|]. split.
    + apply F2_map_r. apply F2_map_l in F1. unfold enc in E3. apply F2_map_l in E3. cbn [fst snd] in *.
      assert (F12 : Forall2 (fun g (x : targ * edict) => fst x = g /\ exists d, foldM (tscan g) [] (combine ps tds) = Ok d /\ foldM (tfit g) d (by_type ps) = Ok (snd x)) tgs g2).
      { eapply F2_trans; [|exact F1|exact F2]. intros g [g' d'] [g'' d'']. cbn [fst snd]. intros [-> H1] [-> H2]. split; [reflexivity|]. exists d'. now split. }
      eapply F2_trans; [|exact F12|exact E3]. intros g [g' d'] [k bs]. cbn [fst snd]. intros [-> (d & H1 & H2)] H3. unfold solo. rewrite H1. cbn [rbind]. rewrite H2. cbn [rbind].
      destruct (blocks_of d'); cbn [rbind] in H3; congruence.
    + assert (Er : rs = combine (map g_id tgs) (map snd rs)); [|now rewrite <- Er].
      rewrite <- M2. clear -E3. unfold enc in E3. apply F2_map_l in E3. induction E3 as [|[g d] [k bs] l l' H _ IH]; [reflexivity|]. cbn [map combine fst snd] in *. rewrite <- IH.
      destruct (blocks_of d); cbn [rbind] in H; [|discriminate]. congruence.
  - intros (tds' & bss & Ht & F & HT). assert (tds' = tds) by congruence. subst tds'. clear Ht.
    assert (X : exists g1 g2, Forall2 (fun (x x' : targ * edict) => fst x' = fst x /\ foldM (tscan (fst x)) (snd x) (combine ps tds) = Ok (snd x')) (map (fun g => (g, [])) tgs) g1 /\
      Forall2 (fun (x x' : targ * edict) => fst x' = fst x /\ foldM (tfit (fst x)) (snd x) (by_type ps) = Ok (snd x')) g1 g2 /\ results_of (enc g2) = Ok (combine (map g_id tgs) bss)).
    { clear -F. induction F as [|g bs tgs bss H _ (g1 & g2 & H1 & H2 & H3)]; [exists [], []; split; [constructor|]; split; [constructor|reflexivity]|]. unfold solo in H.
      destruct (foldM (tscan g) [] (combine ps tds)) as [d1|] eqn:E1; cbn [rbind] in H; [|discriminate]. destruct (foldM (tfit g) d1 (by_type ps)) as [d2|] eqn:E2; cbn [rbind] in H; [|discriminate].
      exists ((g, d1) :: g1), ((g, d2) :: g2). split; [constructor; [now split|exact H1]|]. split; [constructor; [now split|exact H2]|]. unfold results_of, enc in *. cbn [map mapM fst snd]. rewrite H. cbn [rbind]. now rewrite H3. }
    destruct X as (g1 & g2 & F1 & F2 & F3). assert (M1 := FM _ _ (fun x d => foldM (tscan (fst x)) (snd x) (combine ps tds) = Ok d) Hm F1).
    rewrite (proj2 (HS (combine ps tds) _ (enc g1) Hm)); [|exists g1; split; [reflexivity|exact F1]]. cbn [rbind]. unfold fit_all. rewrite (fold_foldM (fit_template slv argsort polyfit isqrt trans nminima nz tgs)). rewrite (proj2 (HF (by_type ps) _ (enc g2) M1)); [|exists g2; split; [reflexivity|exact F2]]. cbn [rbind]. rewrite F3. exact HT.
Qed.
End R.
