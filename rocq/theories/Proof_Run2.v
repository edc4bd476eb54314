(* The blocks of one target; one target among others. *)
From Verif Require Import Prelude PreludeFacts NumX Facts2 Model_Fitz Spec_Fitz Proof_Fitz Proof_Fitz2 Model_Rebin Model_Dist Proof_Dist3 Model_Rank Proof_Table Model_Zscan Proof_Zscan2 Proof_Zscan3 Proof_Zscan4
  Model_Piece Model_IO Model_Zfind Proof_Zfind Model_Run Proof_Run.
Open Scope nat_scope.
Local Notation dget := Model_Dist.dget.

Definition addk (ks : list string) (k : string) : list string := if in_dec string_dec k ks then ks else ks ++ [k].
(* the distinct full types, in the order of their first template *)
Definition keys_of (ps : list tmpl) : list string := fold_left addk (map full_type ps) [].
(* the last template of a full type *)
Definition pick (ft : string) (ps : list tmpl) : option tmpl := find (fun p => String.eqb (full_type p) ft) (rev ps).
Definition pickt (ft : string) (l : list (tmpl * tdict)) : option (tmpl * tdict) := find (fun pt => String.eqb (full_type (fst pt)) ft) (rev l).

Lemma keys_sset {V} (d : list (string * V)) k v : keys (sset d k v) = addk (keys d) k.
Proof. unfold addk. destruct (in_dec string_dec k (keys d)) as [I|I]; [now apply keys_sset_in|]. rewrite sset_fresh by exact I. unfold keys. now rewrite map_app. Qed.
Lemma find_app_o {A} (f : A -> bool) a b : find f (a ++ b) = match find f a with Some x => Some x | None => find f b end.
Proof. induction a as [|x a IH]; [reflexivity|]. cbn. destruct (f x); [reflexivity|exact IH]. Qed.
Lemma addk_nodup ks k : NoDup ks -> NoDup (addk ks k).
Proof. intro N. unfold addk. destruct (in_dec string_dec k ks) as [I|I]; [exact N|]. apply NoDup_app_intro; [exact N|constructor; [intros []|constructor]|]. intros x Hx [<-|[]]. contradiction. Qed.
Lemma addk_in ks k x : In x (addk ks k) <-> In x ks \/ x = k.
Proof. unfold addk. destruct (in_dec string_dec k ks) as [I|I]; [split; [now left|intros [H|H]; [exact H|now subst]]|]. rewrite in_app_iff. cbn. intuition congruence. Qed.
Lemma fold_addk l : forall ks, NoDup ks -> NoDup (fold_left addk l ks) /\ forall x, In x (fold_left addk l ks) <-> In x ks \/ In x l.
Proof.
  induction l as [|a l IH]; intros ks N; cbn [fold_left]; [split; [exact N|]; intro x; cbn; tauto|]. destruct (IH (addk ks a) (addk_nodup _ _ N)) as [N' H]. split; [exact N'|]. intro x. rewrite H, addk_in. cbn. intuition congruence.
Qed.
Lemma keys_of_nodup ps : NoDup (keys_of ps). Proof. exact (proj1 (fold_addk (map full_type ps) [] (NoDup_nil _))). Qed.
Lemma keys_of_in ps ft : In ft (keys_of ps) <-> In ft (map full_type ps).
Proof. unfold keys_of. rewrite (proj2 (fold_addk (map full_type ps) [] (NoDup_nil _))). cbn. tauto. Qed.

Lemma find_hd {A} (f : A -> bool) l : find f l = hd_error (filter f l).
Proof. induction l as [|a l IH]; [reflexivity|]. cbn. destruct (f a); [reflexivity|exact IH]. Qed.
Lemma filter_rev_c {A} (f : A -> bool) l : filter f (rev l) = rev (filter f l).
Proof. induction l as [|a l IH]; [reflexivity|]. cbn. rewrite filter_app, IH. cbn. destruct (f a); cbn; [reflexivity|now rewrite app_nil_r]. Qed.
Lemma filter_insert ft x l : filter (fun p => String.eqb (full_type p) ft) (insert (fun a b => String.leb (full_type a) (full_type b)) x l) = filter (fun p => String.eqb (full_type p) ft) (x :: l).
Proof.
  induction l as [|y l IH]; [reflexivity|]. cbn [insert]. destruct (String.leb (full_type x) (full_type y)) eqn:E; [reflexivity|].
  cbn [filter] in *. rewrite IH. destruct (String.eqb_spec (full_type x) ft) as [Ex|Ex], (String.eqb_spec (full_type y) ft) as [Ey|Ey]; try reflexivity.
  exfalso. rewrite Ex, Ey in E. unfold String.leb in E. assert (X : String.compare ft ft = Eq) by (clear; induction ft as [|a s IH]; [reflexivity|]; cbn; unfold Ascii.compare; now rewrite N.compare_refl). now rewrite X in E.
Qed.
Lemma filter_by_type ft ps : filter (fun p => String.eqb (full_type p) ft) (by_type ps) = filter (fun p => String.eqb (full_type p) ft) ps.
Proof. unfold by_type. induction ps as [|p ps IH]; [reflexivity|]. cbn [isort]. rewrite filter_insert. cbn [filter]. now rewrite IH. Qed.
Lemma pick_by_type ft ps : pick ft (by_type ps) = pick ft ps.
Proof. unfold pick. rewrite !find_hd, !filter_rev_c. now rewrite filter_by_type. Qed.
Lemma pick_some ft ps p : pick ft ps = Some p -> In p ps /\ full_type p = ft.
Proof. intro H. apply find_some in H as [H1 H2]. split; [now apply in_rev|now apply String.eqb_eq]. Qed.
Lemma pick_none ft ps : pick ft ps = None <-> ~ In ft (map full_type ps).
Proof.
  split.
  - intros H I. apply in_map_iff in I as (p & <- & Hp). pose proof (find_none _ _ H p (proj1 (in_rev _ _) Hp)) as E. cbn in E. now rewrite String.eqb_refl in E.
  - intro H. unfold pick. destruct (find _ (rev ps)) as [p|] eqn:E; [|reflexivity]. apply pick_some in E as [E1 E2]. exfalso. apply H. apply in_map_iff. now exists p.
Qed.
Lemma pick_alone ps p : In p ps -> NoDup (map full_type ps) -> pick (full_type p) ps = Some p.
Proof.
  intros I N. destruct (pick (full_type p) ps) as [q|] eqn:E; [|apply pick_none in E; exfalso; apply E; now apply in_map]. apply pick_some in E as [E1 E2].
  f_equal. clear -I E1 E2 N. induction ps as [|a ps IH]; [destruct I|]. inversion N; subst. destruct I as [->|I], E1 as [->|E1]; auto; exfalso; apply H1; [rewrite <- E2|rewrite E2]; now apply in_map.
Qed.
Lemma pickt_pick ft : forall ps (tds : list tdict), length tds = length ps -> match pickt ft (combine ps tds) with Some pt => pick ft ps = Some (fst pt) /\ In pt (combine ps tds) | None => pick ft ps = None end.
Proof.
  intros ps tds L. assert (G : pick ft ps = option_map fst (pickt ft (combine ps tds))).
  { revert tds L. induction ps as [|p ps IH]; intros [|td tds] L; try discriminate; [reflexivity|]. unfold pick, pickt in *. cbn [combine rev]. rewrite !find_app_o. rewrite IH with (tds := tds) by (cbn in L; lia).
    destruct (find _ (rev (combine ps tds))) as [pt|]; [reflexivity|]. cbn [find option_map fst]. destruct (String.eqb (full_type p) ft); reflexivity. }
  rewrite G. destruct (pickt ft (combine ps tds)) as [pt|] eqn:E; [|reflexivity]. split; [reflexivity|]. apply find_some in E as [E _]. now apply in_rev.
Qed.

Lemma sget_key {V} (d : list (string * V)) k v : NoDup (keys d) -> In (k, v) d -> sget d k = Some v.
Proof.
  induction d as [|[a b] d IH]; intros N I; [destruct I|]. inversion N as [|? ? N1 N2]; subst. cbn. destruct (String.eqb_spec a k) as [E|E].
  - destruct I as [I|I]; [congruence|]. exfalso. apply N1. cbn. rewrite E. apply in_map_iff. now exists (k, v).
  - destruct I as [I|I]; [congruence|]. now apply IH.
Qed.

Section R.
Variables (slv : solvers) (argsort : list xq -> list nat) (polyfit : list Q -> list Q -> option (Q * Q * Q)) (isqrt : Q -> Q).
Variable trans : option string -> Q -> Q -> Q.
Variables (nminima nz : nat).
Notation tdata := (tdata trans).
Notation tscan := (tscan slv). Notation tfit := (tfit slv argsort polyfit isqrt trans nminima nz).
Notation fit_target := (fit_target slv argsort polyfit isqrt trans nminima nz).
Notation solo := (solo slv argsort polyfit isqrt trans nminima nz).
Notation run := (run slv argsort polyfit isqrt trans nminima nz).

Definition scan_of (pt : tmpl * tdict) (g : targ) : res (vec * list vec * vec) := zchi2_target slv (p_core (fst pt)) (snd pt) (length (p_zs (fst pt))) (data_of g).
Lemma scan_inv g l : forall d d', foldM (tscan g) d l = Ok d' -> keys d' = fold_left addk (map (fun pt => full_type (fst pt)) l) (keys d) /\
  forall ft, match pickt ft l with
    | Some pt => exists row, scan_of pt g = Ok row /\ sget d' ft = Some {| e_zchi2 := fst (fst row); e_penalty := snd row; e_fits := None |}
    | None => sget d' ft = sget d ft end.
Proof.
  induction l as [|pt l IH]; intros d d' H; cbn [foldM] in H; [assert (d = d') by congruence; subst; now split|].
  destruct (tscan g d pt) as [d1|] eqn:E; cbn [rbind] in H; [|discriminate]. destruct (IH _ _ H) as [K P]. unfold Proof_Run.tscan in E. fold (scan_of pt g) in E. destruct (scan_of pt g) as [row|] eqn:Er; cbn [rbind] in E; [|discriminate].
  assert (Ed : d1 = sset d (full_type (fst pt)) {| e_zchi2 := fst (fst row); e_penalty := snd row; e_fits := None |}) by congruence. subst d1. clear E. split; [cbn [map fold_left]; now rewrite K, keys_sset|].
  intro ft. specialize (P ft). unfold pickt in *. cbn [rev]. rewrite find_app_o. destruct (find _ (rev l)) as [pt'|]; [exact P|]. cbn [find]. rewrite sget_sset in P. destruct (String.eqb (full_type (fst pt)) ft); [|exact P]. exists row. now split.
Qed.
Lemma fit_inv g l : forall d d', foldM (tfit g) d l = Ok d' -> keys d' = keys d /\
  forall ft, match sget d ft with
   | None => sget d' ft = None
   | Some e => match pick ft l with
     | Some p => exists fs, fit_target p g (map2 Qplus (e_zchi2 e) (e_penalty e)) = Ok fs /\ sget d' ft = Some {| e_zchi2 := e_zchi2 e; e_penalty := e_penalty e; e_fits := Some (npixels g, fs) |}
     | None => sget d' ft = Some e end end.
Proof.
  induction l as [|p l IH]; intros d d' H; cbn [foldM] in H; [assert (d = d') by congruence; subst; split; [reflexivity|]; intro ft; cbn; now destruct (sget d' ft)|].
  destruct (tfit g d p) as [d1|] eqn:E; cbn [rbind] in H; [|discriminate]. destruct (IH _ _ H) as [K P]. unfold Proof_Run.tfit in E. destruct (sget d (full_type p)) as [e|] eqn:Eg; [|discriminate]. destruct (fit_target p g _) as [fs|] eqn:Ef; cbn [rbind] in E; [|discriminate].
  assert (Ed : d1 = sset d (full_type p) {| e_zchi2 := e_zchi2 e; e_penalty := e_penalty e; e_fits := Some (npixels g, fs) |}) by congruence. subst d1. clear E. split.
  - rewrite K, keys_sset. unfold addk. destruct (in_dec string_dec (full_type p) (keys d)) as [|I]; [reflexivity|]. rewrite (sget_none _ _ I) in Eg. discriminate.
  - intro ft. specialize (P ft). unfold pick in *. cbn [rev]. rewrite find_app_o. rewrite sget_sset in P. destruct (String.eqb_spec (full_type p) ft) as [Ep|Ep].
    + rewrite <- Ep in *. rewrite Eg. cbn in P. destruct (find _ (rev l)) as [p'|]; [exact P|]. cbn [find]. rewrite String.eqb_refl. exists fs. now split.
    + destruct (sget d ft) as [e'|]; [|exact P]. destruct (find _ (rev l)) as [p'|]; [exact P|]. cbn [find]. destruct (String.eqb_spec (full_type p) ft); [contradiction|exact P].
Qed.
(* the block of one full type *)
Definition mkblock (ts : string * string) (np : N) (fs : list (fit Q (list Q))) : Model_Zfind.block :=
  {| b_width := match fs with [] => 1 | x :: _ => length (Model_Fitz.f_coeff x) end;
     b_rows := map (fun x => {| f_tid := 0; f_type := fst ts; f_sub := snd ts; Model_Zfind.f_z := Model_Fitz.f_z x; Model_Zfind.f_zerr := Model_Fitz.f_zerr x;
                                     Model_Zfind.f_chi2 := Fin (Model_Fitz.f_chi2 x); Model_Zfind.f_zwarn := Z.to_N (Model_Fitz.f_zwarn x); f_npix := np; f_ncoeff := 0;
                                     Model_Zfind.f_coeff := Model_Fitz.f_coeff x; f_lim := 0%Q; f_znum := 0; f_dchi2 := Fin 0 |}) fs |}.
Definition typed (ps : list tmpl) : list string := filter (fun k => negb (String.eqb k "meta")) (keys_of ps).
Definition fitted (ps : list tmpl) (tds : list tdict) (g : targ) (ft : string) (b : Model_Zfind.block) : Prop :=
  exists p td row fs ts, pick ft ps = Some p /\ In (p, td) (combine ps tds) /\ scan_of (p, td) g = Ok row /\
    fit_target p g (map2 Qplus (fst (fst row)) (snd row)) = Ok fs /\ parse_fulltype ft = Ok ts /\ b = mkblock ts (npixels g) fs.
Lemma F2_filter {A B} (P : A -> B -> Prop) (f : A -> bool) (h : B -> bool) l m : (forall a b, P a b -> f a = h b) -> Forall2 P l m -> Forall2 P (filter f l) (filter h m).
Proof. intros H F. induction F as [|a b l m Hab _ IH]; [constructor|]. cbn. rewrite <- (H a b Hab). destruct (f a); [now constructor|exact IH]. Qed.
Lemma solo_inv ps tds g bs : length tds = length ps -> solo ps (combine ps tds) g = Ok bs -> Forall2 (fitted ps tds g) (typed ps) bs.
Proof.
  intros L H. unfold Proof_Run.solo in H. destruct (foldM (tscan g) [] (combine ps tds)) as [d1|] eqn:E1; cbn [rbind] in H; [|discriminate].
  destruct (foldM (tfit g) d1 (by_type ps)) as [d2|] eqn:E2; cbn [rbind] in H; [|discriminate].
  apply scan_inv in E1 as [K1 P1]. apply fit_inv in E2 as [K2 P2].
  assert (K : keys d2 = keys_of ps). { rewrite K2, K1. unfold keys_of. f_equal. clear -L. revert tds L. induction ps as [|p ps IH]; intros [|td tds] L; try discriminate; [reflexivity|]. cbn in *. f_equal. apply IH. lia. }
  unfold blocks_of in H. apply mapM_Forall2 in H. unfold typed. rewrite <- K.
  assert (ND : NoDup (keys d2)) by (rewrite K; apply keys_of_nodup).
  assert (X : Forall2 (fun k x => k = fst x /\ In x d2) (filter (fun k => negb (String.eqb k "meta")) (keys d2)) (filter (fun x : string * entry => negb (String.eqb (fst x) "meta")) d2)).
  { eapply F2_filter; [intros k x [-> _]; reflexivity|]. clear. unfold keys. assert (G : forall l, (forall x, In x l -> In x d2) -> Forall2 (fun (k : string) (x : string * entry) => k = fst x /\ In x d2) (map fst l) l).
    { induction l as [|x l IH]; intro Hl; [constructor|]. cbn [map]. constructor; [split; [reflexivity|apply Hl; now left]|]. apply IH. intros y Hy. apply Hl. now right. }
    apply G. auto. }
  eapply F2_trans; [|exact X|exact H]. cbv beta. intros ft [k e] b [-> I] Hb. cbn [fst snd] in *.
  apply (sget_key d2 k e ND) in I. specialize (P1 k). specialize (P2 k). rewrite pick_by_type in P2. pose proof (pickt_pick k ps tds L) as Q.
  destruct (pickt k (combine ps tds)) as [[p td]|].
  - destruct Q as [Q1 Q2]. cbn [fst] in Q1. destruct P1 as (row & Hr & Hs). rewrite Hs in P2. rewrite Q1 in P2. cbn [e_zchi2 e_penalty] in P2. destruct P2 as (fs & Hf & Hg). rewrite Hg in I. assert (Ee : e = {| e_zchi2 := fst (fst row); e_penalty := snd row; e_fits := Some (npixels g, fs) |}) by congruence.
    subst e. unfold block_of in Hb. cbn [e_fits] in Hb. destruct (parse_fulltype k) as [ts|] eqn:Et; cbn [rbind] in Hb; [|discriminate]. exists p, td, row, fs, ts. do 5 (split; [assumption|]). unfold mkblock. congruence.
  - cbn in P1. rewrite P1 in P2. congruence.
Qed.
(* only the data on the grids of the target matter *)
Lemma solo_ext ps l l' g : Forall2 (fun a b => fst a = fst b /\ forall s, In s (g_spectra g) -> dget (snd a) (q_hash s) = dget (snd b) (q_hash s)) l l' -> solo ps l g = solo ps l' g.
Proof.
  intro F. unfold Proof_Run.solo. assert (E : forall d, foldM (tscan g) d l = foldM (tscan g) d l').
  { induction F as [|[p td] [p' td'] l l' [H1 H2] _ IH]; intro d; [reflexivity|]. cbn [foldM fst snd] in *. subst p'. unfold Proof_Run.tscan at 1 3. cbn [fst snd].
    rewrite (target_ext slv (p_core p) td td' (length (p_zs p)) (data_of g)); [destruct (zchi2_target _ _ _ _ _); cbn [rbind]; [apply IH|reflexivity]|].
    intros s Hs. unfold data_of in Hs. apply in_map_iff in Hs as (q & <- & Hq). exact (H2 q Hq). }
  now rewrite E.
Qed.
End R.
