(* Templates of a run: none is lost, and their order does not matter without ties. *)
From Verif Require Import Prelude PreludeFacts NumX Facts2 Model_Fitz Spec_Fitz Proof_Fitz Proof_Fitz2 Props_Fitz Model_Rebin Model_Dist Proof_Dist3 Model_Rank Spec_Rank Spec_Zfind Proof_Table Model_Zscan Spec_Zscan Proof_Zscan Proof_Zscan2 Proof_Zscan3 Proof_Zscan4
  Model_Piece Model_IO Model_Zfind Proof_Zfind Model_Run Spec_Run Proof_Run Proof_Run2 Proof_Run3 Proof_Run5.
Open Scope nat_scope.
Local Notation dget := Model_Dist.dget. Local Notation dset := Model_Dist.dset.

(* ---------- sorting blocks without ties between them ---------- *)
Section S.
Context {A : Type} (leb : A -> A -> bool) (Ht : total_b leb) (Htr : trans_b leb).
Definition tied (a b : A) : Prop := leb a b = true /\ leb b a = true.
Lemma insert_comm a b : ~ tied a b -> forall l, insert leb a (insert leb b l) = insert leb b (insert leb a l).
Proof.
  intros N l. unfold tied in N. induction l as [|y l IH]; cbn [insert].
  - destruct (leb a b) eqn:E1, (leb b a) eqn:E2; try reflexivity; [exfalso; now apply N|]. destruct (Ht a b); congruence.
  - destruct (leb b y) eqn:Eb, (leb a y) eqn:Ea; cbn [insert]; rewrite ?Ea, ?Eb.
    + destruct (leb a b) eqn:E1, (leb b a) eqn:E2; rewrite ?Ea, ?Eb; try reflexivity; [exfalso; now apply N|]. destruct (Ht a b); congruence.
    + destruct (leb a b) eqn:E1; [|reflexivity]. rewrite (Htr _ _ _ E1 Eb) in Ea. discriminate.
    + destruct (leb b a) eqn:E2; [|reflexivity]. rewrite (Htr _ _ _ E2 Ea) in Eb. discriminate.
    + now rewrite IH.
Qed.
Lemma isort_app a b : isort leb (a ++ b) = fold_right (insert leb) (isort leb b) a.
Proof. induction a as [|x a IH]; [reflexivity|]. cbn. now rewrite IH. Qed.
Lemma fold_insert_comm x a : (forall y, In y a -> ~ tied x y) -> forall l, insert leb x (fold_right (insert leb) l a) = fold_right (insert leb) (insert leb x l) a.
Proof.
  induction a as [|y a IH]; intros H l; [reflexivity|]. cbn [fold_right]. rewrite insert_comm by (apply H; now left). f_equal. apply IH. intros z Hz. apply H. now right.
Qed.
Lemma fold_swap a b : (forall x y, In x a -> In y b -> ~ tied x y) -> forall l, fold_right (insert leb) (fold_right (insert leb) l b) a = fold_right (insert leb) (fold_right (insert leb) l a) b.
Proof.
  induction a as [|x a IH]; intros H l; [reflexivity|]. cbn [fold_right]. rewrite IH by (intros; apply H; [now right|assumption]). apply fold_insert_comm. intros y Hy. apply H; [now left|exact Hy].
Qed.
Definition apart (a b : list A) : Prop := forall x y, In x a -> In y b -> ~ tied x y.
Lemma apart_sym a b : apart a b -> apart b a.
Proof. intros H x y Hx Hy [T1 T2]. apply (H y x Hy Hx). now split. Qed.
Lemma fop_perm (l l' : list (list A)) : Permutation l l' -> ForallOrdPairs apart l -> ForallOrdPairs apart l'.
Proof.
  intro P. induction P as [|x l l' P IH|x y l|l l' l'' _ IH1 _ IH2]; intro F; auto.
  - inversion F as [|? ? F1 F2]; subst. constructor; [|now apply IH]. apply Forall_forall. intros z Hz. rewrite Forall_forall in F1. apply F1. eapply Permutation_in; [symmetry; exact P|exact Hz].
  - inversion F as [|? ? F1 F2]; subst. inversion F2 as [|? ? F3 F4]; subst. inversion F1 as [|? ? F5 F6]; subst. constructor; [constructor; [now apply apart_sym|exact F3]|]. constructor; assumption.
Qed.
Lemma sort_blocks (l l' : list (list A)) : Permutation l l' -> ForallOrdPairs apart l -> isort leb (concat l) = isort leb (concat l').
Proof.
  intro P. induction P as [|x l l' P IH|x y l|l l' l'' P1 IH1 P2 IH2]; intro F; [reflexivity|..].
  - inversion F as [|? ? F1 F2]; subst. cbn [concat]. rewrite !isort_app. now rewrite IH.
  - inversion F as [|? ? F1 F2]; subst. inversion F1 as [|? ? F3 F4]; subst. cbn [concat]. rewrite !isort_app. apply fold_swap. exact F3.
  - rewrite IH1 by exact F. apply IH2. eapply fop_perm; eassumption.
Qed.
End S.

(* the rows of one block, ready for the ranking *)
Definition ranked_block (tid : Z) (m : nat) (b : Model_Zfind.block) : list frow := map (prepared None tid m b) (b_rows b).
Lemma flagged_concat tid bs : flagged_rows None tid bs = concat (map (ranked_block tid (max_width bs)) (filter nonempty bs)).
Proof.
  unfold flagged_rows, max_width, ranked_block. rewrite flat_map_concat_map, concat_map, concat_map, !map_map. f_equal. apply map_ext. intro b. unfold prep_block. rewrite !map_map. apply map_ext. intro r. reflexivity.
Qed.
Lemma list_max_perm l l' : Permutation l l' -> list_max_nat l = list_max_nat l'.
Proof. unfold list_max_nat. induction 1; cbn [fold_right]; lia. Qed.
Lemma filter_perm {A} (f : A -> bool) l l' : Permutation l l' -> Permutation (filter f l) (filter f l').
Proof. induction 1 as [|x l l' _ IH|x y l|l l' l'' _ IH1 _ IH2]; cbn; [constructor|destruct (f x); [now constructor|exact IH]|destruct (f x), (f y); try reflexivity; constructor|etransitivity; eassumption]. Qed.
Lemma assemble_perm n tid bs bs' : Permutation bs bs' -> ForallOrdPairs (apart row_le) (map (ranked_block tid (max_width bs)) (filter nonempty bs)) ->
  assemble_target n None tid bs = assemble_target n None tid bs'.
Proof.
  intros P F. pose proof (filter_perm nonempty _ _ P) as Pf.
  assert (M : max_width bs = max_width bs') by (unfold max_width; apply list_max_perm, Permutation_map, Pf).
  assert (E : sort_rows (flagged_rows None tid bs) = sort_rows (flagged_rows None tid bs')).
  { rewrite !flagged_concat, <- M. unfold sort_rows. apply sort_blocks; [exact row_le_total|exact row_le_trans|apply Permutation_map, Pf|exact F]. }
  unfold assemble_target. rewrite E. destruct (filter nonempty bs) as [|b l] eqn:E1, (filter nonempty bs') as [|b' l'] eqn:E2; try reflexivity.
  - apply Permutation_nil in Pf. discriminate.
  - apply Permutation_sym, Permutation_nil in Pf. discriminate.
Qed.
Lemma fop_map {A B} (R : B -> B -> Prop) (f : A -> B) l : ForallOrdPairs (fun a b => R (f a) (f b)) l -> ForallOrdPairs R (map f l).
Proof. induction 1 as [|a l H _ IH]; cbn; constructor; [|exact IH]. apply Forall_map. exact H. Qed.
Lemma fop_filter {A} (R : A -> A -> Prop) (f : A -> bool) l : ForallOrdPairs R l -> ForallOrdPairs R (filter f l).
Proof.
  induction 1 as [|a l H _ IH]; cbn; [constructor|]. destruct (f a); [|exact IH]. constructor; [|exact IH]. apply Forall_forall. intros x Hx. apply filter_In in Hx as [Hx _]. rewrite Forall_forall in H. auto.
Qed.

Lemma mapM_combine {A B} (f : A -> res B) l m : mapM f l = Ok m -> forall a b, In (a, b) (combine l m) -> f a = Ok b.
Proof. intro H. apply mapM_Forall2 in H. induction H as [|x y l m Hxy _ IH]; intros a b I; [destruct I|]. cbn in I. destruct I as [I|I]; [injection I as -> ->; exact Hxy|now apply IH]. Qed.
Lemma mapM_combine_in {A B} (f : A -> res B) l m : mapM f l = Ok m -> forall a, In a l -> exists b, In (a, b) (combine l m).
Proof. intro H. apply mapM_Forall2 in H. induction H as [|x y l m Hxy _ IH]; intros a I; [destruct I|]. cbn. destruct I as [->|I]; [exists y; now left|]. destruct (IH a I) as [b Hb]. exists b. now right. Qed.
Lemma mapM_perm {A B} (f : A -> res B) l l' m : Permutation l l' -> mapM f l = Ok m -> exists m', mapM f l' = Ok m'.
Proof.
  intros P H. destruct (mapM_choose f (fun _ _ => True) l') as (m' & Hm & _); [|now exists m']. intros a Ha. apply Permutation_in with (l' := l) in Ha; [|now symmetry]. destruct (mapM_combine_in f l m H a Ha) as [b Hb]. exists b. split; [exact (mapM_combine f l m H a b Hb)|exact I].
Qed.
Lemma keys_of_distinct ps : NoDup (map full_type ps) -> keys_of ps = map full_type ps.
Proof.
  unfold keys_of. assert (G : forall l ks, NoDup (ks ++ l) -> fold_left addk l ks = ks ++ l).
  { induction l as [|k l IH]; intros ks N; [now rewrite app_nil_r|]. cbn [fold_left]. unfold addk at 2. destruct (in_dec string_dec k ks) as [I|_].
    - exfalso. apply NoDup_remove_2 in N. apply N. apply in_or_app. now left.
    - rewrite IH by (now rewrite <- app_assoc). now rewrite <- app_assoc. }
  intro N. exact (G _ [] N).
Qed.
Lemma typed_distinct ps : NoDup (map full_type ps) -> (forall p, In p ps -> full_type p <> "meta"%string) -> typed ps = map full_type ps.
Proof.
  intros N H. unfold typed. rewrite keys_of_distinct by exact N. assert (G : forall l, (forall k, In k l -> k <> "meta"%string) -> filter (fun k => negb (String.eqb k "meta")) l = l).
  { induction l as [|k l IH]; intro Hl; [reflexivity|]. cbn. destruct (String.eqb_spec k "meta") as [E|_]; [exfalso; apply (Hl k); [now left|exact E]|]. cbn. f_equal. apply IH. intros; apply Hl. now right. }
  apply G. intros k Hk. apply in_map_iff in Hk as (p & <- & Hp). now apply H.
Qed.

Section R.
Variables (slv : solvers) (argsort : list xq -> list nat) (polyfit : list Q -> list Q -> option (Q * Q * Q)) (isqrt : Q -> Q).
Variable trans : option string -> Q -> Q -> Q.
Variables (nminima nz : nat).
Hypothesis Hsort : argsort_ok argsort.
Notation tdata := (tdata trans).
Notation tscan := (tscan slv). Notation tfit := (tfit slv argsort polyfit isqrt trans nminima nz).
Notation fit_target := (fit_target slv argsort polyfit isqrt trans nminima nz).
Notation solo := (solo slv argsort polyfit isqrt trans nminima nz).
Notation run := (run slv argsort polyfit isqrt trans nminima nz).
Notation fitted := (fitted slv argsort polyfit isqrt trans nminima nz).
Notation scan_of := (scan_of slv).

(* a run of one target *)
Lemma run_one ps g tab : run ps [g] = Ok tab <-> exists tds bs t, mapM (fun p => tdata p (grids [g]) (p_zs p)) ps = Ok tds /\ solo ps (combine ps tds) g = Ok bs /\
  assemble_target nminima None (g_id g) bs = Ok t /\ standardise (list_max_nat (map nbasis ps)) t = Ok tab.
Proof.
  assert (N1 : NoDup (map g_id [g])) by (cbn; constructor; [intros []|constructor]).
  assert (E : forall bs m, zfind_table nminima None m [g_id g] [(g_id g, bs)] = do t <- assemble_target nminima None (g_id g) bs; standardise m t).
  { intros bs m. unfold zfind_table, tables. cbn [mapM rget]. rewrite Z.eqb_refl. destruct (assemble_target _ _ _ _) as [t|]; cbn [rbind]; [|reflexivity]. cbn [vstack forallb]. rewrite Nat.eqb_refl. cbn [andb concat rbind]. now rewrite app_nil_r. }
  rewrite (run_ok _ _ _ _ _ _ _ ps [g] tab N1). split.
  - intros (tds & bss & H1 & F & H2). inversion F as [|? bs ? ? Hs F']; subst. inversion F'; subst. cbn [map combine] in H2. rewrite E in H2. destruct (assemble_target _ _ _ _) as [t|] eqn:Ea; cbn [rbind] in H2; [|discriminate]. exists tds, bs, t. now repeat split.
  - intros (tds & bs & t & H1 & H2 & H3 & H4). exists tds, [bs]. split; [exact H1|]. split; [now constructor|]. cbn [map combine]. rewrite E, H3. exact H4.
Qed.
Lemma scan_build g l : (forall pt, In pt l -> exists row, scan_of pt g = Ok row) -> forall d, exists d', foldM (tscan g) d l = Ok d'.
Proof.
  induction l as [|pt l IH]; intros H d; [now exists d|]. cbn [foldM]. destruct (H pt (or_introl eq_refl)) as [row Hr]. unfold Proof_Run.tscan at 1. fold (scan_of pt g). rewrite Hr. cbn [rbind]. apply IH. intros; apply H. now right.
Qed.
Lemma fit_build g ps : forall d, (forall p, In p ps -> exists e fs, sget d (full_type p) = Some e /\ fit_target p g (map2 Qplus (e_zchi2 e) (e_penalty e)) = Ok fs) -> exists d', foldM (tfit g) d ps = Ok d'.
Proof.
  induction ps as [|p ps IH]; intros d H; [now exists d|]. cbn [foldM]. destruct (H p (or_introl eq_refl)) as (e & fs & He & Hf). unfold Proof_Run.tfit at 1. rewrite He, Hf. cbn [rbind]. apply IH. intros q Hq. destruct (H q (or_intror Hq)) as (e' & fs' & He' & Hf'). rewrite sget_sset. destruct (String.eqb_spec (full_type p) (full_type q)) as [E|_].
  - rewrite <- E in He'. assert (e' = e) by congruence. subst e'. eexists _, fs'. split; [reflexivity|exact Hf'].
  - exists e', fs'. now split.
Qed.
Lemma solo_build ps tds g : length tds = length ps -> NoDup (map full_type ps) -> (forall p td, In (p, td) (combine ps tds) -> exists row fs ts, scan_of (p, td) g = Ok row /\
    fit_target p g (map2 Qplus (fst (fst row)) (snd row)) = Ok fs /\ parse_fulltype (full_type p) = Ok ts) -> exists bs, solo ps (combine ps tds) g = Ok bs.
Proof.
  intros L N H. unfold Proof_Run.solo. destruct (scan_build g (combine ps tds)) with (d := @nil (string * entry)) as [d1 E1]; [intros [p td] I; destruct (H p td I) as (row & _ & _ & Hr & _); now exists row|]. rewrite E1. cbn [rbind].
  destruct (scan_inv _ _ _ _ _ E1) as [K1 P1].
  assert (PK : forall p, In p ps -> exists td row fs ts, In (p, td) (combine ps tds) /\ scan_of (p, td) g = Ok row /\ sget d1 (full_type p) = Some {| e_zchi2 := fst (fst row); e_penalty := snd row; e_fits := None |} /\
     fit_target p g (map2 Qplus (fst (fst row)) (snd row)) = Ok fs /\ parse_fulltype (full_type p) = Ok ts).
  { intros p Hp. specialize (P1 (full_type p)). pose proof (pickt_pick (full_type p) ps tds L) as Q. pose proof (pick_alone ps p Hp N) as Q2. destruct (pickt (full_type p) (combine ps tds)) as [[p' td]|]; [|congruence]. destruct Q as [Q1 I]. cbn [fst] in Q1. assert (p' = p) by congruence. subst p'.
    destruct P1 as (row & Hr & Hs). destruct (H p td I) as (row' & fs & ts & Hr' & Hf & Ht). assert (row' = row) by congruence. subst row'. exists td, row, fs, ts. now repeat split. }
  destruct (fit_build g (by_type ps)) with (d := d1) as [d2 E2].
  { intros p Hp. unfold by_type in Hp. apply isort_in in Hp. destruct (PK p Hp) as (td & row & fs & ts & _ & _ & Hs & Hf & _). eexists _, fs. split; [exact Hs|exact Hf]. }
  rewrite E2. cbn [rbind]. destruct (fit_inv _ _ _ _ _ _ _ _ _ _ _ E2) as [K2 P2].
  assert (K : keys d2 = keys_of ps). { rewrite K2, K1. unfold keys_of. f_equal. clear -L. revert tds L. induction ps as [|p ps IH]; intros [|td tds] L; try discriminate; [reflexivity|]. cbn in *. f_equal. apply IH. lia. }
  unfold blocks_of. destruct (mapM_choose (fun x : string * entry => block_of (fst x) (snd x)) (fun _ _ => True) (filter (fun x => negb (String.eqb (fst x) "meta")) d2)) as (bs & Hbs & _); [|now exists bs].
  intros [k e] I. apply filter_In in I as [I _]. cbn [fst snd]. assert (ND : NoDup (keys d2)) by (rewrite K; apply keys_of_nodup). pose proof (sget_key d2 k e ND I) as Sk.
  assert (Ik : In k (map full_type ps)). { apply keys_of_in. rewrite <- K. unfold keys. apply in_map_iff. now exists (k, e). }
  apply in_map_iff in Ik as (p & <- & Hp). destruct (PK p Hp) as (td & row & fs & ts & _ & _ & Hs & Hf & Ht). specialize (P2 (full_type p)). rewrite Hs, pick_by_type, (pick_alone ps p Hp N) in P2. cbn [e_zchi2 e_penalty] in P2. destruct P2 as (fs' & _ & G2).
  assert (Ee : e = {| e_zchi2 := fst (fst row); e_penalty := snd row; e_fits := Some (npixels g, fs') |}) by congruence. subst e. unfold block_of. cbn [e_fits]. rewrite Ht. cbn [rbind]. eexists. split; [reflexivity|exact Logic.I].
Qed.

(* the block of a full type is determined *)
Lemma fitted_same ps tds ps' tds' g ft b b' : (forall p td td', In (p, td) (combine ps tds) -> In (p, td') (combine ps' tds') -> td = td') -> pick ft ps = pick ft ps' ->
  fitted ps tds g ft b -> fitted ps' tds' g ft b' -> b = b'.
Proof.
  intros U P (p & td & row & fs & ts & H1 & H2 & H3 & H4 & H5 & ->) (p' & td' & row' & fs' & ts' & H1' & H2' & H3' & H4' & H5' & ->).
  assert (p' = p) by congruence. subst p'. rewrite (U p td td' H2 H2') in *. assert (row' = row) by congruence. subst row'. assert (ts' = ts) by congruence. subst ts'. assert (fs' = fs) by congruence. now subst fs'.
Qed.
Lemma F2_fun {A B} (R1 R2 : A -> B -> Prop) l m m' : (forall a b b', In a l -> R1 a b -> R2 a b' -> b = b') -> Forall2 R1 l m -> Forall2 R2 l m' -> m = m'.
Proof.
  intros H F. revert m'. induction F as [|a b l m Hab _ IH]; intros m' F'; inversion F' as [|? b' ? m'' Hb F'']; subst; [reflexivity|]. f_equal; [apply (H a); auto; now left|]. apply IH; [intros x y y' Hx; apply H; now right|exact F''].
Qed.
Lemma solo_perm ps ps' tds tds' g bs : NoDup (map full_type ps) -> (forall p, In p ps -> full_type p <> "meta"%string) -> Permutation ps ps' ->
  mapM (fun p => tdata p (grids [g]) (p_zs p)) ps = Ok tds -> mapM (fun p => tdata p (grids [g]) (p_zs p)) ps' = Ok tds' ->
  solo ps (combine ps tds) g = Ok bs -> exists bs', solo ps' (combine ps' tds') g = Ok bs' /\ Permutation bs bs'.
Proof.
  intros N M P Ht Ht' H.
  assert (L : length tds = length ps) by (apply mapM_Forall2 in Ht; now apply Forall2_len in Ht). assert (L' : length tds' = length ps') by (apply mapM_Forall2 in Ht'; now apply Forall2_len in Ht').
  assert (N' : NoDup (map full_type ps')) by (eapply Permutation_NoDup; [apply Permutation_map; exact P|exact N]).
  assert (M' : forall p, In p ps' -> full_type p <> "meta"%string) by (intros p Hp; apply M; eapply Permutation_in; [symmetry; exact P|exact Hp]).
  pose proof (solo_inv _ _ _ _ _ _ _ _ _ _ _ L H) as F. rewrite typed_distinct in F by assumption.
  assert (U : forall p td td', In (p, td) (combine ps tds) -> In (p, td') (combine ps' tds') -> td = td'). { intros p td td' I I'. apply (mapM_combine _ _ _ Ht) in I. apply (mapM_combine _ _ _ Ht') in I'. congruence. }
  assert (PK : forall p, In p ps -> pick (full_type p) ps = pick (full_type p) ps'). { intros p Hp. rewrite (pick_alone ps p Hp N). rewrite (pick_alone ps' p); [reflexivity|eapply Permutation_in; eassumption|exact N']. }
  destruct (solo_build ps' tds' g L' N') as [bs' Hb'].
  { intros p td' I'. assert (Hp : In p ps) by (eapply Permutation_in; [symmetry; exact P|]; now apply in_combine_l in I').
    destruct (in_both (fun x (b : Model_Zfind.block) => True) (fun ft b => fitted ps tds g ft b) (map full_type ps) bs (map snd (combine (map full_type ps) bs)) F) with (a := full_type p) as (b & _ & _ & Hf & _); [|apply in_map; exact Hp|].
    - clear. induction (combine (map full_type ps) bs); cbn; constructor; auto.
    - destruct Hf as (q & td & row & fs & ts & H1 & H2 & H3 & H4 & H5 & _). rewrite (pick_alone ps p Hp N) in H1. assert (q = p) by congruence. subst q. rewrite (U p td td' H2 I') in *. exists row, fs, ts. now repeat split. }
  exists bs'. split; [exact Hb'|]. pose proof (solo_inv _ _ _ _ _ _ _ _ _ _ _ L' Hb') as F'. rewrite typed_distinct in F' by assumption.
  destruct (Permutation_Forall2 (Permutation_map full_type P) F) as (bs0 & P0 & F0).
  assert (E : bs0 = bs'); [|now rewrite <- E].
  eapply F2_fun; [|exact F0|exact F']. intros ft b b' Hft Hb Hc. apply in_map_iff in Hft as (p & <- & Hp). eapply fitted_same; [exact U| |exact Hb|exact Hc]. apply PK. eapply Permutation_in; [symmetry; exact P|exact Hp].
Qed.
(* one template alone *)
Lemma solo_single ps tds g bs p : NoDup (map full_type ps) -> full_type p <> "meta"%string -> In p ps -> mapM (fun p => tdata p (grids [g]) (p_zs p)) ps = Ok tds -> solo ps (combine ps tds) g = Ok bs ->
  exists td b, tdata p (grids [g]) (p_zs p) = Ok td /\ solo [p] [(p, td)] g = Ok [b] /\ In b bs /\ fitted [p] [td] g (full_type p) b.
Proof.
  intros N M Hp Ht H. assert (L : length tds = length ps) by (apply mapM_Forall2 in Ht; now apply Forall2_len in Ht).
  pose proof (solo_inv _ _ _ _ _ _ _ _ _ _ _ L H) as F.
  assert (It : In (full_type p) (typed ps)). { unfold typed. apply filter_In. split; [apply keys_of_in, in_map, Hp|]. destruct (String.eqb_spec (full_type p) "meta"); [contradiction|reflexivity]. }
  assert (X : exists b, In b bs /\ fitted ps tds g (full_type p) b). { clear -F It. induction F as [|ft b l m Hb _ IH]; [destruct It|]. destruct It as [->|It]; [exists b; split; [now left|exact Hb]|]. destruct (IH It) as (b' & Ib & Hb'). exists b'. split; [now right|exact Hb']. }
  destruct X as (b & Ib & q & td & row & fs & ts & H1 & H2 & H3 & H4 & H5 & ->). rewrite (pick_alone ps p Hp N) in H1. assert (q = p) by congruence. subst q.
  assert (N1 : NoDup (map full_type [p])) by (cbn [map]; constructor; [intros []|constructor]).
  destruct (solo_build [p] [td] g eq_refl N1) as [bs1 Hb1]. { intros q td' [I|[]]. injection I as <- <-. exists row, fs, ts. now repeat split. }
  pose proof (solo_inv _ _ _ _ _ _ _ _ _ _ _ (eq_refl : length [td] = length [p]) Hb1) as F1. rewrite typed_distinct in F1; [|exact N1|intros q [<-|[]]; exact M].
  assert (FT : fitted [p] [td] g (full_type p) (mkblock ts (npixels g) fs)). { exists p, td, row, fs, ts. split; [apply pick_alone; [now left|exact N1]|]. split; [now left|]. now repeat split. }
  inversion F1 as [|? b1 ? l1 Hb F1']; subst. inversion F1'; subst.
  assert (b1 = mkblock ts (npixels g) fs). { eapply fitted_same; [| |exact Hb|exact FT]; [|reflexivity]. intros q t1 t2 [E|[]] [E'|[]]. congruence. }
  subst b1. exists td, (mkblock ts (npixels g) fs). split; [exact (mapM_combine _ _ _ Ht p td H2)|]. now repeat split.
Qed.
End R.

Lemma no_worse_iff z1 z2 z1' z2' c c' : (is_bad z1 <-> is_bad z1') -> (is_bad z2 <-> is_bad z2') -> no_worse z1 c z2 c' <-> no_worse z1' c z2' c'.
Proof. unfold no_worse. intros -> ->. reflexivity. Qed.
Lemma prepared_bad tid m b r : is_bad (Model_Zfind.f_zwarn (prepared None tid m b r)) <-> is_bad (Model_Zfind.f_zwarn r).
Proof. unfold prepared. rewrite flag_row_bad_none. reflexivity. Qed.
Lemma of_type_le ty l : length (of_type ty l) <= length l.
Proof. unfold of_type. induction l as [|y l IH]; [apply le_n|]. cbn [filter]. destruct (String.eqb (f_type y) ty); cbn [length]; lia. Qed.
(* one block of at most n rows of one type: every row is kept *)
Lemma single_all n tid b t : length (b_rows b) <= n -> (forall r r', In r (b_rows b) -> In r' (b_rows b) -> f_type r = f_type r') -> assemble_target n None tid [b] = Ok t ->
  forall r, In r (b_rows b) -> exists o, In o t /\ f_type o = f_type r /\ Model_Zfind.f_chi2 o = Model_Zfind.f_chi2 r /\ (is_bad (Model_Zfind.f_zwarn o) <-> is_bad (Model_Zfind.f_zwarn r)).
Proof.
  intros L T A r Hr. pose proof (out_eq _ _ _ _ _ A) as E. set (x := prepared None tid (max_width [b]) b r).
  set (rows := sort_rows (flagged_rows None tid [b])) in *.
  assert (Hx : In x rows) by (apply sort_rows_in, flagged_rows_in; exists b, r; split; [now left|split; [exact Hr|reflexivity]]).
  assert (Lr : length rows = length (b_rows b)).
  { unfold rows, sort_rows. rewrite <- (Permutation_length (isort_perm row_le (flagged_rows None tid [b]))). rewrite flagged_concat. cbn [filter]. destruct (nonempty b) eqn:En.
    - cbn [map concat]. rewrite app_nil_r. unfold ranked_block. apply map_length.
    - unfold nonempty in En. destruct (b_rows b); [reflexivity|discriminate]. }
  assert (Hy : In x (trim n rows)).
  { apply in_of_type. rewrite trim_of_type by apply sort_rows_sorted. rewrite firstn_all2; [exact (proj1 (in_of_type x rows) Hx)|]. pose proof (of_type_le (f_type x) rows) as G. clear -G Lr L. lia. }
  apply In_nth_error in Hy as [i Hi]. destruct (number_rows_nth _ _ _ Hi) as (d & s & _ & _ & En).
  exists (numbered i x d s). split; [rewrite E; eapply nth_error_In, En|]. destruct (numbered_fields i x d s) as (_ & -> & _ & _ & _ & -> & _ & _ & _ & _ & _ & _ & ->).
  split; [reflexivity|]. split; [reflexivity|]. rewrite <- (prepared_bad tid (max_width [b]) b r). fold x. destruct s; [apply small_not_bad|reflexivity].
Qed.
Lemma fop_F2 {A B} (R : A -> B -> Prop) (P : B -> B -> Prop) l m : Forall2 R l m -> NoDup l -> (forall a a' b b', In a l -> In a' l -> a <> a' -> R a b -> R a' b' -> P b b') -> ForallOrdPairs P m.
Proof.
  intro F. induction F as [|a b l m Hab F IH]; intros N H; [constructor|]. inversion N as [|? ? N1 N2]; subst. constructor.
  - clear IH. apply Forall_forall. intros b' Hb'. destruct (Forall2_in_r _ _ _ b' F Hb') as (a' & Ha' & Hr). apply (H a a'); auto; [now left|now right|]. intros ->. contradiction.
  - apply IH; [exact N2|]. intros x x' y y' Hx Hx'. apply H; now right.
Qed.

Section P.
Variables (slv : solvers) (argsort : list xq -> list nat) (polyfit : list Q -> list Q -> option (Q * Q * Q)) (isqrt : Q -> Q).
Variable trans : option string -> Q -> Q -> Q.
Variables (nminima nz : nat).
Hypothesis Hsort : argsort_ok argsort.
Notation tdata := (tdata trans).
Notation solo := (solo slv argsort polyfit isqrt trans nminima nz).
Notation run := (run slv argsort polyfit isqrt trans nminima nz).
Notation fitted := (fitted slv argsort polyfit isqrt trans nminima nz).
Lemma one_nodup g : NoDup (map g_id [g]). Proof. cbn. constructor; [intros []|constructor]. Qed.

(* the run of one template on the target, and the fits of that template *)
Lemma run_single ps g tab p : NoDup (map full_type ps) -> full_type p <> "meta"%string -> In p ps -> run ps [g] = Ok tab ->
  exists tds bs b t1 tab1, mapM (fun p => tdata p (grids [g]) (p_zs p)) ps = Ok tds /\ solo ps (combine ps tds) g = Ok bs /\ fitted ps tds g (full_type p) b /\ In b bs /\
   run [p] [g] = Ok tab1 /\ assemble_target nminima None (g_id g) [b] = Ok t1 /\ (exists m cut, tab1 = map (finalised m cut) t1) /\
   forall r, In r (b_rows b) -> exists o, In o tab1 /\ Model_Zfind.f_chi2 o = Model_Zfind.f_chi2 r /\ (is_bad (Model_Zfind.f_zwarn o) <-> is_bad (Model_Zfind.f_zwarn r)).
Proof.
  intros N M Hp H. destruct (run_parts _ _ _ _ _ _ _ Hsort _ _ _ (one_nodup g) H) as (_ & _ & _ & _ & _ & P & _).
  apply run_one in H as (tds & bs & t & Ht & Hs & _).
  destruct (solo_single slv argsort polyfit isqrt trans nminima nz ps tds g bs p N M Hp Ht Hs) as (td & b & H1 & H2 & Ib & Hf).
  assert (N1 : NoDup (map full_type [p])) by (cbn [map]; constructor; [intros []|constructor]).
  destruct (fitted_wf _ _ _ _ _ _ _ Hsort _ _ _ _ _ Hf) as (Wf & Ln & Q). destruct (Q P) as (Ne & q & Hq & Wq). rewrite (pick_alone [p] p (or_introl eq_refl) N1) in Hq. assert (q = p) by congruence. subst q.
  assert (A1 : exists t1, assemble_target nminima None (g_id g) [b] = Ok t1) by (unfold assemble_target; cbn [filter]; rewrite Ne; eexists; reflexivity).
  destruct A1 as [t1 A1].
  pose proof (solo_inv _ _ _ _ _ _ _ _ _ _ _ (eq_refl : length [td] = length [p]) H2) as F1.
  destruct (table_width _ _ _ _ _ _ _ Hsort _ _ _ _ _ P F1 A1) as [W1 _].
  assert (W : coeff_width t1 <= list_max_nat (map nbasis [p])) by (rewrite W1; apply width_le).
  destruct (standardise_total _ _ W) as [tab1 St]. destruct (standardise_eq _ _ _ St) as (_ & cut & E & _).
  pose proof (solo_inv _ _ _ _ _ _ _ _ _ _ _ (ltac:(apply mapM_Forall2 in Ht; now apply Forall2_len in Ht) : length tds = length ps) Hs) as F.
  assert (It : In (full_type p) (typed ps)). { unfold typed. apply filter_In. split; [apply keys_of_in, in_map, Hp|]. destruct (String.eqb_spec (full_type p) "meta"); [contradiction|reflexivity]. }
  assert (X : exists b', In b' bs /\ fitted ps tds g (full_type p) b'). { clear -F It. induction F as [|ft b l m Hb _ IH]; [destruct It|]. destruct It as [->|It]; [exists b; split; [now left|exact Hb]|]. destruct (IH It) as (b' & Ib & Hb'). exists b'. split; [now right|exact Hb']. }
  destruct X as (b' & _ & Hb').
  assert (b' = b). { eapply fitted_same; [| |exact Hb'|exact Hf]; [|rewrite (pick_alone ps p Hp N), (pick_alone [p] p (or_introl eq_refl) N1); reflexivity]. intros q t0 t0' I [E0|[]]. apply (mapM_combine _ _ _ Ht) in I. injection E0 as <- <-. congruence. }
  subst b'.
  exists tds, bs, b, t1, tab1. split; [exact Ht|]. split; [exact Hs|]. split; [exact Hb'|]. split; [exact Ib|]. split; [apply run_one; exists [td], [b], t1; cbn [mapM]; rewrite H1; now repeat split|]. split; [exact A1|].
  split; [now exists (list_max_nat (map nbasis [p])), cut|].
  intros r Hr. destruct (single_all nminima (g_id g) b t1 Ln) with (r := r) as (o & Ho & _ & Hc & Hb2); [|exact A1|exact Hr|].
  - destruct Hf as (q & td' & row & fs & ts & _ & _ & _ & _ & _ & ->). unfold mkblock. cbn [b_rows]. intros r1 r2 I1 I2. apply in_map_iff in I1 as (x1 & <- & _), I2 as (x2 & <- & _). reflexivity.
  - exists (finalised (list_max_nat (map nbasis [p])) cut o). split; [rewrite E; now apply in_map|]. destruct cut; now split.
Qed.
Lemma run_perm_one ps ps' g tab : NoDup (map full_type ps) -> (forall p, In p ps -> full_type p <> "meta"%string) -> Permutation ps ps' -> run ps [g] = Ok tab ->
  (forall p p' t t' o o', In p ps -> In p' ps -> full_type p <> full_type p' -> run [p] [g] = Ok t -> run [p'] [g] = Ok t' -> In o t -> In o' t' -> ~ ties o o') ->
  run ps' [g] = Ok tab.
Proof.
  intros N M P H T. pose proof H as H'. apply run_one in H' as (tds & bs & t & Ht & Hs & A & St).
  destruct (mapM_perm _ _ _ _ P Ht) as [tds' Ht']. destruct (solo_perm _ _ _ _ _ _ _ _ _ _ _ _ _ N M P Ht Ht' Hs) as (bs' & Hs' & Pb).
  apply run_one. exists tds', bs', t. split; [exact Ht'|]. split; [exact Hs'|]. rewrite <- (list_max_perm (map nbasis ps) (map nbasis ps')) by (now apply Permutation_map). split; [|exact St].
  rewrite <- A. symmetry. apply assemble_perm; [exact Pb|]. apply fop_map, fop_filter.
  assert (L : length tds = length ps) by (apply mapM_Forall2 in Ht; now apply Forall2_len in Ht). pose proof (solo_inv _ _ _ _ _ _ _ _ _ _ _ L Hs) as F. rewrite typed_distinct in F by assumption.
  eapply (fop_F2 (fitted ps tds g) _ _ _ F N). intros a a' b b' Ia Ia' Na Hb Hb'. apply in_map_iff in Ia as (p & <- & Hp), Ia' as (p' & <- & Hp').
  destruct (run_single ps g tab p N (M p Hp) Hp H) as (tds1 & bs1 & b1 & t1 & tab1 & E1 & _ & F1 & _ & R1 & _ & _ & V1).
  destruct (run_single ps g tab p' N (M p' Hp') Hp' H) as (tds2 & bs2 & b2 & t2 & tab2 & E2 & _ & F2 & _ & R2 & _ & _ & V2).
  assert (tds1 = tds) by congruence. assert (tds2 = tds) by congruence. subst tds1 tds2.
  assert (U : forall q td td', In (q, td) (combine ps tds) -> In (q, td') (combine ps tds) -> td = td') by (intros q td td' I I'; apply (mapM_combine _ _ _ Ht) in I, I'; congruence).
  assert (b1 = b) by (eapply fitted_same; [exact U|reflexivity|exact F1|exact Hb]). assert (b2 = b') by (eapply fitted_same; [exact U|reflexivity|exact F2|exact Hb']). subst b1 b2.
  intros x y Hx Hy [T1 T2]. unfold ranked_block in Hx, Hy. apply in_map_iff in Hx as (r & <- & Hr), Hy as (r' & <- & Hr').
  destruct (V1 r Hr) as (o & Ho & Co & Bo). destruct (V2 r' Hr') as (o' & Ho' & Co' & Bo').
  apply (T p p' tab1 tab2 o o' Hp Hp' Na R1 R2 Ho Ho'). apply row_le_no_worse in T1, T2. unfold ties, ranks_no_worse. rewrite Co, Co'. cbn [Model_Zfind.f_chi2 prepared flag_row set_zwarn set_tid set_coeff set_prep] in T1, T2.
  split; [refine (proj1 (no_worse_iff _ _ _ _ _ _ _ _) T1)|refine (proj1 (no_worse_iff _ _ _ _ _ _ _ _) T2)]; rewrite prepared_bad; symmetry; assumption.
Qed.
(* no fit of any template is lost *)
Lemma best_kept ps g tab p tab1 o1 : NoDup (map full_type ps) -> full_type p <> "meta"%string -> In p ps -> run ps [g] = Ok tab -> run [p] [g] = Ok tab1 -> In o1 tab1 ->
  exists o, In o tab /\ f_type o = f_type o1 /\ ranks_no_worse o o1.
Proof.
  intros N M Hp H H1 Ho. destruct (run_parts _ _ _ _ _ _ _ Hsort _ _ _ (one_nodup g) H) as (_ & _ & _ & _ & _ & P & _).
  destruct (run_single ps g tab p N M Hp H) as (tds & bs & b & t1 & tab1' & Ht & Hs & Hb & Ib & R1 & A1 & (m1 & cut1 & E1) & _). assert (EE : tab1 = map (finalised m1 cut1) t1) by congruence. clear E1 R1.
  apply run_one in H as (tds' & bs' & t & Ht' & Hs' & A & St). assert (tds' = tds) by congruence. subst tds'. assert (bs' = bs) by congruence. subst bs'. clear Ht' Hs'.
  rewrite EE in Ho. apply in_map_iff in Ho as (o1' & <- & Ho). destruct (out_row _ _ _ _ _ A1 o1' Ho) as (b0 & r & [<-|[]] & Hr & _ & Et & _ & _ & _ & Ec & _ & _ & _ & small & Ez).
  destruct (out_best_of_type _ _ _ _ _ A b r P Ib Hr) as (o & Io & Ot & Ow).
  destruct (standardise_eq _ _ _ St) as (_ & cut & E & _). exists (finalised (list_max_nat (map nbasis ps)) cut o). split; [rewrite E; now apply in_map|].
  assert (FF : forall m c q, f_type (finalised m c q) = stake 6 (f_type q) /\ Model_Zfind.f_zwarn (finalised m c q) = Model_Zfind.f_zwarn q /\ Model_Zfind.f_chi2 (finalised m c q) = Model_Zfind.f_chi2 q) by (intros m [c|] q; now repeat split).
  destruct (FF (list_max_nat (map nbasis ps)) cut o) as (-> & W1 & C1). destruct (FF m1 cut1 o1') as (-> & W2 & C2). split; [now rewrite Ot, Et|].
  unfold ranks_no_worse. rewrite W1, C1, W2, C2, Ec. refine (proj1 (no_worse_iff _ _ _ _ _ _ _ _) Ow); [reflexivity|]. rewrite prepared_bad. rewrite Ez. cbv zeta. destruct small; [rewrite small_not_bad|]; symmetry; apply prepared_bad.
Qed.
End P.
