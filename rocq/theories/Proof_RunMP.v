(* Proofs about the whole run with several processes. *)
From Verif Require Import Prelude PreludeFacts NumX Facts2 Model_Fitz Model_Rebin Model_Dist Spec_Dist Proof_Dist2 Proof_Dist3 Model_MP Proof_MP Proof_MP2 Proof_Table Model_Zscan Proof_Zscan4
  Model_Piece Model_IO Model_Zfind Model_Run Proof_Run Model_RunMPI Model_RunMP Spec_RunMP.
Open Scope nat_scope.
Local Notation dget := Model_Dist.dget. Local Notation dset := Model_Dist.dset. Local Notation dict := Model_Dist.dict.

(* ---------- dictionaries ---------- *)
Lemma dset_same_keys {V} (d : dict V) k v : dget d k <> None -> map fst (dset d k v) = map fst d.
Proof. induction d as [|[a x] d IH]; cbn; [congruence|]. destruct (Z.eqb_spec a k) as [->|]; cbn; [reflexivity|]. intro H. now rewrite IH. Qed.
Lemma dict_ext {V} (a b : dict V) : NoDup (map fst a) -> map fst a = map fst b -> (forall k, dget a k = dget b k) -> a = b.
Proof.
  revert b. induction a as [|[k v] a IH]; intros [|[k' v'] b] N E G; cbn in E; try discriminate; [reflexivity|]. injection E as <- E. cbn in N. inversion N as [|? ? N1 N2]; subst.
  pose proof (G k) as Gk. cbn in Gk. rewrite Z.eqb_refl in Gk. assert (v = v') by congruence. subst v'. f_equal. apply IH; [exact N2|exact E|]. intro x. specialize (G x). cbn in G.
  destruct (Z.eqb_spec k x) as [E'|]; [|exact G]. subst x. transitivity (@None V); [|symmetry]; apply dget_none; [exact N1|rewrite <- E; exact N1].
Qed.
Lemma dset_nodup {V} (d : dict V) k v : NoDup (map fst d) -> NoDup (map fst (dset d k v)).
Proof.
  intro N. destruct (dget d k) eqn:E; [rewrite dset_same_keys by congruence; exact N|]. rewrite dset_fresh_keys, map_app by exact E. apply NoDup_app_intro; [exact N|constructor; [intros []|constructor]|].
  intros x Hx [<-|[]]. apply dget_none in E. now apply E.
Qed.
Lemma store_nodup {V} (ks : list Z) (vs : list V) : forall d, NoDup (map fst d) -> NoDup (map fst (store ks vs d)).
Proof. unfold store. generalize (combine ks vs) as l. induction l as [|[k v] l IH]; intros d N; cbn [fold_left fst snd]; [exact N|]. apply IH, dset_nodup, N. Qed.
Lemma dget_map_v {V W} (f : Z -> V -> W) (d : dict V) k : dget (map (fun x => (fst x, f (fst x) (snd x))) d) k = option_map (f k) (dget d k).
Proof. induction d as [|[a x] d IH]; [reflexivity|]. cbn. destruct (Z.eqb_spec a k) as [->|]; [reflexivity|exact IH]. Qed.
Lemma dget_perm {V} (a b : dict V) k : NoDup (map fst a) -> Permutation a b -> dget a k = dget b k.
Proof.
  intros N P. assert (N' : NoDup (map fst b)) by (eapply Permutation_NoDup; [apply Permutation_map; exact P|exact N]).
  destruct (dget a k) as [v|] eqn:E.
  - symmetry. apply (dget_in b k v N'). eapply Permutation_in; [exact P|]. now apply (dget_in a k v N).
  - symmetry. apply dget_none. apply dget_none in E. intro H. apply E. eapply Permutation_in; [apply Permutation_map; symmetry; exact P|exact H].
Qed.

(* ---------- the processes ---------- *)
Lemma in_aligned {A B} (K : list (list A)) (T : list (list B)) k t : Forall2 (fun a b => length a = length b) K T -> In (k, t) (combine (concat K) (concat T)) ->
  exists i j, i < length T /\ nth_error (nth i K []) j = Some k /\ nth_error (nth i T []) j = Some t.
Proof.
  induction 1 as [|a b K T L _ IH]; [intros []|]. cbn [concat]. intro H.
  assert (E : combine (a ++ concat K) (b ++ concat T) = combine a b ++ combine (concat K) (concat T)). { clear -L. revert b L. induction a as [|x a IH]; intros [|y b] L; cbn in *; try discriminate; [reflexivity|]. f_equal. apply IH. lia. }
  rewrite E in H. apply in_app_iff in H as [H|H].
  - exists 0. cbn [nth length]. clear -H L. revert b L H. induction a as [|x a IH]; intros [|y b] L H; cbn in *; try discriminate; [destruct H|]. destruct H as [H|H].
    + exists 0. split; [lia|]. split; cbn; congruence.
    + destruct (IH b ltac:(lia) H) as (j & H0 & H1 & H2). exists (S j). split; [lia|]. now split.
  - destruct (IH H) as (i & j & Hi & H1 & H2). exists (S i), j. cbn [length nth]. split; [lia|]. now split.
Qed.
Lemma aligned_length {A B} (K : list (list A)) (T : list (list B)) : Forall2 (fun a b => length a = length b) K T -> length (concat K) = length (concat T).
Proof. induction 1 as [|a b K T L _ IH]; [reflexivity|]. cbn [concat]. rewrite !app_length. lia. Qed.
Lemma map_fst_combine {A B} (a : list A) (b : list B) : length a = length b -> map fst (combine a b) = a.
Proof. revert b. induction a as [|x a IH]; intros [|y b] L; cbn in *; try discriminate; [reflexivity|]. f_equal. apply IH. lia. Qed.

Lemma collects_inv {D V} (f : tgt D -> res V) data keys wp d : NoDup (concat keys) -> Forall2 (fun a b => length a = length b) keys data -> collects f data keys wp d ->
  NoDup (map fst d) /\ forall k, match dget (combine (concat keys) (concat data)) k with Some t => exists v, f t = Ok v /\ dget d k = Some v | None => dget d k = None end.
Proof.
  intros N L (n & s & Hs & He). pose proof (minv_steps f data keys wp n s Hs) as HI.
  assert (Hok : forall t, In t (concat data) -> exists v, f t = Ok v). { intros t Ht. destruct (f t) as [v|e] eqn:E; [now exists v|]. exfalso. exact (never_ends f data keys wp s t e HI Ht E d He). }
  pose proof HI as (_ & C & _ & HC). rewrite He in HC. destruct HC as (_ & Ed & _). split.
  - rewrite Ed. unfold collected. assert (G : forall l (d0 : dict V), NoDup (map fst d0) -> NoDup (map fst (fold_left (fun d iv => store (nth (fst iv) keys []) (snd iv) d) l d0))) by (induction l as [|x l IH]; intros d0 H0; [exact H0|]; cbn [fold_left]; apply IH, store_nodup, H0).
    apply G. constructor.
  - intro k. assert (NC : NoDup (map fst (combine (concat keys) (concat data)))) by (rewrite map_fst_combine; [exact N|now apply aligned_length]).
    destruct (dget (combine (concat keys) (concat data)) k) as [t|] eqn:E.
    + apply (dget_in _ k t NC) in E. assert (Ht : In t (concat data)) by (eapply in_combine_r; exact E). destruct (Hok t Ht) as [v Hv]. exists v. split; [exact Hv|].
      destruct (in_aligned _ _ _ _ L E) as (i & j & Hi & Hk & Hj). exact (minv_final f data keys wp Hok s d HI He N i j k v Hi (ex_intro _ t (conj Hk (conj Hj Hv)))).
    + destruct (dget d k) as [v|] eqn:Ek; [|reflexivity]. exfalso. apply dget_none in E. rewrite map_fst_combine in E by now apply aligned_length. apply E.
      apply (collected_keys keys C). rewrite <- Ed. rewrite Ek. discriminate.
Qed.
Lemma collects_ex {D V} (f : tgt D -> res V) data keys wp : (forall t, In t (concat data) -> exists v, f t = Ok v) -> exists d, collects f data keys wp d.
Proof.
  intro Hok. destruct (maximal_run f data keys wp) as (k & s & Hs & Hno). destruct (minv_progress f data keys wp Hok s) as [[d Hd]|Hst].
  - eapply minv_steps; exact Hs.
  - exists d, k, s. now split.
  - contradiction.
Qed.

(* ---------- changing the entries of a dictionary one by one ---------- *)
Section Upd.
Context {V W : Type}.
Variable upd : V -> W -> res V.
Definition ustep (r : dict V) (x : Z * W) : res (dict V) := match dget r (fst x) with None => Err KeyError | Some d => do d' <- upd d (snd x); Ok (dset r (fst x) d') end.
Lemma upd_fold : forall l r r', NoDup (map fst l) -> foldM ustep r l = Ok r' ->
  map fst r' = map fst r /\ forall k, match dget l k with Some w => exists d d', dget r k = Some d /\ upd d w = Ok d' /\ dget r' k = Some d' | None => dget r' k = dget r k end.
Proof.
  induction l as [|[a w] l IH]; intros r r' N H.
  - cbn in H. assert (r = r') by congruence. subst. split; [reflexivity|]. now intro.
  - cbn [foldM] in H. unfold ustep at 1 in H. cbn [fst snd] in H. destruct (dget r a) as [d|] eqn:Ed; cbn [rbind] in H; [|discriminate]. destruct (upd d w) as [d'|] eqn:Eu; cbn [rbind] in H; [|discriminate].
    cbn in N. inversion N as [|? ? N1 N2]; subst. destruct (IH _ _ N2 H) as [K G]. split; [rewrite K; apply dset_same_keys; congruence|].
    intro k. specialize (G k). cbn [Model_Dist.dget]. destruct (Z.eqb_spec a k) as [<-|Hne].
    + assert (E0 : dget l a = None) by (apply dget_none; exact N1). rewrite E0 in G. exists d, d'. split; [exact Ed|]. split; [exact Eu|]. rewrite G, dget_dset, Z.eqb_refl. reflexivity.
    + rewrite !dget_dset in G. destruct (Z.eqb_spec a k) as [|_]; [congruence|]. exact G.
Qed.
Lemma upd_fold_ok : forall l r, NoDup (map fst l) -> (forall k w, dget l k = Some w -> exists d d', dget r k = Some d /\ upd d w = Ok d') -> exists r', foldM ustep r l = Ok r'.
Proof.
  induction l as [|[a w] l IH]; intros r N H; [now exists r|]. cbn [foldM]. unfold ustep at 1. cbn [fst snd]. destruct (H a w) as (d & d' & Ed & Eu); [cbn; now rewrite Z.eqb_refl|]. rewrite Ed, Eu. cbn [rbind].
  cbn in N. inversion N as [|? ? N1 N2]; subst. apply IH; [exact N2|]. intros k w' Hk. assert (a <> k) by (intros <-; apply N1; apply (in_map fst l (a, w')); now apply dget_in). destruct (H k w') as (d1 & d1' & E1 & E1'); [cbn; destruct (Z.eqb_spec a k); [congruence|exact Hk]|].
  exists d1, d1'. split; [|exact E1']. rewrite dget_dset. destruct (Z.eqb_spec a k); [congruence|exact E1].
Qed.
End Upd.

(* one step for all targets: the dictionary of every target is changed by F, the ids stay *)
Definition stepped {V} (F : targ -> V -> res V) (l : list targ) (r r' : dict V) : Prop :=
  map fst r' = map fst r /\ forall g, In g l -> exists d d', dget r (g_id g) = Some d /\ F g d = Ok d' /\ dget r' (g_id g) = Some d'.
Lemma stepped_det {V} (F : targ -> V -> res V) l r a b : NoDup (map fst r) -> map fst r = map g_id l -> stepped F l r a -> stepped F l r b -> a = b.
Proof.
  intros N K [Ka Ga] [Kb Gb]. apply dict_ext; [rewrite Ka; exact N|congruence|]. intro k.
  destruct (in_dec Z.eq_dec k (map g_id l)) as [I|O].
  - apply in_map_iff in I as (g & <- & Hg). destruct (Ga g Hg) as (d & d' & E1 & E2 & ->), (Gb g Hg) as (e & e' & E3 & E4 & ->). congruence.
  - transitivity (@None V); [|symmetry]; apply dget_none; [rewrite Ka, K; exact O|rewrite Kb, K; exact O].
Qed.

Section R.
Variables (slv : solvers) (argsort : list xq -> list nat) (polyfit : list Q -> list Q -> option (Q * Q * Q)) (isqrt : Q -> Q).
Variable trans : option string -> Q -> Q -> Q.
Variables (nminima nz : nat).
Notation edict := (list (string * entry)).
Notation tscan := (tscan slv). Notation tfit := (tfit slv argsort polyfit isqrt trans nminima nz).

(* a serial step *)
Lemma serial_step {B} (F : targ -> edict -> B -> res edict) (step : scans -> res scans) (tgs : list targ) (b : B) : NoDup (map g_id tgs) ->
  (forall gds, map fst gds = tgs -> step (enc gds) = do new <- mapM (fun x => do d <- F (fst x) (snd x) b; Ok (fst x, d)) gds; Ok (enc new)) ->
  forall r r', map fst r = map g_id tgs -> (step r = Ok r' <-> stepped (fun g d => F g d b) tgs r r').
Proof.
  intros N Hs r r' K.
  assert (L : length tgs = length r) by (apply (f_equal (@length Z)) in K; rewrite !map_length in K; now symmetry).
  set (gds := combine tgs (map snd r)).
  assert (M : map fst gds = tgs) by (unfold gds; apply map_fst_combine; now rewrite map_length).
  assert (Er : r = enc gds). { unfold gds, enc. clear -K L. revert tgs K L. induction r as [|[k d] r IH]; intros [|g tgs] K L; cbn in *; try discriminate; [reflexivity|]. injection K as -> K. f_equal. apply IH; [exact K|lia]. }
  assert (Ng : NoDup (map (fun x : targ * edict => g_id (fst x)) gds)) by (rewrite <- (map_map fst g_id), M; exact N).
  assert (Nr : NoDup (map fst r)) by (rewrite K; exact N).
  assert (D : forall r1, step r = Ok r1 -> stepped (fun g d => F g d b) tgs r r1).
  { intros r1 H. rewrite Er, (Hs gds M) in H. destruct (mapM _ gds) as [new|] eqn:E; cbn [rbind] in H; [|discriminate]. assert (r1 = enc new) by congruence. subst r1. apply mapM_Forall2 in E.
    assert (Fs : Forall2 (fun x x' : targ * edict => fst x' = fst x /\ F (fst x) (snd x) b = Ok (snd x')) gds new).
    { eapply Forall2_impl; [|exact E]. intros [g d] [g' d'] H0. cbn [fst snd] in *. destruct (F g d b); cbn [rbind] in H0; [|discriminate]. split; congruence. }
    clear E H. assert (Mn : map fst new = tgs). { rewrite <- M. clear -Fs. induction Fs as [|x x' l l' [H1 _] _ IH]; [reflexivity|]. cbn [map]. now rewrite IH, H1. }
    split; [rewrite K; unfold enc; rewrite map_map; cbn [fst]; now rewrite <- (map_map fst g_id), Mn|].
    intros g Hg. rewrite <- M in Hg. apply in_map_iff in Hg as ([g0 d] & E0 & Hin). cbn in E0. subst g0. destruct (In_nth_error _ _ Hin) as [i Hi]. destruct (Forall2_nth _ _ _ _ _ Fs Hi) as ([g' d'] & Hi' & H1 & H2). cbn [fst snd] in H1, H2. subst g'.
    exists d, d'. split; [rewrite Er; now apply enc_get|]. split; [exact H2|]. apply enc_get; [rewrite <- (map_map fst g_id), Mn; exact N|]. eapply nth_error_In; exact Hi'. }
  split; [apply D|]. intro S1. destruct (step r) as [r1|e] eqn:E.
  - f_equal. exact (stepped_det _ _ _ _ _ Nr K (D r1 eq_refl) S1).
  - exfalso. rewrite Er, (Hs gds M) in E. destruct S1 as [_ G]. assert (X : exists new, mapM (fun x : targ * edict => do d <- F (fst x) (snd x) b; Ok (fst x, d)) gds = Ok new); [|destruct X as [new X]; rewrite X in E; discriminate].
    destruct (mapM_ok (fun x : targ * edict => do d <- F (fst x) (snd x) b; Ok (fst x, d)) (fun _ _ => True) gds) as (m & Em & _); [|now exists m]. intros [g d] Hin. assert (Hg : In g tgs) by (rewrite <- M; apply (in_map fst) in Hin; exact Hin). destruct (G g Hg) as (d0 & d' & E1 & E2 & _). rewrite Er, (enc_get gds g d Ng Hin) in E1. assert (d0 = d) by congruence. subst d0. exists (g, d'). cbn [fst snd]. rewrite E2. now split.
Qed.
Lemma scan_serial tgs pt r r' : NoDup (map g_id tgs) -> map fst r = map g_id tgs ->
  (scan_template slv tgs r (fst pt) (snd pt) = Ok r' <-> stepped (fun g d => tscan g d pt) tgs r r').
Proof.
  intros N K. apply (serial_step tscan (fun r => scan_template slv tgs r (fst pt) (snd pt)) tgs pt N); [|exact K].
  intros gds Hg. rewrite <- Hg. apply scan_template_eq. rewrite <- (map_map fst g_id), Hg. exact N.
Qed.
Lemma fit_serial tgs p r r' : NoDup (map g_id tgs) -> map fst r = map g_id tgs ->
  (fit_template slv argsort polyfit isqrt trans nminima nz tgs r p = Ok r' <-> stepped (fun g d => tfit g d p) tgs r r').
Proof.
  intros N K. apply (serial_step tfit (fun r => fit_template slv argsort polyfit isqrt trans nminima nz tgs r p) tgs p N); [|exact K].
  intros gds Hg. rewrite <- Hg. apply fit_template_eq. rewrite <- (map_map fst g_id), Hg. exact N.
Qed.
End R.
