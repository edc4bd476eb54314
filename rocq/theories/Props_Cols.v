(* The columns of one target and the metadata columns: C149, C150. *)
From Verif Require Import Prelude PreludeFacts Model_Zscan Proof_Zscan4 Model_Dist Proof_Dist3 Proof_Table Proof_IO2 Proof_Rank Model_Cols Spec_Cols Proof_Cols.
Open Scope nat_scope.

Section Props.
Context {V : Type} (zero : V).
Notation column := (column zero). Notation merge := (merge zero).
(* block b of n fits: every array has n rows of one width *)
Definition block_ok (b : blk V) (n : nat) : Prop := forall k a, sget b k = Some a -> length a = n /\ forall r, In r a -> length r = width a.

(* ---------------- C149: the columns stay together ---------------- *)
(* a column that every template has: each fit finds its own row at its own place *)
Theorem C149_shared : forall arch bs ns k w, bs <> [] -> Forall2 block_ok bs ns -> ~ In k ["pca_coeff"; "pca_subtype"; "pca_spectype"]%string \/ arch = false ->
  (forall b, In b bs -> exists a, sget b k = Some a /\ forall r, In r a -> length r = w) ->
  exists c, column arch bs k = Ok c /\ length c = list_sum ns /\ forall j i b a r, nth_error bs j = Some b -> sget b k = Some a -> nth_error a i = Some r -> nth_error c (place ns j i) = Some r.
Proof.
  intros arch bs ns k w NE F Hk HW. destruct bs as [|b0 t] eqn:Eb; [congruence|]. rewrite <- Eb in *. set (f := fun b : blk V => match sget b k with Some a => a | None => [] end).
  assert (Hf : forall b, In b bs -> sget b k = Some (f b)) by (intros b Hb; destruct (HW b Hb) as (a & Ea & _); unfold f; now rewrite Ea).
  assert (Hp : arch = true -> pca_map k = None). { intros ->. destruct Hk as [Hk|Hk]; [|discriminate]. unfold pca_map. cbn [In] in Hk. destruct (String.eqb_spec k "pca_coeff") as [->|_]; [tauto|]. destruct (String.eqb_spec k "pca_subtype") as [->|_]; [tauto|]. destruct (String.eqb_spec k "pca_spectype") as [->|_]; [tauto|reflexivity]. }
  destruct (column_as zero arch bs ns k (f b0) f w) as (c & Ec & Lc & H).
  - exists b0, t. split; [exact Eb|]. apply Hf. rewrite Eb. now left.
  - intros prev b Hb. apply part_shared; [exact Hp|now apply Hf].
  - intros b r Hb Hr. destruct (HW b Hb) as (a & Ea & Ha). apply Ha. rewrite (Hf b Hb) in Ea. congruence.
  - clear -F Hf. induction F as [|b n bs ns Hb F IH]; constructor; [|apply IH; intros; apply Hf; now right]. apply (Hb k). apply Hf. now left.
  - exists c. split; [exact Ec|]. split; [exact Lc|]. intros j i b a r Hj Ha Hr. eapply H; [exact Hj|]. apply nth_error_In in Hj. rewrite (Hf b Hj) in Ha. congruence.
Qed.
(* the PCA columns of the archetype mode: a template without archetypes gives its own coefficients and types, cut or filled
   with zeros to the width of the first template *)
Theorem C149_pca : forall bs ns k k' b0 t ref, bs = b0 :: t -> sget b0 k = Some ref -> Forall2 block_ok bs ns -> In (k, k') [("pca_coeff", "coeff"); ("pca_subtype", "subtype"); ("pca_spectype", "spectype")]%string ->
  (forall b, In b bs -> exists a, match sget b k with Some v => Some v | None => sget b k' end = Some a) ->
  exists c, column true bs k = Ok c /\ length c = list_sum ns /\ forall j i b a r, nth_error bs j = Some b -> match sget b k with Some v => Some v | None => sget b k' end = Some a -> nth_error a i = Some r ->
    exists r', nth_error c (place ns j i) = Some r' /\ length r' = width ref /\ forall x, x < width ref -> nth x r' zero = nth x r zero.
Proof.
  intros bs ns k k' b0 t ref Eb Er F Hk HW. set (own := fun b : blk V => match sget b k with Some v => Some v | None => sget b k' end). set (f := fun b : blk V => fit_width zero (width ref) (match own b with Some a => a | None => [] end)).
  assert (Hp : pca_map k = Some k') by (destruct Hk as [E|[E|[E|[]]]]; assert (K1 := f_equal fst E); assert (K2 := f_equal snd E); cbn in K1, K2; rewrite <- K1, <- K2; reflexivity).
  destruct (column_as zero true bs ns k ref f (width ref)) as (c & Ec & Lc & H).
  - now exists b0, t.
  - intros prev b Hb. destruct (HW b Hb) as [a Ea]. unfold f, own. rewrite Ea. now apply part_pca with (k' := k').
  - intros b r _ Hr. unfold f, fit_width in Hr. apply in_map_iff in Hr as (x & <- & _). apply fit_row_len.
  - clear -F HW. subst f. cbv beta. induction F as [|b n bs ns Hb F IH]; constructor; [|apply IH; intros; apply HW; now right]. rewrite fit_width_len. destruct (HW b (or_introl eq_refl)) as [a Ea]. unfold own. rewrite Ea. destruct (sget b k) as [v|] eqn:E1; [assert (v = a) by congruence; subst; now apply (Hb k)|now apply (Hb k')].
  - exists c. split; [exact Ec|]. split; [exact Lc|]. intros j i b a r Hj Ha Hr. exists (firstn (width ref) (r ++ repeat zero (width ref - length r))). split; [|split; [apply fit_row_len|intros x Hx; now apply fit_row_nth]].
    eapply H; [exact Hj|]. unfold f, own. rewrite Ha. exact (map_nth_error (fun r => firstn (width ref) (r ++ repeat zero (width ref - length r))) i a Hr).
Qed.
(* the Legendre coefficients: a template without archetypes contributes zeros, as many rows as the FIRST template has fits;
   so the places of everything after it are those of these numbers *)
Definition filled (k : string) (n0 : nat) (b : blk V) (n : nat) : nat := match sget b k with Some _ => n | None => n0 end.
Fixpoint filled_sizes (k : string) (n0 : nat) (bs : list (blk V)) (ns : list nat) : list nat :=
  match bs, ns with b :: bs, n :: ns => filled k n0 b n :: filled_sizes k n0 bs ns | _, _ => [] end.
Theorem C149_legendre : forall bs ns b0 t n0 nt ref, bs = b0 :: t -> ns = n0 :: nt -> sget b0 "legcoeff" = Some ref -> Forall2 block_ok bs ns -> (forall b a r, In b bs -> sget b "legcoeff" = Some a -> In r a -> length r = width ref) ->
  exists c, column true bs "legcoeff" = Ok c /\ length c = list_sum (filled_sizes "legcoeff" n0 bs ns) /\
   (forall j i b a r, nth_error bs j = Some b -> sget b "legcoeff" = Some a -> nth_error a i = Some r -> nth_error c (place (filled_sizes "legcoeff" n0 bs ns) j i) = Some r) /\
   (forall j i b, nth_error bs j = Some b -> sget b "legcoeff" = None -> i < n0 -> nth_error c (place (filled_sizes "legcoeff" n0 bs ns) j i) = Some (repeat zero (width ref))).
Proof.
  intros bs ns b0 t n0 nt ref Eb En Er F W. set (f := fun b : blk V => match sget b "legcoeff" with Some a => a | None => map (map (fun _ => zero)) ref end).
  assert (B0 : block_ok b0 n0) by (rewrite Eb, En in F; now inversion F). destruct (B0 _ _ Er) as [L0 W0].
  assert (Z : forall r, In r ref -> map (fun _ : V => zero) r = repeat zero (width ref)). { intros r Hr. rewrite <- (W0 r Hr). clear. induction r as [|x r IH]; [reflexivity|]. cbn. now rewrite IH. }
  destruct (column_as zero true bs (filled_sizes "legcoeff" n0 bs ns) "legcoeff" ref f (width ref)) as (c & Ec & Lc & H).
  - now exists b0, t.
  - intros prev b Hb. unfold f. destruct (sget b "legcoeff") as [a|] eqn:E; [now apply part_shared|]. now apply part_zero.
  - intros b r Hb Hr. unfold f in Hr. destruct (sget b "legcoeff") as [a|] eqn:E; [eauto|]. apply in_map_iff in Hr as (x & <- & Hx). rewrite map_length. now apply W0.
  - clear -F L0. induction F as [|b n bs ns Hb F IH]; cbn [filled_sizes]; constructor; [|exact IH]. unfold f, filled. destruct (sget b "legcoeff") as [a|] eqn:E; [now apply (Hb "legcoeff"%string)|]. now rewrite map_length.
  - exists c. split; [exact Ec|]. split; [exact Lc|]. split.
    + intros j i b a r Hj Ha Hr. eapply H; [exact Hj|]. unfold f. now rewrite Ha.
    + intros j i b Hj Ha Hi. eapply H; [exact Hj|]. unfold f. rewrite Ha. destruct (nth_error ref i) as [r|] eqn:E; [|apply nth_error_None in E; lia]. rewrite <- (Z r (nth_error_In _ _ E)). exact (map_nth_error (map (fun _ => zero)) i ref E).
Qed.
(* when the templates without archetypes have as many fits as the first: everything at its place *)
Theorem C149_legendre_partial : forall bs ns b0 t n0 nt ref, bs = b0 :: t -> ns = n0 :: nt -> sget b0 "legcoeff" = Some ref -> Forall2 block_ok bs ns -> (forall b a r, In b bs -> sget b "legcoeff" = Some a -> In r a -> length r = width ref) ->
  Forall2 (fun b n => sget b "legcoeff" = None -> n = n0) bs ns ->
  exists c, column true bs "legcoeff" = Ok c /\ length c = list_sum ns /\
   (forall j i b a r, nth_error bs j = Some b -> sget b "legcoeff" = Some a -> nth_error a i = Some r -> nth_error c (place ns j i) = Some r) /\
   (forall j i b, nth_error bs j = Some b -> sget b "legcoeff" = None -> i < n0 -> nth_error c (place ns j i) = Some (repeat zero (width ref))).
Proof.
  intros bs ns b0 t n0 nt ref Eb En Er F W S. destruct (C149_legendre bs ns b0 t n0 nt ref Eb En Er F W) as (c & H). assert (E : filled_sizes "legcoeff" n0 bs ns = ns). { clear -S. induction S as [|b n bs ns H S IH]; [reflexivity|]. cbn [filled_sizes]. rewrite IH. unfold filled. destruct (sget b "legcoeff"); [reflexivity|]. now rewrite (H eq_refl). }
  rewrite E in H. now exists c.
Qed.
(* sorting and trimming index all the columns alike: a row of the table is one fit in all columns that are aligned *)
Theorem C149_sorted_together : forall idx (t t' : blk V) r i, take_all idx t = Ok t' -> nth_error idx r = Some i -> forall k c, In (k, c) t -> exists c', In (k, c') t' /\ length c' = length idx /\ nth_error c' r = nth_error c i.
Proof.
  intros idx t t' r i H Hi k c I. apply mapM_Forall2 in H. induction H as [|x y t t' E F IH]; [destruct I|]. destruct I as [->|I].
  - cbn [fst snd] in E. destruct (take idx c) as [c'|] eqn:Et; cbn [rbind] in E; [|discriminate]. destruct (take_nth _ _ _ Et) as [L N]. exists c'. split; [left; congruence|]. split; [exact L|now apply N].
  - destruct (IH I) as (c' & A & B). exists c'. split; [now right|exact B].
Qed.
(* a template without archetypes that has more fits than the first one: IndexError, whatever the order *)
Theorem C149_more_fits_refuted : forall bs ns b0 t n0 nt ref idx tab, bs = b0 :: t -> ns = n0 :: nt -> sget b0 "legcoeff" = Some ref -> Forall2 block_ok bs ns -> (forall b a r, In b bs -> sget b "legcoeff" = Some a -> In r a -> length r = width ref) ->
  merge true bs = Ok tab -> Permutation idx (seq 0 (list_sum ns)) -> list_sum (filled_sizes "legcoeff" n0 bs ns) < list_sum ns -> exists e, take_all idx tab = Err e.
Proof.
  intros bs ns b0 t n0 nt ref idx tab Eb En Er F W M P L. destruct (C149_legendre bs ns b0 t n0 nt ref Eb En Er F W) as (c & Ec & Lc & _).
  assert (Ic : In ("legcoeff"%string, c) tab). { unfold Model_Cols.merge in M. rewrite Eb in M at 1. apply mapM_Forall2 in M. apply Proof_IO2.sget_some_in in Er. apply (in_map fst) in Er. cbn [fst] in Er. clear -M Er Ec. revert M Er. generalize (map fst b0) as ks. intros ks M Er. induction M as [|k x ks tab E F IH]; [destruct Er|]. destruct Er as [->|Er]; [left; rewrite Ec in E; cbn [rbind] in E; congruence|right; now apply IH]. }
  destruct (take_all idx tab) as [tab'|e] eqn:Et; [exfalso|now exists e].
  assert (I : In (list_sum ns - 1) idx) by (eapply Permutation_in; [apply Permutation_sym; exact P|apply in_seq; lia]).
  apply mapM_Forall2 in Et. clear -Et Ic I L Lc. induction Et as [|x y tab tab' E F IH]; [destruct Ic|]. destruct Ic as [->|Ic]; [|now apply IH]. cbn [fst snd] in E. rewrite (take_err idx c _ I) in E by lia. discriminate E.
Qed.
End Props.

(* ---------------- C150: metadata ---------------- *)
Section MetaProps.
Context {V : Type} (conv : option V -> list V -> res (list V)).
Definition value (metas : dict (meta V)) (t : Z) (k : string) : option V := match Model_Dist.dget metas t with None => None | Some m => sget m k end.
(* the columns are exactly the keys of the target of the first row that declare no type, in the order of their names; in every
   row the value of its own target; a type only when the first target declares one *)
Theorem C150_columns : forall ids metas names cols t0, hd_error ids = Some t0 -> meta_columns conv ids metas names = Ok cols ->
  exists m0 ty, Model_Dist.dget metas t0 = Some m0 /\ types m0 = Ok ty /\ NoDup (map fst cols) /\ (forall k, In k (map fst cols) <-> In k (map fst m0) /\ forall b, ~ declares k b) /\ StronglySorted (fun a b => String.leb a b = true) (map fst cols) /\
   (forall k, In k (map fst cols) -> ~ In k names) /\ forall k c, In (k, c) cols -> exists vs, conv (sget ty k) vs = Ok c /\ Forall2 (fun t v => value metas t k = Some v) ids vs.
Proof.
  intros ids metas names cols t0 H0 H. unfold meta_columns in H. destruct ids as [|t ids']; [discriminate|]. assert (t = t0) by (cbn in H0; congruence). subst t. set (ids := t0 :: ids') in *. destruct (Model_Dist.dget metas t0) as [m0|]; [|discriminate]. destruct (types m0) as [ty|] eqn:Et; cbn [rbind] in H; [|discriminate].
  apply meta_fold in H as (N & D & new & En & F). cbn [app] in En. subst new. exists m0, ty. split; [reflexivity|]. split; [exact Et|].
  assert (K : map fst cols = real_keys m0). { clear -F. induction F as [|k kc l new (E & _) F IH]; [reflexivity|]. cbn [map]. now rewrite E, IH. }
  rewrite K. split; [exact N|]. split; [intro k; apply in_real_keys|]. split.
  { unfold real_keys. assert (S : StronglySorted (fun a b => String.leb a b = true) (all_keys m0)) by (apply isort_sorted; [apply string_leb_total|apply string_leb_trans]). induction S as [|a l S IH A]; [constructor|]. cbn [filter]. destruct (typed_name a); [exact IH|]. constructor; [exact IH|]. rewrite Forall_forall in *. intros x Hx. apply filter_In in Hx as [Hx _]. now apply A. }
  split; [intros k Hk C; apply (D k Hk); apply in_app_iff; now left|].
  intros k c I. destruct (Forall2_in_r _ _ _ _ F I) as (k' & _ & E & vs & Ev & Ec). cbn [fst snd] in *. subst k'. exists vs. split; [exact Ec|]. apply mapM_Forall2 in Ev. eapply Forall2_impl; [|exact Ev]. intros t v Hv. unfold cell in Hv. unfold value. destruct (Model_Dist.dget metas t) as [m|]; [|discriminate]. destruct (sget m k); [congruence|discriminate].
Qed.
(* the declared type of a column: the value of the alphabetically last key that declares it; None without such a key *)
Theorem C150_types : forall (m0 : meta V) ty base, types m0 = Ok ty ->
  (sget ty base = None /\ forall k, In k (map fst m0) -> ~ declares_most k base) \/
  (exists k v, In (k, v) m0 /\ sget m0 k = Some v /\ sget ty base = Some v /\ declares_most k base /\ forall k', In k' (map fst m0) -> declares_most k' base -> String.leb k' k = true).
Proof.
  intros m0 ty base H. unfold types in H. destruct (types_fold m0 base _ _ _ H) as [(bf & k & af & El & A & B & C & D)|[A B]].
  - right. destruct (sget m0 k) as [v|] eqn:Ev; [|congruence]. exists k, v. split; [now apply Proof_IO2.sget_some_in|]. split; [exact Ev|]. split; [congruence|]. split; [now apply typed_iff|].
    intros k' Hk D'. apply typed_iff in D'. apply in_all_keys in Hk. assert (S : StronglySorted (fun a b => String.leb a b = true) (all_keys m0)) by (apply isort_sorted; [apply string_leb_total|apply string_leb_trans]). rewrite El in Hk, S. apply in_app_iff in Hk as [Hk|[<-|Hk]].
    + clear -S Hk. induction bf as [|x bf IH]; [destruct Hk|]. cbn [app] in S. inversion S as [|? ? S' F]; subst. destruct Hk as [->|Hk]; [|now apply IH]. rewrite Forall_forall in F. apply F. apply in_app_iff. right. now left.
    + destruct (string_leb_total k k) as [E|E]; exact E.
    + exfalso. exact (B k' Hk D').
  - left. split; [exact B|]. intros k Hk D'. apply typed_iff in D'. apply in_all_keys in Hk. exact (A k Hk D').
Qed.
(* and it succeeds exactly when no key is taken, the other targets have the keys of the first one and the values convert *)
Theorem C150_succeeds : forall ids metas names t0 m0 ty, hd_error ids = Some t0 -> Model_Dist.dget metas t0 = Some m0 -> NoDup (map fst m0) -> types m0 = Ok ty ->
  ((exists cols, meta_columns conv ids metas names = Ok cols) <-> forall k, In k (map fst m0) -> (forall b, ~ declares k b) -> ~ In k names /\ exists vs c, Forall2 (fun t v => value metas t k = Some v) ids vs /\ conv (sget ty k) vs = Ok c).
Proof.
  intros ids metas names t0 m0 ty H0 Hm Nm Et. unfold meta_columns. destruct ids as [|t ids']; [discriminate|]. assert (t = t0) by (cbn in H0; congruence). subst t. set (ids := t0 :: ids') in *. unfold meta in *. rewrite Hm, Et. cbn [rbind].
  assert (CV : forall k vs, mapM (cell metas k) ids = Ok vs <-> Forall2 (fun t v => value metas t k = Some v) ids vs).
  { intros k vs. rewrite mapM_Forall2. split; intro F; (eapply Forall2_impl; [|exact F]); intros t v Hv; unfold cell, value in *; unfold meta in *; (destruct (Model_Dist.dget metas t) as [m|]; [|discriminate]); (destruct (sget m k); [congruence|discriminate]). }
  split.
  - intros [cols H] k Ik Dk. apply meta_fold in H as (N & D & new & -> & F). assert (Ir : In k (real_keys m0)) by (apply in_real_keys; now split). split; [intro C; apply (D k Ir); apply in_app_iff; now left|].
    clear -F Ir CV. induction F as [|a kc l new (E & vs & Ev & Ec) F IH]; [destruct Ir|]. destruct Ir as [->|Ir]; [|now apply IH]. exists vs, (snd kc). split; [now apply CV|exact Ec].
  - intro H. assert (Hr : forall k, In k (real_keys m0) -> ~ In k names /\ exists vs c, mapM (cell metas k) ids = Ok vs /\ conv (sget ty k) vs = Ok c).
    { intros k Hk. apply in_real_keys in Hk as [A B]. destruct (H k A B) as (C & vs & c & X & Y). split; [exact C|]. exists vs, c. split; [now apply CV|exact Y]. }
    assert (Nr : NoDup (real_keys m0)) by (unfold real_keys; apply NoDup_filter; eapply Permutation_NoDup; [|exact Nm]; unfold all_keys; first [apply isort_perm|apply Permutation_sym, isort_perm]).
    assert (X : exists new, Forall2 (fun k (kc : string * list V) => fst kc = k /\ exists vs, mapM (cell metas k) ids = Ok vs /\ conv (sget ty k) vs = Ok (snd kc)) (real_keys m0) new).
    { clear -Hr. induction (real_keys m0) as [|k l IH]; [exists []; constructor|]. destruct IH as [new F]; [intros; apply Hr; now right|]. destruct (Hr k (or_introl eq_refl)) as (_ & vs & c & A & B). exists ((k, c) :: new). constructor; [|exact F]. split; [reflexivity|]. now exists vs. }
    destruct X as [new F]. exists new. apply meta_fold. split; [exact Nr|]. split; [intros k Hk C; rewrite app_nil_r in C; exact (proj1 (Hr k Hk) C)|]. now exists new.
Qed.
End MetaProps.

(* ---------------- concrete cases ---------------- *)
Definition plainb (n : nat) (c : nat) : blk nat := [("z", repeat [c] n); ("coeff", repeat [c; c; c] n); ("spectype", repeat [c] n); ("subtype", repeat [c] n)]%string.
Definition archb (n : nat) (c leg : nat) (pca : list nat) : blk nat := [("z", repeat [c] n); ("coeff", repeat [c; 0; 0] n); ("spectype", repeat [c] n); ("subtype", repeat [c] n); ("legcoeff", repeat [leg; leg] n); ("pca_coeff", repeat pca n); ("pca_spectype", repeat [c] n); ("pca_subtype", repeat [c] n)]%string.
Definition look (r : res (blk nat)) (k : string) : option (list (list nat)) := match r with Ok t => sget t k | Err _ => None end.
Example C149_nonvacuous : Forall2 block_ok [archb 2 1 5 [7; 8]; plainb 2 3; archb 1 2 6 [9; 9]] [2; 2; 1] /\ look (merge 0 true [archb 2 1 5 [7; 8]; plainb 2 3; archb 1 2 6 [9; 9]]) "legcoeff" = Some [[5; 5]; [5; 5]; [0; 0]; [0; 0]; [6; 6]] /\
  look (merge 0 true [archb 2 1 5 [7; 8]; plainb 2 3; archb 1 2 6 [9; 9]]) "pca_coeff" = Some [[7; 8]; [7; 8]; [3; 3]; [3; 3]; [9; 9]].
Proof.
  split; [|split; reflexivity].
  assert (B : forall n c l p, block_ok (archb n c l p) n). { intros n c l p k a H. apply Proof_IO2.sget_some_in in H. assert (X : exists x, a = repeat x n) by (cbn in H; repeat (destruct H as [H|H]; [injection H as _ <-; now eexists|]); destruct H). destruct X as [x ->]. split; [apply repeat_length|]. intros r Hr. unfold width. destruct n; [destruct Hr|]. cbn [repeat hd]. now rewrite (repeat_spec _ _ _ Hr). }
  assert (B' : forall n c, block_ok (plainb n c) n). { intros n c k a H. apply Proof_IO2.sget_some_in in H. assert (X : exists x, a = repeat x n) by (cbn in H; repeat (destruct H as [H|H]; [injection H as _ <-; now eexists|]); destruct H). destruct X as [x ->]. split; [apply repeat_length|]. intros r Hr. unfold width. destruct n; [destruct Hr|]. cbn [repeat hd]. now rewrite (repeat_spec _ _ _ Hr). }
  exact (Forall2_cons _ _ (B 2 1 5 [7; 8]) (Forall2_cons _ _ (B' 2 3) (Forall2_cons _ _ (B 1 2 6 [9; 9]) (Forall2_nil _)))).
Qed.
(* a template without archetypes with fewer fits than the first: the Legendre coefficients after it move down, and no error *)
Theorem C149_misaligned_refuted : exists bs ns idx tab tab', Forall2 (fun b n => forall k a, sget b k = Some a -> length a = n) bs ns /\ merge 0 true bs = Ok tab /\ Permutation idx (seq 0 (list_sum ns)) /\ take_all idx tab = Ok tab' /\
  exists b r, nth_error bs 2 = Some b /\ nth_error idx r = Some (place ns 2 0) /\ sget b "legcoeff" = Some [[6; 6]] /\ (exists c, sget tab' "legcoeff" = Some c /\ nth_error c r = Some [0; 0]) /\ (exists c, sget tab' "z" = Some c /\ nth_error c r = Some [2]) /\ sget b "z" = Some [[2]].
Proof.
  exists [archb 2 1 5 [7; 8]; plainb 1 3; archb 1 2 6 [9; 9]], [2; 1; 1], [3; 1; 0; 2]. eexists. eexists. split; [|split; [reflexivity|split; [|split; [reflexivity|]]]].
  - assert (G : forall b n, forallb (fun x : string * list (list nat) => Nat.eqb (length (snd x)) n) b = true -> forall k a, sget b k = Some a -> length a = n). { intros b n H k a E. apply Proof_IO2.sget_some_in in E. rewrite forallb_forall in H. specialize (H _ E). now apply Nat.eqb_eq in H. }
    apply Forall2_cons; [apply G; reflexivity|]. apply Forall2_cons; [apply G; reflexivity|]. apply Forall2_cons; [apply G; reflexivity|]. constructor.
  - cbn. apply Permutation_sym. apply (Permutation_trans (l' := [0; 1; 3; 2])); [do 2 apply perm_skip; apply perm_swap|]. apply (Permutation_trans (l' := [0; 3; 1; 2])); [apply perm_skip, perm_swap|]. apply (Permutation_trans (l' := [3; 0; 1; 2])); [apply perm_swap|]. apply perm_skip, perm_swap.
  - exists (archb 1 2 6 [9; 9]), 0. repeat (split; [reflexivity|]). split; [eexists; split; reflexivity|]. split; [eexists; split; reflexivity|reflexivity].
Qed.
(* more fits than the first: IndexError *)
Example C149_more_fits_nonvacuous : exists tab, merge 0 true [archb 1 1 5 [7; 8]; plainb 3 3] = Ok tab /\ list_sum (filled_sizes "legcoeff" 1 [archb 1 1 5 [7; 8]; plainb 3 3] [1; 3]) < list_sum [1; 3] /\ take_all [0; 1; 2; 3] tab = Err IndexError.
Proof. eexists. split; [reflexivity|]. split; [apply Nat.ltb_lt; reflexivity|reflexivity]. Qed.
(* the first template has fewer PCA coefficients: the others lose theirs *)
Theorem C149_pca_cut_refuted : exists bs tab b c, merge 0 true bs = Ok tab /\ nth_error bs 1 = Some b /\ sget b "pca_coeff" = Some [[9; 8; 7; 6]] /\ sget tab "pca_coeff" = Some c /\ nth_error c 1 = Some [9; 8].
Proof. exists [archb 1 1 5 [7; 8]; archb 1 2 6 [9; 8; 7; 6]]. do 3 eexists. repeat (split; [reflexivity|]). reflexivity. Qed.
(* the first template has no archetypes: the columns of the archetypes of the others are dropped *)
Theorem C149_first_decides_refuted : exists bs tab, merge 0 true bs = Ok tab /\ (exists b, In b bs /\ sget b "legcoeff" <> None) /\ sget tab "legcoeff" = None /\ sget tab "pca_coeff" = None.
Proof. exists [plainb 1 3; archb 1 1 5 [7; 8]]. eexists. split; [reflexivity|]. split; [exists (archb 1 1 5 [7; 8]); split; [right; now left|discriminate]|]. split; reflexivity. Qed.

Definition keep (_ : option nat) (l : list nat) : res (list nat) := Ok l.
Example C150_nonvacuous : meta_columns keep [7; 7; 9]%Z [(7%Z, [("BRICK", 1); ("BRICK_datatype", 8); ("A", 2)]%string); (9%Z, [("A", 3); ("BRICK", 4)]%string)] ["targetid"; "z"]%string = Ok [("A", [2; 2; 3]); ("BRICK", [1; 1; 4])]%string.
Proof. vm_compute. reflexivity. Qed.
(* what only another target has is dropped; what another target lacks stops the run; a key that merely contains "_datatype" is
   no column, and declares a type; a key that is the name of a column stops the run *)
Theorem C150_only_first_refuted : exists metas cols, meta_columns keep [7; 9]%Z metas [] = Ok cols /\ value metas 9 "EXTRA" = Some 5 /\ ~ In "EXTRA"%string (map fst cols).
Proof. exists [(7%Z, [("A", 1)]%string); (9%Z, [("A", 2); ("EXTRA", 5)]%string)]. eexists. split; [vm_compute; reflexivity|]. split; [reflexivity|]. cbn. intuition discriminate. Qed.
Theorem C150_missing_refuted : meta_columns keep [7; 9]%Z [(7%Z, [("A", 1); ("B", 2)]%string); (9%Z, [("A", 2)]%string)] [] = Err KeyError.
Proof. vm_compute. reflexivity. Qed.
Theorem C150_datatype_anywhere_refuted : exists metas cols ty m0, meta_columns keep [7]%Z metas [] = Ok cols /\ value metas 7 "dr_datatype_version" = Some 5 /\ ~ In "dr_datatype_version"%string (map fst cols) /\ Model_Dist.dget metas 7 = Some m0 /\ types m0 = Ok ty /\ sget ty "dr" = Some 5.
Proof. exists [(7%Z, [("dr", 1); ("dr_datatype_version", 5)]%string)]. do 3 eexists. split; [vm_compute; reflexivity|]. split; [reflexivity|]. split; [cbn; intuition discriminate|]. split; [reflexivity|]. split; reflexivity. Qed.
Theorem C150_name_taken_refuted : meta_columns keep [7]%Z [(7%Z, [("z", 1)]%string)] ["targetid"; "z"]%string = Err ValueError.
Proof. vm_compute. reflexivity. Qed.
Print Assumptions C149_shared. Print Assumptions C149_pca. Print Assumptions C149_legendre. Print Assumptions C149_legendre_partial. Print Assumptions C149_sorted_together. Print Assumptions C149_more_fits_refuted. Print Assumptions C149_misaligned_refuted. Print Assumptions C149_pca_cut_refuted. Print Assumptions C149_first_decides_refuted.
Print Assumptions C150_columns. Print Assumptions C150_types. Print Assumptions C150_succeeds. Print Assumptions C150_only_first_refuted. Print Assumptions C150_missing_refuted. Print Assumptions C150_datatype_anywhere_refuted. Print Assumptions C150_name_taken_refuted.
