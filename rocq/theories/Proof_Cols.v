(* Columns of one target, and metadata columns. *)
From Verif Require Import Prelude PreludeFacts Model_Zscan Proof_Zscan4 Model_Dist Proof_Dist3 Proof_Table Proof_IO2 Proof_Rank Model_Cols Spec_Cols.
Open Scope nat_scope.

Lemma nth_concat {A} (l : list (list A)) : forall j i a, nth_error l j = Some a -> forall x, nth_error a i = Some x -> nth_error (concat l) (place (map (@length A) l) j i) = Some x.
Proof.
  unfold place. induction l as [|b l IH]; intros [|j] i a H x Hx; cbn [nth_error] in H; try discriminate.
  - assert (b = a) by congruence. subst b. cbn [map firstn list_sum fold_right concat Nat.add]. rewrite nth_error_app1; [exact Hx|]. apply nth_error_Some. congruence.
  - cbn [map firstn concat]. change (list_sum (length b :: firstn j (map (@length A) l))) with (length b + list_sum (firstn j (map (@length A) l))). rewrite nth_error_app2 by lia.
    replace (length b + list_sum (firstn j (map (@length A) l)) + i - length b) with (list_sum (firstn j (map (@length A) l)) + i) by lia. eapply IH; eassumption.
Qed.
Lemma concat_len {A} (l : list (list A)) : length (concat l) = list_sum (map (@length A) l).
Proof. induction l as [|a l IH]; [reflexivity|]. cbn [concat map]. rewrite app_length, IH. reflexivity. Qed.

Section S.
Context {V : Type} (zero : V).
Notation column := (column zero). Notation merge := (merge zero). Notation part := (part zero). Notation parts := (parts zero). Notation fit_width := (fit_width zero).

Lemma parts_map arch k ref (f : blk V -> arr V) bs : (forall prev b, In b bs -> part arch k ref prev b = Ok (f b)) -> forall prev, parts arch k ref prev bs = Ok (map f bs).
Proof. induction bs as [|b bs IH]; intros H prev; [reflexivity|]. cbn [Model_Cols.parts]. rewrite H by now left. cbn [rbind]. rewrite IH by (intros; apply H; now right). reflexivity. Qed.
Lemma vstack_ok (l : list (arr V)) w : (forall a r, In a l -> In r a -> length r = w) -> vstack l = Ok (concat l).
Proof.
  intro H. unfold vstack. destruct (forallb _ (concat l)) eqn:E; [reflexivity|]. exfalso. assert (X : forall r, In r (concat l) -> length r = w) by (intros r Hr; apply in_concat in Hr as (a & Ha & Hr); eauto).
  enough (forallb (fun r => length r =? width (concat l)) (concat l) = true) by congruence. apply forallb_forall. intros r Hr. apply Nat.eqb_eq. rewrite (X r Hr). unfold width. destruct (concat l) as [|r0 t]; [destruct Hr|]. cbn [hd]. symmetry. apply X. now left.
Qed.
Lemma fit_width_len w a : length (fit_width w a) = length a. Proof. apply map_length. Qed.
Lemma fit_row_len w (r : list V) : length (firstn w (r ++ repeat zero (w - length r))) = w.
Proof. rewrite firstn_length, app_length, repeat_length. lia. Qed.
Lemma fit_row_nth w (r : list V) x : x < w -> nth x (firstn w (r ++ repeat zero (w - length r))) zero = nth x r zero.
Proof.
  intro H. assert (G : forall (l : list V) m y, y < m -> nth y (firstn m l) zero = nth y l zero). { intro l. induction l as [|a l IH]; intros [|m] [|y] Hy; try lia; try reflexivity. cbn [firstn nth]. apply IH. lia. }
  rewrite G by exact H. destruct (Nat.lt_ge_cases x (length r)) as [L|L]; [now rewrite app_nth1|]. rewrite app_nth2 by exact L. rewrite (nth_overflow r) by exact L. generalize (w - length r), (x - length r). intros n m. revert m. induction n as [|n IH]; intros [|m]; cbn; auto.
Qed.
Definition shaped (b : blk V) (n : nat) : Prop := forall k a, sget b k = Some a -> length a = n.
Lemma sizes_f (f : blk V -> arr V) bs ns : Forall2 (fun b n => length (f b) = n) bs ns -> map (@length _) (map f bs) = ns.
Proof. intro F. induction F as [|b n bs ns E F IH]; [reflexivity|]. cbn [map]. now rewrite E, IH. Qed.
(* the arrays of the blocks one after the other *)
Lemma column_as arch bs ns k ref (f : blk V -> arr V) w : (exists b0 t, bs = b0 :: t /\ sget b0 k = Some ref) -> (forall prev b, In b bs -> part arch k ref prev b = Ok (f b)) -> (forall b r, In b bs -> In r (f b) -> length r = w) -> Forall2 (fun b n => length (f b) = n) bs ns ->
  exists c, column arch bs k = Ok c /\ length c = list_sum ns /\ forall j i b r, nth_error bs j = Some b -> nth_error (f b) i = Some r -> nth_error c (place ns j i) = Some r.
Proof.
  intros (b0 & t & Eb & Er) H W F. exists (concat (map f bs)). split; [|split].
  - unfold Model_Cols.column. rewrite Eb at 1. rewrite Er. rewrite (parts_map arch k ref f bs H None). cbn [rbind]. apply (vstack_ok _ w). intros a r Ha Hr. apply in_map_iff in Ha as (b & <- & Hb). eauto.
  - rewrite concat_len. now rewrite (sizes_f f bs ns F).
  - intros j i b r Hb Hr. rewrite <- (sizes_f f bs ns F). eapply nth_concat; [|exact Hr]. exact (map_nth_error f j bs Hb).
Qed.
Lemma take_nth idx (c c' : arr V) : take idx c = Ok c' -> length c' = length idx /\ forall r i, nth_error idx r = Some i -> nth_error c' r = nth_error c i.
Proof.
  intro H. apply mapM_Forall2 in H. split; [symmetry; now apply Forall2_len in H|]. induction H as [|i x idx c' E F IH]; intros [|r] y Hr; cbn [nth_error] in Hr |- *; try discriminate; [|now apply IH]. assert (y = i) by congruence. subst y. destruct (nth_error c i); [congruence|discriminate].
Qed.
Lemma take_ok idx (c : arr V) : (forall i, In i idx -> i < length c) -> exists c', take idx c = Ok c'.
Proof.
  induction idx as [|i idx IH]; intro H; [now exists []|]. unfold take in *. cbn [mapM]. destruct (nth_error c i) as [r|] eqn:E; [|apply nth_error_None in E; specialize (H i (or_introl eq_refl)); lia]. cbn [rbind].
  destruct IH as [c' Ec]; [intros; apply H; now right|]. rewrite Ec. now exists (r :: c').
Qed.
Lemma take_err idx (c : arr V) i : In i idx -> length c <= i -> take idx c = Err IndexError.
Proof.
  induction idx as [|a idx IH]; intros I L; [destruct I|]. unfold take in *. cbn [mapM]. destruct (nth_error c a) as [r|] eqn:E; cbn [rbind]; [|reflexivity]. destruct I as [->|I]; [apply nth_error_None in L; congruence|]. now rewrite (IH I L).
Qed.
(* the ways a key is found in a block *)
Lemma part_shared arch k ref prev b a : (arch = true -> pca_map k = None) -> sget b k = Some a -> part arch k ref prev b = Ok a.
Proof. intros H E. unfold Model_Cols.part. rewrite E. destruct arch; [rewrite H by reflexivity|]; reflexivity. Qed.
Lemma part_pca k k' ref prev b a : pca_map k = Some k' -> match sget b k with Some v => Some v | None => sget b k' end = Some a -> part true k ref prev b = Ok (fit_width (width ref) a).
Proof. intros H E. unfold Model_Cols.part. rewrite H. destruct (sget b k) as [v|]; [congruence|]. rewrite E. reflexivity. Qed.
Lemma part_zero k ref prev b : pca_map k = None -> zero_like k = true -> sget b k = None -> part true k ref prev b = Ok (map (map (fun _ => zero)) ref).
Proof. intros H Z E. unfold Model_Cols.part. now rewrite E, H, Z. Qed.
End S.

(* ---------- metadata ---------- *)
Lemma prefix_app a b : prefix a (a ++ b) = true.
Proof. induction a as [|c a IH]; [now destruct b|]. cbn. destruct (ascii_dec c c) as [_|C]; [exact IH|congruence]. Qed.
Lemma prefix_ex a : forall s, prefix a s = true -> exists b, s = (a ++ b)%string.
Proof. induction a as [|c a IH]; intros s H; [now exists s|]. destruct s as [|d s]; [discriminate|]. cbn in H. destruct (ascii_dec c d) as [->|]; [|discriminate]. destruct (IH s H) as [b ->]. now exists b. Qed.
Lemma typed_some s : forall b, typed_name s = Some b -> declares s b.
Proof.
  induction s as [|c s IH]; intros b H; [discriminate|]. cbn [typed_name] in H. destruct (Ascii.eqb_spec c newline) as [Ec|Ec].
  - destruct (prefix "_datatype" (String c s)) eqn:Ep; [|discriminate]. apply prefix_ex in Ep as [r Er]. assert (b = ""%string) by congruence. subst b. exists r. split; [exact Er|]. intros x y Hxy. destruct x; discriminate.
  - destruct (typed_name s) as [p|] eqn:Es.
    + destruct (IH p eq_refl) as (r & Er & Hn). assert (b = String c p) by congruence. subst b. exists r. split; [cbn; now rewrite Er|]. intros x y Hxy. destruct x as [|d x]; cbn in Hxy; [injection Hxy as E1 _; exact (Ec E1)|]. injection Hxy as _ E2. exact (Hn _ _ E2).
    + destruct (prefix "_datatype" (String c s)) eqn:Ep; [|discriminate]. apply prefix_ex in Ep as [r Er]. assert (b = ""%string) by congruence. subst b. exists r. split; [exact Er|]. intros x y Hxy. destruct x; discriminate.
Qed.
Lemma typed_none s : forall b, declares s b -> typed_name s <> None.
Proof.
  induction s as [|c s IH]; intros b (r & Er & Hn); [destruct b; discriminate|]. destruct b as [|d b].
  - assert (Ep : prefix "_datatype" (String c s) = true) by (rewrite Er; change ("" ++ "_datatype" ++ r)%string with ("_datatype" ++ r)%string; apply prefix_app). cbn [typed_name]. destruct (if Ascii.eqb c newline then None else typed_name s); [discriminate|]. rewrite Ep. discriminate.
  - assert (d = c /\ s = (b ++ "_datatype" ++ r)%string) as [-> Es] by (split; [exact (eq_sym (f_equal (fun x => match x with String a _ => a | _ => c end) Er))|exact (f_equal (fun x => match x with String _ a => a | _ => x end) Er)]). cbn [typed_name]. destruct (Ascii.eqb_spec c newline) as [->|_]; [exfalso; exact (Hn ""%string b eq_refl)|].
    assert (T : typed_name s <> None). { apply (IH b). exists r. split; [exact Es|]. intros x y Hxy. apply (Hn (String c x) y). cbn. now rewrite Hxy. } destruct (typed_name s); [discriminate|congruence].
Qed.
Lemma typed_longest s : forall b b', typed_name s = Some b -> declares s b' -> String.length b' <= String.length b.
Proof.
  induction s as [|c s IH]; intros b b' H D; [discriminate|]. destruct D as (r & Er & Hn). destruct b' as [|d b']; [cbn; lia|]. assert (d = c /\ s = (b' ++ "_datatype" ++ r)%string) as [-> Es] by (split; [exact (eq_sym (f_equal (fun x => match x with String a _ => a | _ => c end) Er))|exact (f_equal (fun x => match x with String _ a => a | _ => x end) Er)]).
  assert (D' : declares s b'). { exists r. split; [exact Es|]. intros x y Hxy. apply (Hn (String c x) y). cbn. now rewrite Hxy. }
  cbn [typed_name] in H. destruct (Ascii.eqb_spec c newline) as [->|_]; [exfalso; exact (Hn ""%string b' eq_refl)|]. destruct (typed_name s) as [p|] eqn:Et; [|exfalso; exact (typed_none s b' D' Et)].
  assert (b = String c p) by congruence. subst b. cbn. specialize (IH p b' eq_refl D'). lia.
Qed.
Lemma app_len a b : String.length (a ++ b) = String.length a + String.length b.
Proof. induction a as [|c a IH]; [reflexivity|]. cbn. now rewrite IH. Qed.
Lemma same_start : forall a b x y, (a ++ x)%string = (b ++ y)%string -> String.length a = String.length b -> a = b.
Proof. induction a as [|c a IH]; intros [|d b] x y H L; cbn in *; try discriminate; [reflexivity|]. injection H as -> H. f_equal. eapply IH; [exact H|lia]. Qed.
Lemma typed_iff s b : typed_name s = Some b <-> declares_most s b.
Proof.
  split.
  - intro H. split; [now apply typed_some|]. intros b' D. eapply typed_longest; eassumption.
  - intros [D M]. destruct (typed_name s) as [b'|] eqn:E; [|exfalso; exact (typed_none s b D E)]. f_equal. pose proof (typed_longest s b' b E D) as L1. pose proof (typed_some s b' E) as D'. pose proof (M b' D') as L2.
    destruct D as (r & Er & _), D' as (r' & Er' & _). eapply same_start; [rewrite <- Er'; exact Er|lia].
Qed.
Section M.
Context {V : Type} (conv : option V -> list V -> res (list V)).
Definition cell (metas : dict (meta V)) (k : string) (t : Z) : res V := match Model_Dist.dget metas t with None => Err KeyError | Some m => match sget m k with None => Err KeyError | Some v => Ok v end end.
Lemma in_all_keys (m0 : meta V) k : In k (all_keys m0) <-> In k (map fst m0). Proof. apply isort_in. Qed.
Lemma in_real_keys (m0 : meta V) k : In k (real_keys m0) <-> In k (map fst m0) /\ forall b, ~ declares k b.
Proof.
  unfold real_keys. rewrite filter_In, in_all_keys. split; intros [A B]; (split; [exact A|]).
  - intros b D. apply typed_none in D. destruct (typed_name k); [discriminate|congruence].
  - destruct (typed_name k) as [b|] eqn:E; [|reflexivity]. exfalso. exact (B b (typed_some _ _ E)).
Qed.
Lemma types_ok (m0 : meta V) : exists ty, types m0 = Ok ty.
Proof.
  unfold types. assert (G : forall l d, (forall k, In k l -> In k (map fst m0)) -> exists ty, fold_left (fun acc k => do d <- acc; match typed_name k with None => Ok d | Some b => match sget m0 k with Some v => Ok (sset d b v) | None => Err KeyError end end) l (Ok d) = Ok ty).
  { induction l as [|k l IH]; intros d H; [now exists d|]. cbn [fold_left rbind]. destruct (typed_name k) as [b|]; [|apply IH; intros; apply H; now right]. destruct (sget m0 k) as [v|] eqn:E; [apply IH; intros; apply H; now right|]. exfalso. apply Proof_IO2.sget_none in E. apply E, H. now left. }
  apply G. intros k Hk. now apply in_all_keys.
Qed.
Lemma types_fold (m0 : meta V) base : forall l d ty, fold_left (fun acc k => do d <- acc; match typed_name k with None => Ok d | Some b => match sget m0 k with Some v => Ok (sset d b v) | None => Err KeyError end end) l (Ok d) = Ok ty ->
  (exists before k after, l = before ++ k :: after /\ typed_name k = Some base /\ (forall k', In k' after -> typed_name k' <> Some base) /\ sget ty base = sget m0 k /\ sget m0 k <> None) \/ ((forall k, In k l -> typed_name k <> Some base) /\ sget ty base = sget d base).
Proof.
  assert (FE : forall l e, fold_left (fun (acc : res (list (string * V))) k => do d <- acc; match typed_name k with None => Ok d | Some b => match sget m0 k with Some v => Ok (sset d b v) | None => Err KeyError end end) l (Err e) = Err e) by (induction l as [|k l IH]; intro e; [reflexivity|]; cbn [fold_left rbind]; apply IH).
  induction l as [|k l IH]; intros d ty H; cbn [fold_left rbind] in H.
  - right. split; [intros k []|congruence].
  - destruct (typed_name k) as [b|] eqn:Ek.
    + destruct (sget m0 k) as [v|] eqn:Ev; [|rewrite FE in H; discriminate]. destruct (IH _ _ H) as [(bf & k' & af & -> & A & B & C & D)|[A B]].
      * left. exists (k :: bf), k', af. split; [reflexivity|]. now repeat split.
      * rewrite Proof_IO2.sget_sset in B. destruct (String.eqb_spec b base) as [E|E].
        -- left. exists [], k, l. split; [reflexivity|]. rewrite E in Ek. split; [exact Ek|]. split; [exact A|]. rewrite Ev. split; [exact B|discriminate].
        -- right. split; [|exact B]. intros k' [<-|Hk]; [congruence|now apply A].
    + destruct (IH _ _ H) as [(bf & k' & af & -> & A & B)|[A B]]; [left; exists (k :: bf), k', af; split; [reflexivity|now split]|right; split; [|exact B]; intros k' [<-|Hk]; [congruence|now apply A]].
Qed.
Lemma meta_fold ids metas names ty : forall l cols0 cols, fold_left (fun acc k => do cols <- acc; do vs <- mapM (cell metas k) ids; do c <- conv (sget ty k) vs; if existsb (String.eqb k) (names ++ map fst cols) then Err ValueError else Ok (cols ++ [(k, c)])) l (Ok cols0) = Ok cols <->
  NoDup l /\ (forall k, In k l -> ~ In k (names ++ map fst cols0)) /\ exists new, cols = cols0 ++ new /\ Forall2 (fun k kc => fst kc = k /\ exists vs, mapM (cell metas k) ids = Ok vs /\ conv (sget ty k) vs = Ok (snd kc)) l new.
Proof.
  assert (EX : forall k l, existsb (String.eqb k) l = true <-> In k l). { intros k l. rewrite existsb_exists. split; [intros (x & Hx & E); apply String.eqb_eq in E; now subst|intro H; exists k; split; [exact H|apply String.eqb_refl]]. }
  assert (FE : forall l e, fold_left (fun (acc : res (list (string * list V))) k => do cols <- acc; do vs <- mapM (cell metas k) ids; do c <- conv (sget ty k) vs; if existsb (String.eqb k) (names ++ map fst cols) then Err ValueError else Ok (cols ++ [(k, c)])) l (Err e) = Err e) by (induction l as [|k l IH]; intro e; [reflexivity|]; cbn [fold_left rbind]; apply IH).
  induction l as [|k l IH]; intros cols0 cols; cbn [fold_left rbind].
  - split; [intro H; split; [constructor|]; split; [intros k []|]; exists []; split; [rewrite app_nil_r; congruence|constructor]|]. intros (_ & _ & new & -> & F). inversion F. now rewrite app_nil_r.
  - split.
    + destruct (mapM (cell metas k) ids) as [vs|] eqn:Ev; cbn [rbind]; [|rewrite FE; discriminate]. destruct (conv (sget ty k) vs) as [c|] eqn:Ec; cbn [rbind]; [|rewrite FE; discriminate]. destruct (existsb _ _) eqn:Ee; [rewrite FE; discriminate|]. intro H. apply IH in H as (N & D & new & -> & F).
      assert (Nk : ~ In k (names ++ map fst cols0)) by (intro C; apply EX in C; congruence).
      split; [|split].
      * constructor; [|exact N]. intro C. apply (D k C). rewrite map_app. apply in_app_iff. right. apply in_app_iff. right. now left.
      * intros k' [<-|Hk] C; [contradiction|]. apply (D k' Hk). rewrite map_app, app_assoc. apply in_app_iff. now left.
      * exists ((k, c) :: new). split; [now rewrite <- app_assoc|]. constructor; [|exact F]. split; [reflexivity|]. now exists vs.
    + intros (N & D & new & -> & F). inversion F as [|? kc ? new' (E1 & vs & Ev & Ec) F' Ea Eb]; subst. rewrite Ev. cbn [rbind]. rewrite Ec. cbn [rbind].
      destruct (existsb _ _) eqn:Ee; [exfalso; apply EX in Ee; exact (D _ (or_introl eq_refl) Ee)|]. apply IH. inversion N as [|? ? N1 N2]; subst. split; [exact N2|]. split.
      * intros k' Hk C. rewrite map_app, app_assoc in C. apply in_app_iff in C as [C|[C|[]]]; [exact (D k' (or_intror Hk) C)|]. cbn in C. subst k'. contradiction.
      * exists new'. split; [|exact F']. rewrite <- app_assoc. now destruct kc.
Qed.
End M.
