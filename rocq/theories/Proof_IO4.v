(* Lemmas on headers, numbers in keywords and file-system histories. *)
From Verif Require Import Prelude PreludeFacts Facts2 Model_Dist Proof_Dist3 Model_Zscan Model_IO Spec_IO Proof_IO Proof_IO2.

Lemma NoDup_app_intro {A} (a b : list A) : NoDup a -> NoDup b -> (forall x, In x a -> In x b -> False) -> NoDup (a ++ b).
Proof.
  induction a as [|x a IH]; intros Ha Hb H; [exact Hb|]. inversion Ha; subst. cbn. constructor.
  - intros Hin. apply in_app_or in Hin as [Hin|Hin]; [contradiction|]. apply (H x); [now left|exact Hin].
  - apply IH; [assumption|exact Hb|]. intros y Hy. apply H. now right.
Qed.
(* ---- decimal numbers ---- *)
Fixpoint val (s : string) (a : nat) : nat :=
  match s with EmptyString => a | String c r => val r (10 * a + (nat_of_ascii c - 48)) end.
Lemma digit_val d : d < 10 -> nat_of_ascii (digit d) - 48 = d.
Proof. intros H. unfold digit. rewrite nat_ascii_embedding by lia. lia. Qed.
Lemma val_dec_go : forall fuel n acc, n < fuel -> val (dec_go fuel n acc) 0 = val acc n.
Proof.
  induction fuel as [|f IH]; intros n acc H; [lia|]. cbn [dec_go]. pose proof (Nat.mod_upper_bound n 10 ltac:(lia)) as Hm. pose proof (Nat.div_mod n 10 ltac:(lia)) as Hd.
  destruct (Nat.ltb_spec n 10).
  - cbn [val]. rewrite digit_val by exact Hm. rewrite Nat.mod_small by assumption. f_equal.
  - rewrite IH by (assert (n / 10 < n) by (apply Nat.div_lt; lia); lia). cbn [val]. rewrite digit_val by exact Hm. f_equal. lia.
Qed.
Lemma val_fmt02 n : val (fmt02 n) 0 = n.
Proof. unfold fmt02, dec. destruct (n <? 10); [change (val (dec_go (S n) n "") 0 = n)|]; now rewrite val_dec_go by lia. Qed.
Lemma fmt02_inj i j : fmt02 i = fmt02 j -> i = j.
Proof. intros H. rewrite <- (val_fmt02 i), <- (val_fmt02 j). now rewrite H. Qed.
Lemma app_inj_s (p a b : string) : (p ++ a)%string = (p ++ b)%string -> a = b.
Proof. induction p as [|c p IH]; cbn; intros H; [exact H|]. injection H as H. auto. Qed.

(* ---- header cards ---- *)
Lemma sget_fold (l : list (string * string)) : forall h k, ~ In k (map fst l) -> sget (fold_left hset l h) k = sget h k.
Proof.
  induction l as [|[a v] l IH]; intros h k H; [reflexivity|]. cbn [fold_left]. rewrite IH by (intros X; apply H; now right). unfold hset. cbn [fst snd]. rewrite sget_sset.
  destruct (String.eqb_spec a k); [exfalso; apply H; now left|reflexivity].
Qed.
Lemma sget_fold_in (l : list (string * string)) : forall h k v, NoDup (map fst l) -> In (k, v) l -> sget (fold_left hset l h) k = Some v.
Proof.
  induction l as [|[a w] l IH]; intros h k v Hn Hin; [destruct Hin|]. inversion Hn as [|? ? Ha Hl]; subst. cbn [fold_left]. destruct Hin as [E|Hin].
  - injection E as -> ->. rewrite sget_fold by exact Ha. unfold hset. cbn [fst snd]. now rewrite sget_sset, String.eqb_refl.
  - now apply IH.
Qed.
Section Cards.
  Context {A : Type} (keys : list (string * (A -> string))).
  Definition cards (i : nat) (a : A) : list (string * string) := map (fun kv => ((fst kv ++ fmt02 i)%string, snd kv a)) keys.
  Hypothesis Hkeys : NoDup (map fst keys).
  Hypothesis Hlen : forall k, In k (map fst keys) -> String.length k = 6.
  Lemma app_len_eq : forall p q a b : string, String.length p = String.length q -> (p ++ a)%string = (q ++ b)%string -> p = q /\ a = b.
  Proof.
    induction p as [|c p IH]; intros [|d q] a b Hl H; try discriminate Hl; [split; [reflexivity|exact H]|]. cbn in H. injection H as -> H. destruct (IH q a b) as [-> ->]; [now injection Hl|exact H|auto].
  Qed.
  Lemma cards_keys n (l : list A) k : In k (map fst (concat (map (fun p => cards (fst p) (snd p)) (enum_from n l)))) <->
    exists p i, In p (map fst keys) /\ i < length l /\ k = (p ++ fmt02 (n + i))%string.
  Proof.
    rewrite in_map_iff. split.
    - intros ([k' v] & <- & H). apply in_concat in H as (c & Hc & Hk). apply in_map_iff in Hc as ([i a] & <- & Hi). apply enum_from_in in Hi as (j & -> & Hj).
      unfold cards in Hk. cbn [fst snd] in Hk. apply in_map_iff in Hk as ([p g] & E & Hp). cbn [fst snd] in E. injection E as <- <-. cbn [fst].
      exists p, j. split; [apply in_map_iff; exists (p, g); auto|]. split; [eapply nth_error_Some_lt; exact Hj|reflexivity].
    - intros (p & i & Hp & Hi & ->). apply in_map_iff in Hp as ([p' g] & <- & Hp). destruct (nth_error_lt_ex _ _ Hi) as (a & Ha).
      exists ((p' ++ fmt02 (n + i))%string, g a). split; [reflexivity|]. apply in_concat. exists (cards (n + i) a). split.
      + apply in_map_iff. exists (n + i, a). split; [reflexivity|]. apply enum_from_in. exists i. auto.
      + unfold cards. apply in_map_iff. exists (p', g). auto.
  Qed.
  Lemma cards_nodup (l : list A) : forall n, NoDup (map fst (concat (map (fun p => cards (fst p) (snd p)) (enum_from n l)))).
  Proof.
    induction l as [|a l IH]; intros n; [constructor|]. cbn [enum_from map concat fst snd]. rewrite map_app. apply NoDup_app_intro.
    - unfold cards. rewrite map_map. cbn [fst]. assert (E : map (fun x : string * (A -> string) => (fst x ++ fmt02 n)%string) keys = map (fun k => (k ++ fmt02 n)%string) (map fst keys)) by now rewrite map_map. rewrite E.
      clear -Hkeys Hlen. induction (map fst keys) as [|k ks IH]; [constructor|]. cbn [map]. inversion Hkeys; subst. constructor; [|apply IH; [assumption|intros; apply Hlen; now right]].
      intros Hin. apply in_map_iff in Hin as (k' & E & Hk'). destruct (app_len_eq k' k (fmt02 n) (fmt02 n)) as [-> _]; [rewrite !Hlen; [reflexivity|now left|now right]|exact E|contradiction].
    - apply IH.
    - intros k H1 H2. apply (cards_keys (S n) l) in H2 as (p & i & Hp & Hi & ->). unfold cards in H1. rewrite map_map in H1. apply in_map_iff in H1 as ([q g] & E & Hq). cbn [fst] in E.
      assert (Hq' : In q (map fst keys)) by (apply in_map_iff; exists (q, g); auto).
      destruct (app_len_eq q p (fmt02 n) (fmt02 (S n + i))) as [_ E2]; [now rewrite !Hlen|exact E|]. apply fmt02_inj in E2. lia.
  Qed.
  Lemma cards_in n (l : list A) i a p g : nth_error l i = Some a -> In (p, g) keys -> In ((p ++ fmt02 (n + i))%string, g a) (concat (map (fun p => cards (fst p) (snd p)) (enum_from n l))).
  Proof.
    intros Ha Hp. apply in_concat. exists (cards (n + i) a). split.
    - apply in_map_iff. exists (n + i, a). split; [reflexivity|]. apply enum_from_in. exists i. auto.
    - unfold cards. apply in_map_iff. exists (p, g). auto.
  Qed.
  Lemma cards_get (l : list A) (h : header) i a p g : nth_error l i = Some a -> In (p, g) keys ->
    sget (fold_left hset (concat (map (fun p => cards (fst p) (snd p)) (enum l))) h) (p ++ fmt02 i)%string = Some (g a).
  Proof. intros Ha Hp. apply sget_fold_in; [apply cards_nodup|]. exact (cards_in 0 l i a p g Ha Hp). Qed.
  Lemma cards_miss (l : list A) (h : header) i p : length l <= i \/ ~ In p (map fst keys) -> String.length p = 6 ->
    sget (fold_left hset (concat (map (fun p => cards (fst p) (snd p)) (enum l))) h) (p ++ fmt02 i)%string = sget h (p ++ fmt02 i)%string.
  Proof.
    intros H Hp. apply sget_fold. intros Hin. apply (cards_keys 0 l) in Hin as (q & j & Hq & Hj & E). destruct (app_len_eq p q (fmt02 i) (fmt02 (0 + j))) as [-> E2]; [now rewrite (Hlen q Hq)|exact E|].
    apply fmt02_inj in E2. destruct H as [H|H]; [lia|contradiction].
  Qed.
End Cards.

Lemma mapM_concat_firstn {A B} (f : nat -> res (list B)) (g : A -> B) (l : list A) : forall n m,
  (forall i a, nth_error l i = Some a -> i < n -> f (m + i) = Ok [g a]) -> (forall i, length l <= i < n -> f (m + i) = Ok []) ->
  exists r, mapM f (seq m n) = Ok r /\ concat r = map g (firstn n l).
Proof.
  revert l. enough (G : forall n l m, (forall i a, nth_error l i = Some a -> i < n -> f (m + i) = Ok [g a]) -> (forall i, length l <= i < n -> f (m + i) = Ok []) ->
    exists r, mapM f (seq m n) = Ok r /\ concat r = map g (firstn n l)) by (intros l n; exact (G n l)).
  induction n as [|n IH]; intros l m H1 H2; [exists []; auto|]. cbn [seq mapM]. destruct l as [|a l].
  - replace (f m) with (f (m + 0)) by (now rewrite Nat.add_0_r). rewrite H2 by (cbn; lia). cbn [rbind].
    destruct (IH [] (S m)) as (r & E & C); [intros i x Hx; destruct i; discriminate|intros i Hi; replace (S m + i) with (m + S i) by lia; apply H2; cbn in *; lia|].
    rewrite E. cbn [rbind]. exists ([] :: r). split; [reflexivity|]. cbn [concat app]. rewrite C. now rewrite firstn_nil.
  - replace (f m) with (f (m + 0)) by (now rewrite Nat.add_0_r). rewrite (H1 0 a) by (reflexivity || lia). cbn [rbind].
    destruct (IH l (S m)) as (r & E & C).
    + intros i x Hx Hi. replace (S m + i) with (m + S i) by lia. apply H1; [exact Hx|lia].
    + intros i Hi. replace (S m + i) with (m + S i) by lia. apply H2. cbn [length]. lia.
    + rewrite E. cbn [rbind]. exists ([g a] :: r). split; [reflexivity|]. cbn [concat app firstn map]. now rewrite C.
Qed.

(* ---- file-system histories ---- *)
Section Fs.
  Context {B : Type}.
  Implicit Type f : fs B.
  Lemma frun_app f l l' : frun f (l ++ l') = frun (frun f l) l'.
  Proof. unfold frun. apply fold_left_app. Qed.
  Definition touches (o : fop B) : list string := match o with Remove p | Create p | Append p _ => [p] | Rename p q => [p; q] end.
  Lemma fset_other f p v q : p <> q -> fset f p v q = f q.
  Proof. intros H. unfold fset. now destruct (String.eqb_spec p q). Qed.
  Lemma fset_same f p v : fset f p v p = v.
  Proof. unfold fset. now rewrite String.eqb_refl. Qed.
  Lemma untouched : forall l f p, (forall o, In o l -> ~ In p (touches o)) -> frun f l p = f p.
  Proof.
    induction l as [|o l IH]; intros f p H; [reflexivity|]. cbn [frun fold_left]. fold (frun (fstep f o) l). rewrite IH by (intros; apply H; now right).
    specialize (H o (or_introl eq_refl)). destruct o; cbn [touches In] in H; cbn [fstep]; try (apply fset_other; intros ->; tauto).
    destruct (f p0); [|reflexivity]. rewrite fset_other by (intros ->; tauto). apply fset_other. intros ->; tauto.
  Qed.
  Lemma appends tmp : forall (blocks : list B) f c, f tmp = Some c -> frun f (map (Append tmp) blocks) tmp = Some (c ++ blocks).
  Proof.
    induction blocks as [|b bs IH]; intros f c H; [cbn; now rewrite app_nil_r|]. cbn [map frun fold_left]. fold (frun (fstep f (Append tmp b)) (map (Append tmp) bs)).
    rewrite (IH _ (c ++ [b])); [now rewrite <- app_assoc|]. cbn [fstep]. rewrite fset_same, H. reflexivity.
  Qed.
  Lemma prefix_cases {X} (l : list X) a pre post : pre ++ post = l ++ [a] -> (exists post', l = pre ++ post') \/ pre = l ++ [a].
  Proof.
    intros H. destruct post as [|x post] using rev_ind; [right; now rewrite app_nil_r in H|]. left. rewrite app_assoc in H. apply app_inj_tail in H as [H _]. eauto.
  Qed.
  Lemma write_end f file tmp blocks : file <> tmp -> frun f (write_fits_ops file tmp blocks) file = Some blocks /\ frun f (write_fits_ops file tmp blocks) tmp = None.
  Proof.
    intros Hne. unfold write_fits_ops. change (Create tmp :: map (Append tmp) blocks ++ [Rename tmp file]) with ((Create tmp :: map (Append tmp) blocks) ++ [Rename tmp file]).
    rewrite frun_app. cbn [frun fold_left fstep]. fold (frun (fset f tmp (Some [])) (map (Append tmp) blocks)).
    rewrite (appends tmp blocks _ []) by (apply fset_same). cbn [app]. split; [|apply fset_same]. rewrite fset_other by congruence. apply fset_same.
  Qed.
  Lemma write_prefix f file tmp blocks pre post : file <> tmp -> pre ++ post = write_fits_ops file tmp blocks ->
    frun f pre file = f file \/ frun f pre file = Some blocks.
  Proof.
    intros Hne H. unfold write_fits_ops in H. change (Create tmp :: map (Append tmp) blocks ++ [Rename tmp file]) with ((Create tmp :: map (Append tmp) blocks) ++ [Rename tmp file]) in H.
    apply prefix_cases in H as [(post' & H)|H].
    - left. apply untouched. intros o Ho. assert (Hin : In o (Create tmp :: map (Append tmp) blocks)) by (rewrite H; apply in_or_app; now left).
      destruct Hin as [<-|Hin]; [cbn; intros [E|[]]; congruence|]. apply in_map_iff in Hin as (b & <- & _). cbn. intros [E|[]]; congruence.
    - right. rewrite H. apply (write_end f file tmp blocks Hne).
  Qed.
  Lemma write_elsewhere f file tmp blocks pre post q : pre ++ post = write_fits_ops file tmp blocks -> q <> file -> q <> tmp -> frun f pre q = f q.
  Proof.
    intros H H1 H2. apply untouched. intros o Ho. assert (Hin : In o (write_fits_ops file tmp blocks)) by (rewrite <- H; apply in_or_app; now left).
    unfold write_fits_ops in Hin. destruct Hin as [<-|Hin]; [cbn; intros [E|[]]; congruence|]. apply in_app_or in Hin as [Hin|[<-|[]]].
    - apply in_map_iff in Hin as (b & <- & _). cbn. intros [E|[]]; congruence.
    - cbn. intros [E|[E|[]]]; congruence.
  Qed.
  Lemma tmp_ne p : p <> tmp_of p.
  Proof.
    intros H. apply (f_equal String.length) in H. unfold tmp_of in H. assert (G : forall a b, String.length (a ++ b) = String.length a + String.length b).
    { induction a as [|c a IH]; intros b; [reflexivity|]. cbn. now rewrite IH. }
    rewrite G in H. cbn in H. lia.
  Qed.
End Fs.
Lemma mapM_key_error {A B} (f : A -> res B) l : (forall x, In x l -> (exists y, f x = Ok y) \/ f x = Err KeyError) -> (exists x, In x l /\ f x = Err KeyError) -> mapM f l = Err KeyError.
Proof.
  induction l as [|a l IH]; intros H (x & Hin & Hx); [destruct Hin|]. cbn [mapM]. destruct (H a (or_introl eq_refl)) as [(y & E)|E]; rewrite E; cbn [rbind]; [|reflexivity].
  rewrite IH; [reflexivity|intros; apply H; now right|]. destruct Hin as [->|Hin]; [congruence|eauto].
Qed.
