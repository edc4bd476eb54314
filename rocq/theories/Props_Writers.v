(* C190: runs that write the same output file, and readers, at the same time. *)
From Verif Require Import Prelude Model_Writers.
Open Scope nat_scope.
(* runs whose temporary names differ (and are not the output name) *)
Definition other_name {B} (file : string) (ws : list (writer B)) (t : string) : Prop := t <> file /\ ~ In t (map w_tmp ws).
(* one run after the other; rrdesi, rrboss: the temporary name is the output name with .tmp *)
Definition one_run {B} (file : string) (ws : list (writer B)) (t : string) : Prop := ws = [] /\ t = (file ++ ".tmp")%string.
(* runs at any time, with that temporary name *)
Definition any_run {B} (file : string) (ws : list (writer B)) (t : string) : Prop := t = (file ++ ".tmp")%string.
(* complete: what was there before, or all of what one run had to write *)
Definition complete {B} (s0 s : system B) (file : string) (c : list B) : Prop := content s0 file = Some c \/ In c (sy_runs s).
Section P.
Context {B : Type} (file : string) (clob : bool).
Lemma firstn_snoc (l : list B) : forall n b, nth_error l n = Some b -> firstn (S n) l = firstn n l ++ [b].
Proof. induction l as [|x l IH]; intros [|n] b H; try discriminate H; [injection H as ->; reflexivity|]. cbn [firstn app]. f_equal. now apply IH. Qed.
Lemma put_end (c : list B) b : put (length c) b c = c ++ [b].
Proof. unfold put. rewrite firstn_all, skipn_all2 by lia. reflexivity. Qed.
Record inv (s0 s : system B) : Prop := {
  i_tmp : NoDup (map w_tmp (sy_ws s)) /\ ~ In file (map w_tmp (sy_ws s));
  i_run : forall w, In w (sy_ws s) -> In (w_blocks w) (sy_runs s);
  i_write : forall w i pos left, In w (sy_ws s) -> w_at w = Writing i pos left -> sy_dir s (w_tmp w) = Some i /\ pos = length (sy_data s i) /\ sy_data s i ++ left = w_blocks w;
  i_next : forall p i, sy_dir s p = Some i -> i < sy_next s;
  i_inj : forall p q i, sy_dir s p = Some i -> sy_dir s q = Some i -> p = q;
  i_read : forall r, In r (sy_rs s) -> r_inode r < sy_next s /\ (forall p, sy_dir s p = Some (r_inode r) -> p = file) /\ complete s0 s file (sy_data s (r_inode r)) /\ r_got r = firstn (length (r_got r)) (sy_data s (r_inode r));
  i_file : forall i, sy_dir s file = Some i -> complete s0 s file (sy_data s i);
  i_seen : forall c, In c (sy_seen s) -> complete s0 s file c }.
Lemma dset_same d (p : string) v : dir_set d p v p = v. Proof. unfold dir_set. now rewrite String.eqb_refl. Qed.
Lemma dset_other d (p q : string) v : p <> q -> dir_set d p v q = d q. Proof. unfold dir_set. intro N. apply String.eqb_neq in N. now rewrite N. Qed.
Lemma cset_same (d : nat -> list B) i c : data_set d i c i = c. Proof. unfold data_set. now rewrite Nat.eqb_refl. Qed.
Lemma cset_other (d : nat -> list B) i j c : i <> j -> data_set d i c j = d j. Proof. unfold data_set. intro N. apply Nat.eqb_neq in N. now rewrite N. Qed.
Lemma names_mid (l r : list (writer B)) w w' : w_tmp w = w_tmp w' -> map w_tmp (l ++ w :: r) = map w_tmp (l ++ w' :: r).
Proof. intro E. rewrite !map_app. cbn. now rewrite E. Qed.
Lemma mid_other (l r : list (writer B)) w x : NoDup (map w_tmp (l ++ w :: r)) -> In x (l ++ r) -> w_tmp x <> w_tmp w.
Proof. rewrite map_app. cbn. intros N I E. apply NoDup_remove_2 in N. apply N. rewrite <- map_app, <- E. now apply in_map. Qed.
Lemma mid_in (l r : list (writer B)) w x : In x (l ++ w :: r) <-> x = w \/ In x (l ++ r).
Proof. rewrite !in_app_iff. cbn. intuition congruence. Qed.
(* a step of the writer w on the inode of its temporary name *)
Lemma writer_keeps s0 s l r w w' d c n i pos left :
  inv s0 s -> sy_ws s = l ++ w :: r -> w_tmp w' = w_tmp w -> w_blocks w' = w_blocks w -> w_at w' = Writing i pos left ->
  (forall p, p <> w_tmp w -> d p = sy_dir s p) -> d (w_tmp w) = Some i -> (sy_dir s (w_tmp w) = Some i \/ i = sy_next s) -> sy_next s <= n -> i < n ->
  pos = length c -> c ++ left = w_blocks w ->
  inv s0 (with_fs s d (data_set (sy_data s) i c) n (l ++ w' :: r)).
Proof.
  intros I E Et Eb Ea Hd Hi Hs Hn Hin Hp Hc. destruct I as [[Nt Nf] Ir Iw In_ Ij Ird If_ Is]. rewrite E in *.
  assert (Tf : w_tmp w <> file). { intro X. apply Nf. rewrite <- X. apply in_map. apply mid_in. now left. }
  assert (Oth : forall p j, p <> w_tmp w -> sy_dir s p = Some j -> j <> i).
  { intros p j Np Hj ->. destruct Hs as [Hs| ->]; [exact (Np (Ij _ _ _ Hj Hs))|]. apply In_ in Hj. lia. }
  constructor; cbn [with_fs sy_ws sy_dir sy_data sy_next sy_rs sy_runs sy_seen].
  - rewrite <- (names_mid l r w w') by congruence. now split.
  - intros x Hx. apply mid_in in Hx. destruct Hx as [->|Hx]; [rewrite Eb; apply Ir; apply mid_in; now left|apply Ir; apply mid_in; now right].
  - intros x j q lf Hx Hj. apply mid_in in Hx. destruct Hx as [->|Hx].
    + rewrite Ea in Hj. injection Hj as <- <- <-. rewrite Et, cset_same, Eb. repeat split; assumption.
    + pose proof (mid_other l r w x Nt Hx) as Nx. destruct (Iw x j q lf) as (A1 & A2 & A3); [apply mid_in; now right|exact Hj|]. rewrite Hd by exact Nx.
      assert (j <> i) by (eapply Oth; [exact Nx|exact A1]). rewrite cset_other by congruence. now repeat split.
  - intros p j Hj. destruct (string_dec p (w_tmp w)) as [->|Np]; [rewrite Hi in Hj; injection Hj as <-; exact Hin|]. rewrite Hd in Hj by exact Np. apply In_ in Hj. lia.
  - intros p q j Hpj Hqj. destruct (string_dec p (w_tmp w)) as [->|Np], (string_dec q (w_tmp w)) as [->|Nq]; [reflexivity| | |].
    + rewrite Hi in Hpj. injection Hpj as <-. rewrite Hd in Hqj by exact Nq. now destruct (Oth q i Nq Hqj).
    + rewrite Hi in Hqj. injection Hqj as <-. rewrite Hd in Hpj by exact Np. now destruct (Oth p i Np Hpj).
    + rewrite Hd in Hpj by exact Np. rewrite Hd in Hqj by exact Nq. now apply (Ij p q j).
  - intros x Hx. destruct (Ird x Hx) as (A1 & A2 & A3 & A4).
    assert (Ni : i <> r_inode x). { intros ->. destruct Hs as [Hs|Hs]; [exact (Tf (A2 _ Hs))|lia]. }
    rewrite cset_other by exact Ni. repeat split; [lia| |exact A3|exact A4].
    intros p Hpx. destruct (string_dec p (w_tmp w)) as [->|Np]; [congruence|]. rewrite Hd in Hpx by exact Np. now apply A2.
  - intros j Hj. rewrite Hd in Hj by congruence. assert (j <> i) by (eapply Oth; [|exact Hj]; congruence). rewrite cset_other by congruence. now apply If_.
  - exact Is.
Qed.
Lemma drop_keeps s0 s l r w : inv s0 s -> sy_ws s = l ++ w :: r -> inv s0 (with_fs s (sy_dir s) (sy_data s) (sy_next s) (l ++ r)).
Proof.
  intros [[Nt Nf] Ir Iw In_ Ij Ird If_ Is] E. rewrite E in *. constructor; cbn [with_fs sy_ws sy_dir sy_data sy_next sy_rs sy_runs sy_seen]; try assumption.
  - rewrite map_app in *. cbn in Nt, Nf. split; [eapply NoDup_remove_1; exact Nt|]. intro C. apply Nf. rewrite in_app_iff in *. cbn. tauto.
  - intros x Hx. apply Ir. apply mid_in. now right.
  - intros x i pos left Hx. apply Iw. apply mid_in. now right.
Qed.
Lemma step_inv s0 s s' : inv s0 s -> step file (other_name file) clob s s' -> inv s0 s'.
Proof.
  intros I H. destruct H as [s t blocks M|s l t blocks r Cl E|s l t blocks r i E D|s l t blocks r E D|s l t blocks r i pos b left E|s l t blocks r i pos E|s l w r E|s i D|s l i got r b E D|s l i got r E D].
  - destruct M as [Mf Mn]. destruct I as [[Nt Nf] Ir Iw In_ Ij Ird If_ Is]. constructor; cbn [sy_ws sy_dir sy_data sy_next sy_rs sy_runs sy_seen].
    + cbn. split; [constructor; assumption|]. intros [C|C]; [congruence|contradiction].
    + intros w [<-|Hw]; [now left|right; now apply Ir].
    + intros w i pos left [<-|Hw] Hi; [discriminate Hi|now apply Iw].
    + exact In_.
    + exact Ij.
    + intros x Hx. destruct (Ird x Hx) as (A1 & A2 & A3 & A4). repeat split; try assumption. destruct A3; [now left|right; now right].
    + intros i Hi. destruct (If_ i Hi); [now left|right; now right].
    + intros c Hc. destruct (Is c Hc); [now left|right; now right].
  - destruct I as [[Nt Nf] Ir Iw In_ Ij Ird If_ Is].
    assert (Dd : forall p, dir_set (sy_dir s) file None p = if string_dec p file then None else sy_dir s p) by (intro p; destruct (string_dec p file) as [->|N]; [apply dset_same|apply dset_other; congruence]).
    constructor; cbn [with_fs sy_ws sy_dir sy_data sy_next sy_rs sy_runs sy_seen]; try assumption.
    + now split.
    + intros w i pos left Hw Hi. rewrite Dd. destruct (string_dec (w_tmp w) file) as [X|_]; [|now apply (Iw w i pos left)]. exfalso. apply Nf. rewrite <- X. now apply in_map.
    + intros p i. rewrite Dd. destruct (string_dec p file); [discriminate|apply In_].
    + intros p q i. rewrite !Dd. destruct (string_dec p file); [discriminate|]. destruct (string_dec q file); [intros _ Z; discriminate Z|apply Ij].
    + intros x Hx. destruct (Ird x Hx) as (A1 & A2 & A3 & A4). repeat split; try assumption. intros p. rewrite Dd. destruct (string_dec p file); [discriminate|apply A2].
    + intros i. rewrite Dd. destruct (string_dec file file); [discriminate|congruence].
  - eapply (writer_keeps s0 s l r _ _ _ [] _ i 0 blocks I E); try reflexivity; [exact D|now left|]. apply (i_next _ _ I) in D. exact D.
  - eapply (writer_keeps s0 s l r _ _ _ [] _ (sy_next s) 0 blocks I E); try reflexivity; [| |now right|lia|lia].
    + intros p Np. apply dset_other. cbn in Np. congruence.
    + apply dset_same.
  - assert (X : In {| w_tmp := t; w_blocks := blocks; w_at := Writing i pos (b :: left) |} (sy_ws s)) by (rewrite E; apply mid_in; now left).
    destruct (i_write _ _ I _ _ _ _ X eq_refl) as (A1 & A2 & A3). cbn in A1, A3. subst pos. rewrite put_end.
    eapply (writer_keeps s0 s l r _ _ _ _ _ i _ left I E); try reflexivity; [exact A1|now left|exact (i_next _ _ I _ _ A1)|rewrite app_length; cbn; lia|]. cbn. rewrite <- app_assoc. exact A3.
  - assert (X : In {| w_tmp := t; w_blocks := blocks; w_at := Writing i pos [] |} (sy_ws s)) by (rewrite E; apply mid_in; now left).
    destruct (i_write _ _ I _ _ _ _ X eq_refl) as (A1 & _ & A3). cbn in A1, A3. rewrite app_nil_r in A3. rewrite A1.
    pose proof (i_run _ _ I _ X) as Rb. cbn in Rb. assert (Tf : t <> file). { intro Z. apply (i_tmp _ _ I). rewrite <- Z. apply (in_map w_tmp) in X. exact X. }
    pose proof (drop_keeps s0 s l r _ I E) as I2. destruct I2 as [[Nt Nf] Ir Iw In_ Ij Ird If_ Is]. cbn [with_fs sy_ws sy_dir sy_data sy_next sy_rs sy_runs sy_seen] in *.
    assert (Dd : forall p, dir_set (dir_set (sy_dir s) file (Some i)) t None p = if string_dec p t then None else if string_dec p file then Some i else sy_dir s p).
    { intro p. destruct (string_dec p t) as [->|N1]; [apply dset_same|]. rewrite dset_other by congruence. destruct (string_dec p file) as [->|N2]; [apply dset_same|]. apply dset_other. congruence. }
    constructor; cbn [with_fs sy_ws sy_dir sy_data sy_next sy_rs sy_runs sy_seen].
    + now split.
    + exact Ir.
    + intros x j q lf Hx Hj. destruct (Iw x j q lf Hx Hj) as (B1 & B2 & B3). split; [|now split]. rewrite Dd. pose proof (i_tmp _ _ I) as [Nt0 _]. rewrite E in Nt0.
      pose proof (mid_other l r _ x Nt0 Hx) as Nx. cbn in Nx. destruct (string_dec (w_tmp x) t); [contradiction|]. destruct (string_dec (w_tmp x) file) as [Y|_]; [|exact B1].
      exfalso. apply Nf. rewrite <- Y. now apply in_map.
    + intros p j. rewrite Dd. destruct (string_dec p t); [discriminate|]. destruct (string_dec p file); [intro Z; injection Z as <-; exact (In_ _ _ A1)|apply In_].
    + intros p q j. rewrite !Dd. destruct (string_dec p t) as [|P1]; [discriminate|]. destruct (string_dec q t) as [|Q1]; [intros _ Z; discriminate Z|].
      destruct (string_dec p file) as [->|P2], (string_dec q file) as [->|Q2]; [reflexivity| | |apply Ij].
      * intros Z1 Z2. injection Z1 as <-. exfalso. apply Q1. exact (Ij _ _ _ Z2 A1).
      * intros Z1 Z2. injection Z2 as <-. exfalso. apply P1. exact (Ij _ _ _ Z1 A1).
    + intros x Hx. destruct (Ird x Hx) as (B1 & B2 & B3 & B4). repeat split; try assumption. intros p. rewrite Dd. destruct (string_dec p t); [discriminate|]. destruct (string_dec p file) as [->|]; [reflexivity|]. apply B2.
    + intros j. rewrite Dd. destruct (string_dec file t); [discriminate|]. destruct (string_dec file file); [|congruence]. intro Z. injection Z as <-. right. cbn. now rewrite A3.
    + exact Is.
  - now apply (drop_keeps s0 s l r w).
  - destruct I as [It Ir Iw In_ Ij Ird If_ Is]. constructor; cbn [with_rs sy_ws sy_dir sy_data sy_next sy_rs sy_runs sy_seen]; try assumption.
    intros x [<-|Hx]; [|now apply Ird]. cbn. split; [exact (In_ _ _ D)|]. split; [intros p Hp; exact (Ij _ _ _ Hp D)|]. split; [exact (If_ _ D)|reflexivity].
  - destruct I as [It Ir Iw In_ Ij Ird If_ Is]. rewrite E in Ird. constructor; cbn [with_rs sy_ws sy_dir sy_data sy_next sy_rs sy_runs sy_seen]; try assumption.
    intros x Hx. apply in_app_iff in Hx. destruct Hx as [Hx|[<-|Hx]]; [apply Ird; apply in_app_iff; now left| |apply Ird; apply in_app_iff; right; now right].
    destruct (Ird {| r_inode := i; r_got := got |}) as (A1 & A2 & A3 & A4); [apply in_app_iff; right; now left|]. cbn in *. repeat split; try assumption.
    rewrite app_length. cbn [length]. rewrite Nat.add_1_r. rewrite (firstn_snoc _ _ _ D), <- A4. reflexivity.
  - destruct I as [It Ir Iw In_ Ij Ird If_ Is]. rewrite E in Ird. constructor; cbn [with_rs sy_ws sy_dir sy_data sy_next sy_rs sy_runs sy_seen]; try assumption.
    + intros x Hx. apply Ird. apply in_app_iff in Hx. apply in_app_iff. cbn. tauto.
    + intros c [<-|Hc]; [|now apply Is]. destruct (Ird {| r_inode := i; r_got := got |}) as (A1 & A2 & A3 & A4); [apply in_app_iff; right; now left|]. cbn in *.
      apply nth_error_None in D. rewrite firstn_all2 in A4 by exact D. rewrite A4. exact A3.
Qed.
Lemma inv0 s : fresh s -> inv s s.
Proof.
  intros (W & R & U & V & N & J). constructor.
  - rewrite W. split; [constructor|intros []].
  - rewrite W. intros w [].
  - rewrite W. intros w i pos left [].
  - exact N.
  - exact J.
  - rewrite R. intros r [].
  - intros i Hi. left. unfold content. now rewrite Hi.
  - rewrite V. intros c [].
Qed.
Lemma steps_inv s0 s : fresh s0 -> steps file (other_name file) clob s0 s -> inv s0 s.
Proof. intros F H. revert F. induction H as [s|s s' s'' H IH St]; intro F; [now apply inv0|]. eapply step_inv; [now apply IH|exact St]. Qed.
Lemma one_is_other (s s' : system B) : steps file (one_run file) clob s s' -> (forall t, one_run (B := B) file [] t -> t <> file) -> steps file (other_name file) clob s s'.
Proof.
  intros H Hf. induction H as [s|s s' s'' H IH St]; [constructor|]. eapply More; [exact IH|]. destruct St; try (econstructor; eassumption).
  apply SBegin. match goal with M : one_run _ _ _ |- _ => destruct M as [E M] end. rewrite E. split; [apply Hf; now split|intros []].
Qed.
Lemma tmp_not_file : (file ++ ".tmp")%string <> file.
Proof.
  intro E. apply (f_equal String.length) in E. assert (G : forall a b : string, String.length (a ++ b) = String.length a + String.length b) by (induction a as [|x a IH]; intro b; [reflexivity|]; cbn; now rewrite IH).
  rewrite G in E. cbn in E. lia.
Qed.
(* Readers at any time, runs at any time with temporary names of their own, crashes at any point: who reads to the end has read a complete file, who is still reading has read a
   beginning of one, and a complete file is under the output name. *)
Theorem C190_own_names : forall s0 s : system B, fresh s0 -> steps file (other_name file) clob s0 s ->
  (forall c, In c (sy_seen s) -> complete s0 s file c) /\
  (forall r, In r (sy_rs s) -> exists c left, complete s0 s file c /\ c = r_got r ++ left) /\
  (forall c, content s file = Some c -> complete s0 s file c).
Proof.
  intros s0 s F H. pose proof (steps_inv s0 s F H) as I. split; [exact (i_seen _ _ I)|]. split.
  - intros r Hr. destruct (i_read _ _ I r Hr) as (_ & _ & A3 & A4). exists (sy_data s (r_inode r)), (skipn (length (r_got r)) (sy_data s (r_inode r))). split; [exact A3|].
    rewrite A4 at 1. symmetry. apply firstn_skipn.
  - intros c Hc. unfold content in Hc. destruct (sy_dir s file) as [i|] eqn:E; [|discriminate Hc]. injection Hc as <-. now apply (i_file _ _ I).
Qed.
(* One run after the other with the names that rrdesi and rrboss use, also after crashes. *)
Theorem C190_one_after_other_partial : forall s0 s : system B, fresh s0 -> steps file (one_run file) clob s0 s ->
  (forall c, In c (sy_seen s) -> complete s0 s file c) /\
  (forall r, In r (sy_rs s) -> exists c left, complete s0 s file c /\ c = r_got r ++ left) /\
  (forall c, content s file = Some c -> complete s0 s file c).
Proof. intros s0 s F H. apply C190_own_names; [exact F|]. apply one_is_other; [exact H|]. intros t [_ ->]. exact tmp_not_file. Qed.
(* Without clobber the output file, once there, never goes away. *)
Theorem C190_never_missing : forall s0 s : system B, fresh s0 -> clob = false -> steps file (other_name file) clob s0 s -> content s0 file <> None -> content s file <> None.
Proof.
  intros s0 s F Cl H N. induction H as [s|s s' s'' H IH St]; [exact N|]. specialize (IH F N). pose proof (steps_inv s s' F H) as I. destruct (i_tmp _ _ I) as [_ Nf].
  unfold content in *. destruct (sy_dir s' file) as [k|] eqn:E0; [|now destruct IH]. assert (G : forall d : system B, sy_dir d file <> None -> option_map (sy_data d) (sy_dir d file) <> None) by (intros d X; destruct (sy_dir d file); [discriminate|congruence]).
  apply G. destruct St as [x t2 b2 M|x l2 t2 b2 r2 Cl2 E2|x l2 t2 b2 r2 j E2 D|x l2 t2 b2 r2 E2 D|x l2 t2 b2 r2 j p2 b left E2|x l2 t2 b2 r2 j p2 E2|x l2 w r2 E2|x j D|x l2 j got r2 b E2 D|x l2 j got r2 E2 D]; cbn [with_fs with_rs sy_dir]; try congruence.
  - rewrite dset_other; [congruence|]. intros ->. congruence.
  - assert (T : t2 <> file). { intros ->. apply Nf. rewrite E2. rewrite map_app. apply in_app_iff. right. now left. }
    destruct (sy_dir x t2); [|congruence]. rewrite dset_other by exact T. rewrite dset_same. discriminate.
Qed.
(* A run that comes to its end puts its own content under the output name, whatever the others do; readers go on with what they have opened. *)
Theorem C190_last_step : forall (s0 s s' : system B) l t blocks r i pos, fresh s0 -> steps file (other_name file) clob s0 s -> sy_ws s = l ++ {| w_tmp := t; w_blocks := blocks; w_at := Writing i pos [] |} :: r ->
  step file (other_name file) clob s s' -> sy_ws s' = l ++ r -> sy_dir s' <> sy_dir s -> content s' file = Some blocks /\ sy_rs s' = sy_rs s /\ sy_data s' = sy_data s.
Proof.
  intros s0 s s' l t blocks r i pos F H E St E' Nd. pose proof (steps_inv s0 s F H) as I. pose proof (step_inv s0 s s' I St) as I'.
  assert (L : length (sy_ws s') < length (sy_ws s)) by (rewrite E, E', !app_length; cbn; lia).
  destruct St as [s t2 b2 M|s l2 t2 b2 r2 Cl E2|s l2 t2 b2 r2 j E2 D|s l2 t2 b2 r2 E2 D|s l2 t2 b2 r2 j p2 b left E2|s l2 t2 b2 r2 j p2 E2|s l2 w r2 E2|s j D|s l2 j got r2 b E2 D|s l2 j got r2 E2 D]; cbn [with_fs with_rs sy_ws sy_dir sy_data sy_next sy_rs sy_runs sy_seen] in *;
    try (rewrite E2, !app_length in L; cbn [length] in L; lia); try (cbn in L; lia); try congruence.
  assert (W : l2 ++ {| w_tmp := t2; w_blocks := b2; w_at := Writing j p2 [] |} :: r2 = l ++ {| w_tmp := t; w_blocks := blocks; w_at := Writing i pos [] |} :: r) by congruence.
  assert (X2 : In {| w_tmp := t2; w_blocks := b2; w_at := Writing j p2 [] |} (sy_ws s)) by (rewrite E2; apply mid_in; now left).
  destruct (i_tmp _ _ I) as [N _]. rewrite E2 in N.
  assert (T : {| w_tmp := t2; w_blocks := b2; w_at := Writing j p2 [] |} = {| w_tmp := t; w_blocks := blocks; w_at := Writing i pos [] |}).
  { pose proof X2 as Y. rewrite E in Y. apply mid_in in Y. destruct Y as [Y|Y]; [exact Y|]. rewrite <- E' in Y. pose proof (mid_other l2 r2 _ _ N Y) as Z. now destruct Z. }
  injection T as -> -> -> ->. destruct (i_write _ _ I _ _ _ _ X2 eq_refl) as (A1 & _ & A3). cbn in A1, A3. rewrite app_nil_r in A3.
  split; [|split; reflexivity]. unfold content. cbn [sy_dir sy_data with_fs]. rewrite A1. assert (Tf : t <> file). { intro Z. apply (i_tmp _ _ I). rewrite <- Z. apply (in_map w_tmp) in X2. exact X2. }
  rewrite dset_other by congruence. rewrite dset_same. cbn [option_map]. now rewrite A3.
Qed.
End P.
(* Two runs at the same time with the same temporary name: a file that neither run wrote appears under the output name, and is read. *)
Definition empty_dir : system nat := {| sy_dir := fun _ => None; sy_data := fun _ => []; sy_next := 0; sy_ws := []; sy_rs := []; sy_runs := []; sy_seen := [] |}.
Ltac fwd c := match goal with H : steps ?f ?m ?c0 ?s0 ?s |- _ => let K := fresh in eassert (K : step f m c0 s _) by c; let H2 := fresh in pose proof (More _ _ _ _ _ _ H K) as H2; clear H K; cbn [with_fs with_rs sy_dir sy_data sy_next sy_ws sy_rs sy_runs sy_seen app] in H2 end.
Theorem C190_same_name_refuted : exists (s0 s : system nat) file c, fresh s0 /\ steps file (any_run file) false s0 s /\ content s file = Some c /\ In c (sy_seen s) /\ ~ complete s0 s file c.
Proof.
  pose proof (Same "o"%string (any_run "o"%string) false empty_dir) as H. unfold empty_dir in H at 2.
  fwd ltac:(apply (SBegin _ _ _ _ "o.tmp"%string [1; 2]); reflexivity).
  fwd ltac:(apply (SBegin _ _ _ _ "o.tmp"%string [3; 4]); reflexivity).
  fwd ltac:(eapply (SCreate _ _ _ _ [_] _ _ []); reflexivity).
  fwd ltac:(eapply (STrunc _ _ _ _ [] _ _ [_]); reflexivity).
  fwd ltac:(eapply (SWrite _ _ _ _ [_] _ _ []); reflexivity).
  fwd ltac:(eapply (SWrite _ _ _ _ [] _ _ [_]); reflexivity).
  fwd ltac:(eapply (SWrite _ _ _ _ [_] _ _ []); reflexivity).
  fwd ltac:(eapply (SRename _ _ _ _ [_] _ _ []); reflexivity).
  fwd ltac:(eapply (SOpen _ _ _ _ 0); reflexivity).
  fwd ltac:(eapply (SRead _ _ _ _ [] _ _ [] 3); reflexivity).
  fwd ltac:(eapply (SRead _ _ _ _ [] _ _ [] 2); reflexivity).
  fwd ltac:(eapply (SDone _ _ _ _ [] _ _ []); reflexivity).
  match goal with H : steps _ _ _ _ ?s |- _ => exists empty_dir, s, "o"%string, [3; 2]; split; [repeat split; try reflexivity; discriminate|]; split; [exact H|] end.
  split; [reflexivity|]. split; [now left|]. intros [C|[C|[C|[]]]]; discriminate C.
Qed.
(* a reader that has opened the old file reads on while a run replaces it *)
Definition old_file : system nat := {| sy_dir := fun p => if String.eqb "o" p then Some 0 else None; sy_data := fun _ => [7; 8]; sy_next := 1; sy_ws := []; sy_rs := []; sy_runs := []; sy_seen := [] |}.
Example nonvacuous_190 : exists s, fresh old_file /\ steps "o" (one_run "o") false old_file s /\ content s "o" = Some [1] /\ sy_seen s = [[7; 8]].
Proof.
  pose proof (Same "o"%string (one_run "o"%string) false old_file) as H. unfold old_file in H at 2.
  fwd ltac:(eapply (SOpen _ _ _ _ 0); reflexivity).
  fwd ltac:(apply (SBegin _ _ _ _ "o.tmp"%string [1]); split; reflexivity).
  fwd ltac:(eapply (SRead _ _ _ _ [] _ _ [] 7); reflexivity).
  fwd ltac:(eapply (SCreate _ _ _ _ [] _ _ []); reflexivity).
  fwd ltac:(eapply (SWrite _ _ _ _ [] _ _ []); reflexivity).
  fwd ltac:(eapply (SRename _ _ _ _ [] _ _ []); reflexivity).
  fwd ltac:(eapply (SRead _ _ _ _ [] _ _ [] 8); reflexivity).
  fwd ltac:(eapply (SDone _ _ _ _ [] _ _ []); reflexivity).
  match goal with H : steps _ _ _ _ ?s |- _ => exists s; split; [|split; [exact H|]] end.
  - repeat split; try reflexivity; cbn; intros p; [|intro q]; destruct (String.eqb_spec "o" p); try discriminate; [intros i E; injection E as <-; lia|]. destruct (String.eqb_spec "o" q); [congruence|discriminate 2].
  - split; reflexivity.
Qed.
(* With clobber (write_zscan) a reader may find no file in the middle of a run, and after a crash the old results are gone. *)
Theorem C190_clobber_refuted : exists s, steps "o" (one_run "o") true old_file s /\ content old_file "o" = Some [7; 8] /\ content s "o" = None /\ sy_ws s = [].
Proof.
  pose proof (Same "o"%string (one_run "o"%string) true old_file) as H. unfold old_file in H at 2.
  fwd ltac:(apply (SBegin _ _ _ _ "o.tmp"%string [1]); split; reflexivity).
  fwd ltac:(eapply (SRemove _ _ _ _ [] _ _ []); reflexivity).
  fwd ltac:(eapply (SCrash _ _ _ _ [] _ []); reflexivity).
  match goal with H : steps _ _ _ _ ?s |- _ => exists s; split; [exact H|] end. repeat split.
Qed.
(* The first of two runs with one temporary name takes it away: the second can only stop with an error (os.rename of a missing file), whatever it wrote is under the output name. *)
Theorem C190_name_taken : forall {B} file may clob (s s' : system B) t blocks i pos, sy_ws s = [{| w_tmp := t; w_blocks := blocks; w_at := Writing i pos [] |}] -> sy_dir s t = None ->
  step file may clob s s' -> sy_ws s' = [] -> content s' file = content s file.
Proof.
  intros B file may clob s s' t blocks i pos E D St E'. destruct St as [x t2 b2 M|x l2 t2 b2 r2 Cl E2|x l2 t2 b2 r2 j E2 D2|x l2 t2 b2 r2 E2 D2|x l2 t2 b2 r2 j p2 b left E2|x l2 t2 b2 r2 j p2 E2|x l2 w r2 E2|x j D2|x l2 j got r2 b E2 D2|x l2 j got r2 E2 D2];
    cbn [with_fs with_rs sy_ws sy_dir sy_data] in *; try discriminate E'; try (destruct l2; discriminate E'); try congruence; try reflexivity.
  unfold content. cbn [with_fs sy_dir sy_data]. rewrite E in E2. destruct l2 as [|w l2]; [|destruct l2; discriminate E2]. injection E2 as <- <- <- <- <-. now rewrite D.
Qed.
Print Assumptions C190_own_names. Print Assumptions C190_one_after_other_partial. Print Assumptions C190_never_missing. Print Assumptions C190_last_step. Print Assumptions C190_same_name_refuted. Print Assumptions C190_clobber_refuted. Print Assumptions C190_name_taken.
