From Verif Require Import Prelude PreludeFacts Model_Zscan Model_IO Model_Arch Model_Wrap Model_Cli Spec_Cli Proof_IO Proof_IO2 Proof_Wrap2.
Open Scope nat_scope.

Section P.
Variable float_ok : string -> bool.
Variable p : parser.
Hypothesis Hp : parser_ok p.

Lemma in_strings : forall n o, In (n, o) (option_strings p) <-> In o p /\ In n (o_names o).
Proof.
  intros n o. unfold option_strings. rewrite in_concat. split.
  - intros (l & H1 & H2). apply in_map_iff in H1. destruct H1 as (o' & <- & H1). apply in_map_iff in H2. destruct H2 as (n' & H2 & H3). injection H2 as -> ->. auto.
  - intros [H1 H2]. exists (map (fun n => (n, o)) (o_names o)). split; [now apply in_map_iff; exists o|now apply in_map_iff; exists n].
Qed.
Lemma strings_names : map fst (option_strings p) = concat (map o_names p).
Proof.
  unfold option_strings. rewrite concat_map, map_map. f_equal. apply map_ext. intro o. rewrite map_map. cbn. apply map_id.
Qed.
Lemma lookup_in : forall n o, In o p -> In n (o_names o) -> lookup p n = Some o.
Proof.
  intros n o H1 H2. unfold lookup. assert (Hi : In (n, o) (option_strings p)) by (apply in_strings; auto).
  assert (Hn : NoDup (map fst (option_strings p))) by (rewrite strings_names; exact (proj1 Hp)).
  revert Hi Hn. generalize (option_strings p). intro l. induction l as [|[a b] l IH]; intros Hi Hn; [destruct Hi|]. cbn [find fst].
  inversion Hn as [|x y Hx Hy E]. clear E. destruct Hi as [E|Hi].
  - injection E as -> ->. rewrite String.eqb_refl. reflexivity.
  - destruct (String.eqb_spec a n) as [->|]; [|auto]. exfalso. apply Hx. cbn. apply in_map_iff. exists (n, o). auto.
Qed.
Lemma lookup_some : forall n o, lookup p n = Some o -> In o p /\ In n (o_names o).
Proof.
  intros n o. unfold lookup. destruct (find _ _) as [[a b]|] eqn:E; [|discriminate]. intro H. cbn in H. injection H as ->. apply find_some in E. destruct E as [E1 E2]. cbn in E2. apply String.eqb_eq in E2. subst a. now apply in_strings.
Qed.
Lemma cut_app : forall n v, cut "=" n = None -> cut "=" (n ++ "=" ++ v)%string = Some (n, v).
Proof.
  intros n v. induction n as [|a n IH]; [reflexivity|]. cbn [cut append]. destruct (Ascii.eqb a "=") eqn:Ea; [discriminate|]. destruct (cut "=" n) as [[x y]|] eqn:E; [discriminate|]. intros _. specialize (IH eq_refl). cbn [append] in IH. rewrite IH. reflexivity.
Qed.
Lemma classify_name : forall n o, In o p -> In n (o_names o) -> classify p n = TOpt (Some o) None /\ n <> "--"%string.
Proof.
  intros n o H1 H2. pose proof (lookup_in n o H1 H2) as HL. destruct Hp as (_ & _ & H). destruct (H o n H1 H2) as [Hs Hc]. unfold starts_dash in Hs.
  destruct n as [|a n]; [destruct Hs|]. destruct a as [[] [] [] [] [] [] [] []]; try destruct Hs. destruct n as [|b n]; [destruct Hs|]. split; [|exact Hs]. unfold classify. rewrite HL. reflexivity.
Qed.
Lemma classify_joined : forall n o v, In o p -> In n (o_names o) -> classify p (n ++ "=" ++ v)%string = TOpt (Some o) (Some v) /\ (n ++ "=" ++ v)%string <> "--"%string.
Proof.
  intros n o v H1 H2. pose proof (lookup_in n o H1 H2) as HL. pose proof (proj2 (proj2 Hp) o n H1 H2) as [Hs Hc].
  assert (HN : lookup p (n ++ "=" ++ v)%string = None).
  { destruct (lookup p (n ++ "=" ++ v)%string) as [o'|] eqn:E; [|reflexivity]. apply lookup_some in E. destruct E as [E1 E2]. destruct (proj2 (proj2 Hp) _ _ E1 E2) as [_ E3]. rewrite cut_app in E3 by exact Hc. discriminate. }
  pose proof (cut_app n v Hc) as HC. unfold starts_dash in Hs. destruct n as [|a n]; [destruct Hs|]. destruct a as [[] [] [] [] [] [] [] []]; try destruct Hs. destruct n as [|b n]; [destruct Hs|].
  split; [|cbn; intro X; injection X as -> X; destruct n; discriminate].
  unfold classify. change ((String "-" (String b n) ++ "=" ++ v)%string) with (String "-" (String b n ++ "=" ++ v)%string) in *. rewrite HN, HC, HL. reflexivity.
Qed.
Lemma classify_plain : forall v, plain v -> classify p v = TVal /\ v <> "--"%string.
Proof.
  intros v Hv. destruct v as [|a v]; [split; [reflexivity|discriminate]|]. unfold plain in Hv. unfold classify. destruct a as [[] [] [] [] [] [] [] []]; try destruct Hv; (split; [reflexivity|discriminate]).
Qed.

Definition toks (ws : list string) : list (string * token) := map (fun w => (w, classify p w)) ws.
Lemma classes_toks : forall ws, (forall w, In w ws -> w <> "--"%string) -> classes p ws = toks ws.
Proof.
  induction ws as [|w ws IH]; intro H; [reflexivity|]. cbn [classes toks map]. destruct (String.eqb_spec w "--") as [E|E]; [exfalso; apply (H w); [now left|exact E]|]. fold (toks ws). now rewrite IH by (intros x Hx; apply H; now right).
Qed.
Lemma toks_app : forall a b, toks (a ++ b) = toks a ++ toks b.
Proof. intros a b. apply map_app. Qed.
Lemma values_step : forall vs o acc rest d ex, (forall v, In v vs -> plain v) -> o_arity o = Plus \/ o_arity o = Star ->
  consume float_ok (toks vs ++ rest) (Some (o, acc)) d ex = consume float_ok rest (Some (o, acc ++ vs)) d ex.
Proof.
  induction vs as [|v vs IH]; intros o acc rest d ex Hv Ha; cbn [toks map app]; [now rewrite app_nil_r|].
  rewrite (proj1 (classify_plain v (Hv v (or_introl eq_refl)))). cbn [consume]. fold (toks vs). assert (Hv' : forall x, In x vs -> plain x) by (intros x Hx; apply Hv; now right).
  destruct Ha as [Ha|Ha]; rewrite Ha; rewrite IH by auto; rewrite <- app_assoc; reflexivity.
Qed.
(* one correct piece stores its values *)
Lemma piece_step : forall pc, piece_ok float_ok p pc -> exists o, In o p /\ In (pc_name pc) (o_names o) /\
  forall rest cur d d0 ex, close float_ok d cur = Some d0 -> exists cur' d', close float_ok d' cur' = Some (sset d0 (o_dest o) (pc_values pc)) /\ consume float_ok (toks (text pc) ++ rest) cur d ex = consume float_ok rest cur' d' ex.
Proof.
  intros pc (o & H1 & H2 & H3 & H4 & H5). exists o. split; [exact H1|]. split; [exact H2|]. intros rest cur d d0 ex Hc.
  assert (Hst : forall d1, store float_ok d1 o (pc_values pc) = Some (sset d1 (o_dest o) (pc_values pc))).
  { intro d1. unfold store. replace (forallb (value_ok float_ok (o_type o)) (pc_values pc)) with true; [reflexivity|]. symmetry. apply forallb_forall. exact H4. }
  destruct pc as [n vs|n v]; cbn [pc_name pc_values text] in *.
  - cbn [toks map app]. rewrite (proj1 (classify_name n o H1 H2)). cbn [consume]. rewrite Hc. fold (toks vs).
    destruct (o_arity o) eqn:Ea; cbn in H3.
    + destruct vs; [|discriminate]. rewrite Hst. exists None, (sset d0 (o_dest o) []). split; reflexivity.
    + destruct H3.
    + destruct vs as [|v [|w vs]]; try discriminate. cbn [toks map app]. rewrite (proj1 (classify_plain v (H5 v (or_introl eq_refl)))). cbn [consume]. rewrite Ea. rewrite Hst. exists None, (sset d0 (o_dest o) [v]). split; reflexivity.
    + rewrite values_step by auto. cbn [app]. exists (Some (o, vs)), d0. split; [|reflexivity]. cbn [close]. rewrite Ea. destruct vs; [cbn in H3; lia|]. apply Hst.
    + rewrite values_step by auto. cbn [app]. exists (Some (o, vs)), d0. split; [|reflexivity]. cbn [close]. rewrite Ea. apply Hst.
  - cbn [toks map app]. rewrite (proj1 (classify_joined n o v H1 H2)). cbn [consume]. rewrite Hc. destruct (o_arity o) eqn:Ea; cbn in H3; try (now destruct H3); try (exfalso; now apply H5); rewrite Hst; exists None, (sset d0 (o_dest o) [v]); split; reflexivity.
Qed.
Lemma text_not_dash : forall pc, piece_ok float_ok p pc -> forall w, In w (text pc) -> w <> "--"%string /\ classify p w <> TAmbiguous.
Proof.
  intros pc (o & H1 & H2 & H3 & H4 & H5) w Hw. destruct pc as [n vs|n v]; cbn [text pc_name pc_values] in *.
  - destruct Hw as [<-|Hw]; [destruct (classify_name n o H1 H2) as [E1 E2]|destruct (classify_plain w (H5 w Hw)) as [E1 E2]]; rewrite E1; (split; [exact E2|discriminate]).
  - destruct Hw as [<-|[]]. destruct (classify_joined n o v H1 H2) as [E1 E2]. rewrite E1. split; [exact E2|discriminate].
Qed.
Lemma dest_inj : forall o o', In o p -> In o' p -> o_dest o = o_dest o' -> o = o'.
Proof.
  intros o o' H H' E. destruct Hp as (_ & Hd & _). revert H H' Hd. generalize p. intro l. induction l as [|a l IH]; intros H H' Hd; [destruct H|].
  cbn in Hd. inversion Hd as [|x y Hx Hy E2]. clear E2. destruct H as [->|H], H' as [->|H']; [reflexivity| | |auto].
  - exfalso. apply Hx. rewrite E. now apply in_map.
  - exfalso. apply Hx. rewrite <- E. now apply in_map.
Qed.
Lemma name_inj : forall o o' n, In o p -> In o' p -> In n (o_names o) -> In n (o_names o') -> o = o'.
Proof. intros o o' n H H' E E'. pose proof (lookup_in n o H E). pose proof (lookup_in n o' H' E'). congruence. Qed.
Lemma pieces_step : forall pcs, (forall pc, In pc pcs -> piece_ok float_ok p pc) -> forall cur d d0 ex rest, close float_ok d cur = Some d0 ->
  exists cur' d' d1, close float_ok d' cur' = Some d1 /\ consume float_ok (toks (concat (map text pcs)) ++ rest) cur d ex = consume float_ok rest cur' d' ex /\
    forall dest vs, sget d1 dest = Some vs <-> given p pcs dest vs \/ ((forall pc, In pc pcs -> ~ sets p pc dest) /\ sget d0 dest = Some vs).
Proof.
  induction pcs as [|pc pcs IH]; intros Hok cur d d0 ex rest Hc.
  - exists cur, d, d0. split; [exact Hc|]. split; [reflexivity|]. intros dest vs. split; [intro H; right; split; [intros pc []|exact H]|]. intros [(b & pc & a & E & _)|[_ H]]; [destruct b; discriminate|exact H].
  - destruct (piece_step pc (Hok pc (or_introl eq_refl))) as (o & Ho & Hn & Hstep).
    destruct (Hstep (toks (concat (map text pcs)) ++ rest) cur d d0 ex Hc) as (cur1 & d1 & Hc1 & E1).
    destruct (IH (fun x Hx => Hok x (or_intror Hx)) cur1 d1 _ ex rest Hc1) as (cur2 & d2 & d3 & Hc2 & E2 & HG).
    exists cur2, d2, d3. split; [exact Hc2|]. split; [cbn [map concat]; rewrite toks_app, <- app_assoc, E1; exact E2|].
    intros dest vs. rewrite HG. rewrite sget_sset.
    assert (Hsets : sets p pc dest <-> o_dest o = dest).
    { split; [intros (o' & A & B & C)|intro E; now exists o]. rewrite (name_inj o o' _ Ho A Hn B). exact C. }
    split.
    + intros [(b & q & a & E & Q1 & Q2 & Q3)|[Hno Hs]].
      * left. exists (pc :: b), q, a. rewrite E. auto.
      * destruct (String.eqb_spec (o_dest o) dest) as [Ed|Ed].
        -- left. exists [], pc, pcs. split; [reflexivity|]. split; [now apply Hsets|]. split; [congruence|exact Hno].
        -- right. split; [|exact Hs]. intros q [<-|Hq]; [rewrite Hsets; exact Ed|now apply Hno].
    + intros [(b & q & a & E & Q1 & Q2 & Q3)|[Hno Hs]].
      * destruct b as [|x b]; cbn in E; injection E as <- ->.
        -- right. split; [exact Q3|]. apply Hsets in Q1. rewrite Q1, String.eqb_refl. congruence.
        -- left. exists b, q, a. auto.
      * right. split; [intros q Hq; apply Hno; now right|]. destruct (String.eqb_spec (o_dest o) dest) as [Ed|Ed]; [|exact Hs]. exfalso. apply (Hno pc); [now left|now apply Hsets].
Qed.
Lemma not_ambiguous : forall ws, (forall w, In w ws -> w <> "--"%string /\ classify p w <> TAmbiguous) -> ambiguous p ws = false.
Proof.
  intros ws H. unfold ambiguous. rewrite classes_toks by (intros w Hw; apply (H w Hw)). unfold toks. induction ws as [|w ws IH]; [reflexivity|]. cbn [map existsb snd].
  destruct (classify p w) eqn:E; try (apply IH; intros x Hx; apply H; now right). exfalso. now apply (proj2 (H w (or_introl eq_refl))).
Qed.
Lemma pieces_words : forall pcs, (forall pc, In pc pcs -> piece_ok float_ok p pc) -> forall w, In w (concat (map text pcs)) -> w <> "--"%string /\ classify p w <> TAmbiguous.
Proof.
  intros pcs H w Hw. apply in_concat in Hw. destruct Hw as (l & Hl & Hw). apply in_map_iff in Hl. destruct Hl as (pc & <- & Hl). apply (text_not_dash pc (H pc Hl) w Hw).
Qed.
Lemma given_sets : forall pcs dest, (forall pc, In pc pcs -> piece_ok float_ok p pc) -> (exists pc, In pc pcs /\ sets p pc dest) -> exists vs, given p pcs dest vs.
Proof.
  intros pcs dest Hok. induction pcs as [|pc pcs IH]; intros (q & Hq & Hs); [destruct Hq|].
  assert (Hd : (exists x, In x pcs /\ sets p x dest) \/ ~ (exists x, In x pcs /\ sets p x dest)).
  { assert (forall x, piece_ok float_ok p x -> sets p x dest \/ ~ sets p x dest) as D.
    { intros x (o & A & B & _). destruct (String.eqb_spec (o_dest o) dest) as [E|E]; [left; now exists o|right]. intros (o' & A' & B' & C'). rewrite <- (name_inj o o' _ A A' B B') in C'. congruence. }
    assert (Hok' : forall x, In x pcs -> piece_ok float_ok p x) by (intros x Hx; apply Hok; now right). clear IH Hok q Hq Hs. induction pcs as [|x l IHl]; [right; intros (y & [] & _)|].
    destruct (D x (Hok' x (or_introl eq_refl))) as [Y|N]; [left; exists x; split; [now left|exact Y]|]. destruct IHl as [(y & Hy & Y)|N2]; [intros y Hy; apply Hok'; now right|left; exists y; split; [now right|exact Y]|right]. intros (y & [<-|Hy] & Y); [auto|]. apply N2. now exists y. }
  destruct Hd as [Hd|Hd].
  - destruct (IH (fun x Hx => Hok x (or_intror Hx)) Hd) as (vs & b & x & a & E & R). exists vs, (pc :: b), x, a. rewrite E. split; [reflexivity|exact R].
  - exists (pc_values pc), [], pc, pcs. split; [reflexivity|]. split; [destruct Hq as [<-|Hq]; [exact Hs|exfalso; apply Hd; now exists q]|]. split; [reflexivity|]. intros x Hx Hsx. apply Hd. now exists x.
Qed.
End P.

(* ---------- words of a command ---------- *)
Lemma words_go_word : forall w cur rest, no_space w -> words_go (w ++ rest)%string cur = words_go rest (cur ++ w)%string.
Proof.
  induction w as [|a w IH]; intros cur rest Hw; cbn [append]; [now rewrite app_nil_r_s|]. destruct Hw as [Ha Hw]. cbn [words_go]. rewrite Ha. rewrite IH by exact Hw. f_equal. rewrite <- app_assoc_s. reflexivity.
Qed.
Lemma words_joined : forall l, (forall w, In w l -> word w) -> words (joined_by_space l) = l.
Proof.
  intros l. unfold words. induction l as [|x l IH]; intro H; [reflexivity|]. destruct (H x (or_introl eq_refl)) as [Hx1 Hx2].
  destruct l as [|y l].
  - cbn [joined_by_space]. rewrite <- (app_nil_r_s x) at 1. rewrite words_go_word by exact Hx2. cbn. destruct x; [congruence|reflexivity].
  - change (joined_by_space (x :: y :: l)) with (x ++ " " ++ joined_by_space (y :: l))%string. rewrite words_go_word by exact Hx2. cbn [append words_go]. change (is_space " ") with true. cbv iota.
    destruct (String.eqb_spec x "") as [E|E]; [congruence|]. cbn [app]. f_equal. apply IH. intros w Hw. apply H. now right.
Qed.
