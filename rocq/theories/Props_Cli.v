From Verif Require Import Prelude PreludeFacts Model_Zscan Model_IO Model_Arch Model_Wrap Model_Cli Spec_Cli Spec_Arch Proof_IO Proof_IO2 Proof_Arch Proof_Wrap2 Proof_Wrap3 Proof_Wrap4 Spec_Wrap Proof_Cli Props_Wrap.
Open Scope nat_scope.

(* ---------- C126: the options mean what is written ---------- *)
Theorem C126_options : forall float_ok p pcs, parser_ok p -> (forall pc, In pc pcs -> piece_ok float_ok p pc) ->
  (forall o, In o p -> o_required o = true -> exists pc, In pc pcs /\ In (pc_name pc) (o_names o)) ->
  exists d, parse_args float_ok p (concat (map text pcs)) = Settings d /\ forall dest vs, sget d dest = Some vs <-> given p pcs dest vs.
Proof.
  intros float_ok p pcs Hp Hok Hreq. destruct (pieces_step float_ok p Hp pcs Hok None [] [] false [] eq_refl) as (cur & d' & d1 & Hc & E & HG). rewrite app_nil_r in E. cbn [consume] in E. rewrite Hc in E.
  assert (HG' : forall dest vs, sget d1 dest = Some vs <-> given p pcs dest vs).
  { intros dest vs. rewrite HG. split; [intros [H|[_ H]]; [exact H|discriminate]|auto]. }
  exists d1. split; [|exact HG']. unfold parse_args. rewrite (not_ambiguous p) by (apply (pieces_words float_ok p Hp pcs Hok)).
  rewrite classes_toks by (intros w Hw; apply (pieces_words float_ok p Hp pcs Hok w Hw)). rewrite E.
  replace (forallb _ p) with true; [reflexivity|]. symmetry. apply forallb_forall. intros o Ho. destruct (o_required o) eqn:Er; [|reflexivity]. cbn.
  destruct (Hreq o Ho Er) as (pc & H1 & H2). destruct (given_sets float_ok p Hp pcs (o_dest o) Hok) as (vs & Hvs); [exists pc; split; [exact H1|now exists o]|]. apply HG' in Hvs. rewrite Hvs. reflexivity.
Qed.
Fixpoint nodup_b (l : list string) : bool := match l with [] => true | x :: r => negb (existsb (String.eqb x) r) && nodup_b r end.
Lemma nodup_b_ok : forall l, nodup_b l = true -> NoDup l.
Proof.
  induction l as [|x l IH]; [constructor|]. cbn. intro H. apply andb_prop in H. destruct H as [H1 H2]. constructor; [|auto]. intro Hx. apply negb_true_iff in H1.
  assert (X : existsb (String.eqb x) l = true) by (apply existsb_exists; exists x; split; [exact Hx|apply String.eqb_refl]). congruence.
Qed.
Definition name_b (n : string) : bool := match n with String "-" (String _ _) => negb (String.eqb n "--") | _ => false end && match cut "=" n with None => true | Some _ => false end.
Lemma name_b_ok : forall n, name_b n = true -> starts_dash n /\ cut "=" n = None.
Proof.
  intros n. unfold name_b. intro H. apply andb_prop in H. destruct H as [H1 H2]. split; [|destruct (cut "=" n); [discriminate|reflexivity]].
  unfold starts_dash. destruct n as [|a n]; [discriminate|]. destruct a as [[] [] [] [] [] [] [] []]; try discriminate. destruct n; [discriminate|]. intro X. rewrite X in H1. discriminate.
Qed.
Lemma parser_b : forall p, nodup_b (concat (map o_names p)) = true -> nodup_b (map o_dest p) = true -> forallb name_b (concat (map o_names p)) = true -> parser_ok p.
Proof.
  intros p H1 H2 H3. split; [now apply nodup_b_ok|]. split; [now apply nodup_b_ok|]. intros o n Ho Hn. apply name_b_ok. rewrite forallb_forall in H3. apply H3. apply in_concat. exists (o_names o). split; [now apply in_map|exact Hn].
Qed.
Theorem C126_parsers : parser_ok rrdesi_parser /\ parser_ok rrboss_parser.
Proof. split; apply parser_b; vm_compute; reflexivity. Qed.
(* the order of the options does not matter when each is given once *)
Theorem C126_any_order : forall float_ok p pcs pcs' d d', parser_ok p -> (forall pc, In pc pcs -> piece_ok float_ok p pc) -> Permutation pcs pcs' ->
  (forall pre pc mid pc' post dest, pcs = pre ++ pc :: mid ++ pc' :: post -> sets p pc dest -> sets p pc' dest -> False) ->
  parse_args float_ok p (concat (map text pcs)) = Settings d -> parse_args float_ok p (concat (map text pcs')) = Settings d' -> forall dest, sget d dest = sget d' dest.
Proof.
  intros float_ok p pcs pcs' d d' Hp Hok HP Hd E E' dest.
  assert (Hok' : forall pc, In pc pcs' -> piece_ok float_ok p pc) by (intros pc H; apply Hok; eapply Permutation_in; [symmetry; exact HP|exact H]).
  assert (G : forall l x, (forall pc, In pc l -> piece_ok float_ok p pc) -> parse_args float_ok p (concat (map text l)) = Settings x -> forall dst vs, sget x dst = Some vs <-> given p l dst vs).
  { intros l x Hl Ex dst vs. unfold parse_args in Ex. rewrite (not_ambiguous p) in Ex by (apply (pieces_words float_ok p Hp l Hl)).
    rewrite classes_toks in Ex by (intros w Hw; apply (pieces_words float_ok p Hp l Hl w Hw)).
    destruct (pieces_step float_ok p Hp l Hl None [] [] false [] eq_refl) as (cur & y & d1 & Hc & Ey & HG). rewrite app_nil_r in Ey. cbn [consume] in Ey. rewrite Hc in Ey. rewrite Ey in Ex.
    destruct (forallb _ p); [|discriminate]. injection Ex as <-. rewrite HG. split; [intros [H|[_ H]]; [exact H|discriminate]|auto]. }
  pose proof (G pcs d Hok E dest) as G1. pose proof (G pcs' d' Hok' E' dest) as G2. clear G.
  (* a piece for dest is alone in both lists *)
  assert (U : forall q q', In q pcs -> In q' pcs -> sets p q dest -> sets p q' dest -> q = q').
  { intros q q' Hq Hq' S1 S2. apply in_split in Hq. destruct Hq as (l1 & l2 & El). rewrite El in Hq'. apply in_app_or in Hq'. destruct Hq' as [Hq'|[->|Hq']]; [|reflexivity|].
    - apply in_split in Hq'. destruct Hq' as (m1 & m2 & Em). exfalso. apply (Hd m1 q' m2 q l2 dest); [rewrite El, Em, <- app_assoc; reflexivity|exact S2|exact S1].
    - apply in_split in Hq'. destruct Hq' as (m1 & m2 & Em). exfalso. apply (Hd l1 q m1 q' m2 dest); [rewrite El, Em; reflexivity|exact S1|exact S2]. }
  assert (In1 : forall l vs, given p l dest vs -> exists q, In q l /\ sets p q dest /\ pc_values q = vs).
  { intros l vs (b & q & a & El & S1 & V & _). exists q. split; [rewrite El; apply in_elt|]. auto. }
  destruct (sget d dest) as [vs|] eqn:E1, (sget d' dest) as [vs'|] eqn:E2; [| | |reflexivity].
  - f_equal. destruct (In1 pcs vs (proj1 (G1 vs) eq_refl)) as (q & A & B & <-). destruct (In1 pcs' vs' (proj1 (G2 vs') eq_refl)) as (q' & A' & B' & <-). f_equal. apply U; auto. eapply Permutation_in; [symmetry; exact HP|exact A'].
  - exfalso. destruct (In1 pcs vs (proj1 (G1 vs) eq_refl)) as (q & A & B & _). destruct (given_sets float_ok p Hp pcs' dest Hok') as (w & Hw); [exists q; split; [eapply Permutation_in; [exact HP|exact A]|exact B]|]. apply G2 in Hw. discriminate.
  - exfalso. destruct (In1 pcs' vs' (proj1 (G2 vs') eq_refl)) as (q & A & B & _). destruct (given_sets float_ok p Hp pcs dest Hok) as (w & Hw); [exists q; split; [eapply Permutation_in; [symmetry; exact HP|exact A]|exact B]|]. apply G1 in Hw. discriminate.
Qed.
(* an unknown word, or a missing required option, is refused *)
Theorem C126_unknown : forall float_ok p pcs w pcs', parser_ok p -> (forall pc, In pc (pcs ++ pcs') -> piece_ok float_ok p pc) ->
  (forall n vs o, In (Words n vs) pcs -> In o p -> In n (o_names o) -> o_arity o = Plus \/ o_arity o = Star -> False) -> plain w ->
  parse_args float_ok p (concat (map text pcs) ++ w :: concat (map text pcs')) = Exits 2.
Proof.
  intros float_ok p pcs w pcs' Hp Hok Hnm Hw.
  assert (Hok1 : forall pc, In pc pcs -> piece_ok float_ok p pc) by (intros pc H; apply Hok, in_or_app; now left).
  assert (Hok2 : forall pc, In pc pcs' -> piece_ok float_ok p pc) by (intros pc H; apply Hok, in_or_app; now right).
  assert (HW : forall x, In x (concat (map text pcs) ++ w :: concat (map text pcs')) -> x <> "--"%string /\ classify p x <> TAmbiguous).
  { intros x Hx. apply in_app_or in Hx. destruct Hx as [Hx|[<-|Hx]]; [apply (pieces_words float_ok p Hp pcs Hok1 x Hx)| |apply (pieces_words float_ok p Hp pcs' Hok2 x Hx)]. destruct (classify_plain p w Hw) as [E1 E2]. rewrite E1. split; [exact E2|discriminate]. }
  unfold parse_args. rewrite (not_ambiguous p) by exact HW. rewrite classes_toks by (intros x Hx; apply (HW x Hx)). rewrite toks_app.
  assert (ST : forall l rest d, (forall pc, In pc l -> piece_ok float_ok p pc) -> (forall n vs o, In (Words n vs) l -> In o p -> In n (o_names o) -> o_arity o = Plus \/ o_arity o = Star -> False) -> exists d', consume float_ok (toks p (concat (map text l)) ++ rest) None d false = consume float_ok rest None d' false).
  { induction l as [|q l IH]; intros rest d Hl Hn; [now exists d|]. cbn [map concat]. rewrite toks_app, <- app_assoc.
    destruct (Hl q (or_introl eq_refl)) as (o & A & B & C & D & F).
    assert (Hst : forall d1, store float_ok d1 o (pc_values q) = Some (sset d1 (o_dest o) (pc_values q))).
    { intro d1. unfold store. replace (forallb (value_ok float_ok (o_type o)) (pc_values q)) with true; [reflexivity|]. symmetry. apply forallb_forall. exact D. }
    assert (X : exists d1, forall rr, consume float_ok (toks p (text q) ++ rr) None d false = consume float_ok rr None d1 false).
    { destruct q as [n vs|n v]; cbn [text pc_name pc_values toks map app] in *.
      - rewrite (proj1 (classify_name p Hp n o A B)). cbn [consume close]. destruct (o_arity o) eqn:Ea; cbn in C.
        + destruct vs; [|discriminate]. rewrite Hst. eexists. intro rr. cbn [map app]. reflexivity.
        + destruct C.
        + destruct vs as [|v [|w' vs]]; try discriminate. cbn [map app]. rewrite (proj1 (classify_plain p v (F v (or_introl eq_refl)))). cbn [consume]. rewrite Ea, Hst. eexists. intro rr. reflexivity.
        + exfalso. apply (Hn n vs o); auto. now left.
        + exfalso. apply (Hn n vs o); auto. now left.
      - rewrite (proj1 (classify_joined p Hp n o v A B)). cbn [consume close]. destruct (o_arity o) eqn:Ea; cbn in C; try (now destruct C); try (exfalso; now apply F); rewrite Hst; eexists; intro rr; reflexivity. }
    destruct X as (d1 & X). rewrite X. apply IH; [intros x Hx; apply Hl; now right|]. intros n vs o' Hx. apply (Hn n vs o'). now right. }
  destruct (ST pcs (toks p (w :: concat (map text pcs'))) [] Hok1 Hnm) as (d & ->). cbn [toks map]. rewrite (proj1 (classify_plain p w Hw)). cbn [consume]. fold (toks p (concat (map text pcs'))).
  destruct (pieces_step float_ok p Hp pcs' Hok2 None d d true [] eq_refl) as (cur & d' & d1 & Hc & E & _). rewrite app_nil_r in E. rewrite E. cbn [consume]. rewrite Hc. reflexivity.
Qed.

(* ---------- the decimal numbers of the commands ---------- *)
Lemma digits_dec : forall s, (forall c, has_char c s -> exists d, d < 10 /\ c = ascii_of_nat (48 + d)) -> all_digits s = true.
Proof.
  induction s as [|a s IH]; intro H; [reflexivity|]. cbn [all_digits]. rewrite IH by (intros c Hc; apply H; now right). destruct (H a (or_introl eq_refl)) as (d & Hd & ->). rewrite andb_true_r. do 10 (destruct d as [|d]; [reflexivity|]). lia.
Qed.
Lemma dec_nonempty : forall n, dec n <> EmptyString.
Proof. intros n E. destruct (dec_cons n) as (a & c & Ed). rewrite E in Ed. destruct a; discriminate. Qed.
Lemma dec_plain : forall n, plain (dec n).
Proof.
  intro n. unfold plain. destruct (dec n) as [|a s] eqn:E; [exact I|]. destruct (dec_chars a n) as (d & Hd & ->); [rewrite E; now left|]. do 10 (destruct d as [|d]; [exact I|]). lia.
Qed.
Lemma dec_int : forall n, int_ok (dec n) = true.
Proof.
  intro n. assert (H : digits1 (dec n) = true).
  { unfold digits1. destruct (String.eqb_spec (dec n) "") as [E|_]; [exfalso; now apply (dec_nonempty n)|]. cbn. apply digits_dec. intros c Hc. now apply (dec_chars c n). }
  pose proof (dec_plain n) as Hpl. unfold int_ok. destruct (dec n) as [|a s] eqn:E; [discriminate|]. assert (Ha : exists d, d < 10 /\ a = ascii_of_nat (48 + d)) by (apply (dec_chars a n); rewrite E; now left). destruct Ha as (d & Hd & ->). do 10 (destruct d as [|d]; [exact H|]). lia.
Qed.
Lemma no_space_chars : forall s, (forall c, has_char c s -> is_space c = false) -> no_space s.
Proof. induction s as [|a s IH]; intro H; [exact I|]. split; [apply H; now left|apply IH; intros c Hc; apply H; now right]. Qed.
Lemma dec_word : forall n, word (dec n).
Proof. intro n. split; [apply dec_nonempty|apply no_space_chars]. intros c Hc. now apply (dec_white c n). Qed.

(* ---------- C127: a redshift range that starts below zero ---------- *)
(* -0.005,1.7,3e-4 (the default of --zscan-galaxy) as a separate word *)
Definition range_like (s : string) : Prop :=
  exists c r, s = String "-" (String c r) /\ (is_digit c = true \/ c = "."%char) /\ has_char "," r /\ has_blank s = false.
Lemma no_digits : forall r, has_char "," r -> all_digits r = false.
Proof. induction r as [|a r IH]; [intros []|]. cbn [all_digits]. intros [->|H]; [reflexivity|]. rewrite IH by exact H. apply andb_false_r. Qed.
Lemma cut_parts : forall c s a b, cut c s = Some (a, b) -> s = (a ++ String c b)%string.
Proof.
  intros c. induction s as [|x s IH]; intros a b; cbn [cut]; [discriminate|]. destruct (Ascii.eqb_spec x c) as [->|N]; [intro H; injection H as <- <-; reflexivity|].
  destruct (cut c s) as [[u v]|]; [|discriminate]. intro H. injection H as <- <-. cbn. f_equal. now apply IH.
Qed.
Definition second_ok (n : string) : bool := match n with String _ (String c _) => negb (is_digit c) && negb (Ascii.eqb c ".") | _ => true end.
Lemma range_unknown : forall p s, forallb (fun q => second_ok (fst q)) (option_strings p) = true -> (forall q, In q (option_strings p) -> starts_dash (fst q)) -> range_like s -> classify p s = TOpt None None.
Proof.
  intros p s Hs Hd (c & r & -> & Hc & Hr & Hb). unfold classify.
  assert (Hc' : c <> "-"%char) by (intros ->; destruct Hc; discriminate).
  assert (HN : forall q, In q (option_strings p) -> forall u v, fst q = String u (String c v) -> False).
  { intros q Hq u v E. rewrite forallb_forall in Hs. specialize (Hs q Hq). rewrite E in Hs. cbn in Hs. destruct Hc as [Hc| ->]; [rewrite Hc in Hs; discriminate|]. rewrite Ascii.eqb_refl in Hs. rewrite andb_false_r in Hs. discriminate. }
  assert (LK : forall x v, x = String "-" (String c v) -> lookup p x = None).
  { intros x v ->. unfold lookup. destruct (find _ _) as [q|] eqn:E; [|reflexivity]. apply find_some in E. destruct E as [E1 E2]. apply String.eqb_eq in E2. exfalso. apply (HN q E1 _ _ E2). }
  rewrite (LK _ r eq_refl). destruct (String.eqb_spec (String c r) "") as [E|_]; [discriminate|].
  assert (J : match cut "=" (String "-" (String c r)) with Some (a, b) => match lookup p a with Some o => Some (o, b) | None => None end | None => None end = None).
  { destruct (cut "=" (String "-" (String c r))) as [[a b]|] eqn:E; [|reflexivity]. apply cut_parts in E. destruct a as [|x a]; [discriminate|]. cbn in E. injection E as <- E. destruct a as [|y a].
    - cbn in E. injection E as -> _. destruct Hc; discriminate.
    - cbn in E. injection E as <- _. rewrite (LK _ a eq_refl). reflexivity. }
  rewrite J.
  assert (M : matches p (String "-" (String c r)) = []).
  { unfold matches. assert (X : forall l, (forall q, In q l -> In q (option_strings p)) -> concat (map (fun q : string * opt => if String.eqb (fst q) (String "-" (String c "")) then [(snd q, Some r)] else if String.prefix (String "-" (String c r)) (fst q) then [(snd q, None)] else []) l) = []).
    { induction l as [|q l IH]; intro H; [reflexivity|]. cbn [map concat]. rewrite IH by (intros x Hx; apply H; now right). destruct (String.eqb_spec (fst q) (String "-" (String c ""))) as [E|_]; [exfalso; apply (HN q (H q (or_introl eq_refl)) _ _ E)|].
      destruct (String.prefix (String "-" (String c r)) (fst q)) eqn:E; [|reflexivity]. exfalso. apply prefix_inv in E. destruct E as (t & Eq). apply (HN q (H q (or_introl eq_refl)) _ _ Eq). }
    destruct c as [[] [] [] [] [] [] [] []]; try (apply X; auto). exfalso. now apply Hc'. }
  rewrite M.
  assert (NG : negative_number (String "-" (String c r)) = false).
  { unfold negative_number. assert (D0 : digits1 (String c r) = false) by (unfold digits1; cbn [all_digits]; rewrite no_digits by exact Hr; rewrite andb_false_r; apply andb_false_r).
    rewrite D0. cbn [orb]. destruct (cut "." (String c r)) as [[a b]|] eqn:E; [|reflexivity]. apply cut_parts in E.
    assert (Hin : has_char "," a \/ has_char "," b).
    { assert (Y : has_char "," (a ++ String "." b)) by (rewrite <- E; now right). apply hc_app in Y. destruct Y as [Y|[Y|Y]]; [now left|exfalso; vm_compute in Y; discriminate Y|now right]. }
    destruct Hin as [Hin|Hin]; [rewrite (no_digits a Hin); reflexivity|]. unfold digits1. rewrite (no_digits b Hin), andb_false_r. apply andb_false_r. }
  rewrite NG, Hb. reflexivity.
Qed.
Theorem C127_separate_word_refuted : forall float_ok infile outfile option s, plain infile -> plain outfile -> In option ["--zscan-galaxy"; "--zscan-qso"; "--zscan-star"]%string -> range_like s ->
  parse_args float_ok rrdesi_parser ["-i"; infile; "-o"; outfile; option; s]%string = Exits 2.
Proof.
  intros float_ok f o n s Hf Ho Hn Hs. assert (E : classify rrdesi_parser s = TOpt None None).
  { apply range_unknown; [vm_compute; reflexivity| |exact Hs]. intros [a b] Hq. apply in_strings in Hq. cbn [fst]. apply (proj2 (proj2 (proj1 C126_parsers)) b a); tauto. }
  assert (Nd : forall x, classify rrdesi_parser x = TVal \/ x = s -> String.eqb x "--" = false).
  { intros x Hx. destruct (String.eqb_spec x "--") as [->|]; [|reflexivity]. destruct Hx as [Hx|<-]; [vm_compute in Hx; discriminate|]. destruct Hs as (c & r & Es & [Hc|Hc] & _); injection Es as <- _; discriminate. }
  destruct (classify_plain rrdesi_parser f Hf) as [Ef _]. destruct (classify_plain rrdesi_parser o Ho) as [Eo _].
  unfold parse_args, ambiguous. cbn [classes]. rewrite (Nd f), (Nd o), (Nd s), Ef, Eo, E by auto.
  destruct Hn as [<-|[<-|[<-|[]]]]; vm_compute; reflexivity.
Qed.
Example C127_default_ex : range_like "-0.005,1.7,3e-4" /\ range_like "-0.002,0.00201,4e-5".
Proof. split; eexists; eexists; (split; [reflexivity|]); vm_compute; auto 20. Qed.
(* --zscan-galaxy=range is taken as it is, whatever the range *)
Theorem C127_joined_partial : forall float_ok infile outfile option dest s, plain infile -> plain outfile ->
  In (option, dest) [("--zscan-galaxy", "zscan_galaxy"); ("--zscan-qso", "zscan_qso"); ("--zscan-star", "zscan_star")]%string ->
  exists d, parse_args float_ok rrdesi_parser ["-i"; infile; "-o"; outfile; option ++ "=" ++ s]%string = Settings d /\
    sget d dest = Some [s] /\ sget d "infiles" = Some [infile] /\ sget d "outfile" = Some [outfile].
Proof.
  intros float_ok f o n dest s Hf Ho Hn.
  assert (HN : exists k, nth_error rrdesi_parser k = Some (opt1 [n] dest TStr)).
  { destruct Hn as [E|[E|[E|[]]]]; injection E as <- <-; [exists 16|exists 17|exists 18]; reflexivity. }
  destruct HN as (k & HN). apply nth_error_In in HN.
  set (pcs := [Words "-i" [f]; Words "-o" [o]; Joined n s]%string).
  destruct (C126_options float_ok rrdesi_parser pcs (proj1 C126_parsers)) as (d & Ed & HG).
  - intros pc [<-|[<-|[<-|[]]]].
    + exists (nth 29 rrdesi_parser help). split; [cbn; tauto|]. split; [cbn; tauto|]. split; [cbn; lia|]. split; [intros v _; reflexivity|]. intros v [<-|[]]; exact Hf.
    + exists (nth 10 rrdesi_parser help). split; [cbn; tauto|]. split; [cbn; tauto|]. split; [cbn; lia|]. split; [intros v _; reflexivity|]. intros v [<-|[]]; exact Ho.
    + exists (opt1 [n] dest TStr). split; [exact HN|]. split; [now left|]. split; [reflexivity|]. split; [intros v _; reflexivity|discriminate].
  - intros o0 H0 Hr. exists (Words "-i" [f]). split; [now left|]. cbn in H0. repeat (destruct H0 as [<-|H0]; [first [discriminate Hr|now left]|]). destruct H0.
  - exists d. split; [exact Ed|]. 
    assert (S1 : forall dst, sets rrdesi_parser (Joined n s) dst -> dst = dest).
    { intros dst (o1 & A & B & C). assert (X : o1 = opt1 [n] dest TStr) by (apply (name_inj rrdesi_parser (proj1 C126_parsers) _ _ n A HN B); now left). subst o1. symmetry. exact C. }
    assert (So : forall dst, sets rrdesi_parser (Words "-o" [o]) dst -> dst = "outfile"%string).
    { intros dst (o1 & A & B & C). assert (X : o1 = nth 10 rrdesi_parser help) by (apply (name_inj rrdesi_parser (proj1 C126_parsers) _ _ "-o" A); [cbn; tauto|exact B|cbn; tauto]). subst o1. symmetry. exact C. }
    assert (Hne : dest <> "infiles"%string /\ dest <> "outfile"%string) by (destruct Hn as [E|[E|[E|[]]]]; injection E as <- <-; split; discriminate).
    split; [|split]; apply HG.
    + exists [Words "-i" [f]; Words "-o" [o]], (Joined n s), []. split; [reflexivity|]. split; [exists (opt1 [n] dest TStr); split; [exact HN|]; split; [now left|reflexivity]|]. split; [reflexivity|intros pc []].
    + exists [], (Words "-i" [f]), [Words "-o" [o]; Joined n s]. split; [reflexivity|]. split; [exists (nth 29 rrdesi_parser help); cbn; tauto|]. split; [reflexivity|]. intros pc [<-|[<-|[]]] H; [apply So in H; discriminate|apply S1 in H; destruct Hne; congruence].
    + exists [Words "-i" [f]], (Words "-o" [o]), [Joined n s]. split; [reflexivity|]. split; [exists (nth 10 rrdesi_parser help); cbn; tauto|]. split; [reflexivity|]. intros pc [<-|[]] H. apply S1 in H. destruct Hne; congruence.
Qed.

(* ---------- C128: the commands wrap-redrock launches ---------- *)
Definition wrap_words (d : datatype) (spec rr details : string) (nminima : nat) (mp : option nat) (arch : option string) : list string :=
  (match d with DESI => ["rrdesi"; spec] | BOSS => ["rrboss"; "--spplate"; spec] end) ++ ["--nminima"; dec nminima; "--outfile"; rr; "--details"; details]
  ++ (match mp with Some k => ["--mp"; dec k] | None => [] end) ++ (match arch with Some a => ["--archetypes"; a] | None => [] end).
Lemma lit_word : forall s, (negb (String.eqb s "") && forallb (fun c => negb (is_space c)) (list_ascii_of_string s)) = true -> word s.
Proof.
  intros s H. apply andb_prop in H. destruct H as [H1 H2]. split; [intros ->; discriminate|]. clear H1. induction s as [|a s IH]; [exact I|]. cbn in H2. apply andb_prop in H2. destruct H2 as [H2 H3]. split; [now apply negb_true_iff|auto].
Qed.
Lemma cmd_text : forall d spec rr details nm mp arch, wrap_cmd d spec rr details nm mp arch = joined_by_space (wrap_words d spec rr details nm mp arch).
Proof.
  intros [] spec rr details nm [k|] [a|]; unfold wrap_cmd, wrap_words; cbn [app joined_by_space append]; rewrite ?app_nil_r_s; rewrite <- ?app_assoc_s; cbn [append]; rewrite <- ?app_assoc_s; reflexivity.
Qed.
Lemma cmd_words : forall d spec rr details nm mp arch, word spec -> word rr -> word details -> (forall a, arch = Some a -> word a) ->
  words (wrap_cmd d spec rr details nm mp arch) = wrap_words d spec rr details nm mp arch.
Proof.
  intros d spec rr details nm mp arch H1 H2 H3 H4. rewrite cmd_text. apply words_joined. unfold wrap_words. intros w Hw. pose proof (dec_word nm) as D.
  assert (L : forall x, In x ["rrdesi"; "rrboss"; "--spplate"; "--nminima"; "--outfile"; "--details"; "--mp"; "--archetypes"]%string -> word x).
  { intros x Hx. apply lit_word. cbn in Hx. repeat (destruct Hx as [<-|Hx]; [vm_compute; reflexivity|]). destruct Hx. }
  apply in_app_or in Hw. destruct Hw as [Hw|Hw]; [destruct d; cbn in Hw; repeat (destruct Hw as [<-|Hw]; [first [assumption|apply L; cbn; tauto]|]); destruct Hw|].
  apply in_app_or in Hw. destruct Hw as [Hw|Hw]; [cbn in Hw; repeat (destruct Hw as [<-|Hw]; [first [assumption|apply L; cbn; tauto]|]); destruct Hw|].
  apply in_app_or in Hw. destruct Hw as [Hw|Hw].
  - destruct mp as [k|]; [|destruct Hw]. cbn in Hw. destruct Hw as [<-|[<-|[]]]; [apply L; cbn; tauto|apply dec_word].
  - destruct arch as [a|]; [|destruct Hw]. cbn in Hw. destruct Hw as [<-|[<-|[]]]; [apply L; cbn; tauto|now apply H4].
Qed.
Definition tail_pieces (mp : option nat) (arch : option string) : list piece :=
  (match mp with Some k => [Words "--mp" [dec k]] | None => [] end) ++ (match arch with Some a => [Words "--archetypes" [a]] | None => [] end).
Lemma tail_ok : forall float_ok p mp arch, In (opt1 ["--mp"] "mp" TInt)%string p -> In (opt1 ["--archetypes"] "archetypes" TStr)%string p -> (forall a, arch = Some a -> plain a) ->
  forall pc, In pc (tail_pieces mp arch) -> piece_ok float_ok p pc.
Proof.
  intros float_ok p mp arch M A Ha pc H. unfold tail_pieces in H. apply in_app_or in H. destruct H as [H|H].
  - destruct mp as [k|]; [|destruct H]. destruct H as [<-|[]]. exists (opt1 ["--mp"] "mp" TInt)%string. split; [exact M|]. split; [now left|]. split; [reflexivity|]. split; [intros v [<-|[]]; apply dec_int|intros v [<-|[]]; apply dec_plain].
  - destruct arch as [a|]; [|destruct H]. destruct H as [<-|[]]. exists (opt1 ["--archetypes"] "archetypes" TStr)%string. split; [exact A|]. split; [now left|]. split; [reflexivity|]. split; [intros v _; reflexivity|intros v [<-|[]]; now apply Ha].
Qed.
Lemma one_ok : forall float_ok p n dest t v, In (opt1 [n] dest t) p -> value_ok float_ok t v = true -> plain v -> piece_ok float_ok p (Words n [v]).
Proof. intros float_ok p n dest t v H V P. exists (opt1 [n] dest t). split; [exact H|]. split; [now left|]. split; [reflexivity|]. split; intros x [<-|[]]; [exact V|exact P]. Qed.
Lemma one_ok2 : forall float_ok p o n v, In o p -> In n (o_names o) -> o_arity o = One -> o_type o = TStr -> plain v -> piece_ok float_ok p (Words n [v]).
Proof. intros float_ok p o n v H N A T P. exists o. split; [exact H|]. split; [exact N|]. rewrite A, T. split; [reflexivity|]. split; intros x [<-|[]]; [reflexivity|exact P]. Qed.
(* rrdesi has no argument without option: the command is refused whatever the file *)
Theorem C128_desi_refused_refuted : forall float_ok spec rr details nm mp arch, word spec -> word rr -> word details -> (forall a, arch = Some a -> word a) ->
  plain spec -> plain rr -> plain details -> (forall a, arch = Some a -> plain a) ->
  options_exit float_ok DESI (wrap_cmd DESI spec rr details nm mp arch) = Some 2.
Proof.
  intros float_ok spec rr details nm mp arch W1 W2 W3 W4 P1 P2 P3 P4. unfold options_exit. rewrite cmd_words by assumption. cbn [wrap_words app tl].
  set (pcs := [Words "--nminima" [dec nm]; Words "--outfile" [rr]; Words "--details" [details]]%string ++ tail_pieces mp arch).
  assert (E : spec :: ["--nminima"; dec nm; "--outfile"; rr; "--details"; details]%string ++ match mp with Some k => ["--mp"; dec k]%string | None => [] end ++ match arch with Some a => ["--archetypes"; a]%string | None => [] end
     = concat (map text []) ++ spec :: concat (map text pcs)).
  { unfold pcs. destruct mp, arch; reflexivity. }
  cbn [app] in E. rewrite E. rewrite C126_unknown; [reflexivity|exact (proj1 C126_parsers)| |intros n vs o []|exact P1].
  intros pc H. unfold pcs in H. cbn [app] in H. destruct H as [<-|[<-|[<-|H]]].
  - apply (one_ok _ _ _ "nminima" TInt); [cbn; tauto|apply dec_int|apply dec_plain].
  - apply (one_ok2 _ _ (nth 10 rrdesi_parser help)); [cbn; tauto|cbn; tauto|reflexivity|reflexivity|exact P2].
  - apply (one_ok2 _ _ (nth 9 rrdesi_parser help)); [cbn; tauto|cbn; tauto|reflexivity|reflexivity|exact P3].
  - revert H. apply tail_ok; [cbn; tauto|cbn; tauto|exact P4].
Qed.
Lemma consume_extra : forall float_ok p pcs cur d d0, parser_ok p -> (forall pc, In pc pcs -> piece_ok float_ok p pc) -> close float_ok d cur = Some d0 -> consume float_ok (toks p (concat (map text pcs))) cur d true = Exits 2.
Proof.
  intros float_ok p pcs cur d d0 Hp Hok Hc. destruct (pieces_step float_ok p Hp pcs Hok cur d d0 true [] Hc) as (cur' & d' & d1 & Hc' & E & _). rewrite app_nil_r in E. rewrite E. cbn [consume]. rewrite Hc'. reflexivity.
Qed.
(* rrboss has neither --outfile nor --details *)
Theorem C128_boss_refused_refuted : forall float_ok spec rr details nm mp arch, word spec -> word rr -> word details -> (forall a, arch = Some a -> word a) ->
  plain spec -> plain rr -> plain details -> (forall a, arch = Some a -> plain a) ->
  options_exit float_ok BOSS (wrap_cmd BOSS spec rr details nm mp arch) = Some 2.
Proof.
  intros float_ok spec rr details nm mp arch W1 W2 W3 W4 P1 P2 P3 P4. unfold options_exit. rewrite cmd_words by assumption. cbn [wrap_words app tl].
  set (p := rrboss_parser). assert (Hp : parser_ok p) by exact (proj2 C126_parsers).
  set (pcs := [Words "--spplate" [spec]; Words "--nminima" [dec nm]]%string). set (tp := tail_pieces mp arch).
  assert (Hok1 : forall pc, In pc pcs -> piece_ok float_ok p pc).
  { intros pc [<-|[<-|[]]].
    - exists (nth 1 rrboss_parser help). split; [cbn; tauto|]. split; [cbn; tauto|]. split; [exact I|]. split; intros v [<-|[]]; [reflexivity|exact P1].
    - apply (one_ok _ _ _ "nminima" TInt); [cbn; tauto|apply dec_int|apply dec_plain]. }
  assert (Hok2 : forall pc, In pc tp -> piece_ok float_ok p pc) by (apply tail_ok; [cbn; tauto|cbn; tauto|exact P4]).
  set (ws := "--spplate"%string :: spec :: _).
  assert (E : ws = concat (map text pcs) ++ ["--outfile"; rr; "--details"; details]%string ++ concat (map text tp)) by (unfold ws, pcs, tp, tail_pieces; destruct mp, arch; reflexivity).
  clearbody ws. subst ws.
  destruct (classify_plain p rr P2) as [Er Nr]. destruct (classify_plain p details P3) as [Ed Nd].
  assert (Eo : classify p "--outfile" = TOpt None None) by (vm_compute; reflexivity). assert (Edd : classify p "--details" = TOpt None None) by (vm_compute; reflexivity).
  assert (HW : forall w, In w (concat (map text pcs) ++ ["--outfile"; rr; "--details"; details]%string ++ concat (map text tp)) -> w <> "--"%string /\ classify p w <> TAmbiguous).
  { intros w Hw. apply in_app_or in Hw. destruct Hw as [Hw|Hw]; [apply (pieces_words float_ok p Hp pcs Hok1 w Hw)|]. apply in_app_or in Hw. destruct Hw as [Hw|Hw]; [|apply (pieces_words float_ok p Hp tp Hok2 w Hw)].
    destruct Hw as [<-|[<-|[<-|[<-|[]]]]]; [rewrite Eo; split; discriminate|rewrite Er; split; [exact Nr|discriminate]|rewrite Edd; split; discriminate|rewrite Ed; split; [exact Nd|discriminate]]. }
  unfold parse_args. rewrite (not_ambiguous p) by exact HW. rewrite classes_toks by (intros x Hx; apply (HW x Hx)). rewrite !toks_app.
  destruct (pieces_step float_ok p Hp pcs Hok1 None [] [] false (toks p ["--outfile"; rr; "--details"; details]%string ++ toks p (concat (map text tp))) eq_refl) as (cur & d' & d1 & Hc & E1 & _).
  rewrite E1. clear E1. cbn [toks map app]. rewrite Eo, Er, Edd, Ed. cbn [consume]. rewrite Hc. cbn [close]. fold (toks p (concat (map text tp))). rewrite (consume_extra float_ok p tp None d1 d1 Hp Hok2 eq_refl). reflexivity.
Qed.
(* hence no file is ever done: each is tried twice and given up *)
Theorem C128_every_file_fails_refuted : forall float_ok C dt spec rr details nm mp arch (run : nat -> outcome) (log : nat -> C) logfile fs n,
  word spec -> word rr -> word details -> (forall a, arch = Some a -> word a) -> plain spec -> plain rr -> plain details -> (forall a, arch = Some a -> plain a) ->
  (* what the command does is decided by the reading of its options *)
  (forall k code, options_exit float_ok dt (wrap_cmd dt spec rr details nm mp arch) = Some code -> run k = Exit code) ->
  numbered fs logfile n -> exists fs', attempt maxtries 0 run log logfile fs = (fs', [0; 1], Failed).
Proof.
  intros float_ok C dt spec rr details nm mp arch run log logfile fs n W1 W2 W3 W4 P1 P2 P3 P4 Hrun Hn.
  assert (E : options_exit float_ok dt (wrap_cmd dt spec rr details nm mp arch) = Some 2) by (destruct dt; [apply C128_desi_refused_refuted|apply C128_boss_refused_refuted]; assumption).
  destruct (C118_tries_partial C run log logfile fs n Hn) as (fs' & ts & s & Ea & _ & H). rewrite (Hrun 0 2 E), (Hrun 1 2 E) in H. destruct H as (-> & -> & _). exists fs'. exact Ea.
Qed.
(* with -i before the file, the options of the DESI command are those intended *)
Theorem C128_with_option_partial : forall float_ok spec rr details nm mp, plain spec -> plain rr -> plain details ->
  exists d, parse_args float_ok rrdesi_parser (["-i"; spec; "--nminima"; dec nm; "--outfile"; rr; "--details"; details]%string ++ match mp with Some k => ["--mp"; dec k]%string | None => [] end) = Settings d /\
    sget d "infiles" = Some [spec] /\ sget d "nminima" = Some [dec nm] /\ sget d "outfile" = Some [rr] /\ sget d "details" = Some [details] /\ sget d "mp" = match mp with Some k => Some [dec k] | None => None end.
Proof.
  intros float_ok spec rr details nm mp P1 P2 P3. set (pcs := [Words "-i" [spec]; Words "--nminima" [dec nm]; Words "--outfile" [rr]; Words "--details" [details]]%string ++ tail_pieces mp None).
  assert (E : (["-i"; spec; "--nminima"; dec nm; "--outfile"; rr; "--details"; details]%string ++ match mp with Some k => ["--mp"; dec k]%string | None => [] end) = concat (map text pcs)) by (unfold pcs; destruct mp; reflexivity).
  rewrite E.
  assert (HP : parser_ok rrdesi_parser) by exact (proj1 C126_parsers).
  assert (Hok : forall pc, In pc pcs -> piece_ok float_ok rrdesi_parser pc).
  { intros pc H. unfold pcs in H. cbn [app] in H. destruct H as [<-|[<-|[<-|[<-|H]]]].
    - exists (nth 29 rrdesi_parser help). split; [cbn; tauto|]. split; [cbn; tauto|]. split; [cbn; lia|]. split; intros v [<-|[]]; [reflexivity|exact P1].
    - apply (one_ok _ _ _ "nminima" TInt); [cbn; tauto|apply dec_int|apply dec_plain].
    - apply (one_ok2 _ _ (nth 10 rrdesi_parser help)); [cbn; tauto|cbn; tauto|reflexivity|reflexivity|exact P2].
    - apply (one_ok2 _ _ (nth 9 rrdesi_parser help)); [cbn; tauto|cbn; tauto|reflexivity|reflexivity|exact P3].
    - revert H. apply tail_ok; [cbn; tauto|cbn; tauto|intros a X; discriminate]. }
  destruct (C126_options float_ok rrdesi_parser pcs HP Hok) as (d & Ed & HG).
  { intros o0 H0 Hr. exists (Words "-i" [spec]). split; [now left|]. cbn in H0. repeat (destruct H0 as [<-|H0]; [first [discriminate Hr|now left]|]). destruct H0. }
  exists d. split; [exact Ed|]. clear Ed E.
  (* each option is used once *)
  assert (SE : forall n o dst, In o rrdesi_parser -> In n (o_names o) -> forall vs, sets rrdesi_parser (Words n vs) dst -> dst = o_dest o).
  { intros n o dst Ho Hn vs (o1 & A & B & <-). cbn in B. now rewrite (name_inj rrdesi_parser HP o1 o n A Ho B Hn). }
  pose proof (fun dst => SE "-i"%string (nth 29 rrdesi_parser help) dst ltac:(cbn; tauto) ltac:(cbn; tauto)) as S1.
  pose proof (fun dst => SE "--nminima"%string (nth 20 rrdesi_parser help) dst ltac:(cbn; tauto) ltac:(cbn; tauto)) as S2.
  pose proof (fun dst => SE "--outfile"%string (nth 10 rrdesi_parser help) dst ltac:(cbn; tauto) ltac:(cbn; tauto)) as S3.
  pose proof (fun dst => SE "--details"%string (nth 9 rrdesi_parser help) dst ltac:(cbn; tauto) ltac:(cbn; tauto)) as S4.
  pose proof (fun dst => SE "--mp"%string (nth 23 rrdesi_parser help) dst ltac:(cbn; tauto) ltac:(cbn; tauto)) as S5. clear SE.
  assert (TL : forall pc, In pc (tail_pieces mp None) -> exists k, mp = Some k /\ pc = Words "--mp" [dec k]) by (destruct mp as [k|]; [intros pc [<-|[]]; now exists k|intros pc []]).
  assert (X : forall k dst n v, nth_error [Words "-i" [spec]; Words "--nminima" [dec nm]; Words "--outfile" [rr]; Words "--details" [details]]%string k = Some (Words n [v]) -> sets rrdesi_parser (Words n [v]) dst -> In dst ["infiles"; "nminima"; "outfile"; "details"]%string -> sget d dst = Some [v]).
  { intros k dst n v Hk Hs Hd. apply HG. exists (firstn k pcs), (Words n [v]), (skipn (S k) pcs).
    assert (Hk' : nth_error pcs k = Some (Words n [v])) by (unfold pcs; rewrite nth_error_app1; [exact Hk|]; apply nth_error_Some; rewrite Hk; discriminate).
    split; [apply nth_error_split in Hk'; destruct Hk' as (l1 & l2 & -> & <-); rewrite firstn_app, firstn_all, Nat.sub_diag; cbn [firstn]; rewrite app_nil_r; f_equal; change (S (length l1)) with (1 + length l1); rewrite Nat.add_comm, skipn_app; rewrite skipn_all2 by lia; replace (length l1 + 1 - length l1) with 1 by lia; reflexivity|].
    split; [exact Hs|]. split; [reflexivity|]. intros pc Hpc Hs'.
    destruct k as [|[|[|[|k]]]]; cbn in Hk; try (destruct k; discriminate); injection Hk as <- <-; unfold pcs in Hpc; cbn [skipn app] in Hpc;
      first [apply S1 in Hs|apply S2 in Hs|apply S3 in Hs|apply S4 in Hs]; cbn in Hs; subst dst;
      repeat (destruct Hpc as [<-|Hpc]; [exfalso; first [apply S2 in Hs'|apply S3 in Hs'|apply S4 in Hs']; discriminate Hs'|]); destruct (TL pc Hpc) as (j & _ & ->); apply S5 in Hs'; discriminate Hs'. }
  split; [apply (X 0 "infiles"%string "-i"%string spec); [reflexivity|exists (nth 29 rrdesi_parser help); cbn; tauto|cbn; tauto]|].
  split; [apply (X 1 "nminima"%string "--nminima"%string (dec nm)); [reflexivity|exists (nth 20 rrdesi_parser help); cbn; tauto|cbn; tauto]|].
  split; [apply (X 2 "outfile"%string "--outfile"%string rr); [reflexivity|exists (nth 10 rrdesi_parser help); cbn; tauto|cbn; tauto]|].
  split; [apply (X 3 "details"%string "--details"%string details); [reflexivity|exists (nth 9 rrdesi_parser help); cbn; tauto|cbn; tauto]|].
  destruct mp as [k|].
  - apply HG. exists [Words "-i" [spec]; Words "--nminima" [dec nm]; Words "--outfile" [rr]; Words "--details" [details]]%string, (Words "--mp" [dec k]), []. split; [reflexivity|]. split; [exists (nth 23 rrdesi_parser help); cbn; tauto|]. split; [reflexivity|intros pc []].
  - destruct (sget d "mp") as [vs|] eqn:E; [|reflexivity]. exfalso. apply HG in E. destruct E as (b & pc & a & Eb & Hs & _). assert (Hin : In pc pcs) by (rewrite Eb; apply in_elt). unfold pcs in Hin. cbn in Hin.
    repeat (destruct Hin as [<-|Hin]; [first [apply S1 in Hs|apply S2 in Hs|apply S3 in Hs|apply S4 in Hs]; discriminate Hs|]). destruct Hin.
Qed.
Example C128_ex : wrap_cmd DESI "/r/1/spectra-1.fits" "/r/1/redrock-1.fits" "/r/1/rrdetails-1.h5" 3 (Some 4) None = "rrdesi /r/1/spectra-1.fits --nminima 3 --outfile /r/1/redrock-1.fits --details /r/1/rrdetails-1.h5 --mp 4"%string.
Proof. vm_compute. reflexivity. Qed.
Print Assumptions C126_options. Print Assumptions C126_any_order. Print Assumptions C126_unknown. Print Assumptions C127_separate_word_refuted. Print Assumptions C127_joined_partial. Print Assumptions C128_every_file_fails_refuted. Print Assumptions C128_with_option_partial.
