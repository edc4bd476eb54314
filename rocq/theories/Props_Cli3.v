(* C126, continued: what is refused *)
From Verif Require Import Prelude PreludeFacts Model_Zscan Model_IO Model_Arch Model_Wrap Model_Cli Spec_Cli Proof_IO Proof_IO2 Proof_Cli Props_Cli.
Open Scope nat_scope.

(* a required option that is not given *)
Theorem C126_required : forall float_ok p pcs o, parser_ok p -> (forall pc, In pc pcs -> piece_ok float_ok p pc) -> In o p -> o_required o = true ->
  (forall pc, In pc pcs -> ~ In (pc_name pc) (o_names o)) -> parse_args float_ok p (concat (map text pcs)) = Exits 2.
Proof.
  intros float_ok p pcs o Hp Hok Ho Hr Hn. unfold parse_args. rewrite (not_ambiguous p) by (apply (pieces_words float_ok p Hp pcs Hok)). rewrite classes_toks by (intros w Hw; apply (pieces_words float_ok p Hp pcs Hok w Hw)).
  destruct (pieces_step float_ok p Hp pcs Hok None [] [] false [] eq_refl) as (cur & d' & d1 & Hc & E & HG). rewrite app_nil_r in E. rewrite E. cbn [consume]. rewrite Hc.
  destruct (forallb _ p) eqn:F; [|reflexivity]. exfalso. rewrite forallb_forall in F. specialize (F o Ho). rewrite Hr in F. cbn in F. destruct (sget d1 (o_dest o)) as [vs|] eqn:Es; [|discriminate].
  apply HG in Es. destruct Es as [(b & pc & a & Eb & (o' & A & B & C) & _)|[_ X]]; [|discriminate]. apply (Hn pc); [rewrite Eb; apply in_elt|]. now rewrite (dest_inj p Hp o o' Ho A (eq_sym C)).
Qed.
Lemma classes_app : forall p a b, (forall w, In w a -> w <> "--"%string) -> classes p (a ++ b) = toks p a ++ classes p b.
Proof.
  intros p a b. induction a as [|w a IH]; intro H; [reflexivity|]. cbn [app classes toks map]. destruct (String.eqb_spec w "--") as [E|E]; [exfalso; apply (H w); [now left|exact E]|]. cbn [app]. f_equal. apply IH. intros x Hx. apply H. now right.
Qed.
(* a value that cannot be converted, wherever it is, whatever follows *)
Theorem C126_bad_value : forall float_ok p pcs o n v rest, parser_ok p -> (forall pc, In pc pcs -> piece_ok float_ok p pc) -> In o p -> In n (o_names o) -> o_arity o = One -> plain v ->
  value_ok float_ok (o_type o) v = false -> parse_args float_ok p (concat (map text pcs) ++ n :: v :: rest) = Exits 2.
Proof.
  intros float_ok p pcs o n v rest Hp Hok Ho Hn Ha Hv Hbad. unfold parse_args. destruct (ambiguous p _); [reflexivity|].
  assert (X : concat (map text pcs) ++ n :: v :: rest = (concat (map text pcs) ++ [n; v]) ++ rest) by (rewrite <- app_assoc; reflexivity). rewrite X.
  destruct (classify_name p Hp n o Ho Hn) as [En Nn]. destruct (classify_plain p v Hv) as [Ev Nv].
  rewrite classes_app by (intros w Hw; apply in_app_or in Hw; destruct Hw as [Hw|[<-|[<-|[]]]]; [apply (pieces_words float_ok p Hp pcs Hok w Hw)|exact Nn|exact Nv]).
  rewrite toks_app, <- app_assoc. destruct (pieces_step float_ok p Hp pcs Hok None [] [] false (toks p [n; v] ++ classes p rest) eq_refl) as (cur & d' & d1 & Hc & E & _). rewrite E.
  cbn [toks map app]. rewrite En, Ev. cbn [consume]. rewrite Hc, Ha. unfold store. cbn [forallb]. rewrite Hbad. reflexivity.
Qed.
(* an option that needs a value and has none, at the end or before another option *)
Theorem C126_missing_value : forall float_ok p pcs o n pcs', parser_ok p -> (forall pc, In pc (pcs ++ pcs') -> piece_ok float_ok p pc) -> In o p -> In n (o_names o) -> o_arity o = One \/ o_arity o = Plus ->
  parse_args float_ok p (concat (map text pcs) ++ n :: concat (map text pcs')) = Exits 2.
Proof.
  intros float_ok p pcs o n pcs' Hp Hok Ho Hn Ha. unfold parse_args. destruct (ambiguous p _); [reflexivity|].
  assert (Hok1 : forall pc, In pc pcs -> piece_ok float_ok p pc) by (intros pc H; apply Hok, in_or_app; now left). assert (Hok2 : forall pc, In pc pcs' -> piece_ok float_ok p pc) by (intros pc H; apply Hok, in_or_app; now right).
  destruct (classify_name p Hp n o Ho Hn) as [En Nn].
  rewrite classes_toks by (intros w Hw; apply in_app_or in Hw; destruct Hw as [Hw|[<-|Hw]]; [apply (pieces_words float_ok p Hp pcs Hok1 w Hw)|exact Nn|apply (pieces_words float_ok p Hp pcs' Hok2 w Hw)]).
  rewrite toks_app. destruct (pieces_step float_ok p Hp pcs Hok1 None [] [] false (toks p (n :: concat (map text pcs'))) eq_refl) as (cur & d' & d1 & Hc & E & _). rewrite E.
  cbn [toks map]. rewrite En. cbn [consume]. rewrite Hc.
  assert (N : close float_ok d1 (Some (o, [])) = None) by (cbn [close]; destruct Ha as [-> | ->]; reflexivity).
  assert (K : forall l, consume float_ok (toks p (concat (map text pcs'))) (Some (o, [])) d1 false = Exits 2 -> l = tt -> match consume float_ok (toks p (concat (map text pcs'))) (Some (o, [])) d1 false with Settings d => if forallb (fun o0 => negb (o_required o0) || match sget d (o_dest o0) with Some _ => true | None => false end) p then Settings d else Exits 2 | Exits c => Exits c end = Exits 2) by (intros l K _; now rewrite K).
  assert (R : consume float_ok (toks p (concat (map text pcs'))) (Some (o, [])) d1 false = Exits 2).
  { destruct pcs' as [|q l]; [cbn [map concat toks consume]; now rewrite N|]. cbn [map concat]. rewrite toks_app. destruct (Hok2 q (or_introl eq_refl)) as (o' & A & B & _). destruct q as [n' vs|n' v]; cbn [text toks map app pc_name] in *.
    - rewrite (proj1 (classify_name p Hp n' o' A B)). cbn [consume]. now rewrite N.
    - rewrite (proj1 (classify_joined p Hp n' o' v A B)). cbn [consume]. now rewrite N. }
  fold (toks p (concat (map text pcs'))). destruct (o_arity o) eqn:Eo; destruct Ha as [Ha|Ha]; try discriminate; apply (K tt R eq_refl).
Qed.
(* an option no option of the program starts with *)
Lemma find_none_intro : forall A (f : A -> bool) l, (forall x, In x l -> f x = false) -> find f l = None.
Proof. intros A f l. induction l as [|x l IH]; intro H; [reflexivity|]. cbn. rewrite (H x (or_introl eq_refl)). apply IH. intros y Hy. apply H. now right. Qed.
Theorem C126_unknown_option : forall float_ok p pcs w pcs', parser_ok p -> (forall pc, In pc (pcs ++ pcs') -> piece_ok float_ok p pc) ->
  (exists c r, w = String "-" (String "-" (String c r))) -> cut "=" w = None -> has_blank w = false -> (forall o n, In o p -> In n (o_names o) -> String.prefix w n = false) ->
  parse_args float_ok p (concat (map text pcs) ++ w :: concat (map text pcs')) = Exits 2.
Proof.
  intros float_ok p pcs w pcs' Hp Hok (c & r & ->) Hcut Hb Hpre. set (w := String "-" (String "-" (String c r))) in *.
  assert (Hok1 : forall pc, In pc pcs -> piece_ok float_ok p pc) by (intros pc H; apply Hok, in_or_app; now left). assert (Hok2 : forall pc, In pc pcs' -> piece_ok float_ok p pc) by (intros pc H; apply Hok, in_or_app; now right).
  assert (HP : forall q, In q (option_strings p) -> String.prefix w (fst q) = false) by (intros [a b] Hq; apply in_strings in Hq; destruct Hq as [A B]; apply (Hpre b a A B)).
  assert (EL : lookup p w = None).
  { unfold lookup. rewrite find_none_intro; [reflexivity|]. intros q Hq. specialize (HP q Hq). destruct (String.eqb_spec (fst q) w) as [E|]; [|reflexivity]. rewrite E in HP. exfalso. assert (Z1 : forall s, String.prefix s s = true) by (induction s as [|x s IHs]; [reflexivity|]; cbn; destruct (ascii_dec x x); [exact IHs|congruence]). rewrite Z1 in HP. discriminate. }
  assert (EM : matches p w = []).
  { unfold matches. unfold w at 1. rewrite Hcut. assert (F : filter (fun q : string * opt => String.prefix w (fst q)) (option_strings p) = []). { revert HP. generalize (option_strings p). intros l HP. induction l as [|q l IH]; [reflexivity|]. cbn [filter]. rewrite (HP q (or_introl eq_refl)). apply IH. intros x Hx. apply HP. now right. } fold w. rewrite F. reflexivity. }
  assert (EC : classify p w = TOpt None None).
  { unfold classify. unfold w at 1. fold w. rewrite EL. destruct (String.eqb_spec (String "-" (String c r)) ""); [discriminate|]. rewrite Hcut, EM. unfold w at 1. fold w. rewrite Hb.
    assert (NN : negative_number w = false). { unfold negative_number, w. replace (digits1 (String "-" (String c r))) with false by reflexivity. cbn [orb]. destruct (cut "." (String "-" (String c r))) as [[a b]|] eqn:E; [|reflexivity]. cbn [cut] in E. change (Ascii.eqb "-" ".") with false in E. cbv iota in E. destruct (if Ascii.eqb c "." then _ else _) as [[x y]|]; [|discriminate]. injection E as <- <-. reflexivity. }
    rewrite NN. reflexivity. }
  assert (NW : w <> "--"%string) by discriminate.
  assert (HW : forall x, In x (concat (map text pcs) ++ w :: concat (map text pcs')) -> x <> "--"%string /\ classify p x <> TAmbiguous).
  { intros x Hx. apply in_app_or in Hx. destruct Hx as [Hx|[<-|Hx]]; [apply (pieces_words float_ok p Hp pcs Hok1 x Hx)|rewrite EC; split; [exact NW|discriminate]|apply (pieces_words float_ok p Hp pcs' Hok2 x Hx)]. }
  unfold parse_args. rewrite (not_ambiguous p) by exact HW. rewrite classes_toks by (intros x Hx; apply (HW x Hx)). rewrite toks_app.
  destruct (pieces_step float_ok p Hp pcs Hok1 None [] [] false (toks p (w :: concat (map text pcs'))) eq_refl) as (cur & d' & d1 & Hc & E & _). rewrite E. cbn [toks map]. rewrite EC. cbn [consume]. rewrite Hc. fold (toks p (concat (map text pcs'))).
  rewrite (consume_extra float_ok p pcs' None d1 d1 Hp Hok2 eq_refl). reflexivity.
Qed.
Print Assumptions C126_required. Print Assumptions C126_bad_value. Print Assumptions C126_missing_value. Print Assumptions C126_unknown_option.
