(* Masked pixels, one-at-a-time evaluation, [OII] penalty. *)
From Verif Require Import Prelude PreludeFacts Facts2 Model_Fitz Proof_Fitz Proof_Table Model_Dist Proof_Dist3 Model_Zscan Spec_Zscan Proof_Zscan Proof_Zscan2.
Local Open Scope Q_scope.

Lemma dot_leibniz a b a' b' : dot a b == dot a' b' -> dot a b = dot a' b'.
Proof. unfold dot. intros H. rewrite !Qred_correct in H. now apply Qred_complete. Qed.

Lemma mvec_nth A x p : (p < length A)%nat -> nth p (mvec A x) 0 = dot (nth p A []) x.
Proof.
  intros H. unfold mvec. rewrite (nth_indep _ 0 ((fun r => dot r x) [])) by now rewrite map_length.
  apply (map_nth (fun r => dot r x)).
Qed.
(* ---- masked pixels ---- *)
Definition rows_agree (w : vec) (T T' : mat) : Prop :=
  length T = length T' /\ forall p, (p < length w)%nat -> ~ at1 w p == 0 -> nth p T [] = nth p T' [].

Lemma rows_agree_normal nb w T T' : length T = length w -> rows_agree w T T' -> normal_M nb w T = normal_M nb w T'.
Proof.
  intros Hl [El He]. unfold normal_M. apply map_ext_in. intros j Hj. apply map_ext_in. intros k Hk.
  apply in_seq in Hj, Hk. apply dot_leibniz.
  rewrite !(dot_bigsum _ _ (length T)) by (rewrite ?map2_length, !col_length; lia).
  apply bigsum_ext. intros p Hp. unfold at1 at 2 4. rewrite !(map2_nth _ _ 0 0) by (rewrite ?col_length; lia).
  fold (at1 w p) (at1 (col k T) p) (at1 (col k T') p). rewrite !col_at. unfold at2.
  destruct (Qeq_dec (at1 w p) 0) as [E|E].
  - rewrite E. ring.
  - rewrite (He p) by (lia || exact E). reflexivity.
Qed.
Lemma rows_agree_tdot nb w f T T' : length T = length w -> length w = length f -> rows_agree w T T' ->
  tdot nb T (map2 (fun w f => Qred (w * f)) w f) = tdot nb T' (map2 (fun w f => Qred (w * f)) w f).
Proof.
  intros Hl Hf [El He]. unfold tdot. apply map_ext_in. intros j Hj. apply dot_leibniz.
  rewrite !(dot_bigsum _ _ (length T)) by (rewrite ?col_length; lia).
  apply bigsum_ext. intros p Hp. rewrite !col_at, wflux_at by exact Hf. unfold at2.
  destruct (Qeq_dec (at1 w p) 0) as [E|E].
  - rewrite E. ring.
  - rewrite (He p) by (lia || exact E). reflexivity.
Qed.
Lemma rows_agree_chi2 w f f' T T' c : length T = length w -> length f = length w -> length f' = length w -> rows_agree w T T' ->
  (forall p, (p < length w)%nat -> ~ at1 w p == 0 -> at1 f p = at1 f' p) ->
  chi2_of f (mvec T c) w = chi2_of f' (mvec T' c) w.
Proof.
  intros Hl Hf Hf' [El He] Hff. unfold chi2_of. apply dot_leibniz.
  rewrite !(dot_bigsum _ _ (length T)) by (rewrite ?map2_length, ?mvec_length; lia).
  apply bigsum_ext. intros p Hp. destruct (Qeq_dec (at1 w p) 0) as [E|E].
  - rewrite E. ring.
  - unfold at1 at 1 3. rewrite !(map2_nth _ _ 0 0) by (rewrite ?mvec_length; lia).
    fold (at1 f p) (at1 f' p). rewrite (Hff p) by (lia || exact E).
    assert (Em : nth p (mvec T c) 0 = nth p (mvec T' c) 0).
    { rewrite !mvec_nth by lia. rewrite (He p) by (lia || exact E). reflexivity. }
    rewrite Em. reflexivity.
Qed.
Lemma at1_app a b p : at1 (a ++ b) p = if (p <? length a)%nat then at1 a p else at1 b (p - length a).
Proof. unfold at1. destruct (Nat.ltb_spec p (length a)); [now rewrite app_nth1|now rewrite app_nth2]. Qed.

Lemma block_agree nb tdata i s s' : same_unmasked s s' ->
  match block nb tdata i s, block nb tdata i s' with
  | Ok B, Ok B' => length B = length (s_ivar s) /\ rows_agree (s_ivar s) B B'
  | Err e, Err e' => e = e'
  | _, _ => False
  end.
Proof.
  intros (Hh & Hi & Hf & Hr & Hc & Hn & _ & Hp). unfold block. rewrite <- Hh.
  destruct (dget tdata (s_hash s)) as [L|]; [|reflexivity]. destruct (nth_error L i) as [A|]; [|reflexivity].
  unfold csr_dot. rewrite <- Hc. destruct (length A =? r_ncol (s_R s))%nat; [|reflexivity]. rewrite <- Hr.
  split; [rewrite tab_length; lia|]. split; [now rewrite !tab_length|].
  intros p Hpl Hnz. rewrite !nth_tab by lia. apply map_ext. intros b. apply (proj2 (Hp p Hpl Hnz)).
Qed.
Lemma blocks_agree nb tdata i : forall ss ss', Forall2 same_unmasked ss ss' ->
  match mapM (block nb tdata i) ss, mapM (block nb tdata i) ss' with
  | Ok bl, Ok bl' => length bl = length bl' /\ length (concat bl) = length (concat (map s_ivar ss)) /\
       rows_agree (concat (map s_ivar ss)) (concat bl) (concat bl')
  | Err e, Err e' => e = e'
  | _, _ => False
  end.
Proof.
  intros ss ss' H. induction H as [|s s' ss ss' Hs _ IH].
  - cbn. split; [reflexivity|]. split; [reflexivity|]. split; [reflexivity|]. cbn. lia.
  - cbn [mapM]. pose proof (block_agree nb tdata i s s' Hs) as Hb.
    destruct (block nb tdata i s) as [B|e], (block nb tdata i s') as [B'|e']; cbn [rbind]; try contradiction; [|exact Hb].
    destruct (mapM (block nb tdata i) ss) as [bl|e], (mapM (block nb tdata i) ss') as [bl'|e']; cbn [rbind]; try contradiction; [|exact IH].
    destruct Hb as (HB & HBl & HBr). destruct IH as (IH0 & IH1 & IH2 & IH3). split; [cbn [length]; lia|]. split.
    + cbn [concat map]. rewrite !app_length. lia.
    + cbn [concat map]. split; [rewrite !app_length; lia|]. intros p Hp Hnz. rewrite app_length in Hp. rewrite at1_app in Hnz.
      destruct (Nat.ltb_spec p (length (s_ivar s))).
      * rewrite !app_nth1 by lia. now apply HBr.
      * rewrite !app_nth2 by lia. rewrite <- HBl, HB. apply IH3; [lia|exact Hnz].
Qed.
Lemma dpso_agree nb tdata i ss ss' : Forall2 same_unmasked ss ss' ->
  match dot_product_sparse_one nb ss tdata i, dot_product_sparse_one nb ss' tdata i with
  | Ok T, Ok T' => length T = length (concat (map s_ivar ss)) /\ rows_agree (concat (map s_ivar ss)) T T'
  | Err e, Err e' => e = e'
  | _, _ => False
  end.
Proof.
  intros H. rewrite !dpso_eq. pose proof (blocks_agree nb tdata i ss ss' H) as Hb.
  destruct (mapM (block nb tdata i) ss) as [bl|e], (mapM (block nb tdata i) ss') as [bl'|e']; cbn [rbind]; try contradiction; [|exact Hb].
  destruct Hb as (H0 & H1 & H2). destruct bl, bl'; cbn [length] in H0; try lia; [reflexivity|]. tauto.
Qed.
Lemma same_ivar ss ss' : Forall2 same_unmasked ss ss' -> map s_ivar ss = map s_ivar ss'.
Proof. induction 1 as [|s s' ss ss' Hs _ IH]; [reflexivity|]. cbn. rewrite IH. f_equal. apply Hs. Qed.
Lemma same_flux ss ss' : Forall2 same_unmasked ss ss' ->
  let w := concat (map s_ivar ss) in let f := concat (map s_flux ss) in let f' := concat (map s_flux ss') in
  length f = length w /\ length f' = length w /\ forall p, (p < length w)%nat -> ~ at1 w p == 0 -> at1 f p = at1 f' p.
Proof.
  induction 1 as [|s s' ss ss' Hs _ IH]; cbn beta iota zeta in *.
  - cbn. split; [reflexivity|]. split; [reflexivity|]. lia.
  - destruct IH as (I1 & I2 & I3). destruct Hs as (_ & Hi & Hf & _ & _ & Hn & Hfn & Hp). cbn [map concat]. rewrite !app_length.
    split; [lia|]. split; [lia|]. intros p Hpl Hnz. rewrite at1_app in Hnz |- *. rewrite at1_app.
    assert (E1 : length (s_flux s) = length (s_ivar s)) by lia.
    assert (E2 : length (s_flux s') = length (s_ivar s)) by lia. rewrite E1, E2.
    destruct (Nat.ltb_spec p (length (s_ivar s))); [now apply Hp|]. apply I3; [lia|exact Hnz].
Qed.
Lemma masked_wflux w f f' : length f = length w -> length f' = length w ->
  (forall p, (p < length w)%nat -> ~ at1 w p == 0 -> at1 f p = at1 f' p) ->
  map2 (fun w f => Qred (w * f)) w f = map2 (fun w f => Qred (w * f)) w f'.
Proof.
  intros H1 H2 H. apply (nth_ext _ _ 0 0). { rewrite !map2_length. lia. }
  intros p Hp. rewrite map2_length in Hp. rewrite !(map2_nth _ _ 0 0) by lia. apply Qred_complete.
  destruct (Qeq_dec (at1 w p) 0) as [E|E].
  - unfold at1 in E. rewrite E. ring.
  - fold (at1 f p) (at1 f' p). rewrite (H p) by (lia || exact E). reflexivity.
Qed.
Lemma masked_fit S alg args prior nb tdata i ss ss' : Forall2 same_unmasked ss ss' ->
  let w := concat (map s_ivar ss) in let f := concat (map s_flux ss) in let f' := concat (map s_flux ss') in
  let wf f := map2 (fun w f => Qred (w * f)) w f in
  zchi2_at S alg args prior nb ss tdata w f (wf f) i = zchi2_at S alg args prior nb ss' tdata w f' (wf f') i.
Proof.
  intros H w f f' wf. destruct (same_flux ss ss' H) as (F1 & F2 & F3). fold w f f' in F1, F2, F3.
  assert (Ewf : wf f' = wf f) by (symmetry; now apply masked_wflux). rewrite Ewf.
  unfold zchi2_at. pose proof (dpso_agree nb tdata i ss ss' H) as Hd. fold w in Hd.
  destruct (dot_product_sparse_one nb ss tdata i) as [T|e], (dot_product_sparse_one nb ss' tdata i) as [T'|e']; cbn [rbind]; try contradiction; [|now subst].
  destruct Hd as [HT Hr]. pose proof Hr as [El _].
  replace (length T') with (length T) by exact El. replace (length f') with (length f) by lia.
  destruct (negb _) eqn:En; [reflexivity|].
  rewrite <- (rows_agree_normal nb w T T') by assumption.
  destruct (add_prior nb (normal_M nb w T) prior) as [M|e]; [|reflexivity]. cbn [rbind].
  unfold wf. rewrite <- (rows_agree_tdot nb w f T T') by (assumption || lia).
  destruct (solve_matrices S alg args M _) as [c|e]; [|reflexivity].
  destruct (length c =? nb)%nat; [|reflexivity]. f_equal. f_equal. now apply rows_agree_chi2.
Qed.

(* ---- one redshift at a time ---- *)
Lemma dget_map {V W} (g : V -> W) d k : dget (map (fun kv => (fst kv, g (snd kv))) d) k = option_map g (dget d k).
Proof. induction d as [|[k' v] d IH]; [reflexivity|]. cbn. destruct (Z.eqb k' k); [reflexivity|exact IH]. Qed.
Lemma dget_In {V} (d : dict V) k v : dget d k = Some v -> In (k, v) d.
Proof.
  induction d as [|[k' v'] d IH]; [discriminate|]. cbn. destruct (Z.eqb_spec k' k).
  - intros H. injection H as <-. subst. now left.
  - intros H. right. now apply IH.
Qed.
Lemma block_slice nb tdata i s : (forall k L, In (k, L) tdata -> (i < length L)%nat) ->
  block nb (slice1 i tdata) 0 s = block nb tdata i s.
Proof.
  intros H. unfold block, slice1. rewrite (dget_map (fun L : list mat => [nth i L []])).
  destruct (dget tdata (s_hash s)) as [L|] eqn:E; [|reflexivity]. cbn [option_map nth_error].
  rewrite (nth_error_nth' L []) by (apply (H (s_hash s)); now apply dget_In). reflexivity.
Qed.
Lemma mapM_ext {A B} (f g : A -> res B) l : (forall x, In x l -> f x = g x) -> mapM f l = mapM g l.
Proof.
  induction l as [|a l IH]; intros H; [reflexivity|]. cbn [mapM]. rewrite (H a) by now left.
  rewrite IH by (intros; apply H; now right). reflexivity.
Qed.
Lemma at_slice S alg args prior nb ss tdata w f wf i : (forall k L, In (k, L) tdata -> (i < length L)%nat) ->
  zchi2_at S alg args prior nb ss (slice1 i tdata) w f wf 0 = zchi2_at S alg args prior nb ss tdata w f wf i.
Proof.
  intros H. unfold zchi2_at. rewrite !dpso_eq. rewrite (mapM_ext _ (block nb tdata i)); [reflexivity|].
  intros s _. now apply block_slice.
Qed.
Lemma one_at S alg nb ss tdata w f wf i : (forall k L, In (k, L) tdata -> (i < length L)%nat) ->
  calc_zchi2_one S alg nb ss w f wf (slice i tdata) = zchi2_at S alg None None nb ss tdata w f wf i.
Proof.
  intros H. unfold zchi2_at, calc_zchi2_one. rewrite dpso_eq. rewrite (mapM_ext _ (block nb tdata i)).
  - destruct (mapM (block nb tdata i) ss) as [[|B bl]|e]; reflexivity.
  - intros s _. unfold block, slice. rewrite (dget_map (fun L : list mat => nth i L [])).
    destruct (dget tdata (s_hash s)) as [L|] eqn:E; [|reflexivity]. cbn [option_map].
    rewrite (nth_error_nth' L []) by (apply (H (s_hash s)); now apply dget_In). reflexivity.
Qed.

(* ---- [OII] ---- *)
Lemma filter_combine_sum (g : Q -> bool) : forall w r, length r = length w ->
  sumQ (map snd (filter (fun wf : Q * Q => g (fst wf)) (combine w r))) == bigsum (length w) (fun l => if g (at1 w l) then at1 r l else 0).
Proof.
  induction w as [|a w IH]; intros [|b r] Hl; try discriminate; [reflexivity|].
  cbn [length]. rewrite bigsum_shift. cbn [combine filter fst]. unfold at1 at 1 2. cbn [nth].
  injection Hl as Hl. specialize (IH r Hl). destruct (g a).
  - cbn [map snd]. rewrite sumQ_cons, IH. apply Qplus_comp; reflexivity.
  - rewrite IH. rewrite Qplus_0_l. reflexivity.
Qed.
Lemma filter_combine_len (g : Q -> bool) : forall w r r', length r = length w -> length r' = length w ->
  length (filter (fun wf : Q * Q => g (fst wf)) (combine w r)) = length (filter (fun wf : Q * Q => g (fst wf)) (combine w r')).
Proof.
  induction w as [|a w IH]; intros [|b r] [|b' r'] H1 H2; try discriminate; [reflexivity|].
  cbn [combine filter fst]. injection H1 as H1. injection H2 as H2. destruct (g a); cbn [length]; rewrite (IH r r') by assumption; reflexivity.
Qed.
Lemma bigsum_if n (b : nat -> bool) f : bigsum n (fun l => if b l then f l else 0) == bigsum n (fun l => (if b l then 1 else 0) * f l).
Proof. apply bigsum_ext. intros i _. destruct (b i); lra. Qed.

Lemma OII_sum t c A : OIItemplate t = Some A -> Forall (fun r => length r = length (t_wave t)) (t_flux t) ->
  length c = length (t_flux t) ->
  sumQ (vecmat c A (length (hd [] A))) == OII_flux t c.
Proof.
  unfold OIItemplate. destruct (_ && _); [|discriminate]. intros H Hr Hc. injection H as <-.
  set (g := fun x => Qle_bool 3724 x && Qle_bool x 3733).
  set (sel := fun row => map snd (filter (fun wf : Q * Q => g (fst wf)) (combine (t_wave t) row))).
  change (map _ (t_flux t)) with (map sel (t_flux t)).
  set (n := length (hd [] (map sel (t_flux t)))).
  assert (Hn : forall r, In r (t_flux t) -> length (sel r) = n).
  { intros r Hin. subst n. destruct (t_flux t) as [|r0 l] eqn:E; [contradiction|]. cbn [map hd]. unfold sel. rewrite !map_length.
    inversion Hr; subst. apply filter_combine_len; [|assumption]. apply (proj1 (Forall_forall _ _) Hr). exact Hin. }
  unfold vecmat. rewrite sumQ_map_seq.
  transitivity (bigsum n (fun k => bigsum (length (t_flux t)) (fun b => at1 c b * at2 (map sel (t_flux t)) b k))).
  { apply bigsum_ext. intros k Hk. rewrite (dot_bigsum _ _ (length (t_flux t))) by (rewrite ?col_length, ?map_length; lia).
    apply bigsum_ext. intros b _. rewrite col_at. reflexivity. }
  rewrite bigsum_swap.
  transitivity (bigsum (length (t_flux t)) (fun b => at1 c b * bigsum (length (t_wave t)) (fun l => if g (at1 (t_wave t) l) then at2 (t_flux t) b l else 0))).
  { apply bigsum_ext. intros b Hb. rewrite bigsum_scale. apply Qmult_comp; [reflexivity|].
    unfold at2 at 1. rewrite (nth_indep _ [] (sel [])) by now rewrite map_length. 
    assert (Eb : forall k, nth k (nth b (map sel (t_flux t)) (sel [])) 0 = nth k (sel (nth b (t_flux t) [])) 0) by (intros; now rewrite map_nth).
    rewrite (bigsum_ext n _ (fun k => nth k (sel (nth b (t_flux t) [])) 0)) by (intros; now rewrite Eb).
    assert (Hin : In (nth b (t_flux t) []) (t_flux t)) by now apply nth_In.
    rewrite <- (Hn _ Hin). rewrite <- sumQ_bigsum. unfold sel. rewrite filter_combine_sum; [reflexivity|].
    apply (proj1 (Forall_forall _ _) Hr). exact Hin. }
  unfold OII_flux.
  transitivity (bigsum (length (t_flux t)) (fun b => bigsum (length (t_wave t)) (fun l => if g (at1 (t_wave t) l) then at1 c b * at2 (t_flux t) b l else 0))).
  { apply bigsum_ext. intros b _. rewrite <- bigsum_scale. apply bigsum_ext. intros l _. destruct (g _); lra. }
  rewrite bigsum_swap. apply bigsum_ext. intros l _. fold (g (at1 (t_wave t) l)). destruct (g (at1 (t_wave t) l)); [reflexivity|].
  apply bigsum_zero. reflexivity.
Qed.
