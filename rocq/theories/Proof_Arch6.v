(* The archetype models evaluated afterwards are the models fitted: the fits of get_best_archetype. *)
From Verif Require Import Prelude PreludeFacts Facts2 NumX Model_Dist Proof_Dist3 Proof_Table Model_Fitz Proof_Fitz Proof_Fitz2 Model_Zscan Spec_Zscan Proof_Zscan Proof_Zscan2 Proof_Zscan3 Proof_Zscan4 Model_IO Spec_IO Proof_IO Model_Rebin Model_Targets2 Proof_Eval Model_Arch Spec_Arch Spec_Arch2 Proof_Arch Proof_Arch2 Proof_Arch3 Proof_Arch4 Proof_Arch5.
Local Arguments Qred : simpl never.

Lemma nth_map2 {A B C} (f : A -> B -> C) : forall a b i x y, nth_error a i = Some x -> nth_error b i = Some y -> nth_error (map2 f a b) i = Some (f x y).
Proof. induction a as [|u a IH]; intros [|v b] [|i] x y H1 H2; cbn in *; try discriminate; [congruence|now apply IH]. Qed.

Lemma nth_firstn_lt {T} (d : T) : forall n l i, (i < n)%nat -> nth i (firstn n l) d = nth i l d.
Proof. induction n as [|n IH]; intros [|x l] [|i] H; try lia; try reflexivity. cbn [firstn nth]. apply IH. lia. Qed.
Lemma nth_skipn' {T} (d : T) : forall n l i, nth i (skipn n l) d = nth (i + n) l d.
Proof.
  induction n as [|n IH]; intros l i; [now rewrite Nat.add_0_r|]. rewrite Nat.add_succ_r. destruct l as [|x l]; [destruct i; reflexivity|]. cbn [skipn nth]. apply IH.
Qed.

Section Grid.
  Variables (E : arch_env) (A : archetype) (os : list obs) (z : Q) (deg : nat) (leg : dict mat) (trans : tdic).
  Hypothesis Hos : good_target os.
  Hypothesis Hleg : legendre_of deg os leg.
  Hypothesis Htr : forall o, In o os -> dget trans (o_hash o) = Some (Some (A1 (e_lyman E z (o_wave o)))).
  Variable ps : list (list vec * mat).
  Hypothesis Hps : mapM (fit_key A z trans deg leg) (map o_grid os) = Ok ps.
  Lemma leg_keys : map fst leg = map o_hash os.
  Proof. pose proof Hleg as H. unfold legendre_of in H. revert H. clear. intros H. induction H as [|o kl os' leg' [H1 H2] _ IH]; [reflexivity|]. cbn [map]. rewrite <- H1. f_equal. exact IH. Qed.
  Lemma grid_inv i o : nth_error os i = Some o -> exists cols L, mapM (rb1 (a_wave A) z (o_wave o)) (a_flux A) = Ok cols /\ leg_array deg (o_wave o) = Ok (Some L) /\
    length L = deg /\ length cols = narch A /\ nth_error ps i = Some (map (tcol (length (o_wave o)) (Some (A1 (e_lyman E z (o_wave o))))) cols, L).
  Proof.
    intros Ho. pose proof Hps as H. apply mapM_Forall2 in H. destruct (Forall2_nth _ _ _ i (o_grid o) H) as (p & Hp & Ep); [now rewrite nth_error_map, Ho|].
    unfold o_grid in Ep. destruct (fit_key_inv _ _ _ _ _ _ _ _ Ep) as (cols & t & L & E1 & E2 & E3 & E4 & ->).
    rewrite (Htr o (nth_error_In _ _ Ho)) in E2. assert (t = Some (A1 (e_lyman E z (o_wave o)))) by congruence. subst t.
    destruct (Forall2_nth _ _ _ i o Hleg Ho) as ([k L'] & Hk & Ek & EL). cbn [fst snd] in *.
    pose proof (leg_array_len _ _ _ EL) as HlL.
    assert (L = L').
    { unfold leg_of in E4. destruct (Nat.eqb_spec deg 0) as [Ed|Ed].
      - assert (L' = []) by (destruct L'; [reflexivity|cbn in HlL; lia]). congruence.
      - assert (Hg : dget leg (o_hash o) = Some L').
        { apply dget_in; [rewrite leg_keys; exact (proj1 Hos)|]. rewrite <- Ek. now apply nth_error_In in Hk. }
        rewrite Hg in E4. destruct (_ && _); [congruence|discriminate]. }
    subst L'. exists cols, L. split; [exact E1|]. split; [exact EL|]. split; [exact HlL|]. split; [apply mapM_Forall2 in E1; apply Forall2_len in E1; unfold narch; unfold mat, vec in *; lia|exact Hp].
  Qed.
  Variable best : list nat.
  Hypothesis Hbl : forall j, In j best -> (j < narch A)%nat.
  Definition near := map2 (near_of best) (map o_grid os) ps.
  Lemma near_keys : map fst near = map o_hash os.
  Proof.
    unfold near. pose proof Hps as H. apply mapM_Forall2 in H. apply Forall2_len in H. rewrite map_length in H. revert H. clear. revert ps. induction os as [|o os' IH]; intros [|p ps] H; try discriminate H; [reflexivity|].
    cbn [map map2 fst near_of]. f_equal; try reflexivity. apply IH. cbn in H. lia.
  Qed.
  (* the matrix of one grid and its rows *)
  Lemma near_grid i o : nth_error os i = Some o -> exists cols L M, mapM (rb1 (a_wave A) z (o_wave o)) (a_flux A) = Ok cols /\ leg_array deg (o_wave o) = Ok (Some L) /\
    nth_error near i = Some (o_hash o, [M]) /\ length M = length (o_wave o) /\
    forall l b, (l < length (o_wave o))%nat -> (b < length best + deg)%nat -> nth b (nth l M []) 0%Q =
      (if (b <? length best)%nat then nth l (head E (o_wave o) z cols (nth b best O)) 0%Q else nth l (nth (b - length best) L []) 0%Q).
  Proof.
    intros Ho. destruct (grid_inv i o Ho) as (cols & L & E1 & E2 & HlL & Hlc & E3).
    set (M := rows_of (length (o_wave o)) L (map (fun j => nth j (map (tcol (length (o_wave o)) (Some (A1 (e_lyman E z (o_wave o))))) cols) []) best)).
    exists cols, L, M. split; [exact E1|]. split; [exact E2|]. split.
    { unfold near. refine (eq_trans (nth_map2 (near_of best) (map o_grid os) ps i (o_grid o) _ _ E3) _); [now rewrite nth_error_map, Ho|]. reflexivity. }
    split; [unfold M, rows_of; now rewrite map_length, seq_length|]. intros l b Hl Hb. unfold M, rows_of.
    rewrite (nth_indep _ [] (basis_row (map (fun col : vec => nth l col 0%Q) []) L 0)) by now rewrite map_length, seq_length.
    rewrite nth_tab by exact Hl. unfold basis_row.
    destruct (Nat.ltb_spec b (length best)) as [Hlt|Hge].
    - rewrite app_nth1 by (rewrite !map_length; exact Hlt). rewrite map_map.
      rewrite (nth_indep _ 0%Q ((fun x => nth l (nth x (map (tcol (length (o_wave o)) (Some (A1 (e_lyman E z (o_wave o))))) cols) []) 0%Q) O)) by now rewrite map_length.
      rewrite (map_nth (fun x => nth l (nth x (map (tcol (length (o_wave o)) (Some (A1 (e_lyman E z (o_wave o))))) cols) []) 0%Q)).
      unfold head. f_equal. set (j := nth b best O). assert (Hj : (j < length cols)%nat) by (rewrite Hlc; apply Hbl; now apply nth_In).
      rewrite (nth_indep _ [] (tcol (length (o_wave o)) (Some (A1 (e_lyman E z (o_wave o)))) [])) by now rewrite map_length. apply (map_nth (tcol (length (o_wave o)) (Some (A1 (e_lyman E z (o_wave o)))))).
    - rewrite app_nth2 by (rewrite !map_length; exact Hge). rewrite !map_length.
      rewrite (nth_indep _ 0%Q ((fun row : vec => nth l row 0%Q) [])) by (rewrite map_length; unfold mat, vec in *; lia). apply (map_nth (fun row : vec => nth l row 0%Q)).
  Qed.
  Lemma near_dget i o v : nth_error os i = Some o -> nth_error near i = Some (o_hash o, v) -> dget near (o_hash o) = Some v.
  Proof. intros _ H. apply dget_in; [rewrite near_keys; exact (proj1 Hos)|]. now apply nth_error_In in H. Qed.

  (* one set of polynomials for all cameras *)
  Lemma fit_common c : length c = (length best + deg)%nat -> forall i o, nth_error os i = Some o ->
    exists cols L M lc, mapM (rb1 (a_wave A) z (o_wave o)) (a_flux A) = Ok cols /\ leg_array deg (o_wave o) = Ok (Some L) /\
      dget near (o_hash o) = Some [M] /\ length M = length (o_wave o) /\ nth_error (repeat (firstn deg (skipn (length best) c)) (length os)) i = Some lc /\ length lc = deg /\
      forall l, (l < length (o_wave o))%nat -> (bigsum (length best + deg) (fun b => nth b (nth l M []) 0 * at1 c b) ==
         bigsum (length best) (fun k => nth l (head E (o_wave o) z cols (nth k best O)) 0 * at1 (firstn (length best) c) k) + bigsum deg (fun j => nth l (nth j L []) 0 * at1 lc j))%Q.
  Proof.
    intros Hc i o Ho. destruct (near_grid i o Ho) as (cols & L & M & E1 & E2 & E3 & E4 & E5). exists cols, L, M, (firstn deg (skipn (length best) c)).
    split; [exact E1|]. split; [exact E2|]. split; [exact (near_dget i o _ Ho E3)|]. split; [exact E4|].
    assert (Hi : (i < length os)%nat) by now apply nth_error_Some_lt in Ho.
    split; [now apply nth_error_repeat|]. split; [rewrite firstn_length, skipn_length; unfold vec in *; lia|].
    intros l Hl. rewrite bigsum_split. apply Qplus_comp.
    - apply bigsum_ext. intros b Hb. rewrite (E5 l b Hl ltac:(lia)). destruct (Nat.ltb_spec b (length best)); [|lia]. unfold at1. rewrite nth_firstn_lt by exact Hb. reflexivity.
    - apply bigsum_ext. intros b Hb. rewrite (E5 l (length best + b)%nat Hl ltac:(lia)). destruct (Nat.ltb_spec (length best + b) (length best)); [lia|]. rewrite Nat.add_comm, Nat.add_sub.
      unfold at1. rewrite nth_firstn_lt by exact Hb. rewrite nth_skipn'. rewrite (Nat.add_comm b). reflexivity.
  Qed.
  (* polynomials of their own for each camera *)
  Definition cam_rows (ncam : nat) (c : vec) : list vec := map (fun i => firstn ((i + 1) * deg - i * deg) (skipn (i * deg) (skipn (length best) c))) (seq 0 ncam).
  Lemma fit_cameras c td : cam_tdata (length best) deg (length best + deg * length os) 0 near = Ok td -> length c = (length best + deg * length os)%nat -> forall i o, nth_error os i = Some o ->
    exists cols L M lc, mapM (rb1 (a_wave A) z (o_wave o)) (a_flux A) = Ok cols /\ leg_array deg (o_wave o) = Ok (Some L) /\
      dget td (o_hash o) = Some [M] /\ length M = length (o_wave o) /\ nth_error (cam_rows (length os) c) i = Some lc /\ length lc = deg /\
      forall l, (l < length (o_wave o))%nat -> (bigsum (length best + deg * length os) (fun b => nth b (nth l M []) 0 * at1 c b) ==
         bigsum (length best) (fun k => nth l (head E (o_wave o) z cols (nth k best O)) 0 * at1 (firstn (length best) c) k) + bigsum deg (fun j => nth l (nth j L []) 0 * at1 lc j))%Q.
  Proof.
    intros Htd Hc i o Ho. destruct (near_grid i o Ho) as (cols & L & M & E1 & E2 & E3 & E4 & E5).
    destruct (cam_tdata_spec _ _ _ _ _ _ Htd) as [_ Hs]. destruct (Hs i _ _ E3) as (M' & EM & Hbnd & Etd). cbn [nth_error] in EM. assert (M' = M) by congruence. subst M'.
    set (lc := firstn ((i + 1) * deg - i * deg) (skipn (i * deg) (skipn (length best) c))).
    exists cols, L, (map (cam_row (length best) deg (length best + deg * length os) i) M), lc.
    assert (Hi : (i < length os)%nat) by now apply nth_error_Some_lt in Ho.
    split; [exact E1|]. split; [exact E2|]. split.
    { apply dget_in; [rewrite (cam_keys _ _ _ _ _ _ Htd), near_keys; exact (proj1 Hos)|]. now apply nth_error_In in Etd. }
    split; [rewrite map_length; exact E4|]. split; [unfold cam_rows; rewrite nth_error_tab by exact Hi; reflexivity|].
    split; [unfold lc; rewrite firstn_length, !skipn_length; unfold vec in *; nia|].
    intros l Hl.
    assert (Er : forall b, (b < length best + deg * length os)%nat -> nth b (nth l (map (cam_row (length best) deg (length best + deg * length os) i) M) []) 0%Q =
       (if b <? length best then nth b (nth l M []) 0%Q else if (length best + deg * i <=? b) && (b <? length best + deg * i + deg) then nth (b - deg * i) (nth l M []) 0%Q else 0%Q)).
    { intros b Hb. rewrite (nth_indep _ [] (cam_row (length best) deg (length best + deg * length os) i [])) by (rewrite map_length; unfold mat, vec in *; lia).
      rewrite (map_nth (cam_row (length best) deg (length best + deg * length os) i)). exact (cam_row_at _ _ _ _ _ _ Hb). }
    rewrite (bigsum_window (length best) deg (length os) i); [|exact Hi|].
    - apply Qplus_comp.
      + apply bigsum_ext. intros b Hb. rewrite Er by lia. destruct (Nat.ltb_spec b (length best)) as [_|]; [|lia]. rewrite (E5 l b Hl ltac:(lia)). destruct (Nat.ltb_spec b (length best)); [|lia].
        unfold at1. rewrite nth_firstn_lt by exact Hb. reflexivity.
      + apply bigsum_ext. intros b Hb. rewrite Er by nia. destruct (Nat.ltb_spec (length best + deg * i + b) (length best)) as [|_]; [lia|].
        destruct (Nat.leb_spec (length best + deg * i) (length best + deg * i + b)) as [_|]; [|lia]. destruct (Nat.ltb_spec (length best + deg * i + b) (length best + deg * i + deg)) as [_|]; [|lia]. cbn [andb].
        replace (length best + deg * i + b - deg * i)%nat with (length best + b)%nat by lia. rewrite (E5 l (length best + b)%nat Hl ltac:(lia)). destruct (Nat.ltb_spec (length best + b) (length best)); [lia|].
        replace (length best + b - length best)%nat with b by lia. unfold at1, lc. rewrite nth_firstn_lt by nia. rewrite !nth_skipn'.
        replace (b + i * deg + length best)%nat with (length best + deg * i + b)%nat by nia. reflexivity.
    - intros k Hk Hw. rewrite Er by lia. destruct (Nat.ltb_spec k (length best)) as [|_]; [lia|].
      destruct (Nat.leb_spec (length best + deg * i) k); cbn [andb]; [|lra]. destruct (Nat.ltb_spec k (length best + deg * i + deg)); [|lra]. exfalso. apply Hw. lia.
  Qed.
End Grid.
