(* A run with MPI gives what the serial run gives: the loop over the pieces, the ranks, the gather. *)
From Verif Require Import Prelude PreludeFacts NumX Facts2 Model_Fitz Proof_Fitz Model_Rebin Model_Dist Proof_Dist2 Proof_Dist3 Model_MPI Proof_Gather Proof_Table Model_Zscan Spec_Zscan Proof_Zscan2 Proof_Zscan3 Proof_Zscan4
  Model_Piece Model_IO Model_Zfind Model_Run Proof_Run Spec_Run Proof_Run2 Proof_Run3 Proof_Run4 Model_RunMPI Proof_RunMPI Props_Par.
Open Scope nat_scope.

Section S.
Variables (slv : solvers) (argsort : list xq -> list nat) (polyfit : list Q -> list Q -> option (Q * Q * Q)) (isqrt : Q -> Q).
Variable trans : option string -> Q -> Q -> Q.
Variables (nminima nz : nat).
Notation tdata := (tdata trans).
Notation visit := (visit slv). Notation piece_scan := (piece_scan slv).

Definition val (r : row) : vec * vec := (fst (fst r), snd r).
Definition rep (tgs : list targ) (es : list parts) : dict parts := combine (map g_id tgs) es.
Lemma dget_mid {V} (a : dict V) k v b : ~ In k (map fst a) -> dget (a ++ (k, v) :: b) k = Some v.
Proof. induction a as [|[k' v'] a IH]; cbn; intro H; [now rewrite Z.eqb_refl|]. destruct (Z.eqb_spec k' k); [exfalso; apply H; now left|]. apply IH. tauto. Qed.
Lemma dset_mid {V} (a : dict V) k v w b : ~ In k (map fst a) -> dset (a ++ (k, v) :: b) k w = a ++ (k, w) :: b.
Proof. induction a as [|[k' v'] a IH]; cbn; intro H; [now rewrite Z.eqb_refl|]. destruct (Z.eqb_spec k' k); [exfalso; apply H; now left|]. f_equal. apply IH. tauto. Qed.
Lemma keys_rep tgs es : length es = length tgs -> map fst (rep tgs es) = map g_id tgs.
Proof. unfold rep. revert es. induction tgs as [|g tgs IH]; intros [|e es] L; try discriminate; [reflexivity|]. cbn. f_equal. apply IH. cbn in L. lia. Qed.
Lemma save_all i tgs : forall es rows (a : dict parts), length es = length tgs -> length rows = length tgs -> NoDup (map fst a ++ map g_id tgs) ->
  fold_left (save i) (combine tgs rows) (a ++ rep tgs es) = a ++ rep tgs (map2 (fun e r => kset e i (val r)) es rows).
Proof.
  induction tgs as [|g tgs IH]; intros [|e es] [|[[zc co] pen] rows] a L L' N; try discriminate; [reflexivity|]. cbn [combine fold_left map2 rep map]. cbn [map] in N.
  assert (K : ~ In (g_id g) (map fst a)) by (apply NoDup_remove_2 in N; intro C; apply N; apply in_app_iff; now left).
  change (combine (map g_id tgs) es) with (rep tgs es). unfold save at 2. rewrite dget_mid, dset_mid by exact K.
  pose proof (IH es rows (a ++ [(g_id g, kset e i (zc, pen))])) as E. rewrite <- !app_assoc in E. cbn [app] in E. apply E; [cbn in L; lia|cbn in L'; lia|]. rewrite map_app, <- app_assoc. exact N.
Qed.
Lemma save_new i tgs : forall rows (a : dict parts), length rows = length tgs -> NoDup (map fst a ++ map g_id tgs) ->
  fold_left (save i) (combine tgs rows) a = a ++ rep tgs (map (fun r => kset [] i (val r)) rows).
Proof.
  induction tgs as [|g tgs IH]; intros [|[[zc co] pen] rows] a L N; try discriminate; [cbn; now rewrite app_nil_r|]. cbn [combine fold_left map rep]. cbn [map] in N.
  assert (K : ~ In (g_id g) (map fst a)) by (apply NoDup_remove_2 in N; intro C; apply N; apply in_app_iff; now left).
  unfold save at 2. rewrite (proj2 (dget_none a (g_id g)) K). rewrite dset_fresh_keys by (now apply dget_none).
  pose proof (IH rows (a ++ [(g_id g, kset [] i (zc, pen))])) as E. rewrite <- !app_assoc in E. cbn [app] in E. apply E; [cbn in L; lia|]. rewrite map_app, <- app_assoc. exact N.
Qed.

Lemma map2_len_eq {A B C} (f : A -> B -> C) a b n : length a = n -> length b = n -> length (map2 f a b) = n.
Proof. intros. rewrite map2_length. lia. Qed.
Lemma map_len_eq {A B} (f : A -> B) a n : length a = n -> length (map f a) = n.
Proof. intros. now rewrite map_length. Qed.
Lemma map2_nth_eq {A B C} (f : A -> B -> C) a b k n d da db : length a = n -> length b = n -> k < n -> nth k (map2 f a b) d = f (nth k a da) (nth k b db).
Proof. intros. apply map2_nth; lia. Qed.
Lemma map_nth_eq {A B} (f : A -> B) a k n d da : length a = n -> k < n -> nth k (map f a) d = f (nth k a da).
Proof. intros. rewrite (nth_indep _ d (f da)) by (rewrite map_length; lia). apply map_nth. Qed.
Definition after (i : nat) (tgs : list targ) (rows : list row) (acc : dict parts) : dict parts := fold_left (save i) (combine tgs rows) acc.
Lemma after_all i tgs es rows : length es = length tgs -> length rows = length tgs -> NoDup (map g_id tgs) -> after i tgs rows (rep tgs es) = rep tgs (map2 (fun e r => kset e i (val r)) es rows).
Proof. intros L L' N. exact (save_all i tgs es rows [] L L' N). Qed.
Lemma after_new i tgs rows : length rows = length tgs -> NoDup (map g_id tgs) -> after i tgs rows [] = rep tgs (map (fun r => kset [] i (val r)) rows).
Proof. intros L N. exact (save_new i tgs rows [] L N). Qed.
(* one target *)
Lemma tvisits (p : tmpl) (pcs : list (nat * tdict)) tgs : NoDup (map g_id tgs) ->
  forall idxs, (forall i, In i idxs -> i < length pcs) -> idxs <> [] ->
  forall acc, (foldM (visit tgs p pcs) [] idxs = Ok acc <->
   exists rowss, Forall2 (fun i rows => mapM (fun g => piece_scan p (data_of g) (nth i pcs (0, []))) tgs = Ok rows) idxs rowss /\
    acc = rep tgs (map (fun k => fold_left (fun e ir => kset e (fst ir) (val (nth k (snd ir) ([], [], [])))) (combine idxs rowss) []) (seq 0 (length tgs)))).
Proof.
  intro N.
  assert (V : forall acc i, i < length pcs -> visit tgs p pcs acc i = do rows <- mapM (fun g => piece_scan p (data_of g) (nth i pcs (0, []))) tgs; Ok (after i tgs rows acc)).
  { intros acc i Hi. unfold Model_RunMPI.visit. destruct (nth_error pcs i) as [[n td]|] eqn:E; [|apply nth_error_None in E; lia]. rewrite (nth_error_nth pcs i (0, []) E). unfold calc_zchi2. now rewrite mapM_map_in. }
  assert (L : forall i rows, mapM (fun g => piece_scan p (data_of g) (nth i pcs (0, []))) tgs = Ok rows -> length rows = length tgs) by (intros i rows H; apply mapM_Forall2 in H; symmetry; now apply Forall2_len in H).
  (* from the second piece on *)
  assert (G : forall idxs, (forall i, In i idxs -> i < length pcs) -> forall (es : list parts) acc, length es = length tgs ->
    (foldM (visit tgs p pcs) (rep tgs es) idxs = Ok acc <->
     exists rowss, Forall2 (fun i rows => mapM (fun g => piece_scan p (data_of g) (nth i pcs (0, []))) tgs = Ok rows) idxs rowss /\
      acc = rep tgs (map (fun k => fold_left (fun e ir => kset e (fst ir) (val (nth k (snd ir) ([], [], [])))) (combine idxs rowss) (nth k es [])) (seq 0 (length tgs))))).
  { induction idxs as [|i idxs IH]; intros Hi es acc Le.
    - cbn [foldM]. split.
      + intro H. exists []. split; [constructor|]. assert (acc = rep tgs es) by congruence. subst. f_equal. cbn [combine fold_left]. rewrite <- Le. apply list_as_tab.
      + intros (rowss & F & ->). inversion F; subst. do 2 f_equal. cbn [combine fold_left]. rewrite <- Le. apply list_as_tab.
    - cbn [foldM]. rewrite V by (apply Hi; now left). split.
      + destruct (mapM _ tgs) as [rows|] eqn:Er; cbn [rbind]; [|discriminate]. pose proof (L _ _ Er) as Lr. rewrite (after_all i tgs es rows Le Lr N).
        intro H. apply IH in H; [|intros; apply Hi; now right|now apply map2_len_eq]. destruct H as (rowss & F & ->). exists (rows :: rowss). split; [now constructor|]. f_equal. apply map_ext_in. intros k Hk. apply in_seq in Hk. cbn [combine fold_left fst snd]. f_equal. first [exact (map2_nth_eq (fun e r => kset e i (val r)) es rows k (length tgs) [] [] (([], []), []) Le Lr (proj2 Hk))|symmetry; exact (map2_nth_eq (fun e r => kset e i (val r)) es rows k (length tgs) [] [] (([], []), []) Le Lr (proj2 Hk))].
      + intros (rowss & F & ->). inversion F as [|? rows ? rowss' Er F']; subst. rewrite Er. cbn [rbind]. pose proof (L _ _ Er) as Lr. rewrite (after_all i tgs es rows Le Lr N).
        apply IH; [intros; apply Hi; now right|now apply map2_len_eq|]. exists rowss'. split; [exact F'|]. f_equal. apply map_ext_in. intros k Hk. apply in_seq in Hk. cbn [combine fold_left fst snd]. f_equal. first [exact (map2_nth_eq (fun e r => kset e i (val r)) es rows k (length tgs) [] [] (([], []), []) Le Lr (proj2 Hk))|symmetry; exact (map2_nth_eq (fun e r => kset e i (val r)) es rows k (length tgs) [] [] (([], []), []) Le Lr (proj2 Hk))]. }
  intros idxs Hi Hne acc. destruct idxs as [|i idxs]; [congruence|]. cbn [foldM]. rewrite V by (apply Hi; now left). split.
  - destruct (mapM _ tgs) as [rows|] eqn:Er; cbn [rbind]; [|discriminate]. pose proof (L _ _ Er) as Lr. rewrite (after_new i tgs rows Lr N).
    intro H. apply G in H; [|intros; apply Hi; now right|now apply map_len_eq]. destruct H as (rowss & F & ->). exists (rows :: rowss). split; [now constructor|]. f_equal. apply map_ext_in. intros k Hk. apply in_seq in Hk. cbn [combine fold_left fst snd]. f_equal.
    first [exact (map_nth_eq (fun r => kset [] i (val r)) rows k (length tgs) [] (([], []), []) Lr (proj2 Hk))|symmetry; exact (map_nth_eq (fun r => kset [] i (val r)) rows k (length tgs) [] (([], []), []) Lr (proj2 Hk))].
  - intros (rowss & F & ->). inversion F as [|? rows ? rowss' Er F']; subst. rewrite Er. cbn [rbind]. pose proof (L _ _ Er) as Lr. rewrite (after_new i tgs rows Lr N).
    apply G; [intros; apply Hi; now right|now apply map_len_eq|]. exists rowss'. split; [exact F'|]. f_equal. apply map_ext_in. intros k Hk. apply in_seq in Hk. cbn [combine fold_left fst snd]. f_equal.
    first [exact (map_nth_eq (fun r => kset [] i (val r)) rows k (length tgs) [] (([], []), []) Lr (proj2 Hk))|symmetry; exact (map_nth_eq (fun r => kset [] i (val r)) rows k (length tgs) [] (([], []), []) Lr (proj2 Hk))].
Qed.

Definition D : row := ([], [], []).
Lemma kset_map {V W} (h : V -> W) (e : list (nat * V)) i v : map (fun x => (fst x, h (snd x))) (kset e i v) = kset (map (fun x => (fst x, h (snd x))) e) i (h v).
Proof. induction e as [|[j w] e IH]; [reflexivity|]. cbn. destruct (j =? i); cbn; [reflexivity|now rewrite IH]. Qed.
Lemma join_part (h : vec * vec -> vec) (rows : list row) idxs : Permutation idxs (seq 0 (length rows)) ->
  assemble (map (fun x => (fst x, h (snd x))) (fold_left (fun e i => kset e i (val (nth i rows D))) idxs [])) = concat (map (fun r => h (val r)) rows).
Proof.
  intro P. rewrite <- (map_id (concat (map (fun r => h (val r)) rows))). rewrite <- (assemble_ok (fun x : Q => x) (map (fun r => h (val r)) rows) idxs) by (rewrite map_length; exact P). f_equal. unfold scan_dict.
  assert (I : forall i, In i idxs -> i < length rows) by (intros i Hi; eapply Permutation_in in Hi; [|exact P]; apply in_seq in Hi; lia). clear P.
  assert (G : forall idxs (e : list (nat * (vec * vec))), (forall i, In i idxs -> i < length rows) -> map (fun x => (fst x, h (snd x))) (fold_left (fun e i => kset e i (val (nth i rows D))) idxs e) =
     fold_left (fun d i => kset d i (map (fun x : Q => x) (nth i (map (fun r => h (val r)) rows) []))) idxs (map (fun x => (fst x, h (snd x))) e)).
  { clear. induction idxs as [|i idxs IH]; intros e I; [reflexivity|]. cbn [fold_left]. rewrite IH by (intros; apply I; now right). f_equal. rewrite kset_map. f_equal. rewrite map_id.
    symmetry. apply (map_nth_eq (fun r => h (val r)) rows i (length rows) [] D eq_refl). apply I. now left. }
  apply (G idxs [] I).
Qed.
Lemma join_rows (rows : list row) idxs : Permutation idxs (seq 0 (length rows)) ->
  join (fold_left (fun e i => kset e i (val (nth i rows D))) idxs []) = (concat (map (fun r => fst (fst r)) rows), concat (map (fun r => snd r) rows)).
Proof. intro P. unfold join. f_equal; [exact (join_part fst rows idxs P)|exact (join_part snd rows idxs P)]. Qed.

Lemma fold_kset_ext (F G : nat -> vec * vec) idxs : forall e, (forall i, In i idxs -> F i = G i) -> fold_left (fun e i => kset e i (F i)) idxs e = fold_left (fun e i => kset e i (G i)) idxs e.
Proof. induction idxs as [|i idxs IH]; intros e H; [reflexivity|]. cbn [fold_left]. rewrite H by now left. apply IH. intros; apply H; now right. Qed.
Lemma mapM_nth {A B} (f : A -> res B) l m i (d : A) (e : B) : mapM f l = Ok m -> i < length l -> f (nth i l d) = Ok (nth i m e).
Proof. intros H Hi. apply mapM_Forall2 in H. pose proof (Forall2_len _ _ _ H) as L. destruct (Forall2_nth _ _ _ i (nth i l d) H (nth_error_nth' _ d Hi)) as (b & E & H2). now rewrite (nth_error_nth _ _ e E). Qed.
Lemma mapM_all_ok {A B} (f : A -> res B) l : (forall a, In a l -> exists b, f a = Ok b) -> exists m, mapM f l = Ok m.
Proof. induction l as [|a l IH]; intro H; [now exists []|]. destruct (H a (or_introl eq_refl)) as [b Hb], IH as [m Hm]; [intros; apply H; now right|]. cbn [mapM]. rewrite Hb. cbn [rbind]. rewrite Hm. now eexists. Qed.

Lemma put_rows p (rows : list row) (W : nat -> parts) : forall tgs' k0, (forall k g, nth_error tgs' k = Some g -> join (W (k0 + k)) = val (nth (k0 + k) rows D)) ->
  map (fun x : Z * parts => (fst x, (full_type p, {| e_zchi2 := fst (join (snd x)); e_penalty := snd (join (snd x)); e_fits := None |}))) (combine (map g_id tgs') (map W (seq k0 (length tgs')))) =
  map (fun x : targ * (vec * list vec * vec) => let '(g, (zc, _, pen)) := x in (g_id g, (full_type p, {| e_zchi2 := zc; e_penalty := pen; e_fits := None |}))) (combine tgs' (map (fun i => nth i rows D) (seq k0 (length tgs')))).
Proof.
  induction tgs' as [|g tgs' IH]; intros k0 H; [reflexivity|]. cbn [length seq map combine fst snd]. rewrite (IH (S k0)) by (intros k g' Hk; replace (S k0 + k) with (k0 + S k) by lia; exact (H (S k) g' Hk)).
  pose proof (H 0 g eq_refl) as H0. rewrite Nat.add_0_r in H0. rewrite H0. destruct (nth k0 rows D) as [[zc co] pen]. reflexivity.
Qed.
(* the scan of one template with its pieces in any order is the scan with the whole template *)
Lemma mscan_template_eq p dw sl pcs td tgs r idxs : usable p -> NoDup (map g_id tgs) -> concat sl = p_zs p -> sl <> [] -> Forall (fun z => z <> []) sl -> tdata p dw (p_zs p) = Ok td -> Forall2 (piece_ok trans p dw) sl pcs ->
  Permutation idxs (seq 0 (length sl)) -> forall r', mscan_template slv tgs r p pcs idxs = Ok r' <-> scan_template slv tgs r p td = Ok r'.
Proof.
  intros U N Cs Hsl Hnn Ht F P r'. assert (Hne : concat sl <> []). { destruct sl as [|z sl]; [congruence|]. inversion Hnn; subst. cbn. destruct z; [congruence|discriminate]. }
  rewrite <- Cs in Ht. assert (J : forall ss, _) by (intro ss; exact (rows_join slv trans p dw sl pcs td ss U Hne Hnn Ht F)).
  pose proof (Forall2_len _ _ _ F) as Lp.
  assert (Ii : forall i, In i idxs -> i < length pcs) by (intros i Hi; eapply Permutation_in in Hi; [|exact P]; apply in_seq in Hi; unfold tdict, dict in *; lia).
  assert (Ia : forall i, i < length pcs -> In i idxs) by (intros i Hi; eapply Permutation_in; [symmetry; exact P|]; apply in_seq; unfold tdict, dict in *; lia).
  assert (In0 : idxs <> []). { intros ->. apply Permutation_length in P. rewrite seq_length in P. destruct sl; [congruence|discriminate]. }
  unfold mscan_template. rewrite (fold_foldM (visit tgs p pcs)).
  pose proof (tvisits p pcs tgs N idxs Ii In0) as TV.
  (* both succeed together, and with the same dictionary *)
  assert (K : (forall rows, calc_zchi2 slv (p_core p) td (length (p_zs p)) (map data_of tgs) = Ok rows -> exists acc, foldM (visit tgs p pcs) [] idxs = Ok acc) /\
     (forall acc, foldM (visit tgs p pcs) [] idxs = Ok acc -> exists rows, calc_zchi2 slv (p_core p) td (length (p_zs p)) (map data_of tgs) = Ok rows /\
        map (fun x => (fst x, (full_type p, {| e_zchi2 := fst (join (snd x)); e_penalty := snd (join (snd x)); e_fits := None |}))) acc =
        map (fun x : targ * (vec * list vec * vec) => let '(g, (zc, _, pen)) := x in (g_id g, (full_type p, {| e_zchi2 := zc; e_penalty := pen; e_fits := None |}))) (combine tgs rows))).
  { rewrite <- Cs. unfold calc_zchi2. split.
    - intros rows Hr. rewrite mapM_map_in in Hr.
      assert (X : exists rowss, mapM (fun i => mapM (fun g => piece_scan p (data_of g) (nth i pcs (0, []))) tgs) idxs = Ok rowss).
      { apply mapM_all_ok. intros i Hi. apply mapM_all_ok. intros g Hg. destruct (In_nth _ _ g Hg) as (k & Hk & Ek). pose proof (mapM_nth _ _ _ k g D Hr Hk) as Hz. cbv beta in Hz. rewrite Ek in Hz. apply (proj1 (J (data_of g))) in Hz as (rs & Hrs & _).
        exists (nth i rs D). apply (mapM_nth _ _ _ i (0, []) D Hrs). now apply Ii. }
      destruct X as [rowss X]. apply mapM_Forall2 in X. eexists. apply TV. exists rowss. split; [exact X|reflexivity].
    - intros acc Ha. apply TV in Ha as (rowss & FR & ->).
      assert (Each : forall k g, nth_error tgs k = Some g -> exists rs rw, mapM (piece_scan p (data_of g)) pcs = Ok rs /\ zchi2_target slv (p_core p) td (length (concat sl)) (data_of g) = Ok rw /\
         join (fold_left (fun e ir => kset e (fst ir) (val (nth k (snd ir) ([], [], [])))) (combine idxs rowss) []) = (fst (fst rw), snd rw)).
      { intros k g Hk. assert (A : forall i rows, In (i, rows) (combine idxs rowss) -> piece_scan p (data_of g) (nth i pcs (0, [])) = Ok (nth k rows D)).
        { intros i rows Hin. assert (E : mapM (fun g => piece_scan p (data_of g) (nth i pcs (0, []))) tgs = Ok rows). { clear -FR Hin. induction FR as [|a b l l' H _ IH]; [destruct Hin|]. cbn in Hin. destruct Hin as [Hin|Hin]; [|now apply IH]. assert (a = i /\ b = rows) as [-> ->] by (split; congruence). exact H. }
          pose proof (mapM_nth _ _ _ k g D E) as Z. cbv beta in Z. rewrite (nth_error_nth _ _ g Hk) in Z. apply Z. eapply nth_error_Some_lt. exact Hk. }
        assert (B : forall i, In i idxs -> exists rows, In (i, rows) (combine idxs rowss)). { clear -FR. induction FR as [|a b l l' H _ IH]; [intros i []|]. intros i [<-|Hi]; [exists b; now left|]. destruct (IH i Hi) as [rows Hr]. exists rows. now right. }
        destruct (mapM_all_ok (piece_scan p (data_of g)) pcs) as [rs Hrs]. { intros pc Hpc. destruct (In_nth _ _ (0, []) Hpc) as (i & Hi & <-). destruct (B i (Ia i Hi)) as [rows Hrw]. eexists. exact (A i rows Hrw). }
        destruct (proj2 (J (data_of g)) rs Hrs) as (rw & Hrw & J1 & J2). exists rs, rw. split; [exact Hrs|]. split; [exact Hrw|].
        rewrite <- J1, <- J2. assert (Lr : length rs = length sl). { apply mapM_Forall2 in Hrs. apply Forall2_len in Hrs. transitivity (length pcs); [now symmetry|now symmetry]. }
        transitivity (join (fold_left (fun e i => kset e i (val (nth i rs D))) idxs [])); [f_equal|apply join_rows; rewrite Lr; exact P].
        assert (Same : forall i rows, In (i, rows) (combine idxs rowss) -> val (nth k rows D) = val (nth i rs D)).
        { intros i rows Hin. pose proof (A i rows Hin) as A1. pose proof (mapM_nth _ _ _ i (0, []) D Hrs (Ii i (in_combine_l _ _ _ _ Hin))) as A2.
          assert (X : Ok (nth k rows D) = Ok (nth i rs D)) by (exact (eq_trans (eq_sym A1) A2)). f_equal. injection X. exact (fun e => e). }
        clear -FR Same. revert Same. generalize (@nil (nat * (vec * vec))) as e. induction FR as [|a b l l' _ _ IH]; intros e Same; [reflexivity|]. cbn [combine fold_left fst snd].
        match goal with |- fold_left _ _ (kset e a ?x) = _ => assert (Q0 : x = val (nth a rs D)) by (exact (Same a b (or_introl eq_refl))); rewrite Q0 end.
        apply IH. intros; apply Same; now right. }
      destruct (mapM_all_ok (zchi2_target slv (p_core p) td (length (concat sl))) (map data_of tgs)) as [rows Hrows]. { intros ss Hss. apply in_map_iff in Hss as (g & <- & Hg). destruct (In_nth_error _ _ Hg) as [k Hk]. destruct (Each k g Hk) as (_ & rw & _ & H & _). now exists rw. }
      exists rows. split; [exact Hrows|]. rewrite mapM_map_in in Hrows.
      assert (Lr : length rows = length tgs) by (apply mapM_Forall2 in Hrows; symmetry; now apply Forall2_len in Hrows).
      unfold rep.
      assert (Pt : forall k g, nth_error tgs k = Some g -> join (fold_left (fun e ir => kset e (fst ir) (val (nth k (snd ir) ([], [], [])))) (combine idxs rowss) []) = val (nth k rows D)).
      { intros k g Hk. destruct (Each k g Hk) as (rs & rw & _ & H & Hj). rewrite Hj. pose proof (mapM_nth _ _ _ k g D Hrows (nth_error_Some_lt _ _ _ Hk)) as Z. cbv beta in Z. rewrite (nth_error_nth _ _ g Hk) in Z. assert (X : Ok rw = Ok (nth k rows D)) by (exact (eq_trans (eq_sym H) Z)). assert (X1 : rw = nth k rows D) by (injection X; exact (fun e => e)). exact (f_equal val X1). }
      rewrite (list_as_tab rows D), Lr.
      exact (put_rows p rows (fun k => fold_left (fun e ir => kset e (fst ir) (val (nth k (snd ir) ([], [], [])))) (combine idxs rowss) []) tgs 0 Pt). }
  destruct K as [K1 K2]. unfold scan_template. split.
  - destruct (foldM _ _ idxs) as [acc|] eqn:Ea; cbn [rbind]; [|discriminate]. destruct (K2 acc eq_refl) as (rows & -> & ->). cbn [rbind]. auto.
  - destruct (calc_zchi2 _ _ _ _ _) as [rows|] eqn:Er; cbn [rbind]; [|discriminate]. destruct (K1 rows eq_refl) as [acc Ea]. rewrite Ea. cbn [rbind]. destruct (K2 acc Ea) as (rows' & E & ->). assert (rows' = rows) by congruence. subst. auto.
Qed.
End S.
