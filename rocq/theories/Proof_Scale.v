(* The run in other units of flux. *)
From Verif Require Import Prelude PreludeFacts NumX Facts2 Model_Fitz Proof_Fitz Model_Rebin Model_Dist Model_Zscan Spec_Zscan Proof_Zscan3 Model_Piece Model_IO Model_Zfind Proof_Table
  Model_Run Proof_Run Spec_Scale.
Open Scope nat_scope.
Local Arguments Qred : simpl never.

Definition rmap {A B} (h : A -> B) (m : res A) : res B := match m with Ok x => Ok (h x) | Err e => Err e end.
Lemma rmap_bind {A B A' B'} (h : A -> A') (k : B -> B') (m : res A) m' (f : A -> res B) (f' : A' -> res B') : m' = rmap h m -> (forall x, m = Ok x -> f' (h x) = rmap k (f x)) -> rbind m' f' = rmap k (rbind m f).
Proof. intros -> H. destruct m; cbn; [now apply H|reflexivity]. Qed.
Lemma mapM_rmap {A B A' B'} (R : A -> A' -> Prop) (k : B -> B') (f : A -> res B) (f' : A' -> res B') l l' : Forall2 R l l' -> (forall x x', R x x' -> f' x' = rmap k (f x)) -> mapM f' l' = rmap (map k) (mapM f l).
Proof. intros F H. induction F as [|x x' l l' E _ IH]; [reflexivity|]. cbn [mapM]. rewrite (H _ _ E), IH. destruct (f x); [|reflexivity]. cbn. destruct (mapM f l); reflexivity. Qed.
Lemma mapM_rmap_same {A B B'} (k : B -> B') (f : A -> res B) (f' : A -> res B') l : (forall x, In x l -> f' x = rmap k (f x)) -> mapM f' l = rmap (map k) (mapM f l).
Proof. intro H. induction l as [|x l IH]; [reflexivity|]. cbn [mapM]. rewrite (H x (or_introl eq_refl)), IH by (intros; apply H; now right). destruct (f x); [|reflexivity]. cbn. destruct (mapM f l); reflexivity. Qed.
Lemma F2_mapped {A B} (k : A -> B) l : Forall2 (fun a b => b = k a) l (map k l).
Proof. induction l; constructor; auto. Qed.

(* ---------------- the table of results does not look at the coefficients ---------------- *)
Section Nat.
Variable h : Q -> Q.
Hypothesis h0 : h 0%Q = 0%Q.
Definition hrow (r : frow) : frow := set_coeff r (map h (Model_Zfind.f_coeff r)).
Definition hblock (b : Model_Zfind.block) : Model_Zfind.block := {| b_width := b_width b; b_rows := map hrow (b_rows b) |}.

Lemma h_zeros n : map h (repeat 0%Q n) = repeat 0%Q n.
Proof. induction n; cbn; congruence. Qed.
Lemma h_pad w l : pad w (map h l) = map h (pad w l).
Proof. unfold pad. now rewrite map_length, map_app, h_zeros. Qed.
Lemma insert_map {A} (leb : A -> A -> bool) (k : A -> A) (H : forall a b, leb (k a) (k b) = leb a b) x l : insert leb (k x) (map k l) = map k (insert leb x l).
Proof. induction l as [|y l IH]; [reflexivity|]. cbn [map insert]. rewrite H. destruct (leb x y); cbn [map]; [reflexivity|now rewrite IH]. Qed.
Lemma isort_map_k {A} (leb : A -> A -> bool) (k : A -> A) (H : forall a b, leb (k a) (k b) = leb a b) l : isort leb (map k l) = map k (isort leb l).
Proof. induction l as [|y l IH]; [reflexivity|]. cbn [map isort]. now rewrite IH, (insert_map leb k H). Qed.
Lemma hrow_le a b : row_le (hrow a) (hrow b) = row_le a b. Proof. reflexivity. Qed.
Lemma sort_h l : sort_rows (map hrow l) = map hrow (sort_rows l).
Proof. apply isort_map_k. exact hrow_le. Qed.
Lemma map_type_h l : map f_type (map hrow l) = map f_type l.
Proof. rewrite map_map. reflexivity. Qed.
Lemma filter_map_k {A} (p : A -> bool) (k : A -> A) (H : forall a, p (k a) = p a) l : filter p (map k l) = map k (filter p l).
Proof. induction l as [|y l IH]; [reflexivity|]. cbn [map filter]. rewrite H, IH. destruct (p y); reflexivity. Qed.
Lemma trim_h n l : trim n (map hrow l) = map hrow (trim n l).
Proof.
  unfold trim. rewrite map_type_h, map_length.
  assert (E : forall ts, flat_map (fun t => firstn n (filter (fun r => String.eqb (f_type r) t) (map hrow l))) ts = map hrow (flat_map (fun t => firstn n (filter (fun r => String.eqb (f_type r) t) l)) ts)).
  { induction ts as [|t ts IH]; [reflexivity|]. cbn [flat_map]. rewrite IH, map_app. f_equal. rewrite (filter_map_k (fun r => String.eqb (f_type r) t) hrow) by reflexivity. apply firstn_map. }
  rewrite E, map_length. destruct (_ <? _); [apply sort_h|reflexivity].
Qed.
Lemma zip3_h (l : list frow) : forall (a : list xq) (b : list bool), zip3 (map hrow l) a b = map (fun e => let '(r, d, s) := e in (hrow r, d, s)) (zip3 l a b).
Proof. induction l as [|r l IH]; intros [|d a] [|s b]; try reflexivity. cbn [map zip3]. now rewrite IH. Qed.
Lemma enum_map {A B} (k : A -> B) l i : enum_from i (map k l) = map (fun e => (fst e, k (snd e))) (enum_from i l).
Proof. revert i. induction l as [|x l IH]; intro i; [reflexivity|]. cbn [map enum_from]. now rewrite IH. Qed.
Lemma number_h l : number_rows (map hrow l) = map hrow (number_rows l).
Proof.
  unfold number_rows. rewrite map_map. replace (map (fun r => to_drow (hrow r)) l) with (map to_drow l) by reflexivity. destruct (Model_Rank.calc_deltachi2 (map to_drow l)) as [dc sz]. rewrite zip3_h. unfold enum. rewrite enum_map, !map_map. apply map_ext. intros [i [[r d] s]]. cbn [fst snd]. destruct s; reflexivity.
Qed.
Lemma nonempty_h bs : filter nonempty (map hblock bs) = map hblock (filter nonempty bs).
Proof. induction bs as [|b bs IH]; [reflexivity|]. cbn [map filter]. rewrite IH. replace (nonempty (hblock b)) with (nonempty b) by (destruct b as [w [|]]; reflexivity). destruct (nonempty b); reflexivity. Qed.
Lemma prep_h b : prep_block (hblock b) = map hrow (prep_block b).
Proof. unfold prep_block. cbn [hblock b_rows b_width]. rewrite !map_map. assert (E : block_lim (map hrow (b_rows b)) = block_lim (b_rows b)) by (destruct (b_rows b); reflexivity). rewrite E. reflexivity. Qed.
Lemma flagged_h tid bs : flagged_rows None tid (map hblock bs) = map hrow (flagged_rows None tid bs).
Proof.
  unfold flagged_rows. cbv zeta. rewrite nonempty_h, map_map. cbn [hblock b_width].
  assert (E : forall w l, flat_map (fun b => map (fun r => set_coeff r (pad w (Model_Zfind.f_coeff r))) (prep_block b)) (map hblock l) = map hrow (flat_map (fun b => map (fun r => set_coeff r (pad w (Model_Zfind.f_coeff r))) (prep_block b)) l)).
  { intros w l. induction l as [|b l IH]; [reflexivity|]. cbn [map flat_map]. rewrite IH, map_app, prep_h, !map_map. f_equal. apply map_ext. intro r. unfold hrow. cbn [Model_Zfind.f_coeff set_coeff]. rewrite h_pad. reflexivity. }
  rewrite E, !map_map. apply map_ext. reflexivity.
Qed.
Lemma assemble_h n tid bs : assemble_target n None tid (map hblock bs) = rmap (map hrow) (assemble_target n None tid bs).
Proof. unfold assemble_target. rewrite nonempty_h, flagged_h, sort_h, trim_h, number_h. destruct (filter nonempty bs); reflexivity. Qed.
Definition hres (d : results) : results := map (fun kv => (fst kv, map hblock (snd kv))) d.
Lemma rget_h d k : rget (hres d) k = option_map (map hblock) (rget d k).
Proof. induction d as [|[a v] d IH]; [reflexivity|]. cbn [hres map rget fst snd]. destruct (Z.eqb k a); [reflexivity|exact IH]. Qed.
Lemma tables_h n ids d : tables n None ids (hres d) = rmap (map (map hrow)) (tables n None ids d).
Proof. unfold tables. apply mapM_rmap_same. intros t _. rewrite rget_h. destruct (rget d t); cbn [option_map]; [apply assemble_h|reflexivity]. Qed.
Lemma width_h l : coeff_width (map hrow l) = coeff_width l.
Proof. destruct l; [reflexivity|]. cbn. apply map_length. Qed.
Lemma vstack_h ts : vstack (map (map hrow) ts) = rmap (map hrow) (vstack ts).
Proof.
  destruct ts as [|t ts]; [reflexivity|]. unfold vstack. cbn [map]. rewrite width_h. assert (E : forall l, forallb (fun u => Nat.eqb (coeff_width u) (coeff_width t)) (map (map hrow) l) = forallb (fun u => Nat.eqb (coeff_width u) (coeff_width t)) l) by (induction l as [|u l IH]; [reflexivity|]; cbn [map forallb]; now rewrite width_h, IH).
  change (map hrow t :: map (map hrow) ts) with (map (map hrow) (t :: ts)). rewrite E. destruct (forallb _ _); [|reflexivity]. cbn [rmap]. now rewrite concat_map.
Qed.
Lemma standardise_h m l : standardise m (map hrow l) = rmap (map hrow) (standardise m l).
Proof.
  unfold standardise. cbv zeta. rewrite !map_map. assert (W : forall t, coeff_width (map (fun r => set_type (hrow r) (t r)) l) = coeff_width (map (fun r => set_type r (t r)) l)) by (intro; destruct l; [reflexivity|]; cbn; apply map_length).
  change (fun x => set_type (hrow x) (stake 6 (f_type (hrow x)))) with (fun x => set_type (hrow x) (stake 6 (f_type x))). rewrite W. destruct (m <? _); [reflexivity|].
  assert (E : forall r, set_coeff (set_type (hrow r) (stake 6 (f_type r))) (pad m (Model_Zfind.f_coeff (set_type (hrow r) (stake 6 (f_type r))))) = hrow (set_coeff (set_type r (stake 6 (f_type r))) (pad m (Model_Zfind.f_coeff (set_type r (stake 6 (f_type r))))))) by (intro r; unfold hrow; cbn [Model_Zfind.f_coeff set_coeff set_type]; rewrite h_pad; reflexivity).
  match goal with |- match ?a with _ => _ end = rmap _ (match ?b with _ => _ end) => change a with b; destruct b as [|k [|k' l']] end; cbn [rmap]; rewrite ?map_map; f_equal; apply map_ext; intro r; cbn [Model_Zfind.f_coeff set_coeff set_type hrow]; rewrite ?h_pad, ?firstn_map; reflexivity.
Qed.
Lemma zfind_h n m ids d : zfind_table n None m ids (hres d) = rmap (map hrow) (zfind_table n None m ids d).
Proof. unfold zfind_table. eapply rmap_bind; [apply tables_h|]. intros ts _. eapply rmap_bind; [apply vstack_h|]. intros t _. apply standardise_h. Qed.

(* the same for the dictionaries of the run *)
Definition hfit (x : fit Q (list Q)) : fit Q (list Q) :=
  {| Model_Fitz.f_z := Model_Fitz.f_z x; Model_Fitz.f_zerr := Model_Fitz.f_zerr x; Model_Fitz.f_zwarn := Model_Fitz.f_zwarn x; Model_Fitz.f_chi2 := Model_Fitz.f_chi2 x; f_zz := f_zz x; f_zzchi2 := f_zzchi2 x; Model_Fitz.f_coeff := map h (Model_Fitz.f_coeff x); f_fulltype := f_fulltype x |}.
Definition hent (e : Model_Run.entry) : Model_Run.entry := {| e_zchi2 := e_zchi2 e; e_penalty := e_penalty e; e_fits := match e_fits e with Some (n, l) => Some (n, map hfit l) | None => None end |}.
Definition hent2 (x : string * Model_Run.entry) := (fst x, hent (snd x)).
Definition hscans (r : scans) : scans := map (fun kd => (fst kd, map hent2 (snd kd))) r.
Lemma dget_h r k : Model_Dist.dget (hscans r) k = option_map (map hent2) (Model_Dist.dget r k).
Proof. induction r as [|[a v] r IH]; [reflexivity|]. cbn [hscans map Model_Dist.dget fst snd]. destruct (Z.eqb a k); [reflexivity|exact IH]. Qed.
Lemma dset_h r k d : dset (hscans r) k (map hent2 d) = hscans (dset r k d).
Proof. induction r as [|[a v] r IH]; [reflexivity|]. cbn [hscans map dset fst snd]. destruct (Z.eqb a k); [reflexivity|]. cbn [map fst snd]. f_equal. exact IH. Qed.
Lemma sset_h d k e : sset (map hent2 d) k (hent e) = map hent2 (sset d k e).
Proof. induction d as [|[a v] d IH]; [reflexivity|]. cbn [map sset hent2 fst snd]. destruct (String.eqb a k); [reflexivity|]. cbn [map]. now rewrite <- IH. Qed.
Lemma sget_h d k : sget (map hent2 d) k = option_map hent (sget d k).
Proof. induction d as [|[a v] d IH]; [reflexivity|]. cbn [map sget hent2 fst snd]. destruct (String.eqb a k); [reflexivity|exact IH]. Qed.
Lemma put_h r t ft e : put (hscans r) t ft (hent e) = rmap hscans (put r t ft e).
Proof. unfold put. rewrite dget_h. destruct (Model_Dist.dget r t); [|reflexivity]. cbn [option_map rmap]. now rewrite sset_h, dset_h. Qed.
Lemma block_h ft e : block_of ft (hent e) = rmap hblock (block_of ft e).
Proof.
  unfold block_of. cbn [hent e_fits]. destruct (e_fits e) as [[n l]|]; [|reflexivity]. eapply (rmap_bind (fun x => x)); [now destruct (parse_fulltype ft)|]. intros ts _. cbn [rmap hblock b_width b_rows]. f_equal. unfold hblock. cbn [b_width b_rows]. rewrite !map_map. f_equal. destruct l; [reflexivity|]. cbn. apply map_length.
Qed.
Lemma results_h r : results_of (hscans r) = rmap hres (results_of r).
Proof.
  unfold results_of, hres. eapply (mapM_rmap (fun a b => b = (fst a, map hent2 (snd a)))).
  - apply (F2_mapped (fun kd : Z * list (string * entry) => (fst kd, map hent2 (snd kd)))).
  - intros x x' ->. cbn [fst snd]. eapply rmap_bind; [|intros bs _; reflexivity]. unfold blocks_of. assert (E : filter (fun x0 => negb (String.eqb (fst x0) "meta")) (map hent2 (snd x)) = map hent2 (filter (fun x0 => negb (String.eqb (fst x0) "meta")) (snd x))) by (apply filter_map_k; reflexivity). rewrite E.
    eapply (mapM_rmap (fun a b => b = hent2 a)); [apply F2_mapped|]. intros y y' ->. apply block_h.
Qed.

(* ... and for the refinement *)
Lemma fitz_h argsort polyfit (isqrt : Q -> Q) neg1 (sc sc' : Q -> res Q) (rf rf' : Q -> res (list Q)) zero mvd nminima nz zs (zc : list xq) : (forall z, sc' z = sc z) -> (forall z, rf' z = rmap (map h) (rf z)) -> map h zero = zero ->
  fitz (E := Q) argsort polyfit isqrt neg1 sc' rf' zero mvd nminima nz zs None zc = rmap (map hfit) (fitz argsort polyfit isqrt neg1 sc rf zero mvd nminima nz zs None zc).
Proof.
  intros Hs Hr Hz. unfold fitz. destruct (negb _); [reflexivity|]. destruct (find_minima argsort zc) as [m|]; cbn [rbind]; [|reflexivity].
  assert (X : forall imin, refine polyfit isqrt neg1 sc' rf' zero nz zs imin = rmap hfit (refine polyfit isqrt neg1 sc rf zero nz zs imin)).
  { intro imin. unfold refine. destruct (rs zs (imin - 1)); cbn [rbind]; [|reflexivity]. destruct (rs zs (Nat.min _ _)); cbn [rbind]; [|reflexivity]. destruct (linspace _ _ _) as [|z0 zz]; [reflexivity|]. assert (Em : mapM sc' (z0 :: zz) = mapM sc (z0 :: zz)) by (apply mapM_ext; intros; apply Hs). rewrite Em. destruct (mapM sc (z0 :: zz)); cbn [rbind]; [|reflexivity].
    match goal with |- context [minfit ?p ?q ?r ?s ?t] => destruct (minfit p q r s t) as [[[zm sg] ym] w0] end. rewrite Hr.
    set (ou := qlt zm z0 || _). clearbody ou. destruct (rf zm) as [co|[]]; cbn [rmap rbind]; try reflexivity; try (destruct (qlt zm (hd 0%Q zs) || qlt (last zs 0%Q) zm); cbn [rbind]; [|reflexivity]); (destruct (rs zs 1); cbn [rbind]; [|reflexivity]; destruct (if length zs <? 2 then _ else _); cbn [rbind rmap]; [|reflexivity]; unfold hfit; cbn; rewrite ?Hz; reflexivity). }
  assert (Y : forall r, fit_loop polyfit isqrt neg1 sc' rf' zero mvd nminima nz zs None m (map hfit r) = rmap (map hfit) (fit_loop polyfit isqrt neg1 sc rf zero mvd nminima nz zs None m r)).
  { induction m as [|i m IH]; intro r; [reflexivity|]. cbn [fit_loop]. rewrite map_length. destruct (length r =? nminima); [reflexivity|]. assert (Ez : map Model_Fitz.f_z (map hfit r) = map Model_Fitz.f_z r) by (rewrite map_map; reflexivity). rewrite Ez. destruct (rs zs i); cbn [rbind]; [|reflexivity]. destruct (too_close mvd a (map Model_Fitz.f_z r)); [apply IH|]. rewrite X. destruct (refine polyfit isqrt neg1 sc rf zero nz zs i) as [x|]; cbn [rmap rbind]; [|reflexivity]. change (Model_Fitz.f_z (hfit x)) with (Model_Fitz.f_z x). destruct (too_close mvd (Model_Fitz.f_z x) _); [apply IH|]. cbn [finish rbind]. change (hfit x :: nil) with (map hfit [x]). rewrite <- map_app. apply IH. }
  specialize (Y []). cbn [map] in Y. rewrite Y. destruct (fit_loop polyfit isqrt neg1 sc rf zero mvd nminima nz zs None m []) as [r|]; cbn [rmap rbind]; [|reflexivity]. rewrite map_map. cbn [hfit Model_Fitz.f_chi2]. apply mapM_rmap_same. intros i _. rewrite nth_error_map. destruct (nth_error r i); reflexivity.
Qed.
End Nat.
