From Verif Require Import Prelude PreludeFacts Facts2 Model_Fitz Proof_Fitz Proof_Table Model_Dist Model_Zscan Model_Targets Model_Targets2 Spec_Targets
  Proof_Targets Proof_Targets2 Proof_Targets3.

(* ---------- reshape . ravel ---------- *)
Lemma reshape_ravel {A} w (rows : list (list A)) : Forall (fun r => length r = w) rows -> reshape2 (length rows) w (ravel rows) = rows.
Proof.
  intros H. unfold reshape2, ravel. induction H as [|r rows Hr _ IH]; [reflexivity|].
  cbn [length seq map concat]. f_equal.
  - cbn [Nat.mul skipn]. rewrite firstn_app, Hr, Nat.sub_diag, firstn_O, app_nil_r. rewrite <- Hr. apply firstn_all.
  - rewrite <- seq_shift, map_map. rewrite <- IH at 2. apply map_ext. intros i. cbn [Nat.mul].
    rewrite skipn_app, Hr. rewrite (skipn_all2 r) by lia. cbn [app]. replace (w + i * w - w) with (i * w) by lia. reflexivity.
Qed.
Lemma mp_array2_id {A} w (rows : list (list A)) : Forall (fun r => length r = w) rows -> mp_array2 w rows = rows.
Proof. intros H. unfold mp_array2. destruct (ravel rows) eqn:E; [reflexivity|]. rewrite <- E. now apply reshape_ravel. Qed.

(* ---------- shared memory ---------- *)
Section Shm.
  Variables (wave flux ivar : list Q) (r : gdia) (cache : option csr) (tocsr : gdia -> csr).
  Hypothesis Hsq : gd_rows r = gd_width r /\ gd_cols r = gd_width r.
  Hypothesis Hrect : Forall (fun row => length row = gd_width r) (gd_data r).
  Definition origc : csr := match cache with Some c => c | None => tocsr r end.
  Definition same_arrays (s : shm) : Prop := sh_wave s = wave /\ sh_flux s = flux /\ sh_ivar s = ivar.
  Definition inv_U (s : shm) : Prop := sh_shared s = false /\ same_arrays s /\ sh_R s = Some (Some r) /\
    (sh_Rcsr s = Some (Some origc) \/ (cache = None /\ sh_Rcsr s = Some None)).
  Definition inv_P (s : shm) : Prop := sh_shared s = true /\ same_arrays s /\ sh_R s = None /\
    sh_Roff s = Some (gd_off r) /\ sh_Rdata s = Some (gd_data r) /\ sh_splen s = Some (gd_width r) /\
    ((sh_Cdata s = Some (Some (r_val origc)) /\ sh_Cind s = Some (r_ind origc) /\ sh_Cptr s = Some (r_ptr origc) /\ sh_csrshape s = Some (r_nrow origc, r_ncol origc))
     \/ (cache = None /\ sh_Cdata s = Some None)).
  Lemma rebuilt : {| gd_off := gd_off r; gd_data := gd_data r; gd_width := gd_width r; gd_rows := gd_width r; gd_cols := gd_width r |} = r.
  Proof. destruct Hsq as [A B]. destruct r as [o d w n m]; cbn in *. subst. reflexivity. Qed.
  Lemma csr_rebuilt c : {| r_nrow := r_nrow c; r_ncol := r_ncol c; r_val := r_val c; r_ind := r_ind c; r_ptr := r_ptr c |} = c.
  Proof. destruct c; reflexivity. Qed.
  Lemma init_U : inv_U (shm_init wave flux ivar (Some r) cache).
  Proof.
    split; [reflexivity|]. split; [split; [|split]; reflexivity|]. split; [reflexivity|]. unfold origc. cbn.
    destruct cache; [left; reflexivity|right; split; reflexivity].
  Qed.
  Lemma pack_U s : inv_U s -> inv_P (fst (shm_pack s)) /\ snd (shm_pack s) = Ok tt.
  Proof.
    intros (H1 & (Hw & Hf & Hi) & H2 & H3). unfold shm_pack. rewrite H1, H2.
    destruct H3 as [-> | [Hc ->]]; cbn [fst snd]; (split; [|reflexivity]); unfold inv_P, same_arrays; cbn;
      rewrite (mp_array2_id _ _ Hrect); (split; [reflexivity|]); (split; [auto|]); (split; [reflexivity|]);
      (split; [reflexivity|]); (split; [reflexivity|]); (split; [reflexivity|]).
    - left. auto.
    - right. auto.
  Qed.
  Lemma pack_P s : inv_P s -> shm_pack s = (s, Ok tt).
  Proof. intros (H & _). unfold shm_pack. now rewrite H. Qed.
  Lemma unpack_U s : inv_U s -> shm_unpack s = (s, Ok tt).
  Proof. intros (H & _). unfold shm_unpack. now rewrite H. Qed.
  Lemma unpack_P s : inv_P s -> inv_U (fst (shm_unpack s)) /\ snd (shm_unpack s) = Ok tt.
  Proof.
    intros (H1 & (Hw & Hf & Hi) & H2 & H3 & H4 & H5 & H6). unfold shm_unpack. rewrite H1, H3, H4, H5. cbn [negb].
    destruct H6 as [(-> & -> & -> & ->) | [Hc ->]]; cbn [fst snd]; (split; [|reflexivity]); unfold inv_U, same_arrays; cbn;
      (split; [reflexivity|]); (split; [auto|]); rewrite rebuilt; (split; [reflexivity|]).
    - left. now rewrite csr_rebuilt.
    - right. auto.
  Qed.
  Lemma rcsr_U s : inv_U s -> inv_U (fst (shm_Rcsr tocsr s)) /\ snd (shm_Rcsr tocsr s) = Ok origc.
  Proof.
    intros H. unfold shm_Rcsr. rewrite (unpack_U s H). destruct H as (H1 & Ha & H2 & H3).
    destruct H3 as [E | [Hc E]]; rewrite E; cbn [fst snd].
    - split; [|reflexivity]. split; [exact H1|]. split; [exact Ha|]. split; [exact H2|]. now left.
    - rewrite H2. cbn [fst snd]. assert (Eo : origc = tocsr r) by (unfold origc; now rewrite Hc). split; [|now rewrite Eo].
      split; [exact H1|]. split; [exact Ha|]. split; [exact H2|]. left. cbn. now rewrite Eo.
  Qed.
  Lemma rcsr_via s s1 : shm_unpack s = (s1, Ok tt) -> inv_U s1 -> shm_Rcsr tocsr s = shm_Rcsr tocsr s1.
  Proof. intros E H. unfold shm_Rcsr. now rewrite E, (unpack_U s1 H). Qed.
  Lemma rcsr_any s : inv_U s \/ inv_P s -> inv_U (fst (shm_Rcsr tocsr s)) /\ snd (shm_Rcsr tocsr s) = Ok origc.
  Proof.
    intros [H|H]; [now apply rcsr_U|]. destruct (unpack_P s H) as [A B]. destruct (shm_unpack s) as [s1 x] eqn:E. cbn [fst snd] in A, B. subst x.
    rewrite (rcsr_via s s1 E A). now apply rcsr_U.
  Qed.
  Lemma step_inv s o : inv_U s \/ inv_P s -> inv_U (shm_step tocsr s o) \/ inv_P (shm_step tocsr s o).
  Proof.
    intros H. destruct o; cbn [shm_step].
    - destruct H as [H|H]; [right; now apply pack_U|right; now rewrite pack_P].
    - destruct H as [H|H]; [left; now rewrite unpack_U|left; now apply unpack_P].
    - left. now apply rcsr_any.
    - exact H.
  Qed.
  Lemma run_inv h : forall s, inv_U s \/ inv_P s -> inv_U (shm_run tocsr s h) \/ inv_P (shm_run tocsr s h).
  Proof. induction h as [|o h IH]; intros s H; [exact H|]. cbn. apply IH. now apply step_inv. Qed.
End Shm.

(* ---------- dictionaries keyed by wavehash ---------- *)
Lemma kget_kset {V} (d : list (key * V)) k v k' : kget (kset d k v) k' = if key_eqb k k' then Some v else kget d k'.
Proof.
  induction d as [|[a b] d IH]; cbn [kset kget]; [reflexivity|].
  destruct (key_eqb_spec a k) as [E|E]; cbn [kget].
  - subst a. destruct (key_eqb_spec k k'); [reflexivity|reflexivity].
  - rewrite IH. destruct (key_eqb_spec a k') as [E'|E'].
    + subst a. destruct (key_eqb_spec k k'); [congruence|reflexivity].
    + reflexivity.
Qed.
Lemma kget_app {V} (d e : list (key * V)) k : kget (d ++ e) k = match kget d k with Some v => Some v | None => kget e k end.
Proof. induction d as [|[a b] d IH]; [reflexivity|]. cbn [app kget]. destruct (key_eqb a k); [reflexivity|exact IH]. Qed.
Lemma kget_add_new {V} (d : list (key * V)) kv k : kget (add_new d kv) k = match kget d k with Some v => Some v | None => if key_eqb (fst kv) k then Some (snd kv) else None end.
Proof.
  unfold add_new. destruct (kget d (fst kv)) eqn:E.
  - destruct (kget d k) eqn:E'; [reflexivity|]. destruct (key_eqb_spec (fst kv) k); [congruence|reflexivity].
  - rewrite kget_app. destruct kv as [a b]. cbn [kget fst snd]. reflexivity.
Qed.
(* first occurrence *)
Lemma fold_add_new {V} l : forall (d : list (key * V)) k,
  kget (fold_left add_new l d) k = match kget d k with Some v => Some v | None => kget l k end.
Proof.
  induction l as [|[a b] l IH]; intros d k; cbn [fold_left kget]; [now destruct (kget d k)|].
  rewrite IH, kget_add_new. cbn [fst snd]. destruct (kget d k); [reflexivity|]. now destruct (key_eqb a k).
Qed.
Lemma fold_left_map {A B C} (f : C -> B -> C) (g : A -> B) l : forall c, fold_left (fun c a => f c (g a)) l c = fold_left f (map g l) c.
Proof. induction l as [|a l IH]; intros c; [reflexivity|]. cbn. apply IH. Qed.
Definition pairs (l : list spec) : list (key * list Q) := map (fun s => (sp_hash s, sp_wave s)) l.
Lemma my_dwave_get local k : kget (my_dwave local) k = kget (pairs (concat local)) k.
Proof. unfold my_dwave. rewrite (fold_left_map add_new (fun s => (sp_hash s, sp_wave s))), fold_add_new. reflexivity. Qed.
Lemma merge_get ls : forall (d : list (key * list Q)) k,
  kget (fold_left (fun d p => fold_left add_new p d) (map my_dwave ls) d) k = match kget d k with Some v => Some v | None => kget (pairs (concat (concat ls))) k end.
Proof.
  induction ls as [|l ls IH]; intros d k; cbn [map fold_left concat]; [now destruct (kget d k)|].
  rewrite IH, fold_add_new, my_dwave_get. destruct (kget d k); [reflexivity|].
  unfold pairs. rewrite concat_app, map_app, kget_app. reflexivity.
Qed.
Lemma kget_pairs_in l k w : kget (pairs l) k = Some w -> exists s, In s l /\ sp_hash s = k /\ sp_wave s = w.
Proof.
  induction l as [|s l IH]; cbn; [discriminate|]. destruct (key_eqb_spec (sp_hash s) k) as [E|E].
  - intros H; injection H as <-. exists s. auto.
  - intros H. destruct (IH H) as (s' & A & B). exists s'. auto.
Qed.
Lemma kget_pairs_some l s : In s l -> exists w, kget (pairs l) (sp_hash s) = Some w.
Proof.
  induction l as [|s' l IH]; intros []; cbn.
  - subst s'. destruct (key_eqb_spec (sp_hash s) (sp_hash s)); [eauto|congruence].
  - destruct (key_eqb (sp_hash s') (sp_hash s)); eauto.
Qed.
Lemma add_new_keys {V} l : forall (d : list (key * V)), NoDup (map fst d) -> NoDup (map fst (fold_left add_new l d)).
Proof.
  induction l as [|kv l IH]; intros d H; [exact H|]. cbn [fold_left]. apply IH. unfold add_new.
  destruct (kget d (fst kv)) eqn:E; [exact H|]. rewrite map_app. cbn [map].
  apply Permutation_NoDup with (l := fst kv :: map fst d); [apply Permutation_cons_append|]. constructor; [|exact H].
  intros Hin. clear -E Hin. induction d as [|[a b] d IH]; [destruct Hin|]. cbn [kget map fst] in *.
  destruct (key_eqb_spec a (fst kv)); [discriminate|]. destruct Hin as [?|Hin]; [congruence|auto].
Qed.
