(* Proofs about the files used by templates.py and the redshift grids. *)
From Verif Require Import Prelude PreludeFacts Facts2 Model_Zscan Model_IO Model_Tpl Spec_Tpl Proof_Tpl Proof_IO.
Require Import Reals Lra Psatz.
Local Open Scope R_scope.

(* ---------- grids ---------- *)
Lemma SS_nth (l : list R) : (forall i j, (i < j)%nat -> (j < length l)%nat -> nth i l 0 < nth j l 0) -> StronglySorted Rlt l.
Proof.
  induction l as [|x l IH]; intro H; constructor.
  - apply IH. intros i j Hij Hj. apply (H (S i) (S j)); cbn; lia.
  - apply Forall_forall. intros y Hy. apply In_nth with (d := 0) in Hy. destruct Hy as (i & Hi & <-). apply (H 0%nat (S i)); cbn; lia.
Qed.
Lemma floor_nat q : 0 <= q -> exists i, INR i <= q < INR i + 1.
Proof.
  intro H. destruct (base_Int_part q) as [H1 H2]. exists (Z.to_nat (Int_part q)). rewrite INR_IZR_INZ.
  assert (Hz : (0 <= Int_part q)%Z). { assert (IZR (-1) < IZR (Int_part q)) by lra. apply lt_IZR in H0. lia. }
  rewrite Z2Nat.id by exact Hz. lra.
Qed.
Lemma cut start step x : 0 < step -> start <= x -> exists i, start + INR i * step <= x < start + INR i * step + step.
Proof.
  intros Hs Hx. destruct (floor_nat ((x - start) / step)) as (i & H1 & H2).
  { apply Rmult_le_reg_r with step; [exact Hs|]. unfold Rdiv. rewrite Rmult_assoc, Rinv_l by lra. lra. }
  exists i. set (q := (x - start) / step) in *. assert (E : q * step = x - start) by (unfold q; field; lra). nra.
Qed.
Lemma before_pos d x y : 0 < d -> (before d x y <-> x < y). Proof. unfold before. intro. split; [intros [[? ?]|[? ?]]; lra|intro; left; lra]. Qed.
Definition step_up (ty : string) (dz z : R) : R := if String.eqb ty "STAR" then z + dz else (1 + z) * Rpower 10 dz - 1.
Lemma pow10_mono x y : x < y -> Rpower 10 x < Rpower 10 y. Proof. intro. now apply pow10_lt. Qed.
Lemma grid_facts ty zmin zmax dz l : grid_of_type ty zmin zmax dz l -> 0 < dz -> zmin < zmax ->
  nth 0 l 0 = zmin /\ l <> [] /\ StronglySorted Rlt l /\ (forall z, In z l -> zmin <= z < zmax) /\
  (forall z, zmin <= z < zmax -> exists z', In z' l /\ z' <= z < step_up ty dz z').
Proof.
  intros [N [[-> [G1 G2]]|(Hty & P & Q & [G1 G2])]] Hd Hz.
  - assert (L0 : (0 < length l)%nat) by (apply G1, before_pos; [exact Hd|]; cbn [INR]; lra).
    assert (Hi : forall i, (i < length l)%nat <-> zmin + INR i * dz < zmax) by (intro i; rewrite G1; now apply before_pos).
    split; [rewrite G2 by exact L0; cbn [INR]; ring|]. split; [destruct l; [cbn in L0; lia|discriminate]|]. split; [|split].
    + apply (SS_nth l). intros i j Hij Hj. rewrite (G2 i), (G2 j) by lia. apply lt_INR in Hij. apply Rplus_lt_compat_l, Rmult_lt_compat_r; assumption.
    + intros z Hin. apply In_nth with (d := 0) in Hin. destruct Hin as (i & Hl & <-). rewrite G2 by exact Hl. apply Hi in Hl. pose proof (pos_INR i). nra.
    + intros z [Za Zb]. destruct (cut zmin dz z Hd Za) as (i & A & B). assert (Hl : (i < length l)%nat) by (apply Hi; lra).
      exists (nth i l 0). split; [now apply nth_In|]. rewrite G2 by exact Hl. change (step_up "STAR" dz (zmin + INR i * dz)) with (zmin + INR i * dz + dz). split; assumption.
  - assert (Hns : String.eqb ty "STAR" = false) by (destruct Hty as [-> | ->]; reflexivity).
    assert (Hi : forall i, (i < length l)%nat <-> (1 + zmin) * Rpower 10 (INR i * dz) < 1 + zmax) by (intro i; rewrite G1; now apply before_pos).
    assert (L0 : (0 < length l)%nat) by (apply Hi; cbn [INR]; rewrite Rmult_0_l, Rpower_O; lra).
    split; [specialize (G2 _ L0); cbn [INR] in G2; rewrite Rmult_0_l, Rpower_O in G2; lra|]. split; [destruct l; [cbn in L0; lia|discriminate]|]. split; [|split].
    + apply (SS_nth l). intros i j Hij Hj.
      assert (Ei := G2 i ltac:(lia)). assert (Ej := G2 j Hj). apply lt_INR in Hij.
      assert (E : Rpower 10 (INR i * dz) < Rpower 10 (INR j * dz)) by (apply pow10_mono; nra). nra.
    + intros z Hin. apply In_nth with (d := 0) in Hin. destruct Hin as (i & Hl & <-). assert (E := G2 i Hl). apply Hi in Hl. split; [|lra].
      assert (1 <= Rpower 10 (INR i * dz)). { rewrite <- (Rpower_O 10) by lra. apply Rle_Rpower; [lra|]. pose proof (pos_INR i). nra. } nra.
    + intros z [Za Zb]. assert (Hlog : log10 (1 + zmin) <= log10 (1 + z)).
      { destruct Za as [Za| ->]; [|lra]. left. apply pow10_lt. rewrite !pow_log10 by lra. lra. }
      destruct (cut (log10 (1 + zmin)) dz (log10 (1 + z)) Hd Hlog) as (i & A & B).
      assert (A' : (1 + zmin) * Rpower 10 (INR i * dz) <= 1 + z).
      { rewrite <- (pow_log10 (1 + zmin)) by lra. rewrite <- Rpower_plus. rewrite <- (pow_log10 (1 + z)) by lra. apply Rle_Rpower; [lra|exact A]. }
      assert (B' : 1 + z < (1 + zmin) * Rpower 10 (INR i * dz) * Rpower 10 dz).
      { rewrite <- (pow_log10 (1 + zmin)) by lra. rewrite <- !Rpower_plus. rewrite <- (pow_log10 (1 + z)) at 1 by lra. now apply pow10_mono. }
      assert (Hl : (i < length l)%nat) by (apply Hi; lra).
      exists (nth i l 0). split; [now apply nth_In|]. assert (E := G2 i Hl). unfold step_up. rewrite Hns, E. lra.
Qed.
Lemma grid_empty ty zmin zmax dz l : grid_of_type ty zmin zmax dz l -> 0 < dz -> zmax <= zmin -> l = [].
Proof.
  intros [N [[-> [G1 G2]]|(Hty & P & Q & [G1 G2])]] Hd Hz; destruct l as [|z l]; try reflexivity; exfalso.
  - assert (H := proj1 (G1 0%nat) ltac:(cbn; lia)). rewrite before_pos in H by exact Hd. cbn [INR] in H. lra.
  - assert (H := proj1 (G1 0%nat) ltac:(cbn; lia)). rewrite before_pos in H by exact Hd. cbn [INR] in H. rewrite Rmult_0_l, Rpower_O in H; lra.
Qed.
(* ---------- dictionary ---------- *)
Definition key (t : tmpl) : tkey := (tp_type t, tp_sub t).
Lemma tkey_eqb_spec x y : reflect (x = y) (tkey_eqb x y).
Proof.
  unfold tkey_eqb. destruct x as [a b], y as [c d]; cbn [fst snd]. destruct (String.eqb_spec a c), (String.eqb_spec b d); cbn; constructor; congruence.
Qed.
Definition wf (d : list (tkey * tmpl)) : Prop := NoDup (map fst d) /\ forall k t, In (k, t) d -> k = key t.
Lemma tset_keys d k v : map fst (tset d k v) = if existsb (tkey_eqb k) (map fst d) then map fst d else map fst d ++ [k].
Proof.
  induction d as [|[k' v'] d IH]; [reflexivity|]. cbn [tset map fst existsb]. destruct (tkey_eqb_spec k k') as [<-|N]; [reflexivity|].
  cbn [map fst orb]. rewrite IH. destruct (existsb _ _); reflexivity.
Qed.
Lemma existsb_key k l : existsb (tkey_eqb k) l = true <-> In k l.
Proof.
  rewrite existsb_exists. split; [intros (x & H & E); destruct (tkey_eqb_spec k x); congruence|].
  intro H. exists k. split; [exact H|]. destruct (tkey_eqb_spec k k); congruence.
Qed.
Lemma tset_in d t k u : NoDup (map fst d) -> (In (k, u) (tset d (key t) t) <-> (k = key t /\ u = t) \/ (k <> key t /\ In (k, u) d)).
Proof.
  induction d as [|[k' v'] d IH]; intro ND; cbn [tset].
  - cbn. split; [intros [E|[]]; injection E as <- <-; now left|]. intros [[-> ->]|[_ []]]. now left.
  - cbn [map fst] in ND. inversion ND as [|? ? N1 N2]; subst. destruct (tkey_eqb_spec (key t) k') as [E|N].
    + subst k'. cbn [In]. split.
      * intros [E|H]; [injection E as <- <-; now left|]. destruct (tkey_eqb_spec k (key t)) as [->|Nk].
        -- exfalso. apply N1. now apply (in_map fst) in H.
        -- right. split; [exact Nk|now right].
      * intros [[-> ->]|[Nk [E|H]]]; [now left| |now right]. exfalso. apply Nk. congruence.
    + cbn [In]. rewrite (IH N2). split.
      * intros [E|[H|[H1 H2]]]; [injection E as <- <-; right; split; [congruence|now left]|now left|right; split; [exact H1|now right]].
      * intros [H|[H1 [H2|H2]]]; [right; left; exact H|left; exact H2|right; right; split; assumption].
Qed.
Lemma tset_nodup d t : NoDup (map fst d) -> NoDup (map fst (tset d (key t) t)).
Proof.
  intro H. rewrite tset_keys. destruct (existsb (tkey_eqb (key t)) (map fst d)) eqn:E; [exact H|].
  apply NoDup_Add with (a := key t) (l := map fst d); [rewrite <- (app_nil_r (map fst d)) at 1; apply Add_app|]. split; [exact H|]. intro G. apply existsb_key in G. congruence.
Qed.
Lemma exists_last_or {A} (l : list A) : l = [] \/ exists l' x, l = l' ++ [x].
Proof. induction l as [|x l _] using rev_ind; [now left|right; eauto]. Qed.
Lemma app_length_s a b : String.length (a ++ b)%string = (String.length a + String.length b)%nat.
Proof. induction a as [|c a IH]; [reflexivity|]. cbn. now rewrite IH. Qed.
Lemma as_dict_snoc l t : as_dict (l ++ [t]) = tset (as_dict l) (key t) t.
Proof. unfold as_dict. now rewrite fold_left_app. Qed.
Lemma as_dict_inv l : NoDup (map fst (as_dict l)) /\ forall k u, In (k, u) (as_dict l) <-> k = key u /\ last_with_key l u.
Proof.
  induction l as [|t l IH] using rev_ind.
  - split; [constructor|]. intros k u. cbn. split; [intros []|]. intros [_ (l1 & l2 & E & _)]. destruct l1; discriminate.
  - destruct IH as [ND IH]. rewrite as_dict_snoc. split; [now apply tset_nodup|].
    intros k u. rewrite tset_in by exact ND. rewrite IH. split.
    + intros [[-> ->]|[Nk [-> (l1 & l2 & -> & H)]]].
      * split; [reflexivity|]. exists l, []. split; [reflexivity|]. intros t' [].
      * split; [reflexivity|]. exists l1, (l2 ++ [t]). split; [now rewrite <- app_assoc|].
        intros t' Hin. apply in_app_or in Hin. destruct Hin as [Hin|[<-|[]]]; [now apply H|]. intro E. apply Nk. symmetry. exact E.
    + intros [-> (l1 & l2 & E & H)]. destruct (exists_last_or l2) as [-> |(l2' & t' & ->)].
      * apply app_inj_tail in E. destruct E as [_ <-]. now left.
      * right. change (u :: l2' ++ [t']) with ((u :: l2') ++ [t']) in E. rewrite app_assoc in E. apply app_inj_tail in E. destruct E as [-> <-].
        split; [intro E; apply (H t); [apply in_or_app; right; now left|symmetry; exact E]|].
        split; [reflexivity|]. exists l1, l2'. split; [reflexivity|]. intros t' Hin. apply H. apply in_or_app. now left.
Qed.
Lemma tset_fresh d t : ~ In (key t) (map fst d) -> tset d (key t) t = d ++ [(key t, t)].
Proof.
  induction d as [|[k v] d IH]; intro H; [reflexivity|]. cbn [tset map fst] in *. destruct (tkey_eqb_spec (key t) k) as [E|N]; [exfalso; apply H; left; congruence|].
  cbn [app]. f_equal. apply IH. intro G. apply H. now right.
Qed.
Lemma as_dict_distinct l : NoDup (map key l) -> as_dict l = map (fun t => (key t, t)) l.
Proof.
  induction l as [|t l IH] using rev_ind; intro H; [reflexivity|]. rewrite map_app in H. cbn in H.
  assert (Hn : ~ In (key t) (map key l)) by (apply NoDup_remove_2 in H; now rewrite app_nil_r in H).
  apply NoDup_remove_1 in H. rewrite app_nil_r in H. rewrite as_dict_snoc, (IH H), tset_fresh, map_app; [reflexivity|].
  rewrite map_map. exact Hn.
Qed.
(* ---------- find_templates ---------- *)
Local Open Scope string_scope.
Lemma ends_with_ok suf s : ends_with suf s = true <-> suffix suf s.
Proof.
  unfold suffix. induction s as [|c s IH]; cbn [ends_with].
  - rewrite orb_false_r, String.eqb_eq. split; [intros ->; now exists ""|]. intros (p & E). destruct p; [now symmetry|discriminate].
  - rewrite orb_true_iff, String.eqb_eq, IH. split.
    + intros [->|(p & ->)]; [now exists ""|now exists (String c p)].
    + intros ([|x p] & E); [left; now symmetry|right]. injection E as -> E. now exists p.
Qed.
Lemma no_name_dec line : ((String.length (strip line) <? 2)%nat || String.prefix "#" (strip line)) = true <-> no_name line.
Proof. unfold no_name. rewrite orb_true_iff, Nat.ltb_lt. reflexivity. Qed.
Lemma listed_ok dir ex lines out : template_lines dir ex lines = Ok out <-> listed dir ex lines out.
Proof.
  unfold template_lines. match goal with |- rbind (mapM ?g lines) _ = _ <-> _ => set (f := g) end.
  revert out. induction lines as [|l ls IH]; intro out; cbn [mapM rbind].
  - cbn. split; [intro E; injection E as <-; constructor|]. intro H. inversion H. reflexivity.
  - assert (Ef : f l = if (String.length (strip l) <? 2)%nat || String.prefix "#" (strip l) then Ok [] else if ex (named dir l) then Ok [named dir l] else Err ValueError) by reflexivity.
    rewrite Ef. clear Ef. destruct (_ || _) eqn:En.
    + apply no_name_dec in En. cbn [rbind]. destruct (mapM f ls) as [r|e]; cbn [rbind] in *.
      * cbn [concat app]. split; [intro H; apply li_skip; [exact En|now apply IH]|]. intro H. inversion H; subst; [now apply IH|contradiction].
      * split; [discriminate|]. intro H. inversion H; subst; [|contradiction]. now apply IH in H4.
    + assert (Hn : ~ no_name l) by (intro G; apply no_name_dec in G; congruence). destruct (ex (named dir l)) eqn:Ex; cbn [rbind].
      * destruct (mapM f ls) as [r|e]; cbn [rbind] in *.
        -- cbn [concat app]. split.
           ++ intro H. injection H as <-. apply li_file; [exact Hn|exact Ex|now apply IH].
           ++ intro H. inversion H as [|? ? ? G1 G2|? ? out' G1 G2 G3]; subst; [contradiction|]. apply IH in G3. injection G3 as ->. reflexivity.
        -- split; [discriminate|]. intro H. inversion H as [|? ? ? G1 G2|? ? out' G1 G2 G3]; subst; [contradiction|]. now apply IH in G3.
      * split; [discriminate|]. intro H. inversion H as [|? ? ? G1 G2|? ? out' G1 G2 G3]; subst; [contradiction|]. congruence.
Qed.
Lemma suffix_txt_fits s : suffix ".txt" s -> fits_name s -> False.
Proof.
  assert (K : forall p q a b, p ++ a = q ++ b -> (String.length a <= String.length b)%nat -> exists r, b = r ++ a).
  { induction p as [|c p IH]; intros [|d q] a b E L.
    - cbn in E. subst. now exists "".
    - cbn in E. subst. exfalso. cbn in L. rewrite app_length_s in L. lia.
    - cbn in E. subst. now exists (String c p).
    - cbn in E. injection E as _ E. eapply IH; eauto. }
  intros (p & ->) [(q & E)|[(q & E)|(q & E)]]; (apply K in E; [|cbn; lia]); destruct E as (r & E);
   repeat (destruct r as [|? r]; [discriminate|]; injection E as _ E; try discriminate E; cbn in E); try (destruct r; discriminate).
Qed.
Lemma find_str fs s out : find_templates fs (TStr s) = Ok out <-> resolves fs s out.
Proof.
  unfold find_templates, list_or_glob. split.
  - destruct (fs_exists fs s) eqn:Ee; cbn [negb]; [|discriminate]. destruct (fs_isdir fs s) eqn:Ed.
    + destruct (fs_exists fs (s ++ "/templates-default.txt")) eqn:El.
      * intro H. apply listed_ok in H. now apply re_dir_list.
      * intro H. injection H as <-. now apply re_dir_glob.
    + destruct (ends_with ".txt" s) eqn:Et.
      * intro H. apply listed_ok in H. apply ends_with_ok in Et. now apply re_text.
      * destruct (_ || _) eqn:Ef; [|discriminate]. intro H. injection H as <-. apply re_file; [exact Ee|exact Ed|].
        rewrite !orb_true_iff, !ends_with_ok in Ef. unfold fits_name. tauto.
  - intros [o H1 H2 H3 H4|H1 H2 H3|o H1 H2 H3 H4|H1 H2 H3]; rewrite H1, H2; cbn [negb].
    + rewrite H3. now apply listed_ok.
    + now rewrite H3.
    + apply ends_with_ok in H3. rewrite H3. now apply listed_ok.
    + destruct (ends_with ".txt" s) eqn:Et; [exfalso; apply ends_with_ok in Et; eapply suffix_txt_fits; eauto|].
      assert (Ef : (ends_with ".fits" s || ends_with ".fits.gz" s || ends_with ".fits.fz" s) = true).
      { rewrite !orb_true_iff, !ends_with_ok. unfold fits_name in H3. tauto. }
      now rewrite Ef.
Qed.
Lemma listed_exist dir ex lines out : listed dir ex lines out -> forall x, In x out -> ex x = true.
Proof. induction 1 as [|l ls out N H IH|l ls out N E H IH]; intros x Hx; [destruct Hx|now apply IH|]. destruct Hx as [<-|Hx]; [exact E|now apply IH]. Qed.
