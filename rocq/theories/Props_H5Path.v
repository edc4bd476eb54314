(* C189: template names and the names inside the details file. *)
From Verif Require Import Prelude PreludeFacts Model_IO Spec_FindArch Proof_FindArch Model_H5Path Proof_H5Path Proof_IO4.
Local Open Scope string_scope.
Section P.
Context {D : Type}.
Lemma group_place (g : string * group D) : plain (fst g) -> map place_of (group_writes g) =
  [(["zscan"; fst g; "zchi2"], h_chi2 (snd g)); (["zscan"; fst g; "penalty"], h_pen (snd g)); (["zscan"; fst g; "zcoeff"], h_coeff (snd g)); (["zscan"; fst g; "redshifts"], h_z (snd g))].
Proof.
  intro H. unfold group_writes, place_of. cbn [map fst snd].
  change ("zscan/" ++ fst g ++ "/zchi2") with ("zscan" ++ "/" ++ fst g ++ "/" ++ "zchi2"). change ("zscan/" ++ fst g ++ "/penalty") with ("zscan" ++ "/" ++ fst g ++ "/" ++ "penalty").
  change ("zscan/" ++ fst g ++ "/zcoeff") with ("zscan" ++ "/" ++ fst g ++ "/" ++ "zcoeff"). change ("zscan/" ++ fst g ++ "/redshifts") with ("zscan" ++ "/" ++ fst g ++ "/" ++ "redshifts").
  rewrite !comp3; try exact H; try lit. reflexivity.
Qed.
Lemma fit_place (x : string * D) : plain (fst x) -> place_of (fit_write x) = (["zfit"; fst x; "zfit"], snd x).
Proof. intro H. unfold fit_write, place_of. cbn [fst snd]. change ("zfit/" ++ fst x ++ "/zfit") with ("zfit" ++ "/" ++ fst x ++ "/" ++ "zfit"). rewrite comp3; [reflexivity|lit|exact H|lit]. Qed.
Definition gpaths (gs : list (string * group D)) : list (list string) := flat_map (fun g => [["zscan"; fst g; "zchi2"]; ["zscan"; fst g; "penalty"]; ["zscan"; fst g; "zcoeff"]; ["zscan"; fst g; "redshifts"]]) gs.
Definition details (ids zbest : D) (gs : list (string * group D)) (fits : list (string * D)) : h5file D :=
  ((["targetids"], ids) :: (["zbest"], zbest) ::
   flat_map (fun g => [(["zscan"; fst g; "zchi2"], h_chi2 (snd g)); (["zscan"; fst g; "penalty"], h_pen (snd g)); (["zscan"; fst g; "zcoeff"], h_coeff (snd g)); (["zscan"; fst g; "redshifts"], h_z (snd g))]) gs
   ++ map (fun x => (["zfit"; fst x; "zfit"], snd x)) fits)%list.
Lemma gpaths_in gs p : In p (gpaths gs) -> exists t k, In t (map fst gs) /\ p = ["zscan"; t; k].
Proof. unfold gpaths. rewrite in_flat_map. intros [g [Hg [<-|[<-|[<-|[<-|[]]]]]]]; (eexists; eexists; split; [apply in_map; exact Hg|reflexivity]). Qed.
Lemma gpaths_nodup gs : NoDup (map fst gs) -> NoDup (gpaths gs).
Proof.
  induction gs as [|g gs IH]; intro N; [constructor|]. cbn [map] in N. inversion N as [|? ? I N']; subst. unfold gpaths in *. cbn [flat_map]. specialize (IH N').
  assert (X : forall k, ~ In ["zscan"; fst g; k] (flat_map (fun g0 : string * group D => [["zscan"; fst g0; "zchi2"]; ["zscan"; fst g0; "penalty"]; ["zscan"; fst g0; "zcoeff"]; ["zscan"; fst g0; "redshifts"]]) gs)).
  { intros k C. apply (gpaths_in gs) in C. destruct C as (t & k' & Ht & E). injection E as E _. subst t. contradiction. }
  cbn [app]. constructor; [|constructor; [|constructor; [|constructor; [|exact IH]]]]; cbn [In]; intro C; repeat (destruct C as [C|C]; [discriminate C|]); exact (X _ C).
Qed.
Lemma details_paths ids zbest gs fits : map fst (details ids zbest gs fits) = (["targetids"] :: ["zbest"] :: gpaths gs ++ map (fun x => ["zfit"; fst x; "zfit"]) fits)%list.
Proof.
  unfold details. cbn [map fst]. do 2 f_equal. rewrite map_app. f_equal; [|now rewrite map_map].
  unfold gpaths. induction gs as [|g gs IH]; [reflexivity|]. cbn [flat_map]. rewrite map_app, IH. reflexivity.
Qed.
Lemma details_apart ids zbest gs fits : NoDup (map fst gs) -> NoDup (map fst fits) -> ForallOrdPairs apart (map fst (details ids zbest gs fits)).
Proof.
  intros Ng Nf. rewrite details_paths.
  assert (Z : forall p, In p (gpaths gs ++ map (fun x : string * D => ["zfit"; fst x; "zfit"]) fits)%list -> exists a t k, (a = "zscan" \/ a = "zfit") /\ p = [a; t; k]).
  { intros p Hp. apply in_app_iff in Hp. destruct Hp as [Hp|Hp]; [apply gpaths_in in Hp; destruct Hp as (t & k & _ & ->); exists "zscan", t, k; split; [now left|reflexivity]|].
    apply in_map_iff in Hp. destruct Hp as [x [<- _]]. eexists "zfit", _, _. split; [now right|reflexivity]. }
  constructor; [|constructor].
  - constructor; [now apply apart_head|]. apply Forall_forall. intros p Hp. destruct (Z p Hp) as (a & t & k & [->| ->] & ->); now apply apart_head.
  - apply Forall_forall. intros p Hp. destruct (Z p Hp) as (a & t & k & [->| ->] & ->); now apply apart_head.
  - apply (fop_same 3).
    + apply Forall_forall. intros p Hp. destruct (Z p Hp) as (a & t & k & _ & ->). reflexivity.
    + apply NoDup_app_intro; [now apply gpaths_nodup| |].
      * rewrite <- (map_map fst (fun t => ["zfit"; t; "zfit"])). apply FinFun.Injective_map_NoDup; [intros x y E; now injection E|exact Nf].
      * intros p Hp Hq. apply gpaths_in in Hp. destruct Hp as (t & k & _ & ->). apply in_map_iff in Hq. destruct Hq as [x [E _]]. discriminate E.
Qed.
Lemma write_details_ok ids zbest gs fits : NoDup (map fst gs) -> NoDup (map fst fits) -> Forall plain (map fst gs) -> Forall plain (map fst fits) ->
  write_details ids zbest gs fits = Ok (details ids zbest gs fits).
Proof.
  intros Ng Nf Pg Pf. unfold write_details.
  assert (E : map place_of (("targetids", ids) :: ("zbest", zbest) :: (flat_map group_writes gs ++ map fit_write fits)%list) = details ids zbest gs fits).
  { cbn [map]. unfold place_of at 1 2. cbn [fst snd]. rewrite (comp1 "targetids"), (comp1 "zbest") by lit. unfold details. do 2 f_equal. rewrite map_app. f_equal.
    - clear Ng. induction gs as [|g gs IH]; [reflexivity|]. cbn [map] in Pg. inversion Pg; subst. cbn [flat_map]. rewrite map_app, IH by assumption. now rewrite group_place.
    - rewrite map_map. apply map_ext_in. intros x Hx. apply fit_place. rewrite Forall_forall in Pf. apply Pf. now apply in_map. }
  rewrite create_all_ok; [now rewrite E|]. rewrite E. now apply details_apart.
Qed.
Lemma zscan_keys ids zbest gs fits : gs <> [] -> NoDup (map fst gs) -> keys (details ids zbest gs fits) "zscan" = Ok (isort String.leb (map fst gs)).
Proof.
  intros G N. unfold keys. rewrite (comp1 "zscan") by lit.
  set (h := fun e : list string * D => if is_prefix ["zscan"] (fst e) then match skipn (length ["zscan"]) (fst e) with k :: _ => [k] | [] => [] end else []).
  assert (E : flat_map h (details ids zbest gs fits) = flat_map (fun g => [fst g; fst g; fst g; fst g]) gs).
  { unfold details. cbn [flat_map]. rewrite flat_map_app. assert (F : flat_map h (map (fun x : string * D => (["zfit"; fst x; "zfit"], snd x)) fits) = []) by (induction fits; [reflexivity|]; cbn [map flat_map]; now rewrite IHfits).
    rewrite F, app_nil_r. change (h (["targetids"], ids)) with (@nil string). change (h (["zbest"], zbest)) with (@nil string). cbn [app].
    clear. induction gs as [|g gs IH]; [reflexivity|]. cbn [flat_map]. rewrite flat_map_app, IH. reflexivity. }
  rewrite E. assert (U : nodup string_dec (flat_map (fun g : string * group D => [fst g; fst g; fst g; fst g]) gs) = map fst gs).
  { clear -N. induction gs as [|g gs IH]; [reflexivity|]. cbn [map] in *. inversion N as [|? ? I N']; subst. specialize (IH N'). cbn [flat_map app].
    rewrite <- IH in I. rewrite nodup_In in I. cbn [nodup].
    repeat (match goal with |- context [in_dec string_dec ?x ?l] => let C := fresh "C" in destruct (in_dec string_dec x l) as [C|C]; try (exfalso; apply C; cbn; tauto); try contradiction end).
    now rewrite IH. }
  destruct (flat_map (fun g : string * group D => [fst g; fst g; fst g; fst g]) gs) as [|k ks] eqn:Ek; [destruct gs; [congruence|discriminate Ek]|]. cbv zeta. now rewrite <- U.
Qed.
(* Details files can be read back when no template name has a '/' (and none is "."): every template's scan comes back under its name, in name order, and every target's fits. *)
Theorem C189_roundtrip_partial : forall ids zbest (gs : list (string * group D)) fits, gs <> [] -> NoDup (map fst gs) -> NoDup (map fst fits) -> Forall plain (map fst gs) -> Forall plain (map fst fits) ->
  exists f gs', write_details ids zbest gs fits = Ok f /\ read_groups f = Ok gs' /\ Permutation gs' gs /\ in_name_order (map fst gs') /\
    fetch f "targetids" = Ok ids /\ forall t d, In (t, d) fits -> read_fit f t = Ok d.
Proof.
  intros ids zbest gs fits G Ng Nf Pg Pf. exists (details ids zbest gs fits), (isort (fun a b => String.leb (fst a) (fst b)) gs).
  assert (S : map fst (isort (fun a b : string * group D => String.leb (fst a) (fst b)) gs) = isort String.leb (map fst gs)).
  { apply sorted_unique; [|clear -D|apply sorted_ok].
    - transitivity (map fst gs); [apply Permutation_map; symmetry; apply isort_perm|apply isort_perm].
    - assert (X := isort_sorted (fun a b : string * group D => String.leb (fst a) (fst b)) (fun a b => leb_total (fst a) (fst b)) (fun a b c => leb_trans (fst a) (fst b) (fst c)) gs).
      unfold in_name_order. induction X as [|x l X IH F]; [constructor|]. cbn [map]. constructor; [exact IH|]. rewrite Forall_map. exact F. }
  pose proof (details_apart ids zbest gs fits Ng Nf) as A. rewrite Forall_forall in Pg, Pf.
  split; [apply write_details_ok; try assumption; now apply Forall_forall|]. split; [|split; [symmetry; apply isort_perm|split; [rewrite S; apply sorted_ok|split]]].
  - unfold read_groups. rewrite zscan_keys by assumption. cbn [rbind]. rewrite <- S.
    assert (R : forall l : list (string * group D), incl l gs -> mapM (fun k => do c <- fetch (details ids zbest gs fits) ("/zscan/" ++ k ++ "/zchi2"); do p <- fetch (details ids zbest gs fits) ("/zscan/" ++ k ++ "/penalty"); do o <- fetch (details ids zbest gs fits) ("/zscan/" ++ k ++ "/zcoeff");
                 do z <- fetch (details ids zbest gs fits) ("/zscan/" ++ k ++ "/redshifts"); Ok (k, {| h_chi2 := c; h_pen := p; h_coeff := o; h_z := z |})) (map fst l) = Ok l).
    { induction l as [|g l IH]; intro I; [reflexivity|]. cbn [map mapM]. assert (Ig : In g gs) by (apply I; now left).
      assert (Pl : plain (fst g)) by (apply Pg; now apply in_map).
      assert (M : forall k d, plain k -> In (["zscan"; fst g; k], d) [(["zscan"; fst g; "zchi2"], h_chi2 (snd g)); (["zscan"; fst g; "penalty"], h_pen (snd g)); (["zscan"; fst g; "zcoeff"], h_coeff (snd g)); (["zscan"; fst g; "redshifts"], h_z (snd g))] ->
        fetch (details ids zbest gs fits) ("/" ++ "zscan" ++ "/" ++ fst g ++ "/" ++ k) = Ok d).
      { intros k d Pk Hk. apply fetch_ok; [exact A|]. rewrite comp3_abs by (try exact Pl; try exact Pk; lit). unfold details. right. right. apply in_app_iff. left. apply in_flat_map. now exists g. }
      assert (M1 := M "zchi2" (h_chi2 (snd g)) ltac:(lit) ltac:(now left)). assert (M2 := M "penalty" (h_pen (snd g)) ltac:(lit) ltac:(right; now left)).
      assert (M3 := M "zcoeff" (h_coeff (snd g)) ltac:(lit) ltac:(right; right; now left)). assert (M4 := M "redshifts" (h_z (snd g)) ltac:(lit) ltac:(right; right; right; now left)).
      cbn [append] in M1, M2, M3, M4 |- *. rewrite M1, M2, M3, M4. cbn [rbind]. cbn [append] in IH. rewrite IH by (intros x Hx; apply I; now right). cbn [rbind]. destruct g as [k [c p o z]]. reflexivity. }
    apply R. intros x Hx. now apply isort_in in Hx.
  - apply fetch_ok; [exact A|]. rewrite comp1 by lit. now left.
  - intros t d H. unfold read_fit. change ("zfit/" ++ t ++ "/zfit") with ("zfit" ++ "/" ++ t ++ "/" ++ "zfit"). apply fetch_ok; [exact A|]. rewrite comp3; [|lit|apply Pf; apply (in_map fst) in H; exact H|lit].
    unfold details. right. right. apply in_app_iff. right. apply in_map_iff. exists (t, d). now split.
Qed.
(* No other names survive: what is read back never has a name with '/', an empty name or the name ".". *)
Theorem C189_only_these : forall (f : h5file D) gs', Forall (fun e => exists n, fst e = components n) f -> read_groups f = Ok gs' -> Forall plain (map fst gs').
Proof.
  intros f gs' W H. unfold read_groups, keys in H.
  set (h := fun e : list string * D => if is_prefix (components "zscan") (fst e) then match skipn (length (components "zscan")) (fst e) with k :: _ => [k] | [] => [] end else []) in H.
  destruct (flat_map h f) as [|k ks] eqn:E; [destruct (existsb _ f); discriminate H|]. cbn [rbind] in H. rewrite <- E in H.
  assert (F : Forall plain (isort String.leb (nodup string_dec (flat_map h f)))).
  { apply Forall_forall. intros x Hx. apply isort_in, nodup_In, in_flat_map in Hx. destruct Hx as [e [He Hx]]. rewrite Forall_forall in W. destruct (W e He) as [n Hn]. unfold h in Hx.
    destruct (is_prefix (components "zscan") (fst e)); [|destruct Hx]. destruct (skipn (length (components "zscan")) (fst e)) as [|y r] eqn:Es; [destruct Hx|]. destruct Hx as [<-|[]].
    pose proof (components_plain n) as Pn. rewrite <- Hn, <- (firstn_skipn (length (components "zscan")) (fst e)), Es in Pn. apply Forall_app in Pn. destruct Pn as [_ Pn]. now inversion Pn. }
  clear E. revert gs' H F. generalize (isort String.leb (nodup string_dec (flat_map h f))). clear. intro l. induction l as [|k l IH]; intros gs' H F; [injection H as <-; constructor|].
  inversion F as [|? ? Pk Fl]; subst. cbn [mapM] in H.
  destruct (fetch f ("/zscan/" ++ k ++ "/zchi2")); [|discriminate H]. destruct (fetch f ("/zscan/" ++ k ++ "/penalty")); [|discriminate H]. destruct (fetch f ("/zscan/" ++ k ++ "/zcoeff")); [|discriminate H].
  destruct (fetch f ("/zscan/" ++ k ++ "/redshifts")); [|discriminate H]. cbn [rbind] in H. destruct (mapM _ l) eqn:M in H; [|discriminate H]. cbn [rbind] in H. injection H as <-. cbn [map fst]. constructor; [exact Pk|]. now apply IH.
Qed.
Lemma create_all_names l : forall f o : h5file D, create_all f l = Ok o -> Forall (fun e => exists n, fst e = components n) f -> Forall (fun e => exists n, fst e = components n) o.
Proof.
  induction l as [|[n d] l IH]; intros f o H F; [injection H as <-; exact F|]. cbn [create_all] in H. unfold create in H. destruct (existsb _ f) in H; [discriminate H|]. cbn [rbind] in H.
  apply IH in H; [exact H|]. apply Forall_app. split; [exact F|]. constructor; [|constructor]. now exists n.
Qed.
Theorem C189_exactly_these : forall ids zbest (gs : list (string * group D)) fits, gs <> [] -> NoDup (map fst gs) -> NoDup (map fst fits) -> Forall plain (map fst fits) ->
  ((exists f gs', write_details ids zbest gs fits = Ok f /\ read_groups f = Ok gs' /\ Permutation gs' gs) <-> Forall plain (map fst gs)).
Proof.
  intros ids zbest gs fits G Ng Nf Pf. split.
  - intros (f & gs' & W & R & P). assert (F : Forall plain (map fst gs')).
    { eapply C189_only_these; [|exact R]. eapply create_all_names; [exact W|constructor]. }
    rewrite Forall_forall in *. intros x Hx. apply F. eapply Permutation_in; [apply Permutation_map; symmetry; exact P|exact Hx].
  - intro Pg. destruct (C189_roundtrip_partial ids zbest gs fits G Ng Nf Pg Pf) as (f & gs' & W & R & P & _). now exists f, gs'.
Qed.
End P.
(* A subtype with '/' is written without complaint, and the file cannot be read. *)
Definition grp (k : nat) : group nat := {| h_chi2 := k; h_pen := k + 1; h_coeff := k + 2; h_z := k + 3 |}.
Theorem C189_slash_refuted : exists (gs : list (string * group nat)) f, NoDup (map fst gs) /\ write_details 0 1 gs [("7", 2)] = Ok f /\ read_groups f = Err KeyError.
Proof.
  exists [("GALAXY", grp 10); ("STAR:::A/F", grp 20)]. eexists. split; [repeat constructor; cbn; intuition discriminate|]. split; vm_compute; reflexivity.
Qed.
(* It may also be read with the scan of that template missing. *)
Theorem C189_lost_refuted : exists (gs : list (string * group nat)) f, NoDup (map fst gs) /\ write_details 0 1 gs [("7", 2)] = Ok f /\ read_groups f = Ok [("STAR:::A", grp 10)] /\ length gs = 2.
Proof.
  exists [("STAR:::A", grp 10); ("STAR:::A/F", grp 20)]. eexists. split; [repeat constructor; cbn; intuition discriminate|]. split; [vm_compute; reflexivity|]. split; vm_compute; reflexivity.
Qed.
Example nonvacuous_189 : exists f, write_details 0 1 [("STAR:::M", grp 20); ("GALAXY", grp 10)] [("7", 2); ("-3", 4)] = Ok f /\ read_groups f = Ok [("GALAXY", grp 10); ("STAR:::M", grp 20)] /\ read_fit f "-3" = Ok 4 /\
  Forall plain ["STAR:::M"; "GALAXY"] /\ Forall plain ["7"; "-3"].
Proof. eexists. split; [vm_compute; reflexivity|]. split; [vm_compute; reflexivity|]. split; [vm_compute; reflexivity|]. split; (constructor; [lit|constructor; [lit|constructor]]). Qed.
Print Assumptions C189_roundtrip_partial. Print Assumptions C189_only_these. Print Assumptions C189_exactly_these. Print Assumptions C189_slash_refuted. Print Assumptions C189_lost_refuted.
